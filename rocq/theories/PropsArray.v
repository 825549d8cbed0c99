(** C01-C10: FortranArray.  Statements only; the proofs are in ArrayProofs.v and I32Proofs.v. *)
From Flocq Require IEEE754.BinarySingleNaN.
From Verif Require Import Base Num Array Blas Spec ArrayProofs I32 I32Proofs B64 B64Lemmas.

(** ** C01 *)
Theorem c01_write_read_1d : forall F (NF : Num F) (f : fa F) p v, 1 <= p <= count f ->
  get1 (set1 f p v) p = v /\
  (forall q, q <> p -> get1 (set1 f p v) q = get1 f q /\ elem (set1 f p v) q = elem f q) /\
  same_shape (set1 f p v) f.
Proof. exact @write_read_1d. Qed.
Print Assumptions c01_write_read_1d.

Theorem c01_update_read_1d : forall F (NF : Num F) (f : fa F) p g, 1 <= p <= count f ->
  get1 (mod1 f p g) p = g (get1 f p) /\
  (forall q, q <> p -> get1 (mod1 f p g) q = get1 f q /\ elem (mod1 f p g) q = elem f q) /\
  same_shape (mod1 f p g) f.
Proof. exact @update_read_1d. Qed.
Print Assumptions c01_update_read_1d.

Theorem c01_write_read_2d : forall F (NF : Num F) (f : fa F) i j v,
  1 <= i <= rows f -> 1 <= pos (rows f) i j <= count f ->
  get2 (set2 f i j v) i j = v /\
  (forall i' j', 1 <= i' <= rows f -> (i', j') <> (i, j) -> get2 (set2 f i j v) i' j' = get2 f i' j') /\
  (forall q, q <> pos (rows f) i j -> elem (set2 f i j v) q = elem f q) /\
  same_shape (set2 f i j v) f.
Proof. exact @write_read_2d. Qed.
Print Assumptions c01_write_read_2d.

Theorem c01_update_read_2d : forall F (NF : Num F) (f : fa F) i j g,
  1 <= i <= rows f -> 1 <= pos (rows f) i j <= count f ->
  get2 (mod2 f i j g) i j = g (get2 f i j) /\
  (forall i' j', 1 <= i' <= rows f -> (i', j') <> (i, j) -> get2 (mod2 f i j g) i' j' = get2 f i' j') /\
  (forall q, q <> pos (rows f) i j -> elem (mod2 f i j g) q = elem f q) /\
  same_shape (mod2 f i j g) f.
Proof. exact @update_read_2d. Qed.
Print Assumptions c01_update_read_2d.

Example c01_case : let f := mkFA [0; 1; 2; 3; 4; 5] 2 3 0 in
  1 <= 5 <= count f /\ 1 <= 2 <= rows f /\ 1 <= pos (rows f) 2 3 <= count f /\ pos (rows f) 2 3 = 6.
Proof. cbv. intuition discriminate. Qed.

(** ** C02 *)
Theorem c02_read_1d : forall F (NF : Num F) (f : fa F) p, ~ 1 <= p <= count f -> get1 f p = fMINPOS.
Proof. exact @get1_out_of_range. Qed.
Print Assumptions c02_read_1d.

Theorem c02_read_2d : forall F (NF : Num F) (f : fa F) i j,
  ~ 1 <= pos (rows f) i j <= count f -> get2 f i j = fMINPOS.
Proof. exact @get2_out_of_range. Qed.
Print Assumptions c02_read_2d.

(** any history of out-of-range writes leaves elements and shape alone ... *)
Theorem c02_writes : forall F (NF : Num F) (f : fa F) (h : list access),
  (forall a, In a h -> ~ 1 <= access_pos f a <= count f) ->
  let f' := fold_left apply_access h f in
  data f' = data f /\ rows f' = rows f /\ cols f' = cols f.
Proof. exact (fun F _ => @out_of_range_history F). Qed.
Print Assumptions c02_writes.

(** ... and is not visible to any later read, in range or not *)
Theorem c02_reads_after_writes : forall F (NF : Num F) (f : fa F) (h : list access),
  (forall a, In a h -> ~ 1 <= access_pos f a <= count f) ->
  let f' := fold_left apply_access h f in
  (forall p, get1 f' p = get1 f p) /\ (forall i j, get2 f' i j = get2 f i j).
Proof. exact @reads_after_history. Qed.
Print Assumptions c02_reads_after_writes.

Example c02_case : let f := mkFA [10; 20; 30; 40] 2 2 0 in
  forall a, In a [A1 0 (Z.add 1); A1 (-3) (fun _ => 7); A1 5 (Z.mul 2); A2 1 3 (fun _ => 1); A2 0 1 (fun _ => 1)] ->
  ~ 1 <= access_pos f a <= count f.
Proof. cbv zeta. intros a [<-|[<-|[<-|[<-|[<-|[]]]]]]; cbn; lia. Qed.

(** ** C03 *)
Theorem c03_addressing : forall F (NF : Num F) (f : fa F),
  0 <= rows f -> 0 <= cols f -> count f = rows f * cols f ->
  (forall i j, 1 <= i <= rows f -> 1 <= j <= cols f ->
     1 <= pos (rows f) i j <= count f /\
     get2 f i j = get1 f (pos (rows f) i j) /\
     fa_idx f i j = pos (rows f) i j /\
     Some (get2 f i j) = nth_error (data f) (Z.to_nat ((j - 1) * rows f + i - 1)) /\
     exists tl, from2 f i j = Ok (get2 f i j :: tl)) /\
  (forall i j i' j', 1 <= i <= rows f -> 1 <= j <= cols f -> 1 <= i' <= rows f -> 1 <= j' <= cols f ->
     pos (rows f) i j = pos (rows f) i' j' -> (i, j) = (i', j')) /\
  (forall p, 1 <= p <= count f ->
     exists i j, 1 <= i <= rows f /\ 1 <= j <= cols f /\ pos (rows f) i j = p).
Proof. exact @addressing. Qed.
Print Assumptions c03_addressing.

Example c03_case : let f := mkFA [0; 1; 2; 3; 4; 5] 2 3 0 in
  0 <= rows f /\ 0 <= cols f /\ count f = rows f * cols f.
Proof. cbv. intuition discriminate. Qed.

(** ** C04 *)
Theorem c04_i32_offset : forall pr r c i j,
  0 <= r -> 0 <= c -> r * c <= 2 ^ 31 - 1 -> r <= 2 ^ 31 - 1 -> c <= 2 ^ 31 - 1 ->
  1 <= i <= r -> 1 <= j <= c ->
  off2_i32 pr r i j = Ok (pos r i j - 1).
Proof. exact off2_i32_exact. Qed.
Print Assumptions c04_i32_offset.

Theorem c04_i32_access : forall F (NF : Num F) pr (f : fa F) i j,
  well_formed f -> count f <= 2 ^ 31 - 1 -> 1 <= rows f <= 2 ^ 31 - 1 -> cols f <= 2 ^ 31 - 1 ->
  1 <= i <= rows f -> 1 <= j <= cols f ->
  get2_i32 pr f i j = Ok (get2 f i j) /\ (forall g, mod2_i32 pr f i j g = Ok (mod2 f i j g)).
Proof. exact @get2_i32_exact. Qed.
Print Assumptions c04_i32_access.

(** outside the guard: debug panics, release reads element 1 where the exact address is out of range *)
Theorem c04_overflow : forall F (NF : Num F) (x y z t : F),
  let f := mkFA [x; y; z; t] 4 1 fnan in
  get2_i32 Debug f 1 (2 ^ 30 + 1) = Panic /\
  get2_i32 Release f 1 (2 ^ 30 + 1) = Ok x /\
  get2 f 1 (2 ^ 30 + 1) = fMINPOS.
Proof. exact @i32_alias. Qed.
Print Assumptions c04_overflow.

Example c04_case : 0 <= 46340 /\ 46340 * 46340 <= 2 ^ 31 - 1 /\ 1 <= 46340 <= 46340.
Proof. lia. Qed.

(** ** C05 *)
(** exact behaviour of a[k..] and a[(i,j)..] on every array value *)
Theorem c05_tail_exact : forall F (NF : Num F) (f : fa F) k,
  from1 f k =
  if (k <? 1) || (fa_len f <? k) then Ok []
  else if count f <? k - 1 then Panic
  else Ok (skipn (Z.to_nat (k - 1)) (data f)).
Proof. exact (fun F _ => @tail_view F). Qed.
Print Assumptions c05_tail_exact.

(** the claim holds on arrays whose storage matches their shape *)
Theorem c05_tail_well_formed : forall F (NF : Num F) (f : fa F) k, well_formed f ->
  from1 f k = Ok (if (1 <=? k) && (k <=? count f) then skipn (Z.to_nat (k - 1)) (data f) else []).
Proof. exact (fun F _ => @tail_view_wf F). Qed.
Print Assumptions c05_tail_well_formed.

Theorem c05_tail_pair : forall F (NF : Num F) (f : fa F) i j, from2 f i j = from1 f (pos (rows f) i j).
Proof. reflexivity. Qed.
Print Assumptions c05_tail_pair.

(** but arrays built through the public interface need not be well formed: zeros(3,0)[2..] panics *)
Theorem c05_no_panic_refuted : forall F (NF : Num F),
  exists (f : fa F) k, api_array f /\ 1 <= k /\ from1 f k = Panic.
Proof. exact @tail_view_panics. Qed.
Print Assumptions c05_no_panic_refuted.

(** the same through a flat vector shorter than its leading dimension *)
Theorem c05_no_panic_2d_refuted : forall F (NF : Num F) (x : F),
  exists f : fa F, to_fa_2d [x] 3 = Ok f /\ api_array f /\ from2 f 3 1 = Panic.
Proof. exact @tail_view_panics_2d. Qed.
Print Assumptions c05_no_panic_2d_refuted.

Example c05_case : well_formed (mkFA [0; 1; 2; 3; 4; 5] 2 3 0) /\ well_formed (mkFA [0; 1] 2 0 0).
Proof. cbv. intuition discriminate. Qed.

(** ** C06 *)
Theorem c06_vector : forall F (NF : Num F) (l : list F),
  data (fa_vector l) = l /\ well_formed (fa_vector l).
Proof. exact @vector_wf. Qed.
Print Assumptions c06_vector.

Theorem c06_of_vec : forall F (NF : Num F) (l : list F),
  data (fa_of_vec l) = l /\ well_formed (fa_of_vec l).
Proof. exact @of_vec_wf. Qed.
Print Assumptions c06_of_vec.

Theorem c06_single : forall F (NF : Num F) (x : F),
  data (fa_single x) = [x] /\ well_formed (fa_single x).
Proof. exact @single_wf. Qed.
Print Assumptions c06_single.

Theorem c06_empty : forall F (NF : Num F), data (@fa_empty F NF) = [] /\ well_formed (@fa_empty F NF).
Proof. exact @empty_wf. Qed.
Print Assumptions c06_empty.

Theorem c06_zeros : forall F (NF : Num F) r c,
  (0 <= r * c -> exists f : fa F, fa_zeros r c = Ok f /\ rows f = r /\ cols f = c /\ count f = r * c /\
               (forall p, 1 <= p <= r * c -> elem f p = Some f0)) /\
  (r * c < 0 -> @fa_zeros F _ r c = Panic).
Proof. exact @zeros_spec. Qed.
Print Assumptions c06_zeros.

Theorem c06_zeros_well_formed : forall F (NF : Num F) r c, 0 <= r -> 1 <= c ->
  exists f : fa F, fa_zeros r c = Ok f /\ well_formed f.
Proof. exact @zeros_wf. Qed.
Print Assumptions c06_zeros_well_formed.

Theorem c06_matrix : forall F (NF : Num F) (l : list F) r c,
  (zlen l = r * c -> exists f, fa_matrix l r c = Ok f /\ data f = l /\ rows f = r /\ cols f = c) /\
  (zlen l <> r * c -> fa_matrix l r c = Panic).
Proof. exact @matrix_spec. Qed.
Print Assumptions c06_matrix.

Theorem c06_matrix_well_formed : forall F (NF : Num F) (l : list F) r c, 0 <= r -> 1 <= c -> zlen l = r * c ->
  exists f, fa_matrix l r c = Ok f /\ well_formed f.
Proof. exact @matrix_wf. Qed.
Print Assumptions c06_matrix_well_formed.

Theorem c06_nested : forall F (NF : Num F) (l : list (list F)) q,
  Forall (fun r => zlen r = q) l ->
  data (fa_of_nested l) = concat l /\ rows (fa_of_nested l) = zlen l /\
  (l <> [] -> cols (fa_of_nested l) = q) /\
  (q <> 0 \/ l = [] -> well_formed (fa_of_nested l)).
Proof. exact @of_nested_wf. Qed.
Print Assumptions c06_nested.

(** well-formedness survives every element access *)
Theorem c06_access : forall F (NF : Num F) (f : fa F) a, well_formed f -> well_formed (apply_access f a).
Proof. exact (fun F _ => @access_wf F). Qed.
Print Assumptions c06_access.

(** matrix accepts shapes that are not shapes *)
Theorem c06_negative_shape_refuted : forall F (NF : Num F) (x : F),
  exists f : fa F, fa_matrix [x; x; x; x] (-2) (-2) = Ok f /\ ~ well_formed f.
Proof. exact @negative_shape. Qed.
Print Assumptions c06_negative_shape_refuted.

(** zeros with no column declares a vector it does not store *)
Theorem c06_zero_columns_refuted : forall F (NF : Num F), exists f : fa F, fa_zeros 3 0 = Ok f /\ ~ well_formed f.
Proof. exact @zero_columns. Qed.
Print Assumptions c06_zero_columns_refuted.

Example c06_case : zlen [1; 2; 3; 4; 5; 6] = 2 * 3 /\ Forall (fun r => zlen r = 3) [[1; 2; 3]; [4; 5; 6]].
Proof. split; [reflexivity|]. repeat constructor. Qed.

(** ** C07 *)
Theorem c07_flat_roundtrip : forall F (NF : Num F) (l : list F), from_fa (to_fa l) = Ok l.
Proof. exact @flat_roundtrip. Qed.
Print Assumptions c07_flat_roundtrip.

Theorem c07_flat_2d : forall F (NF : Num F) (l : list F) ld,
  (ld <> 0 -> exists f, to_fa_2d l ld = Ok f /\ data f = l /\ rows f = ld /\ cols f = Z.quot (zlen l) ld /\
                   from_fa f = Ok l) /\
  (ld = 0 -> to_fa_2d l ld = Panic).
Proof. exact @flat_2d. Qed.
Print Assumptions c07_flat_2d.

Example c07_case : 3 <> 0 /\ Z.quot (zlen [1; 2; 3; 4; 5; 6; 7]) 3 = 2.
Proof. split; [lia|reflexivity]. Qed.

(** ** C08 *)
(** what the round trip does to p lists of q elements: q lists of p elements, same order *)
Theorem c08_nested_roundtrip : forall F (NF : Num F) (l : list (list F)) q,
  l <> [] -> 1 <= q -> Forall (fun r => zlen r = q) l ->
  exists l', from_fa (to_fa l) = Ok l' /\ concat l' = concat l /\ zlen l' = q /\
             Forall (fun r => zlen r = zlen l) l'.
Proof. exact @nested_roundtrip. Qed.
Print Assumptions c08_nested_roundtrip.

(** so it is the identity exactly on square ones *)
Theorem c08_identity_iff_square : forall F (NF : Num F) (l : list (list F)) q,
  l <> [] -> 1 <= q -> Forall (fun r => zlen r = q) l ->
  (from_fa (to_fa l) = Ok l <-> zlen l = q).
Proof. exact @nested_roundtrip_iff. Qed.
Print Assumptions c08_identity_iff_square.

Theorem c08_rectangular_refuted : forall F (NF : Num F) (x : F),
  exists l : list (list F), Forall (fun r => zlen r = 2) l /\ from_fa (to_fa l) <> Ok l.
Proof. exact @nested_refuted. Qed.
Print Assumptions c08_rectangular_refuted.

(** a non-empty one-dimensional array has no nested form *)
Theorem c08_from_1d_panics : forall F (NF : Num F) (f : fa F), cols f = 0 -> 1 <= count f -> nested_of_fa f = Panic.
Proof. exact @nested_of_1d. Qed.
Print Assumptions c08_from_1d_panics.

Example c08_case : [[1; 2]; [3; 4]] <> [] /\ 1 <= 2 /\ Forall (fun r => zlen r = 2) [[1; 2]; [3; 4]] /\
  zlen [[1; 2]; [3; 4]] = 2.
Proof. repeat split; try discriminate. repeat constructor. Qed.

(** ** C09 *)
Theorem c09_eq_spec : forall F (NF : Num F) (f g : fa F),
  fa_eq f g = true <->
  rows f = rows g /\ cols f = cols g /\ Forall2 (fun x y => feq x y = true) (data f) (data g).
Proof. exact @fa_eq_spec. Qed.
Print Assumptions c09_eq_spec.

Theorem c09_symmetric : forall lm (f g : fa b64), @fa_eq b64 (B64 lm) f g = @fa_eq b64 (B64 lm) g f.
Proof. exact (fun lm f g => @fa_eq_sym b64 (B64 lm) f g b64_eqb_sym). Qed.
Print Assumptions c09_symmetric.

Theorem c09_transitive : forall lm (f g h : fa b64),
  @fa_eq b64 (B64 lm) f g = true -> @fa_eq b64 (B64 lm) g h = true -> @fa_eq b64 (B64 lm) f h = true.
Proof. exact (fun lm f g h => @fa_eq_trans b64 (B64 lm) f g h b64_eqb_trans). Qed.
Print Assumptions c09_transitive.

Theorem c09_reflexive_iff_no_nan : forall lm (f : fa b64),
  @fa_eq b64 (B64 lm) f f = true <->
  (forall p x, elem f p = Some x -> BinarySingleNaN.is_nan x = false).
Proof. exact b64_fa_eq_refl_iff. Qed.
Print Assumptions c09_reflexive_iff_no_nan.

Example c09_case : let n := BinarySingleNaN.B754_nan in
  @fa_eq b64 (B64 ref_libm) (mkFA [b64_dy 1 0; b64_dy 0 0] 2 0 n) (mkFA [b64_dy 1 0; b64_dy 0 0] 2 0 (b64_dy 3 0)) = true /\
  @fa_eq b64 (B64 ref_libm) (mkFA [n] 1 0 n) (mkFA [n] 1 0 n) = false.
Proof. split; reflexivity. Qed.

(** ** C10 *)
Theorem c10_display_2d : forall F T (lb rb comma : T) (show : F -> T) (f : fa F),
  0 <= rows f -> 1 <= cols f -> count f = rows f * cols f ->
  exists L, concat L = data f /\ zlen L = rows f /\ Forall (fun r => zlen r = cols f) L /\
    fa_display T lb rb comma show f = Ok (lb :: concat (map (group T lb rb comma show) L) ++ [rb]).
Proof. exact @display_2d. Qed.
Print Assumptions c10_display_2d.

Theorem c10_display_1d : forall F T (lb rb comma : T) (show : F -> T) (f : fa F), cols f = 0 ->
  fa_display T lb rb comma show f = Ok (group T lb rb comma show (data f)).
Proof. exact @display_1d. Qed.
Print Assumptions c10_display_1d.

Example c10_case : fa_display string "["%string "]"%string ", "%string (fun z => (if Z.eqb z 1%Z then "1" else "2")%string) (mkFA [1; 2; 2; 1] 2 2 0)
  = Ok ["["; "["; "1"; ", "; "2"; "]"; "["; "2"; ", "; "1"; "]"; "]"]%string.
Proof. reflexivity. Qed.
