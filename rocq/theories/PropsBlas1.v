(** C11-C13, C16: dcopy, dscal, drot, lsame.  Statements only. *)
From Coq Require Import Reals Ascii.
From Verif Require Import Base Num Array Blas Spec SpecBlas SpecR ER B64 Blas1Proofs Blas1Real LsameProofs I32 I32Proofs.
Open Scope Z_scope.

(** the instance the examples run in *)
#[local] Instance NB : Num b64 := B64 ref_libm.

(** ** C11 *)
(** for every pair of container types; get1 of a short dx reads f64::MIN_POSITIVE (C02) *)
Theorem c11_dcopy : forall F (NF : Num F) DX DY (TX : ToFA F DX) (TY : ToFA F DY) (FY : FromFA F DY)
    n (dx : DX) incx (dy : DY) incy,
  incy <> 0 ->
  exists d, dcopy n dx incx dy incy = (if n <=? 0 then Ok dy else from_fa d) /\
    updated (stride n incy) (fun t _ => get1 (to_fa dx) (stride n incx t)) (Z.max 0 n) (to_fa dy) d.
Proof. exact @dcopy_spec. Qed.
Print Assumptions c11_dcopy.

Theorem c11_dcopy_vec : forall F (NF : Num F) n (x : list F) incx (y : list F) incy, incy <> 0 ->
  exists y', dcopy n x incx y incy = Ok y' /\
    updated (stride n incy) (fun t _ => get1 (fa_of_vec x) (stride n incx t)) (Z.max 0 n)
            (fa_of_vec y) (fa_of_vec y').
Proof. exact @dcopy_vec. Qed.
Print Assumptions c11_dcopy_vec.

(** the strided positions are the BLAS ones, and the unrolled and the negative-increment paths are covered *)
Example c11_case :
  map (stride 3 (-2)) [0; 1; 2] = [5; 3; 1] /\ map (stride 3 2) [0; 1; 2] = [1; 3; 5] /\
  dcopy 3 [b64_dy 1 0; b64_dy 2 0; b64_dy 3 0] 1
    [b64_dy 0 0; b64_dy 0 0; b64_dy 0 0; b64_dy 0 0; b64_dy 0 0] (-2)
  = Ok [b64_dy 3 0; b64_dy 0 0; b64_dy 2 0; b64_dy 0 0; b64_dy 1 0].
Proof. repeat split. Qed.

(** ** C12 *)
Theorem c12_dscal : forall F (NF : Num F) DX (TX : ToFA F DX) (FX : FromFA F DX) n da (dx : DX) incx,
  (n <= 0 \/ incx <= 0 \/ feq da f1 = true -> dscal n da dx incx = Ok dx) /\
  (1 <= n -> 1 <= incx -> feq da f1 = false ->
   exists d, dscal n da dx incx = from_fa d /\
     updated (stride n incx) (fun _ x => fmul x da) n (to_fa dx) d).
Proof. exact @dscal_spec. Qed.
Print Assumptions c12_dscal.

Theorem c12_dscal_vec : forall F (NF : Num F) n da (x : list F) incx, 1 <= n -> 1 <= incx -> feq da f1 = false ->
  exists x', dscal n da x incx = Ok x' /\
    updated (stride n incx) (fun _ v => fmul v da) n (fa_of_vec x) (fa_of_vec x').
Proof. exact @dscal_vec. Qed.
Print Assumptions c12_dscal_vec.

(** with i32 counters the strided loop is the same as long as one step past the end is representable ... *)
Theorem c12_i32_counter : forall F (NF : Num F) pr fuel (da : F) incx nincx i dx,
  1 <= incx -> in_i32 (nincx - 1 + incx) -> in_i32 i ->
  dscal_while_i32 pr fuel da incx nincx i dx = dscal_while fuel da incx nincx i dx.
Proof. exact @dscal_while_i32_agree. Qed.
Print Assumptions c12_i32_counter.

(** ... and panics in a debug build on a legal call otherwise *)
Theorem c12_i32_counter_refuted : forall F (NF : Num F) (x da : F),
  dscal_loop_i32 Debug 1 1 da (fa_of_vec [x]) (2 ^ 31 - 1) = Panic /\
  dscal_fa 1 da (fa_of_vec [x]) (2 ^ 31 - 1) = Ok (fa_of_vec [fmul x da]).
Proof. exact @dscal_counter_overflow. Qed.
Print Assumptions c12_i32_counter_refuted.

Example c12_case : feq (b64_dy 3 0) f1 = false /\
  match dscal 2 (b64_dy 3 0) [b64_dy 1 0; b64_dy 1 0; b64_dy 1 0; b64_dy 1 0] 2 with
  | Ok l => list_feq l [b64_dy 3 0; b64_dy 1 0; b64_dy 3 0; b64_dy 1 0] | _ => false end = true.
Proof. split; vm_compute; reflexivity. Qed.

(** ** C13 *)
Theorem c13_drot : forall F (NF : Num F) DX DY (TX : ToFA F DX) (FX : FromFA F DX) (TY : ToFA F DY) (FY : FromFA F DY)
    n (dx : DX) incx (dy : DY) incy c s,
  incx <> 0 -> incy <> 0 ->
  (n <= 0 -> drot n dx incx dy incy c s = Ok (dx, dy)) /\
  (1 <= n -> exists x y,
    drot n dx incx dy incy c s = (x' <- from_fa x ;; y' <- from_fa y ;; Ok (x', y')) /\
    updated (stride n incx)
      (fun t _ => fadd (fmul c (get1 (to_fa dx) (stride n incx t))) (fmul s (get1 (to_fa dy) (stride n incy t))))
      n (to_fa dx) x /\
    updated (stride n incy)
      (fun t _ => fsub (fmul c (get1 (to_fa dy) (stride n incy t))) (fmul s (get1 (to_fa dx) (stride n incx t))))
      n (to_fa dy) y).
Proof. exact @drot_spec. Qed.
Print Assumptions c13_drot.

Theorem c13_drot_norm : forall n (dx : fa er) incx (dy : fa er) incy (c s : R) (vx vy : Z -> R),
  1 <= n -> incx <> 0 -> incy <> 0 -> vec_is dx n incx vx -> vec_is dy n incy vy ->
  (c * c + s * s = 1)%R ->
  exists x y wx wy, drot n dx incx dy incy (Fin c) (Fin s) = Ok (x, y) /\
    vec_is x n incx wx /\ vec_is y n incy wy /\
    Rsum_range (fun t => wx t * wx t + wy t * wy t)%R 0 (n - 1) =
    Rsum_range (fun t => vx t * vx t + vy t * vy t)%R 0 (n - 1).
Proof. exact drot_norm. Qed.
Print Assumptions c13_drot_norm.

Theorem c13_drot_inverse : forall n (dx : fa er) incx (dy : fa er) incy (c s : R) (vx vy : Z -> R),
  1 <= n -> incx <> 0 -> incy <> 0 -> vec_is dx n incx vx -> vec_is dy n incy vy ->
  (c * c + s * s = 1)%R ->
  exists x y x' y', drot n dx incx dy incy (Fin c) (Fin s) = Ok (x, y) /\
    drot n x incx y incy (Fin c) (Fin (- s)) = Ok (x', y') /\
    vec_is x' n incx vx /\ vec_is y' n incy vy.
Proof. exact drot_inverse. Qed.
Print Assumptions c13_drot_inverse.

Example c13_case :
  vec_is (fa_of_vec [Fin 1; Fin 2; Fin 3]) 2 (-2) (fun t => if t =? 0 then 3 else 1)%R /\
  vec_is (fa_of_vec [Fin 5; Fin 7]) 2 1 (fun t => if t =? 0 then 5 else 7)%R /\ (3/5 * (3/5) + 4/5 * (4/5) = 1)%R.
Proof.
  split; [|split; [|field]]; intros t Ht; assert (E : t = 0 \/ t = 1) by lia; destruct E as [-> | ->]; reflexivity.
Qed.

(** ** C16 *)
(** lsame compares the low bytes of the two characters ignoring ASCII case *)
Theorem c16_lsame_exact : forall a b, lsame a b = true <-> fold_case (a mod 256) = fold_case (b mod 256).
Proof. exact lsame_all. Qed.
Print Assumptions c16_lsame_exact.

(** so on characters below U+0100 it is equality ignoring ASCII case *)
Theorem c16_lsame_byte : forall ca cb, 0 <= ca < 256 -> 0 <= cb < 256 ->
  (lsame ca cb = true <-> fold_case ca = fold_case cb).
Proof. exact lsame_byte. Qed.
Print Assumptions c16_lsame_byte.

Theorem c16_reflexive : forall c, lsame c c = true.
Proof. exact lsame_refl. Qed.
Print Assumptions c16_reflexive.
Theorem c16_symmetric : forall a b, lsame a b = lsame b a.
Proof. exact lsame_sym. Qed.
Print Assumptions c16_symmetric.
Theorem c16_transitive : forall a b c, lsame a b = true -> lsame b c = true -> lsame a c = true.
Proof. exact lsame_trans. Qed.
Print Assumptions c16_transitive.

(** beyond U+00FF it accepts unrelated characters: 'Ō' (U+014C) passes for 'L' *)
Theorem c16_lsame_refuted :
  exists a b, 0 <= a < 1114112 /\ 0 <= b < 128 /\ fold_case a <> fold_case b /\ lsame a b = true.
Proof. exact lsame_truncates. Qed.
Print Assumptions c16_lsame_refuted.

Example c16_case : lsame (chr "n") (chr "N") = true /\ lsame (chr "N") (chr "T") = false /\ fold_case (chr "N") = chr "n".
Proof. repeat split. Qed.
