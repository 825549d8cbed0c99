(** Model of src/array: FortranArray, its indexing, conversions, equality, Display. *)
From Verif Require Import Base Num.

(** src/array/mod.rs:5-11.  [dflt] is the private field [default_value], the slot
    that out-of-range mutable accesses refer to. *)
Record fa (F : Type) := mkFA { data : list F; rows : Z; cols : Z; dflt : F }.
Arguments mkFA {F} data rows cols dflt.
Arguments data {F} f.
Arguments rows {F} f.
Arguments cols {F} f.
Arguments dflt {F} f.

Section Array.
  Context {F : Type} {NF : Num F}.
  Notation fa := (fa F).

  (** src/array/mod.rs:13-22 and 25-27 (Default, empty) *)
  Definition fa_default : fa := mkFA [] 0 0 fnan.
  (** src/array/mod.rs:25-27 *)
  Definition fa_empty : fa := fa_default.

  (** src/array/mod.rs:29-36.  [(rows * cols) as usize] of a negative product asks for
      more than isize::MAX bytes: [vec!] panics with capacity overflow. *)
  Definition fa_zeros (r c : Z) : outcome fa :=
    if r * c <? 0 then Panic
    else Ok (mkFA (repeat f0 (Z.to_nat (r * c))) r c fnan).

  (** src/array/mod.rs:38-44 *)
  Definition fa_single (x : F) : fa := mkFA [x] 1 0 fnan.

  (** src/array/mod.rs:46-52 ([data.len() as i32] without wrap-around) *)
  Definition fa_vector (l : list F) : fa := mkFA l (zlen l) 0 fnan.

  (** src/array/mod.rs:54-62 *)
  Definition fa_matrix (l : list F) (r c : Z) : outcome fa :=
    if zlen l =? r * c then Ok (mkFA l r c fnan) else Panic.

  (** src/array/mod.rs:79-81 *)
  Definition fa_is_1d (f : fa) : bool := cols f =? 0.
  (** src/array/mod.rs:83-85 *)
  Definition fa_is_2d (f : fa) : bool := (0 <? rows f) && (0 <? cols f).
  (** src/array/mod.rs:74-77 *)
  Definition fa_len (f : fa) : Z := if fa_is_2d f then rows f * cols f else rows f.
  (** src/array/mod.rs:70-72 *)
  Definition fa_idx (f : fa) (i j : Z) : Z := (j - 1) * rows f + i.

  (** src/array/mod.rs:64-68.  Vec::insert panics when its index exceeds the length.
      [rows] and [cols] are not updated by the code. *)
  Definition fa_insert (f : fa) (index : Z) (v : F) : outcome fa :=
    if (1 <=? index) && (index <? fa_len f) then
      if zlen (data f) <? index - 1 then Panic
      else Ok (mkFA (firstn (Z.to_nat (index - 1)) (data f) ++ v :: skipn (Z.to_nat (index - 1)) (data f))
                    (rows f) (cols f) (dflt f))
    else Ok f.

  (** src/array/mod.rs:87-91.  i32 division by zero panics. *)
  Definition fa_as_2d (f : fa) (r : Z) : outcome fa :=
    if r =? 0 then Panic
    else Ok (mkFA (data f) r (Z.quot (zlen (data f)) r) (dflt f)).

  (** src/array/mod.rs:93-95 *)
  Definition fa_to_vec (f : fa) : list F := data f.

  (** Vec<f64> equality used by src/array/mod.rs:102: same length and elementwise == *)
  Fixpoint list_feq (a b : list F) : bool :=
    match a, b with
    | [], [] => true
    | x :: a', y :: b' => feq x y && list_feq a' b'
    | _, _ => false
    end.

  (** src/array/mod.rs:98-104 (Vec<f64> == compares lengths and elements) *)
  Definition fa_eq (f g : fa) : bool :=
    (rows f =? rows g) && (cols f =? cols g) && list_feq (data f) (data g).

  (** src/array/indexing.rs:5-19.  [index as usize - 1] of a negative index is larger than
      any length. *)
  Definition get1 (f : fa) (i : Z) : F :=
    if i =? 0 then fMINPOS
    else match zget (data f) (i - 1) with Some v => v | None => fMINPOS end.

  (** A mutable place: read-modify-write through IndexMut.  [f[i] op= y] is
      [mod1 f i (fun x => x op y)]; [f[i] = v] is [mod1 f i (fun _ => v)].
      src/array/indexing.rs:21-34 *)
  Definition mod1 (f : fa) (i : Z) (g : F -> F) : fa :=
    if i =? 0 then mkFA (data f) (rows f) (cols f) (g (dflt f))
    else match zget (data f) (i - 1) with
         | Some v => mkFA (zset (data f) (i - 1) (g v)) (rows f) (cols f) (dflt f)
         | None => mkFA (data f) (rows f) (cols f) (g (dflt f))
         end.
  (** src/array/indexing.rs:21-34, plain assignment *)
  Definition set1 (f : fa) (i : Z) (v : F) : fa := mod1 f i (fun _ => v).

  (** src/array/indexing.rs:40 and 53-54: the linear offset of a pair *)
  Definition off2 (r i j : Z) : Z := (j - 1) * r + (i - 1).

  (** src/array/indexing.rs:36-48 *)
  Definition get2 (f : fa) (i j : Z) : F :=
    match zget (data f) (off2 (rows f) i j) with Some v => v | None => fMINPOS end.

  (** src/array/indexing.rs:50-62 *)
  Definition mod2 (f : fa) (i j : Z) (g : F -> F) : fa :=
    match zget (data f) (off2 (rows f) i j) with
    | Some v => mkFA (zset (data f) (off2 (rows f) i j) (g v)) (rows f) (cols f) (dflt f)
    | None => mkFA (data f) (rows f) (cols f) (g (dflt f))
    end.
  (** src/array/indexing.rs:50-62, plain assignment *)
  Definition set2 (f : fa) (i j : Z) (v : F) : fa := mod2 f i j (fun _ => v).

  (** src/array/indexing.rs:64-74 (and the mutable copy 76-85): [f[start..]] *)
  Definition from1 (f : fa) (start : Z) : outcome (list F) :=
    if (1 <=? start) && (start <=? fa_len f) then slice_from (data f) (start - 1)
    else Ok [].

  (** src/array/indexing.rs:87-95 (and 97-104): [f[(i, j)..]] *)
  Definition from2 (f : fa) (i j : Z) : outcome (list F) :=
    from1 f ((j - 1) * rows f + i).

  (** src/array/display.rs:4-30, with the number formatter [show] abstract and string
      concatenation as list of tokens. *)
  Section Display.
    Context (T : Type) (lb rb comma : T) (show : F -> T).
    (** src/array/display.rs:11 and 21 *)
    Definition sep (i : Z) : list T := if i =? 0 then [] else [comma].
    (** src/array/display.rs:10-13 *)
    Fixpoint disp_1d (i : Z) (l : list F) : list T :=
      match l with
      | [] => []
      | x :: l' => sep i ++ [show x] ++ disp_1d (i + 1) l'
      end.
    (** one row of the 2-D case: display.rs:19-25 *)
    Definition disp_row (f : fa) (row : Z) : outcome (list T) :=
      r <- for_M (range 0 (cols f - 1)) [lb] (fun col acc =>
             x <- vec_get (data f) (row * cols f + col) ;;
             Ok (acc ++ sep col ++ [show x])) ;;
      Ok (r ++ [rb]).
    (** src/array/display.rs:4-30 *)
    Definition fa_display (f : fa) : outcome (list T) :=
      if fa_is_1d f then Ok ([lb] ++ disp_1d 0 (data f) ++ [rb])
      else
        r <- for_M (range 0 (rows f - 1)) [lb] (fun row acc =>
               t <- disp_row f row ;; Ok (acc ++ t)) ;;
        Ok (r ++ [rb]).
  End Display.

  (** src/array/convert.rs:3-25 (both impls) *)
  Definition fa_of_vec (l : list F) : fa := mkFA l (zlen l) 0 fnan.

  (** src/array/convert.rs:27-39 *)
  Definition fa_of_nested (l : list (list F)) : fa :=
    mkFA (concat l) (zlen l)
         (match l with [] => 0 | r0 :: _ => zlen r0 end) fnan.

  (** src/array/convert.rs:41-45 *)
  Definition vec_of_fa (f : fa) : list F := data f.

  (** src/array/convert.rs:47-57.  [array.rows as usize] of a negative is a capacity overflow
      in [vec!] (panic); [i % 0] panics. *)
  Definition nested_of_fa (f : fa) : outcome (list (list F)) :=
    if (rows f <? 0) || (cols f <? 0) then Panic
    else
      let z := repeat (repeat f0 (Z.to_nat (rows f))) (Z.to_nat (cols f)) in
      r <- for_M (range 0 (zlen (data f) - 1)) z (fun i d =>
             if rows f =? 0 then Panic else
             let row := i mod rows f in
             let col := i / rows f in
             match zget d col, zget (data f) i with
             | Some c, Some v =>
                 match zget c row with
                 | Some _ => Ok (zset d col (zset c row v))
                 | None => Panic
                 end
             | _, _ => Panic
             end) ;;
      Ok r.
End Array.

(** src/array/convert.rs:59-62 *)
Class ToFA (F X : Type) := {
  to_fa : X -> fa F;
  to_fa_2d : X -> Z -> outcome (fa F)
}.
(** [From<FortranArray>], src/array/convert.rs:41-57 *)
Class FromFA (F X : Type) := { from_fa : fa F -> outcome X }.

(** src/array/convert.rs:64-88: Vec<f64> and &[f64] *)
#[export] Instance ToFA_vec (F : Type) (NF : Num F) : ToFA F (list F) := {
  to_fa l := fa_of_vec l;
  to_fa_2d l ld := fa_as_2d (fa_of_vec l) ld
}.
(** src/array/convert.rs:90-99 *)
#[export] Instance ToFA_nested (F : Type) (NF : Num F) : ToFA F (list (list F)) := {
  to_fa l := fa_of_nested l;
  to_fa_2d l _ := Ok (fa_of_nested l)
}.
(** src/array/convert.rs:101-110 *)
#[export] Instance ToFA_fa (F : Type) : ToFA F (fa F) := {
  to_fa f := f;
  to_fa_2d f _ := Ok f
}.
(** src/array/convert.rs:41-45 *)
#[export] Instance FromFA_vec (F : Type) : FromFA F (list F) := { from_fa f := Ok (vec_of_fa f) }.
(** src/array/convert.rs:47-57 *)
#[export] Instance FromFA_nested (F : Type) (NF : Num F) : FromFA F (list (list F)) :=
  { from_fa f := nested_of_fa f }.
(** the reflexive [From<T> for T], used e.g. by src/dlarfg.rs:40 with X = FortranArray *)
#[export] Instance FromFA_fa (F : Type) : FromFA F (fa F) := { from_fa f := Ok f }.
