(** The vocabulary in which the properties are stated.  Nothing here refers to how a routine works. *)
From Verif Require Import Base Num Array.

Section Spec.
  Context {F : Type}.

  (** the p-th stored element of an array, counting from 1; [None] when there is none *)
  Definition elem (f : fa F) (p : Z) : option F :=
    if p <? 1 then None else nth_error (data f) (Z.to_nat (p - 1)).

  (** number of stored elements *)
  Definition count (f : fa F) : Z := Z.of_nat (length (data f)).

  (** the column-major position of (i,j) when a column has r entries *)
  Definition pos (r i j : Z) : Z := (j - 1) * r + i.

  (** matrix entry (i,j) of the stored data *)
  Definition ent (f : fa F) (i j : Z) : option F := elem f (pos (rows f) i j).

  (** same declared shape and same amount of storage *)
  Definition same_shape (f g : fa F) : Prop :=
    rows f = rows g /\ cols f = cols g /\ count f = count g.

  (** storage agrees with the declared shape: a vector (cols = 0) of [rows] elements or a matrix *)
  Definition well_formed (f : fa F) : Prop :=
    0 <= rows f /\ 0 <= cols f /\
    count f = (if cols f =? 0 then rows f else rows f * cols f).

  (** an m-by-n block fits in the storage of f, columns being [rows f] apart *)
  Definition holds_block (f : fa F) (m n : Z) : Prop :=
    m <= rows f /\ (1 <= m -> 1 <= n -> (n - 1) * rows f + m <= count f).

  (** the position of step t of a BLAS vector with n elements and increment inc *)
  Definition stride (n inc t : Z) : Z :=
    if inc <? 0 then (1 - n) * inc + 1 + t * inc else 1 + t * inc.

  (** [d] is [d0] with the elements at positions a(0), .., a(k-1) updated by g(0), .., g(k-1) *)
  Definition updated (a : Z -> Z) (g : Z -> F -> F) (k : Z) (d0 d : fa F) : Prop :=
    same_shape d d0 /\
    (forall t, 0 <= t < k -> elem d (a t) = option_map (g t) (elem d0 (a t))) /\
    (forall p, (forall t, 0 <= t < k -> p <> a t) -> elem d p = elem d0 p).

  (** nothing changed except possibly the elements at positions lo..hi *)
  Definition kept_outside (lo hi : Z) (f0 f : fa F) : Prop :=
    same_shape f f0 /\ forall p, ~ lo <= p <= hi -> elem f p = elem f0 p.

  (** a container that converts to a well-formed array, and back after its elements have changed *)
  Definition usable {X} (TX : ToFA F X) (FX : FromFA F X) (x : X) : Prop :=
    well_formed (to_fa x) /\ forall d, same_shape d (to_fa x) -> exists x', from_fa d = Ok x'.

  (** the same for an argument passed with a leading dimension: it becomes the well-formed array f *)
  Definition usable_2d {X} (TX : ToFA F X) (FX : FromFA F X) (x : X) (ld : Z) (f : fa F) : Prop :=
    to_fa_2d x ld = Ok f /\ well_formed f /\ forall d, same_shape d f -> exists x', from_fa d = Ok x'.

  (** [c] is [c0] with entry (i,j) of the block 1..m, 1..n updated by g i j *)
  Definition block_updated (m n : Z) (g : Z -> Z -> F -> F) (c0 c : fa F) : Prop :=
    same_shape c c0 /\
    (forall i j, 1 <= i <= m -> 1 <= j <= n -> ent c i j = option_map (g i j) (ent c0 i j)) /\
    (forall p, (forall i j, 1 <= i <= m -> 1 <= j <= n -> p <> pos (rows c0) i j) -> elem c p = elem c0 p).

  (** Mutable accesses: [A1 p g] is [f[p] = g(f[p])], [A2 i j g] is [f[(i,j)] = g(f[(i,j)])]. *)
  Inductive access := A1 (p : Z) (g : F -> F) | A2 (i j : Z) (g : F -> F).
  Definition apply_access (f : fa F) (a : access) : fa F :=
    match a with A1 p g => mod1 f p g | A2 i j g => mod2 f i j g end.
  (** the linear position an access refers to *)
  Definition access_pos (f : fa F) (a : access) : Z :=
    match a with A1 p _ => p | A2 i j _ => pos (rows f) i j end.

  (** Printed form: elements separated by commas, in brackets. *)
  Section Printed.
    Context (T : Type) (lb rb comma : T) (show : F -> T).
    Fixpoint commas (l : list F) : list T :=
      match l with
      | [] => []
      | [x] => [show x]
      | x :: l' => show x :: comma :: commas l'
      end.
    Definition group (l : list F) : list T := lb :: commas l ++ [rb].
  End Printed.

  Context {NF : Num F}.

  (** the matrix that a flat column-major vector with leading dimension ld stands for *)
  Definition flat (ld : Z) (l : list F) : fa F := mkFA l ld (Z.quot (Z.of_nat (length l)) ld) fnan.

  (** The arrays a user can build through the public interface of src/array. *)
  Inductive api_array : fa F -> Prop :=
  | api_empty : api_array fa_empty
  | api_single x : api_array (fa_single x)
  | api_vector l : api_array (fa_vector l)
  | api_of_vec l : api_array (fa_of_vec l)
  | api_of_nested l : api_array (fa_of_nested l)
  | api_zeros r c f : fa_zeros r c = Ok f -> api_array f
  | api_matrix l r c f : fa_matrix l r c = Ok f -> api_array f
  | api_as_2d f r g : api_array f -> fa_as_2d f r = Ok g -> api_array g
  | api_insert f i v g : api_array f -> fa_insert f i v = Ok g -> api_array g
  | api_access f a : api_array f -> api_array (apply_access f a).
End Spec.

(** a container that stores the elements of a vector in order: Vec<f64> and FortranArray itself *)
Definition flat_container (F X : Type) {TX : ToFA F X} {FX : FromFA F X} : Prop :=
  forall d : fa F, exists x : X, from_fa d = Ok x /\ data (to_fa x) = data d.
