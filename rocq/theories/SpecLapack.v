(** Vocabulary for the LAPACK auxiliaries. *)
From Verif Require Import Base Num Array Spec.

(** the part of a matrix an [uplo] option names *)
Inductive part := Upper | Lower | All.
(** (i,j) is in that part, the diagonal included / excluded *)
Definition in_part (q : part) (i j : Z) : bool :=
  match q with Upper => i <=? j | Lower => j <=? i | All => true end.
Definition strictly_in_part (q : part) (i j : Z) : bool :=
  match q with Upper => i <? j | Lower => j <? i | All => negb (i =? j) end.

Section SpecLapack.
  Context {F : Type}.
  (** DLASET: alpha in the strict triangle, beta on the diagonal *)
  Definition laset_entry (q : part) (alpha beta : F) (i j : Z) (x : F) : F :=
    if i =? j then beta else if strictly_in_part q i j then alpha else x.
  (** DLACPY: the triangle of A including the diagonal *)
  Definition lacpy_entry (q : part) (a : Z -> Z -> F) (i j : Z) (x : F) : F :=
    if in_part q i j then a i j else x.
  (** entry c of row r of a vector of vectors, counting from 1 *)
  Definition nested_entry (l : list (list F)) (r c : Z) : option F :=
    match nth_error l (Z.to_nat (r - 1)) with
    | Some row => nth_error row (Z.to_nat (c - 1))
    | None => None
    end.
End SpecLapack.

(** Routine names *)
From Coq Require Import Ascii.
Definition ascii_code (a : ascii) : Z := Z.of_N (N_of_ascii a).
Definition ascii_upper (a : ascii) : ascii :=
  if (97 <=? ascii_code a) && (ascii_code a <=? 122) then ascii_of_N (Z.to_N (ascii_code a - 32)) else a.
Definition ascii_lower (a : ascii) : ascii :=
  if (65 <=? ascii_code a) && (ascii_code a <=? 90) then ascii_of_N (Z.to_N (ascii_code a + 32)) else a.
Fixpoint smap (f : ascii -> ascii) (s : string) : string :=
  match s with EmptyString => EmptyString | String a s' => String (f a) (smap f s') end.
Definition upper_name : string -> string := smap ascii_upper.
Definition lower_name : string -> string := smap ascii_lower.

(** IPARMQ: a lower bound of the documented number of shifts for an active block of order nh *)
Definition documented_shifts_min (nh : Z) : Z :=
  if nh <? 30 then 2 else if nh <? 60 then 4 else if nh <? 590 then 10
  else if nh <? 3000 then 64 else if nh <? 6000 then 128 else 256.

Definition starts_with_letter (s : string) : Prop :=
  match s with EmptyString => False | String a _ => ascii_lower a <> ascii_upper a end.
