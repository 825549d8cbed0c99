(** C64: FortranArray::insert, as_2d and idx.  Statements only; the proofs are in ArrInsert.v. *)
From Coq Require Import ZArith Lia List.
From Verif Require Import Base Num Array Spec ArrInsert.
Import ListNotations.
Open Scope Z_scope.

(** an index from 1 to len - 1: the value goes there, what was there and after it moves one place on; the declared shape stays *)
Theorem c64_insert : forall F (f : fa F) k v, 1 <= k < fa_len f -> k <= count f + 1 -> exists f', fa_insert f k v = Ok f' /\
  rows f' = rows f /\ cols f' = cols f /\ dflt f' = dflt f /\ count f' = count f + 1 /\
  (forall p, p < k -> elem f' p = elem f p) /\ elem f' k = Some v /\ (forall p, k <= p -> elem f' (p + 1) = elem f p).
Proof. exact @insert_at. Qed.
Print Assumptions c64_insert.

(** any other index is ignored, the last one included *)
Theorem c64_ignored : forall F (f : fa F) k v, ~ 1 <= k < fa_len f -> fa_insert f k v = Ok f.
Proof. exact @insert_ignored. Qed.
Print Assumptions c64_ignored.

(** it panics exactly when the index lies in the declared shape but beyond the storage *)
Theorem c64_panics : forall F (f : fa F) k v, fa_insert f k v = Panic <-> 1 <= k < fa_len f /\ count f + 1 < k.
Proof. exact @insert_panics. Qed.
Print Assumptions c64_panics.

(** An insertion that is not ignored makes a well-formed array ill-formed: it stores one element more than its length says; the last element
    can still be read by its index and is part of the tail from 1, but the tail from its own index is empty. *)
Theorem c64_well_formed_refuted : forall F (f : fa F) k v, well_formed f -> 1 <= k < count f -> exists f', fa_insert f k v = Ok f' /\ ~ well_formed f' /\
  fa_len f' = count f /\ elem f' (count f + 1) = elem f (count f) /\ from1 f' 1 = Ok (data f') /\ from1 f' (count f + 1) = Ok [].
Proof. exact @insert_breaks. Qed.
Print Assumptions c64_well_formed_refuted.

(** as_2d reinterprets the same storage in columns of r entries; it panics exactly for r = 0; the result is well formed when r divides the number of elements *)
Theorem c64_as_2d : forall F (f : fa F) r, (fa_as_2d f r = Panic <-> r = 0) /\
  (r <> 0 -> exists f', fa_as_2d f r = Ok f' /\ data f' = data f /\ dflt f' = dflt f /\ rows f' = r /\ cols f' = Z.quot (count f) r /\
     (forall i j, ent f' i j = elem f (pos r i j)) /\ (0 < r -> (r | count f) -> 0 < count f -> well_formed f')).
Proof. exact @as_2d_spec. Qed.
Print Assumptions c64_as_2d.

(** idx (i, j) is the column-major position: reading there by one index is reading (i, j) *)
Theorem c64_idx : forall F (NF : Num F) (f : fa F) i j,
  fa_idx f i j = pos (rows f) i j /\ (1 <= fa_idx f i j <= count f -> get1 f (fa_idx f i j) = get2 f i j).
Proof. exact (fun F NF => @idx_spec F NF). Qed.
Print Assumptions c64_idx.

(** a well-formed vector of three: inserting at 2 moves, inserting at 3 is ignored; zeros(5, 0) declares five places and stores none *)
Example c64_case : let f := mkFA [1; 2; 3] 3 0 0 in
  well_formed f /\ (1 <= 2 < fa_len f /\ 2 <= count f + 1) /\ 1 <= 2 < count f /\
  fa_insert f 2 9 = Ok (mkFA [1; 9; 2; 3] 3 0 0) /\ fa_insert f 3 9 = Ok f /\
  fa_insert (mkFA [] 5 0 0) 3 9 = Panic /\ fa_as_2d (mkFA [1; 2; 3; 4] 4 0 0) 2 = Ok (mkFA [1; 2; 3; 4] 2 2 0).
Proof. cbn. unfold well_formed, count, fa_len. cbn. repeat split; try reflexivity; lia. Qed.
