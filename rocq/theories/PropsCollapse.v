(** C51: a bulge that collapses in dlaqr5.  Statements only; the proofs are in CollapseProofs.v and CollapseWit.v.
    [q5_collapsed] is src/dlaqr5.rs:266-293; column m of its V is (tau, v2, v3) of the reflector I - tau w w^T, w = (1, v2, v3). *)
From Coq Require Import Ascii Reals.
From Flocq Require Import IEEE754.BinarySingleNaN Core.
From Verif Require Import Base Num Array Blas Lapack Dlaqr5 Spec SpecR B64 ER LahqrWit Laqr5Wit CollapseProofs CollapseWit.
Open Scope Z_scope.

(** Any arithmetic: the reflector dlarfg computes for the restart is not the one used.  Its tau is lost, its second
    component becomes tau, and both other components are f64::MIN_POSITIVE.  (First case: the old bulge is kept.) *)
Theorem c51_restart_refuted : forall F (NF : Num F) (sr si : fa F) ldh k m (beta : F) (h v vt h' v' vt' : fa F),
  q5_collapsed sr si ldh k m beta h v vt = Ok (h', v', vt') ->
  1 <= k -> k + 3 <= rows h -> rows h * k <= count h ->
  exists hs w alpha x tau, from2 h (k + 1) (k + 1) = Ok hs /\
    dlaqr1 3 hs ldh (get1 sr (2 * m - 1)) (get1 si (2 * m - 1)) (get1 sr (2 * m)) (get1 si (2 * m)) vt = Ok w /\
    dlarfg 3 (get1 w 1) [get1 w 2] 1 = Ok (alpha, [x], tau) /\
    (v' = v /\ get2 h' (k + 1) k = beta \/
     v' = set2 (set2 (set2 v 1 m x) 2 m fMINPOS) 3 m fMINPOS /\
     get2 h' (k + 1) k = (get2 h (k + 1) k - (get2 h (k + 1) k + fMINPOS * get2 h (k + 2) k) * x)%num).
Proof. exact @collapsed_restart. Qed.
Print Assumptions c51_restart_refuted.

(** Exact arithmetic: an accepted restart is not orthogonal, as tau |w|^2 is neither 0 nor 2. *)
Theorem c51_orthogonal_refuted : forall (sr si : fa er) ldh k m (beta : er) (h v vt h' v' vt' : fa er) hs w a b,
  q5_collapsed sr si ldh k m beta h v vt = Ok (h', v', vt') ->
  1 <= k -> k + 3 <= rows h -> rows h * k <= count h ->
  3 <= rows v -> 1 <= m -> rows v * m <= count v ->
  from2 h (k + 1) (k + 1) = Ok hs ->
  dlaqr1 3 hs ldh (get1 sr (2 * m - 1)) (get1 si (2 * m - 1)) (get1 sr (2 * m)) (get1 si (2 * m)) vt = Ok w ->
  get1 w 1 = Fin a -> get1 w 2 = Fin b -> (Rabs a <= 2 ^ 505)%R -> (bpow radix2 (-969) <= Rabs b <= 2 ^ 505)%R ->
  v' = v \/ exists t e, ent v' 1 m = Some (Fin t) /\ ent v' 2 m = Some (Fin e) /\ ent v' 3 m = Some (Fin e) /\
    (0 < Rabs (t * (1 + e * e + e * e)) < 2)%R.
Proof. exact collapsed_not_orthogonal. Qed.
Print Assumptions c51_orthogonal_refuted.

(** Exact arithmetic: where the matrix splits the restart is accepted. *)
Theorem c51_accepted : forall (sr si : fa er) ldh k m (beta : er) (h v vt : fa er) d0 d1 d2 hs w a b,
  3 <= rows v -> 1 <= m -> rows v * m <= count v ->
  get2 h (k + 1) k = Fin 0 -> get2 h (k + 2) k = Fin 0 ->
  get2 h k k = Fin d0 -> get2 h (k + 1) (k + 1) = Fin d1 -> get2 h (k + 2) (k + 2) = Fin d2 ->
  from2 h (k + 1) (k + 1) = Ok hs ->
  dlaqr1 3 hs ldh (get1 sr (2 * m - 1)) (get1 si (2 * m - 1)) (get1 sr (2 * m)) (get1 si (2 * m)) vt = Ok w ->
  get1 w 1 = Fin a -> get1 w 2 = Fin b -> (Rabs a <= 2 ^ 505)%R -> (bpow radix2 (-969) <= Rabs b <= 2 ^ 505)%R ->
  exists h' v' vt' t e, q5_collapsed sr si ldh k m beta h v vt = Ok (h', v', vt') /\
    ent v' 1 m = Some (Fin t) /\ ent v' 2 m = Some (Fin e) /\ ent v' 3 m = Some (Fin e) /\
    (0 < Rabs (t * (1 + e * e + e * e)) < 2)%R.
Proof. exact collapsed_accepts. Qed.
Print Assumptions c51_accepted.
(** k = 1, m = 1, ldh = 4, the matrix of the refutation below *)
Example c51_accepted_hyps : exists hs w a b,
  1 + 3 <= rows split4 /\ rows split4 * 1 <= count split4 /\ 3 <= rows vcol /\ rows vcol * 1 <= count vcol /\
  get2 split4 2 1 = Fin 0 /\ get2 split4 3 1 = Fin 0 /\ get2 split4 1 1 = Fin 5 /\ get2 split4 2 2 = Fin 3 /\ get2 split4 3 3 = Fin 7 /\
  from2 split4 2 2 = Ok hs /\
  dlaqr1 3 hs 4 (get1 shifts12 1) (get1 zero2 1) (get1 shifts12 2) (get1 zero2 2) zero3 = Ok w /\
  get1 w 1 = Fin a /\ get1 w 2 = Fin b /\ (Rabs a <= 2 ^ 505)%R /\ (bpow radix2 (-969) <= Rabs b <= 2 ^ 505)%R.
Proof. exact split4_restarts. Qed.

(** binary64: H with subdiagonal 0, 2, 2 and trace 19, Z = I, shifts 1 and 2.  The returned H has trace below 17 and
    column 2 of the returned Z has norm below 1/2. *)
Theorem c51_similarity_refuted : forall lm kacc22, libm_ok lm -> kacc22 = 0 \/ kacc22 = 1 -> let NB : Num b64 := B64 lm in exists h' z' v' u' wv' wh',
  dlaqr5 true true kacc22 4 1 4 2 (zvec [1; 2]) (zeros 2) R4 4 1 4 Z4 4 (zeros 3) 3 (zsq 4) 4 4 (zsq 4) 4 4 (zsq 4) 4 = Ok (h', z', v', u', wv', wh') /\
  Forall (fun x => is_finite x = true) (diag h' ++ col z' 1) /\
  rsum (map B2R (diag R4)) = 19%R /\ (rsum (map B2R (diag h')) < 17)%R /\ (rdot (map B2R (col z' 1)) (map B2R (col z' 1)) < / 4)%R.
Proof. exact q5_reducible_wrong_any. Qed.
Print Assumptions c51_similarity_refuted.
