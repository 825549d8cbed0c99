(** C63: the shifts and the start of a QR iteration of dlahqr in exact arithmetic.  Statements only; the proofs are in HqShift.v,
    HqShiftStart.v, HqShiftScan.v and HqShiftIter.v, the vocabulary in SpecDShift.v. *)
From Coq Require Import Reals Lra ZArith Lia Bool.
From Flocq Require Import Core.
From Verif Require Import Base Num Array Blas Lapack Dlahqr Spec SpecR SpecDShift LahqrProofs ER HqShift HqShiftStart HqShiftScan HqShiftIter.
Open Scope R_scope.

(** One iteration (src/dlahqr.rs:105-328) on a block sL..sI of a real Hessenberg matrix H inside the rows ilo..ihi always returns.  It splits at the lowest
    row l whose subdiagonal entry is negligible, or not at all; it stops exactly when one or two eigenvalues are isolated; otherwise it
    counts itself, and the sweep starts at the lowest row where the shifts of this iteration allow it, or at row l. *)
Theorem c63_iteration : forall (wantt wantz : bool) n ilo ihi iloz ihiz its (st : hqst) H,
  (1 <= ilo)%Z -> (ihi <= n)%Z -> mat_is (sH st) n n H -> (n <= rows (sH st))%Z -> full (sH st) ->
  (ilo <= sL st < sI st)%Z -> (sI st <= ihi)%Z -> (ilo <= sK st <= sI st + 1)%Z -> count (sV st) = 3%Z /\ (2 <= fa_len (sV st) <= 3)%Z ->
  exists st' b, hq_iter wantt wantz ilo ihi iloz ihiz its st = Ok (st', b) /\
  let l := sL st' in let i := sI st in let H1 := drop_left H ilo l in
  (sL st <= l <= i)%Z /\ (l = sL st \/ negligible H ilo ihi l) /\ (forall p, (l < p <= i)%Z -> ~ negligible H ilo ihi p) /\
  b = (i - 1 <=? l)%Z /\
  (b = false -> sKdefl st' = (sKdefl st + 1)%Z /\
    exists s1 s2, iteration_shifts H1 l i (sKdefl st') s1 s2 /\ (l <= sM st' <= i - 2)%Z /\
      (sM st' = l \/ may_start H1 s1 s2 (sM st')) /\ (forall p, (sM st' < p <= i - 2)%Z -> ~ may_start H1 s1 s2 p)).
Proof. exact iter_total. Qed.
Print Assumptions c63_iteration.

(** the shifts of the kd-th iteration since the last deflation: eigenvalues of the last 2-by-2 block, or every tenth time x + s (3 +- i sqrt 7) / 4 *)
Theorem c63_shifts : forall (h : fa er) n H l i kd, mat_is h n n H -> (1 <= l)%Z -> (l + 2 <= i <= n)%Z -> exists s1 s2 : cplx,
  hq_shifts (hq_block h l i kd) = (Fin (fst s1), Fin (snd s1), Fin (fst s2), Fin (snd s2)) /\ iteration_shifts H l i kd s1 s2 /\ shift_pair s1 s2.
Proof. exact block_shifts. Qed.
Print Assumptions c63_shifts.

(** With nonzero subdiagonal entries in rows l..i the sweep starts with the first column of (H - s1 I)(H - s2 I) at row m, scaled by a positive number
    to 1-norm 1; m is the lowest row where it may start, or l. *)
Theorem c63_start_vector : forall (h : fa er) n H, mat_is h n n H -> forall s1 s2 l i m0 v0,
  (1 <= l <= i - 2)%Z -> (i <= n)%Z -> (forall j, (l <= j < i)%Z -> H (j + 1)%Z j <> 0) -> shift_pair s1 s2 ->
  count v0 = 3%Z /\ (2 <= fa_len v0 <= 3)%Z ->
  exists m v k (w : Z -> R), hq_start h (Fin (fst s1), Fin (snd s1), Fin (fst s2), Fin (snd s2)) l i m0 v0 = (m, v) /\ (l <= m <= i - 2)%Z /\ 0 < k /\
    data v = [Fin (w 1%Z); Fin (w 2%Z); Fin (w 3%Z)] /\
    (forall q, (1 <= q <= 3)%Z -> shift_column 3 (hess3 H m) s1 s2 q = cre (k * w q)) /\
    Rabs (w 1%Z) + Rabs (w 2%Z) + Rabs (w 3%Z) = 1 /\
    (m = l \/ may_start H s1 s2 m) /\ (forall p, (m < p <= i - 2)%Z -> ~ may_start H s1 s2 p).
Proof. exact start_exact. Qed.
Print Assumptions c63_start_vector.

(** the state with which dlahqr begins on the 3-by-3 matrix of ones meets the hypotheses, and the iteration does not stop at once:
    its shifts are both 2, one of the eigenvalues 0 and 2 of ((1, 1), (1, 1)) (they are equally near to 1) *)
Example c63_hyps : let st := hq_init 1 3 (flat 3 (repeat (Fin 1) 9)) (fa_of_vec [Fin 0; Fin 0; Fin 0]) (fa_of_vec [Fin 0; Fin 0; Fin 0]) (flat 3 (repeat (Fin 1) 9)) in
  let H i j := if ((i =? 3) && (j =? 1))%Z then 0 else 1 in
  (1 <= 1)%Z /\ (3 <= 3)%Z /\ mat_is (sH st) 3 3 H /\ (3 <= rows (sH st))%Z /\ full (sH st) /\
  (1 <= sL st < sI st)%Z /\ (sI st <= 3)%Z /\ (1 <= sK st <= sI st + 1)%Z /\ count (sV st) = 3%Z /\ (2 <= fa_len (sV st) <= 3)%Z /\
  (forall j, (1 <= j < 3)%Z -> H (j + 1)%Z j <> 0) /\ ~ negligible H 1 3 2 /\ ~ negligible H 1 3 3.
Proof.
  cbv zeta. split; [lia|]. split; [lia|].
  assert (E : forall i j, (1 <= i <= 3)%Z -> (1 <= j <= 3)%Z -> (i = 1 \/ i = 2 \/ i = 3)%Z /\ (j = 1 \/ j = 2 \/ j = 3)%Z) by (intros; lia).
  split.
  { intros i j Hi Hj. destruct (E i j Hi Hj) as [[-> | [-> | ->]] [-> | [-> | ->]]]; cbn [sH hq_init]; try reflexivity.
    change (Some (f0 : er) = Some (Fin 0)). rewrite er_f0. reflexivity. }
  split; [apply Z.leb_le; reflexivity|]. split; [reflexivity|]. split; [split; [apply Z.leb_le|apply Z.ltb_lt]; reflexivity|].
  split; [apply Z.leb_le; reflexivity|]. split; [split; apply Z.leb_le; reflexivity|]. split; [reflexivity|]. split; [split; apply Z.leb_le; reflexivity|].
  split; [intros j Hj; replace (j =? 1)%Z with (j + 1 =? 2)%Z by (destruct (Z.eqb_spec j 1), (Z.eqb_spec (j + 1) 2); lia || reflexivity); destruct (Z.eqb_spec (j + 1) 3), (Z.eqb_spec (j + 1) 2); cbn [andb]; lra || lia|].
  assert (B970 : bpow radix2 (-970) * 3 < 1).
  { apply Rlt_trans with (bpow radix2 (-970) * bpow radix2 2); [apply Rmult_lt_compat_l; [apply bpow_gt_0|change (bpow radix2 2) with 4; lra]|]. rewrite <- bpow_plus. apply (bpow_lt radix2 _ 0). lia. }
  assert (B52 : bpow radix2 (-52) * 2 < 1).
  { change (bpow radix2 (-52) * bpow radix2 1 < 1). rewrite <- bpow_plus. apply (bpow_lt radix2 _ 0). lia. }
  assert (R1 : Rabs 1 = 1) by (apply Rabs_pos_eq; lra).
  split; unfold negligible, neighbours; cbn [Z.eqb Z.sub Z.add Z.opp Pos.eqb andb Pos.add Z.pos_sub Pos.pred_double Pos.succ]; rewrite R1; rewrite Req_bool_false by lra; intros [Q|[Q _]]; cbn in Q; try lra.
Qed.
