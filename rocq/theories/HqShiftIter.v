(** One QR iteration of dlahqr in exact arithmetic: where it splits, which shifts it takes and where the sweep starts. *)
From Coq Require Import Reals Lra ZArith Lia Bool.
From Flocq Require Import Core.
From Verif Require Import Base Num Array Blas Lapack Dlahqr Spec SpecR SpecDShift ER FaLemmas LahqrProofs LahqrNum HqReflGen HqShift HqShiftStart HqShiftScan.
Open Scope R_scope.

Lemma shifts_pair a b c d s1 s2 : double_shift a b c d s1 s2 -> shift_pair s1 s2.
Proof.
  intros (_ & _ & [[-> _]|[-> [E _]]]); [right; cbn [fst snd]; split; [reflexivity|ring]|left; split; assumption].
Qed.

Lemma block_shifts (h : fa er) n H l i kd : mat_is h n n H -> (1 <= l)%Z -> (l + 2 <= i <= n)%Z -> exists s1 s2 : cplx,
  hq_shifts (hq_block h l i kd) = (Fin (fst s1), Fin (snd s1), Fin (fst s2), Fin (snd s2)) /\ iteration_shifts H l i kd s1 s2 /\ shift_pair s1 s2.
Proof.
  intros M Hl Hi. unfold iteration_shifts. destruct (Z.eqb_spec (kd mod 10) 0) as [E|E].
  - assert (D : (10 | kd)%Z) by (apply Z.mod_divide in E; [exact E|lia]). pose proof (shifts_exceptional h n H l i kd M Hl Hi D) as G.
    destruct (if (kd mod 20 =? 0)%Z then _ else _) as [x s].
    exists (x + 3 / 4 * s, sqrt 7 / 4 * s), (x + 3 / 4 * s, - (sqrt 7 / 4 * s)). cbn [fst snd]. split; [exact G|]. split; [split; reflexivity|].
    right. cbn [fst snd]. split; [reflexivity|ring].
  - destruct (shifts_regular h n H l i kd M ltac:(lia)) as (s1 & s2 & G & D); [intros D; apply E, Z.mod_divide; [lia|exact D]|].
    exists s1, s2. split; [exact G|]. split; [exact D|]. exact (shifts_pair _ _ _ _ _ _ D).
Qed.

Lemma not_negligible H lo hi k : (lo <= hi)%Z -> ~ negligible H lo hi k -> H k (k - 1)%Z <> 0.
Proof.
  intros L N E. apply N. left. rewrite E, Rabs_R0. apply Rmult_le_pos; [apply bpow_ge_0|apply IZR_le; lia].
Qed.

Section Iter.
  Context (wantt wantz : bool) (n ilo ihi iloz ihiz : Z) (I1 : (1 <= ilo <= ihi)%Z) (I2 : (ihi <= n)%Z).
  Lemma drop_is (h : fa er) H l : mat_is h n n H -> (n <= rows h)%Z -> (ilo <= l <= n)%Z ->
    mat_is (if (ilo <? l)%Z then set2 h l (l - 1) f0 else h) n n (drop_left H ilo l).
  Proof.
    intros M R Hl i j Hi Hj. unfold drop_left. destruct (Z.ltb_spec ilo l) as [L|L].
    - unfold set2. rewrite mod2_ent by lia. rewrite andb_true_r. destruct ((i =? l) && (j =? l - 1))%Z; [rewrite M by lia; cbn [option_map]; rewrite er_f0; reflexivity|apply M; assumption].
    - rewrite andb_false_r. apply M; assumption.
  Qed.

  Lemma iter_exact its (st st' : hqst) b H : mat_is (sH st) n n H -> (n <= rows (sH st))%Z -> (ilo <= sL st < sI st)%Z -> (sI st <= ihi)%Z -> three (sV st) ->
    hq_iter wantt wantz ilo ihi iloz ihiz its st = Ok (st', b) ->
    let l := sL st' in let i := sI st in let H1 := drop_left H ilo l in
    (sL st <= l <= i)%Z /\ (l = sL st \/ negligible H ilo ihi l) /\ (forall p, (l < p <= i)%Z -> ~ negligible H ilo ihi p) /\
    b = (i - 1 <=? l)%Z /\
    (b = false -> sKdefl st' = (sKdefl st + 1)%Z /\
      exists s1 s2, iteration_shifts H1 l i (sKdefl st') s1 s2 /\ (l <= sM st' <= i - 2)%Z /\
        (sM st' = l \/ may_start H1 s1 s2 (sM st')) /\ (forall p, (sM st' < p <= i - 2)%Z -> ~ may_start H1 s1 s2 p)).
  Proof.
    intros M R Hl Hi T. unfold hq_iter.
    pose proof (scan_exact (sH st) n H M ilo ihi I1 I2 (sL st) (sI st) (sK st) Hl Hi) as SC. cbv zeta in SC.
    set (k := hq_scan ilo ihi (sH st) (sL st) (sI st) (sK st)) in *. clearbody k. destruct SC as (B & K1 & K2).
    cbv zeta. pose proof (drop_is (sH st) H k M R ltac:(lia)) as MD. set (h1 := if (ilo <? k)%Z then set2 (sH st) k (k - 1) f0 else sH st) in *.
    destruct (Z.leb_spec (sI st - 1) k) as [C|C].
    - intros E. injection E as <- <-. cbn [sL]. split; [exact B|]. split; [exact K1|]. split; [exact K2|]. split; [symmetry; apply Z.leb_le; exact C|discriminate].
    - destruct (block_shifts h1 n (drop_left H ilo k) k (sI st) (sKdefl st + 1) MD ltac:(lia) ltac:(lia)) as (s1 & s2 & ES & IS & SP).
      destruct (start_exact h1 n (drop_left H ilo k) MD s1 s2 k (sI st) (sM st) (sV st) ltac:(lia) ltac:(lia)) as (m & v & kk & w & EM & Bm & _ & _ & _ & _ & M1 & M2); [|exact SP|exact T|].
      { intros j Hj. unfold drop_left. replace (j + 1 =? k)%Z with false by (symmetry; apply Z.eqb_neq; lia). cbn [andb]. replace j with (j + 1 - 1)%Z at 2 by lia.
        apply (not_negligible H ilo ihi); [lia|apply K2; lia]. }
      rewrite ES, EM. destruct (if wantt then _ else _) as [i1 i2].
      destruct (for_M _ _ _) as [[[[h' z'] v'] t']| | |]; cbn [bind]; try discriminate. intros E. injection E as <- <-. cbn [sL sKdefl sM].
      split; [exact B|]. split; [exact K1|]. split; [exact K2|]. split; [symmetry; apply Z.leb_gt; exact C|]. intros _. split; [reflexivity|].
      exists s1, s2. split; [exact IS|]. split; [exact Bm|]. split; [exact M1|exact M2].
  Qed.
End Iter.

Lemma iter_total (wantt wantz : bool) n ilo ihi iloz ihiz its (st : hqst) H :
  (1 <= ilo)%Z -> (ihi <= n)%Z -> mat_is (sH st) n n H -> (n <= rows (sH st))%Z -> full (sH st) ->
  (ilo <= sL st < sI st)%Z -> (sI st <= ihi)%Z -> (ilo <= sK st <= sI st + 1)%Z -> count (sV st) = 3%Z /\ (2 <= fa_len (sV st) <= 3)%Z ->
  exists st' b, hq_iter wantt wantz ilo ihi iloz ihiz its st = Ok (st', b) /\
  let l := sL st' in let i := sI st in let H1 := drop_left H ilo l in
  (sL st <= l <= i)%Z /\ (l = sL st \/ negligible H ilo ihi l) /\ (forall p, (l < p <= i)%Z -> ~ negligible H ilo ihi p) /\
  b = (i - 1 <=? l)%Z /\
  (b = false -> sKdefl st' = (sKdefl st + 1)%Z /\
    exists s1 s2, iteration_shifts H1 l i (sKdefl st') s1 s2 /\ (l <= sM st' <= i - 2)%Z /\
      (sM st' = l \/ may_start H1 s1 s2 (sM st')) /\ (forall p, (sM st' < p <= i - 2)%Z -> ~ may_start H1 s1 s2 p)).
Proof.
  intros H1 H2 M R FU HL HI HK T.
  destruct (hq_iter_ok wantt wantz ilo ihi iloz ihiz (sH st) (sWr st) (sWi st) (sZ st) its st FU) as (st' & b & E & _); [|lia|exact HK|lia|].
  { split; [apply same_shape_refl|]. split; [split; [apply same_shape_refl|reflexivity]|]. split; [split; [apply same_shape_refl|reflexivity]|].
    split; [apply same_shape_refl|]. split; [reflexivity|exact T]. }
  exists st', b. split; [exact E|]. exact (iter_exact wantt wantz n ilo ihi iloz ihiz ltac:(lia) H2 its st st' b H M R HL HI T E).
Qed.
