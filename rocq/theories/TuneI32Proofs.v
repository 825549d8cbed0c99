(** ilaenv and iparmq in i32 arithmetic (C49). *)
From Coq Require Import Ascii.
From Verif Require Import Base Num Array Blas Lapack Spec SpecTune I32 I32Proofs TuneI32 SpecLapack ParamProofs TuneProofs.
Open Scope Z_scope.

Lemma i32_of_out z : ~ in_i32 z -> i32_of Debug z = Panic /\ i32_of Release z = Ok (wrap32 z).
Proof.
  intros N. unfold i32_of. destruct (in_i32b z) eqn:E; [|split; reflexivity]. exfalso. apply N. unfold in_i32b in E.
  apply andb_prop in E as [E1 E2]. apply Z.leb_le in E1, E2. split; assumption.
Qed.

Lemma upper_prefix name : substring 1 5 (up_prefix 6 name) = upper_name (substring 1 5 name).
Proof.
  unfold upper_name. assert (E : forall k n s, (n <= k)%nat -> substring 0 n (up_prefix k s) = smap ascii_upper (substring 0 n s)).
  { induction k; intros n s L; [destruct n; [destruct s; reflexivity|lia]|]. destruct s as [|a s]; [destruct n; reflexivity|]. destruct n as [|n]; [reflexivity|].
    cbn [up_prefix substring smap]. f_equal. apply IHk. lia. }
  destruct name as [|a s]; [reflexivity|]. change (substring 1 5 (up_prefix 6 (String a s))) with (substring 0 5 (up_prefix 5 s)).
  apply E. lia.
Qed.

Section Tune.
  Context {F : Type} {NF : Num F}.
  Lemma iparmq_i32_in pr ispec name ilo ihi : in_i32 (ihi - ilo) -> in_i32 (ihi - ilo + 1) ->
    iparmq_i32 pr ispec name ilo ihi = iparmq ispec name ilo ihi.
  Proof.
    intros H1 H2. unfold iparmq_i32. rewrite i32_of_in by exact H1. cbn [bind]. rewrite i32_of_in by exact H2. cbn [bind].
    unfold iparmq. replace (ihi - ilo + 1 - 1 + 1) with (ihi - ilo + 1) by lia. reflexivity.
  Qed.
  Lemma nb_syl subnam c4 cname ts n1 n2 n4 : ilaenv_nb subnam "TR" "SYL" c4 true cname ts n1 n2 n4 = Z.min (Z.max 48 (Z.quot (Z.min n1 n2 * 16) 100)) 240 /\
    ilaenv_nb subnam "TR" "SYL" c4 false cname ts n1 n2 n4 = Z.min (Z.max 24 (Z.quot (Z.min n1 n2 * 8) 100)) 80.
  Proof. split; reflexivity. Qed.
  Lemma ilaenv_i32_in pr ispec name opts n1 n2 n3 n4 : - 2 ^ 27 <= Z.min n1 n2 < 2 ^ 27 -> in_i32 (n3 - n2) -> in_i32 (n3 - n2 + 1) ->
    ilaenv_i32 pr ispec name opts n1 n2 n3 n4 = ilaenv ispec name opts n1 n2 n3 n4.
  Proof.
    intros M H1 H2. unfold ilaenv_i32. destruct ((1 <=? ispec) && (ispec <=? 3)) eqn:E1.
    - unfold ilaenv. rewrite E1. unfold ilaenv_blk_i32, ilaenv_blk. destruct (ilaenv_subnam name) as [s| | |]; cbn [bind]; try reflexivity.
      destruct s as [|c s]; [reflexivity|]. cbv zeta. set (sn := Ascii.eqb c "S" || _). destruct (negb _); [reflexivity|].
      destruct (ispec =? 1); [|reflexivity]. unfold ilaenv_nb_i32.
      destruct (String.eqb_spec (substring 1 2 (String c s)) "TR") as [->|]; [|reflexivity].
      destruct (String.eqb_spec (substring 3 3 (String c s)) "SYL") as [->|]; [|reflexivity]. cbn [andb]. unfold syl_i32.
      destruct sn; (rewrite i32_of_in by (unfold in_i32; lia)); reflexivity.
    - destruct ((12 <=? ispec) && (ispec <=? 17)) eqn:E2; [|reflexivity]. rewrite iparmq_i32_in by assumption.
      apply andb_prop in E2 as [E2 E3]. apply Z.leb_le in E2, E3. destruct (fixed_ok name opts n1 n2 n3 n4) as (_ & _ & _ & _ & _ & FX).
      symmetry. apply FX. lia.
  Qed.
  (** with 1 <= ilo and ihi an i32 that is not far below zero nothing overflows *)
  Lemma iparmq_i32_valid pr ispec name ilo ihi : 1 <= ilo <= 2 ^ 31 - 1 -> 0 <= ihi <= 2 ^ 31 - 1 ->
    iparmq_i32 pr ispec name ilo ihi = iparmq ispec name ilo ihi.
  Proof. intros. apply iparmq_i32_in; unfold in_i32; lia. Qed.

  Lemma syl_cut pr p r opts n1 n2 n3 n4 : real_letter p \/ complex_letter p ->
    ilaenv_i32 pr 1 (String p ("TRSYL" ++ r)) opts n1 n2 n3 n4 =
    if Ascii.eqb p "S" || Ascii.eqb p "D" then syl_i32 pr 16 48 240 (Z.min n1 n2) else syl_i32 pr 8 24 80 (Z.min n1 n2).
  Proof.
    intros P. unfold ilaenv_i32. cbn [Z.leb Z.compare Pos.compare Pos.compare_cont andb]. unfold ilaenv_blk_i32.
    assert (E : ilaenv_subnam (String p ("TRSYL" ++ r)) = Ok (String p ("TRSYL" ++ r))).
    { destruct P as [[-> | ->]|[-> | ->]]; reflexivity. }
    rewrite E. cbn [bind String.append]. cbv zeta.
    assert (N : negb ((Ascii.eqb p "C" || Ascii.eqb p "Z") || (Ascii.eqb p "S" || Ascii.eqb p "D")) = false) by (destruct P as [[-> | ->]|[-> | ->]]; reflexivity).
    rewrite N. cbn [Z.eqb Pos.eqb]. unfold ilaenv_nb_i32.
    destruct r; reflexivity.
  Qed.
  Lemma sylvester_i32 p r opts n1 n2 n3 n4 : in_i32 (Z.min n1 n2) ->
    let m := Z.min n1 n2 in
    (real_letter p -> (m < - 2 ^ 27 \/ 2 ^ 27 <= m) ->
      ilaenv_i32 Debug 1 (String p ("TRSYL" ++ r)) opts n1 n2 n3 n4 = Panic /\
      ilaenv_i32 Release 1 (String p ("TRSYL" ++ r)) opts n1 n2 n3 n4 = Ok (Z.min (Z.max 48 (Z.quot (wrap32 (16 * m)) 100)) 240)) /\
    (complex_letter p -> (m < - 2 ^ 28 \/ 2 ^ 28 <= m) ->
      ilaenv_i32 Debug 1 (String p ("TRSYL" ++ r)) opts n1 n2 n3 n4 = Panic /\
      ilaenv_i32 Release 1 (String p ("TRSYL" ++ r)) opts n1 n2 n3 n4 = Ok (Z.min (Z.max 24 (Z.quot (wrap32 (8 * m)) 100)) 80)).
  Proof.
    intros I m. split; intros P M.
    - rewrite !syl_cut by auto. replace (Ascii.eqb p "S" || Ascii.eqb p "D") with true by (destruct P as [-> | ->]; reflexivity).
      unfold syl_i32. fold m. destruct (i32_of_out (m * 16)) as [-> ->]; [unfold in_i32; lia|]. rewrite (Z.mul_comm 16). split; reflexivity.
    - rewrite !syl_cut by auto. replace (Ascii.eqb p "S" || Ascii.eqb p "D") with false by (destruct P as [-> | ->]; reflexivity).
      unfold syl_i32. fold m. destruct (i32_of_out (m * 8)) as [-> ->]; [unfold in_i32; lia|]. rewrite (Z.mul_comm 8). split; reflexivity.
  Qed.
  (** every other call is free of overflow: the only panics of the i32 version that the unbounded one does not have are those above *)
  Lemma ilaenv_i32_other pr ispec name opts n1 n2 n3 n4 : in_i32 (n3 - n2) -> in_i32 (n3 - n2 + 1) ->
    (ispec <> 1 \/ upper_name (substring 1 5 name) <> "TRSYL"%string) ->
    ilaenv_i32 pr ispec name opts n1 n2 n3 n4 = ilaenv ispec name opts n1 n2 n3 n4.
  Proof.
    intros H1 H2 D. unfold ilaenv_i32. destruct ((1 <=? ispec) && (ispec <=? 3)) eqn:E1.
    - unfold ilaenv. rewrite E1. unfold ilaenv_blk_i32, ilaenv_blk. destruct (ilaenv_subnam name) as [s| | |] eqn:ES; cbn [bind]; try reflexivity.
      destruct s as [|c s]; [reflexivity|]. cbv zeta. destruct (negb _); [reflexivity|].
      destruct (Z.eqb_spec ispec 1) as [->|]; [|reflexivity]. destruct D as [D|D]; [congruence|].
      assert (D1 : substring 1 5 name <> "TRSYL"%string) by (intros X; apply D; rewrite X; reflexivity).
      assert (D2 : substring 1 5 (up_prefix 6 name) <> "TRSYL"%string) by (rewrite upper_prefix; exact D).
      unfold ilaenv_nb_i32. destruct (String.eqb_spec (substring 1 2 (String c s)) "TR") as [E2|]; [|reflexivity].
      destruct (String.eqb_spec (substring 3 3 (String c s)) "SYL") as [E3|]; [|reflexivity]. exfalso.
      assert (T : substring 1 5 (String c s) = "TRSYL"%string).
      { clear -E2 E3. cbn [substring] in *. destruct s as [|a s]; [discriminate|]. destruct s as [|b s]; [discriminate|].
        destruct s as [|d s]; [discriminate|]. destruct s as [|e s]; [discriminate|]. destruct s as [|f s]; [discriminate|].
        cbn [substring] in *. congruence. }
      unfold ilaenv_subnam in ES. destruct name as [|c0 nm]; [discriminate|]. destruct (is_lower c0).
      + destruct (_ <=? _)%nat; [|discriminate]. apply D2. rewrite <- T. f_equal. congruence.
      + injection ES as -> ->. exact (D1 T).
    - destruct ((12 <=? ispec) && (ispec <=? 17)) eqn:E2; [|reflexivity]. rewrite iparmq_i32_in by assumption.
      apply andb_prop in E2 as [E2 E3]. apply Z.leb_le in E2, E3. destruct (fixed_ok name opts n1 n2 n3 n4) as (_ & _ & _ & _ & _ & FX).
      symmetry. apply FX. lia.
  Qed.
End Tune.
