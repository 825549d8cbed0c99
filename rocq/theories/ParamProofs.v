(** iparmq and ilaenv. *)
From Flocq Require Import IEEE754.BinarySingleNaN Core.
From Coq Require Import Ascii Reals Lra.
From Verif Require Import Base Num Blas Lapack SpecLapack B64 ER IeeeProofs.
Open Scope Z_scope.

Section Param.
  Context {F : Type} {NF : Num F}.

  (** the logarithm of an order between 150 and 589 does not round to 0 *)
  Definition log_ok : Prop := forall n, 150 <= n < 590 -> fround_i32 (flog (fofZ n) f2) <> 0.

  Lemma iparmq_ns_two ispec nh : iparmq_ns ispec nh = Ok 2 \/ iparmq_ns ispec nh = Panic.
  Proof.
    unfold iparmq_ns. destruct (_ || _); auto. destruct (nh <? 150); [left; reflexivity|].
    destruct (nh <? 590); [|left; reflexivity]. destruct (_ =? 0); [right|left]; reflexivity.
  Qed.
  Lemma iparmq_ns_ok ispec nh : log_ok -> iparmq_ns ispec nh = Ok 2.
  Proof.
    intros L. unfold iparmq_ns. destruct (_ || _); auto. destruct (Z.ltb_spec nh 150); [reflexivity|].
    destruct (Z.ltb_spec nh 590); [|reflexivity]. destruct (Z.eqb_spec (fround_i32 (flog (fofZ nh) f2)) 0); [|reflexivity].
    exfalso. apply (L nh); auto; lia.
  Qed.

  Lemma str_slice_ok s a b : (b <= String.length s)%nat -> exists t, str_slice s a b = Ok t.
  Proof. intros H. unfold str_slice. apply Nat.leb_le in H. rewrite H. eauto. Qed.
  Lemma up_prefix_length k s : String.length (up_prefix k s) = String.length s.
  Proof. revert s; induction k; intros [|a s]; cbn; auto. Qed.

  Lemma iparmq_acc_ok name nh ns : (6 <= String.length name)%nat -> exists r, iparmq_acc name nh ns = Ok r /\ 0 <= r <= 2.
  Proof.
    intros H. unfold iparmq_acc. destruct name as [|c0 name']; [cbn in H; lia|].
    set (name := String c0 name') in *.
    assert (L : (6 <= String.length (if is_lower c0 then up_prefix 6 name else name))%nat)
      by (destruct (is_lower c0); [rewrite up_prefix_length|]; assumption).
    revert L. generalize (if is_lower c0 then up_prefix 6 name else name). intros s L.
    destruct (str_slice_ok s 1 6 ltac:(lia)) as [t1 ->]. destruct (str_slice_ok s 3 6 ltac:(lia)) as [t2 ->].
    destruct (str_slice_ok s 1 5 ltac:(lia)) as [t3 ->]. cbn [bind].
    repeat match goal with |- context [if ?b then _ else _] => destruct b end; eexists; (split; [reflexivity|lia]).
  Qed.

  Lemma iparmq_total ispec name ilo ihi : log_ok -> (6 <= String.length name)%nat -> exists r,
    iparmq ispec name ilo ihi = Ok r /\ (ispec = 16 -> 0 <= r <= 2) /\ (ispec = 15 -> r = 2) /\
    (ispec = 13 -> r = if ihi - ilo + 1 <? 500 then 2 else 3) /\
    (ispec = 12 -> r = 75) /\ (ispec = 14 -> r = 14) /\ (ispec = 17 -> r = 10) /\ (ispec < 12 \/ 17 < ispec -> r = -1).
  Proof.
    intros L H. unfold iparmq. rewrite iparmq_ns_ok by assumption. cbn [bind].
    destruct (iparmq_acc_ok name (ihi - ilo + 1) 2 H) as (r & -> & Hr).
    destruct (Z.eqb_spec ispec 12); [eexists; split; [reflexivity|]; repeat apply conj; lia|].
    destruct (Z.eqb_spec ispec 14); [eexists; split; [reflexivity|]; repeat apply conj; lia|].
    destruct (Z.eqb_spec ispec 15); [eexists; split; [reflexivity|]; repeat apply conj; lia|].
    destruct (Z.eqb_spec ispec 13).
    { destruct (ihi - ilo + 1 <? 500); eexists; (split; [reflexivity|]); repeat apply conj; (reflexivity || lia). }
    destruct (Z.eqb_spec ispec 16); [eexists; split; [reflexivity|]; repeat apply conj; lia|].
    destruct (Z.eqb_spec ispec 17); [eexists; split; [reflexivity|]; repeat apply conj; lia|].
    eexists; split; [reflexivity|]; repeat apply conj; lia.
  Qed.

  Lemma iparmq_short ilo ihi : log_ok -> iparmq 16 "" ilo ihi = Panic /\ iparmq 16 "DLAQR" ilo ihi = Panic.
  Proof. intros L. unfold iparmq. rewrite iparmq_ns_ok by assumption. split; reflexivity. Qed.

  (** the shifts do not grow with the order *)
  Lemma iparmq_shifts_wrong name ilo ihi : log_ok -> 30 <= ihi - ilo + 1 -> iparmq 15 name ilo ihi = Ok 2 /\ 2 < documented_shifts_min (ihi - ilo + 1).
  Proof.
    intros L H. unfold iparmq. rewrite iparmq_ns_ok by assumption. split; [reflexivity|].
    unfold documented_shifts_min.
    repeat match goal with |- context [if (?a <? ?b) then _ else _] => destruct (Z.ltb_spec a b); try lia end.
  Qed.
  (** with 14 or more rows xTGEXC gets mode 1, not 2, and xHSEQR never gets another mode than 0 *)
  Lemma iparmq_modes ilo ihi : log_ok -> 14 <= ihi - ilo + 1 ->
    iparmq 16 "DTGEXC" ilo ihi = Ok 1 /\ iparmq 16 "DHSEQR" ilo ihi = Ok 0 /\ iparmq 16 "DGGHRD" ilo ihi = Ok 2.
  Proof.
    intros L H. unfold iparmq. rewrite iparmq_ns_ok by assumption. cbn -[Z.leb Z.sub Z.add].
    destruct (Z.leb_spec 14 (ihi - ilo + 1)); [repeat split; reflexivity|lia].
  Qed.

  (** ** ilaenv *)
  Lemma chr_code a : chr a = ascii_code a.
  Proof. reflexivity. Qed.

  Lemma ilaenv_blk_ok ispec name n1 n2 n4 : (6 <= String.length name)%nat -> 1 <= ispec <= 3 ->
    exists r, ilaenv_blk ispec name n1 n2 n4 = Ok r /\ 0 <= r.
  Proof.
    intros H Hi. unfold ilaenv_blk.
    assert (exists s, ilaenv_subnam name = Ok s /\ (6 <= String.length s)%nat) as (s & -> & L).
    { unfold ilaenv_subnam. destruct name as [|c0 name']; [cbn in H; lia|]. set (name := String c0 name') in *.
      destruct (is_lower c0); [|eauto]. destruct (Nat.leb_spec 6 (String.length name)); [|lia].
      eexists. split; [reflexivity|]. rewrite up_prefix_length. assumption. }
    cbn [bind]. destruct s as [|c1 s]; [cbn in L; lia|]. set (sub := String c1 s).
    destruct (negb _); [eexists; split; [reflexivity|lia]|].
    destruct (Z.eqb_spec ispec 1); [|destruct (Z.eqb_spec ispec 2); [|destruct (Z.eqb_spec ispec 3); [|lia]]];
      (eexists; split; [reflexivity|]).
    - unfold ilaenv_nb. repeat match goal with |- context [if ?b then _ else _] => destruct b; try lia end.
    - unfold ilaenv_nbmin. repeat match goal with |- context [if ?b then _ else _] => destruct b; try lia end.
    - unfold ilaenv_nx. repeat match goal with |- context [if ?b then _ else _] => destruct b; try lia end.
  Qed.

  Lemma ilaenv_total ispec name opts n1 n2 n3 n4 : log_ok -> (6 <= String.length name)%nat ->
    exists r, ilaenv ispec name opts n1 n2 n3 n4 = Ok r /\ (1 <= ispec <= 3 -> 0 <= r) /\ (ispec < 1 \/ 17 < ispec -> r = -1).
  Proof.
    intros L H. unfold ilaenv.
    destruct (Z.leb_spec 1 ispec), (Z.leb_spec ispec 3); cbn [andb].
    1:{ destruct (ilaenv_blk_ok ispec name n1 n2 n4 H ltac:(lia)) as (r & -> & Hr). eexists; split; [reflexivity|]. split; auto; lia. }
    all: destruct (iparmq_total ispec name n2 n3 L H) as (q & -> & _);
      repeat match goal with |- context [if (?a =? ?b)%Z then _ else _] => destruct (Z.eqb_spec a b); [eexists; split; [reflexivity|]; split; lia|] end;
      destruct (Z.leb_spec 12 ispec), (Z.leb_spec ispec 17); cbn [andb]; eexists; (split; [reflexivity|]); split; lia.
  Qed.

  Lemma ilaenv_unknown ispec name opts n1 n2 n3 n4 : ispec < 1 \/ 17 < ispec -> ilaenv ispec name opts n1 n2 n3 n4 = Ok (-1).
  Proof.
    intros H. unfold ilaenv.
    destruct (Z.leb_spec 1 ispec), (Z.leb_spec ispec 3); cbn [andb]; try lia;
      repeat match goal with |- context [if (?a =? ?b)%Z then _ else _] => destruct (Z.eqb_spec a b); [lia|] end;
      destruct (Z.leb_spec 12 ispec), (Z.leb_spec ispec 17); cbn [andb]; try lia; reflexivity.
  Qed.

  (** characters *)
  Lemma ascii_cases (P : ascii -> bool) : (forallb (fun n => P (ascii_of_nat n)) (seq 0 256) = true) -> forall a, P a = true.
  Proof.
    intros H a. rewrite forallb_forall in H. rewrite <- (ascii_nat_embedding a). apply H. apply in_seq.
    pose proof (nat_ascii_bounded a). lia.
  Qed.
  Definition aeq (a b : ascii) : bool := Ascii.eqb a b.
  Lemma up_lower a : up_ascii (ascii_lower a) = up_ascii a.
  Proof. apply Ascii.eqb_eq. revert a. apply ascii_cases. vm_compute. reflexivity. Qed.
  Lemma up_upper a : up_ascii (ascii_upper a) = up_ascii a.
  Proof. apply Ascii.eqb_eq. revert a. apply ascii_cases. vm_compute. reflexivity. Qed.
  Lemma upper_up a : ascii_upper a = up_ascii a.
  Proof. apply Ascii.eqb_eq. revert a. apply ascii_cases. vm_compute. reflexivity. Qed.
  Lemma is_lower_upper a : is_lower (ascii_upper a) = false.
  Proof. apply negb_true_iff. revert a. apply ascii_cases. vm_compute. reflexivity. Qed.
  (** a character whose lower-case form is not a letter is the same in both cases *)
  Lemma not_letter a : is_lower (ascii_lower a) = false -> ascii_lower a = a /\ ascii_upper a = a.
  Proof.
    intros H. cut (implb (negb (is_lower (ascii_lower a))) (Ascii.eqb (ascii_lower a) a && Ascii.eqb (ascii_upper a) a) = true).
    - rewrite H. cbn. intros E. apply andb_prop in E as [E1 E2]. split; apply Ascii.eqb_eq; assumption.
    - clear H. revert a. apply ascii_cases. vm_compute. reflexivity.
  Qed.
  Lemma letter2 a : Ascii.eqb (ascii_lower a) "2" = Ascii.eqb (ascii_upper a) "2".
  Proof. apply Bool.eqb_prop. revert a. apply ascii_cases. vm_compute. reflexivity. Qed.

  (** the first six characters of the two spellings *)
  Lemma prefix_spell k s : forall m, (k <= m)%nat ->
    substring 0 k (up_prefix m (lower_name s)) = substring 0 k (up_prefix m (upper_name s)) /\
    substring 0 k (up_prefix m (lower_name s)) = substring 0 k (upper_name s).
  Proof.
    revert k. induction s as [|a s IH]; intros k m H.
    - destruct m; split; reflexivity.
    - destruct m as [|m]; [replace k with O by lia; split; reflexivity|].
      destruct k as [|k]; [split; reflexivity|].
      destruct (IH k m ltac:(lia)) as [E1 E2].
      unfold lower_name, upper_name in *. cbn [smap up_prefix substring]. rewrite up_lower, E1. split; [f_equal; symmetry; apply up_upper|].
      rewrite <- E1, E2. f_equal; symmetry; apply upper_up.
  Qed.
  Lemma substring_take n s k : forall j, (j + k <= n)%nat -> substring j k s = substring j k (substring 0 n s).
  Proof.
    revert n k. induction s as [|a s IH]; intros n k j H.
    - destruct n, j, k; reflexivity.
    - destruct n as [|n].
      + replace j with O by lia. replace k with O by lia. reflexivity.
      + destruct j as [|j].
        * destruct k as [|k]; [reflexivity|]. cbn [substring]. f_equal. apply (IH n k 0%nat). lia.
        * cbn [substring]. apply IH. lia.
  Qed.
  Lemma get_substring n s : forall j, (j < n)%nat -> String.get j s = String.get j (substring 0 n s).
  Proof.
    revert n. induction s as [|a s IH]; intros n j H.
    - destruct n; reflexivity.
    - destruct n; [lia|]. destruct j; [reflexivity|]. cbn. apply IH. lia.
  Qed.
  Lemma get_prefix_beyond m s : forall j, (m <= j)%nat -> String.get j (up_prefix m s) = String.get j s.
  Proof.
    revert m. induction s as [|a s IH]; intros m j H.
    - destruct m; reflexivity.
    - destruct m; [reflexivity|]. destruct j; [lia|]. cbn. apply IH. lia.
  Qed.
  Lemma get_smap f s : forall j, String.get j (smap f s) = option_map f (String.get j s).
  Proof. induction s as [|a s IH]; intros [|j]; cbn; auto. Qed.
  Lemma smap_length f s : String.length (smap f s) = String.length s.
  Proof. induction s; cbn; auto. Qed.

  (** two names that agree on the first six characters, on the length and on "the eleventh is '2'" *)
  Definition same_key (s t : string) : Prop :=
    substring 0 6 s = substring 0 6 t /\ String.length s = String.length t /\
    (match String.get 10 s with Some a => Ascii.eqb a "2" | None => false end =
     match String.get 10 t with Some a => Ascii.eqb a "2" | None => false end).

  Lemma four_not_five s : (substring 3 4 s =? "QP3RK")%string = false.
  Proof.
    apply String.eqb_neq. intros E. assert (L : String.length (substring 3 4 s) = 5%nat) by (rewrite E; reflexivity).
    assert (G : forall k j t, (String.length (substring j k t) <= k)%nat).
    { intros k j t. revert k j. induction t as [|a t IH]; intros [|k] [|j]; cbn; try lia; try apply le_n_S; try apply IH. }
    specialize (G 4%nat 3%nat s). lia.
  Qed.

  Definition blk_tail (ispec : Z) (subnam : string) (n1 n2 n4 : Z) : outcome Z :=
    match subnam with
    | EmptyString => Panic
    | String c1 _ =>
        let sname := Ascii.eqb c1 "S" || Ascii.eqb c1 "D" in
        let cname := Ascii.eqb c1 "C" || Ascii.eqb c1 "Z" in
        if negb (cname || sname) then Ok 1%Z
        else
          let c2 := substring 1 2 subnam in
          let c3 := substring 3 3 subnam in
          let c4 := substring 1 2 c3 in
          let twostage := (11 <=? String.length subnam)%nat
                          && match String.get 10 subnam with
                             | Some a => Ascii.eqb a "2" | None => false end in
          if (ispec =? 1)%Z then Ok (ilaenv_nb subnam c2 c3 c4 sname cname twostage n1 n2 n4)
          else if (ispec =? 2)%Z then Ok (ilaenv_nbmin subnam c2 c3 c4 sname cname)
          else if (ispec =? 3)%Z then Ok (ilaenv_nx subnam c2 c3 c4 sname cname)
          else Ok (-1)%Z
    end.

  Lemma blk_same ispec s t n1 n2 n4 : same_key s t -> blk_tail ispec s n1 n2 n4 = blk_tail ispec t n1 n2 n4.
  Proof.
    intros (E6 & El & E10).
    assert (SB : forall j k, (j + k <= 6)%nat -> substring j k s = substring j k t).
    { intros j k H. rewrite (substring_take 6 s k j H), E6, <- (substring_take 6 t k j H). reflexivity. }
    destruct s as [|c s], t as [|d t]; try discriminate; auto.
    assert (c = d) by (cbn in E6; congruence). subst d.
    unfold blk_tail. rewrite (SB 1 2)%nat, (SB 3 3)%nat, El, E10 by lia.
    destruct (negb _); [reflexivity|].
    destruct (ispec =? 1); [|destruct (ispec =? 2); [|destruct (ispec =? 3); [|reflexivity]]]; f_equal.
    - unfold ilaenv_nb. rewrite (SB 1 5)%nat by lia. rewrite !four_not_five. reflexivity.
    - unfold ilaenv_nbmin. rewrite !four_not_five. reflexivity.
    - unfold ilaenv_nx. rewrite !four_not_five. reflexivity.
  Qed.

  Lemma key_spell name : same_key (up_prefix 6 (lower_name name)) (upper_name name).
  Proof.
    split; [apply prefix_spell; lia|]. split.
    - rewrite up_prefix_length. unfold lower_name, upper_name. rewrite !smap_length. reflexivity.
    - rewrite get_prefix_beyond by lia. unfold lower_name, upper_name. rewrite !get_smap.
      destruct (String.get 10 name); cbn [option_map]; [apply letter2|reflexivity].
  Qed.

  Lemma ilaenv_blk_case ispec name n1 n2 n4 : (6 <= String.length name)%nat ->
    ilaenv_blk ispec (lower_name name) n1 n2 n4 = ilaenv_blk ispec (upper_name name) n1 n2 n4.
  Proof.
    intros H. pose proof (key_spell name) as K.
    destruct name as [|a s]; [cbn in H; lia|].
    unfold ilaenv_blk.
    assert (EU : ilaenv_subnam (upper_name (String a s)) = Ok (upper_name (String a s))).
    { unfold upper_name. cbn [smap ilaenv_subnam]. rewrite is_lower_upper. reflexivity. }
    rewrite EU. cbn [bind].
    destruct (is_lower (ascii_lower a)) eqn:La.
    - assert (EL : ilaenv_subnam (lower_name (String a s)) = Ok (up_prefix 6 (lower_name (String a s)))).
      { unfold lower_name. cbn [smap ilaenv_subnam]. rewrite La. 
        assert (LN : (6 <=? String.length (String (ascii_lower a) (smap ascii_lower s)))%nat = true).
        { apply Nat.leb_le. cbn [String.length] in *. rewrite smap_length. assumption. }
        rewrite LN. reflexivity. }
      rewrite EL. cbn [bind]. exact (blk_same ispec _ _ n1 n2 n4 K).
    - destruct (not_letter a La) as [E1 E2].
      assert (NL : is_lower a = false) by congruence.
      assert (EL : ilaenv_subnam (lower_name (String a s)) = Ok (lower_name (String a s))).
      { unfold lower_name. cbn [smap ilaenv_subnam]. rewrite La. reflexivity. }
      rewrite EL. cbn [bind]. unfold lower_name, upper_name. cbn [smap]. rewrite E1, E2.
      assert (NC : negb ((Ascii.eqb a "C" || Ascii.eqb a "Z") || (Ascii.eqb a "S" || Ascii.eqb a "D")) = true).
      { apply negb_true_iff. revert La. cut (implb (negb (is_lower (ascii_lower a))) (negb ((Ascii.eqb a "C" || Ascii.eqb a "Z") || (Ascii.eqb a "S" || Ascii.eqb a "D"))) = true).
        - intros HI La. rewrite La in HI. cbn [negb implb] in HI. apply negb_true_iff in HI. exact HI.
        - clear. revert a. apply ascii_cases. vm_compute. reflexivity. }
      cbv zeta. rewrite NC. reflexivity.
  Qed.

  Lemma iparmq_acc_case name nh ns : (6 <= String.length name)%nat -> starts_with_letter name ->
    iparmq_acc (lower_name name) nh ns = iparmq_acc (upper_name name) nh ns.
  Proof.
    intros H La. pose proof (key_spell name) as (E6 & El & _).
    assert (LU : (6 <= String.length (upper_name name))%nat) by (unfold upper_name; rewrite smap_length; assumption).
    assert (SL : forall s t j k, substring 0 6 s = substring 0 6 t -> (6 <= String.length s)%nat -> (6 <= String.length t)%nat -> (k <= 6)%nat ->
      str_slice s j k = str_slice t j k).
    { intros s t j k E Ls Lt Hk. unfold str_slice.
      destruct (Nat.leb_spec k (String.length s)), (Nat.leb_spec k (String.length t)); try lia. f_equal.
      destruct (Nat.le_gt_cases j k).
      - rewrite (substring_take 6 s (k - j) j), (substring_take 6 t (k - j) j), E by lia. reflexivity.
      - replace (k - j)%nat with O by lia.
        assert (Z0 : forall u i, substring i 0 u = EmptyString).
        { induction u as [|a u IH]; intros [|i]; cbn; auto. }
        rewrite !Z0. reflexivity. }
    assert (TAIL : forall s t, substring 0 6 s = substring 0 6 t -> (6 <= String.length s)%nat -> (6 <= String.length t)%nat ->
      (s16 <- str_slice s 1 6 ;;
        if (s16 =? "GGHRD")%string || (s16 =? "GGHD3")%string then
          if (14 <=? nh)%Z then Ok 2%Z else Ok 1%Z
        else
          s36 <- str_slice s 3 6 ;;
          if (s36 =? "EXC")%string then
            if (14 <=? nh)%Z then Ok 1%Z else if (14 <=? nh)%Z then Ok 2%Z else Ok 0%Z
          else
            s15 <- str_slice s 1 5 ;;
            if (s16 =? "HSEQR")%string || (s15 =? "LAQR")%string then
              if (14 <=? ns)%Z then Ok 1%Z else if (14 <=? ns)%Z then Ok 2%Z else Ok 0%Z
            else Ok 0%Z) =
      (s16 <- str_slice t 1 6 ;;
        if (s16 =? "GGHRD")%string || (s16 =? "GGHD3")%string then
          if (14 <=? nh)%Z then Ok 2%Z else Ok 1%Z
        else
          s36 <- str_slice t 3 6 ;;
          if (s36 =? "EXC")%string then
            if (14 <=? nh)%Z then Ok 1%Z else if (14 <=? nh)%Z then Ok 2%Z else Ok 0%Z
          else
            s15 <- str_slice t 1 5 ;;
            if (s16 =? "HSEQR")%string || (s15 =? "LAQR")%string then
              if (14 <=? ns)%Z then Ok 1%Z else if (14 <=? ns)%Z then Ok 2%Z else Ok 0%Z
            else Ok 0%Z)).
    { intros s t E Ls Lt. rewrite !(SL s t) by (assumption || lia). reflexivity. }
    destruct name as [|a s]; [cbn in H; lia|].
    unfold iparmq_acc. unfold lower_name, upper_name in *. cbn [smap] in *. rewrite is_lower_upper.
    assert (La' : is_lower (ascii_lower a) = true).
    { destruct (is_lower (ascii_lower a)) eqn:E; [reflexivity|]. destruct (not_letter a E). cbn in La. congruence. }
    rewrite La'. apply TAIL; [exact E6| |assumption]. rewrite El. assumption.
  Qed.

  Lemma iparmq_case ispec name ilo ihi : (6 <= String.length name)%nat -> starts_with_letter name ->
    iparmq ispec (lower_name name) ilo ihi = iparmq ispec (upper_name name) ilo ihi.
  Proof. intros H L. unfold iparmq. destruct (iparmq_ns ispec (ihi - ilo + 1)); cbn [bind]; try reflexivity.
    rewrite iparmq_acc_case by assumption. reflexivity. Qed.

  Lemma ilaenv_case ispec name opts n1 n2 n3 n4 : (6 <= String.length name)%nat -> starts_with_letter name ->
    ilaenv ispec (lower_name name) opts n1 n2 n3 n4 = ilaenv ispec (upper_name name) opts n1 n2 n3 n4.
  Proof. intros H L. unfold ilaenv. rewrite iparmq_case, ilaenv_blk_case by assumption. reflexivity. Qed.
End Param.

Lemma log_ok_b64 lm : libm_ok lm -> log_ok (NF := B64 lm).
Proof. intros H n Hn. exact (ln_ratio lm H n Hn). Qed.

Lemma log_ok_er : log_ok (F := er).
Proof.
  intros n Hn. rewrite er_fofZ, er_f2. cbn [flog fround_i32 ER].
  assert (P : (1 < IZR n)%R) by (apply (IZR_lt 1); lia).
  unfold er_ln. rewrite !Rlt_bool_true by lra.
  assert (L2 : (0 < ln 2)%R) by (rewrite <- ln_1; apply ln_increasing; lra).
  change (er_div (Fin (ln (IZR n))) (Fin (ln 2))) with (fdiv (Fin (ln (IZR n))) (Fin (ln 2))).
  rewrite er_divE by lra. cbn [er_round_i32].
  assert (LO : (1 <= ln (IZR n) / ln 2)%R).
  { apply Rmult_le_reg_r with (ln 2); [assumption|]. unfold Rdiv. rewrite Rmult_assoc, Rinv_l by lra.
    rewrite Rmult_1_r, Rmult_1_l. apply Rlt_le, ln_increasing; [lra|]. apply (IZR_lt 2). lia. }
  assert (Z1 : (1 <= Znearest (fun z => (0 <=? z)%Z) (ln (IZR n) / ln 2))%Z).
  { etransitivity; [|apply Znearest_ge_floor]. apply Zfloor_lub. exact LO. }
  unfold clamp_i32. lia.
Qed.

Lemma iparmq_er ispec name ilo ihi : (6 <= String.length name)%nat -> exists r,
  iparmq (F := er) ispec name ilo ihi = Ok r /\ (ispec = 16 -> 0 <= r <= 2) /\ (ispec = 15 -> r = 2) /\
  (ispec = 13 -> r = if ihi - ilo + 1 <? 500 then 2 else 3) /\
  (ispec = 12 -> r = 75) /\ (ispec = 14 -> r = 14) /\ (ispec = 17 -> r = 10) /\ (ispec < 12 \/ 17 < ispec -> r = -1).
Proof. exact (iparmq_total ispec name ilo ihi log_ok_er). Qed.
Lemma iparmq_b64 lm ispec name ilo ihi : libm_ok lm -> (6 <= String.length name)%nat -> exists r,
  iparmq (NF := B64 lm) ispec name ilo ihi = Ok r /\ (ispec = 16 -> 0 <= r <= 2) /\ (ispec = 15 -> r = 2) /\
  (ispec = 13 -> r = if ihi - ilo + 1 <? 500 then 2 else 3) /\
  (ispec = 12 -> r = 75) /\ (ispec = 14 -> r = 14) /\ (ispec = 17 -> r = 10) /\ (ispec < 12 \/ 17 < ispec -> r = -1).
Proof. intros H. exact (iparmq_total (NF := B64 lm) ispec name ilo ihi (log_ok_b64 lm H)). Qed.
Lemma iparmq_shifts_b64 lm name ilo ihi : libm_ok lm -> 30 <= ihi - ilo + 1 ->
  iparmq (NF := B64 lm) 15 name ilo ihi = Ok 2 /\ 2 < documented_shifts_min (ihi - ilo + 1).
Proof. intros H. exact (iparmq_shifts_wrong (NF := B64 lm) name ilo ihi (log_ok_b64 lm H)). Qed.
Lemma iparmq_modes_b64 lm ilo ihi : libm_ok lm -> 14 <= ihi - ilo + 1 ->
  iparmq (NF := B64 lm) 16 "DTGEXC" ilo ihi = Ok 1 /\ iparmq (NF := B64 lm) 16 "DHSEQR" ilo ihi = Ok 0 /\
  iparmq (NF := B64 lm) 16 "DGGHRD" ilo ihi = Ok 2.
Proof. intros H. exact (iparmq_modes (NF := B64 lm) ilo ihi (log_ok_b64 lm H)). Qed.
Lemma iparmq_short_b64 lm ilo ihi : libm_ok lm ->
  iparmq (NF := B64 lm) 16 "" ilo ihi = Panic /\ iparmq (NF := B64 lm) 16 "DLAQR" ilo ihi = Panic.
Proof. intros H. exact (iparmq_short (NF := B64 lm) ilo ihi (log_ok_b64 lm H)). Qed.

Lemma ilaenv_b64 lm ispec name opts n1 n2 n3 n4 : libm_ok lm -> (6 <= String.length name)%nat ->
  exists r, ilaenv (NF := B64 lm) ispec name opts n1 n2 n3 n4 = Ok r /\ (1 <= ispec <= 3 -> 0 <= r) /\
    (ispec < 1 \/ 17 < ispec -> r = -1).
Proof. intros H. exact (ilaenv_total (NF := B64 lm) ispec name opts n1 n2 n3 n4 (log_ok_b64 lm H)). Qed.

Lemma ilaenv_panics (F : Type) (NF : Num F) opts n1 n2 n3 n4 :
  ilaenv 1 "" opts n1 n2 n3 n4 = Panic /\ ilaenv 1 "dgemm" opts n1 n2 n3 n4 = Panic /\
  ilaenv 1 "DGEMM" opts n1 n2 n3 n4 = Ok 1.
Proof. repeat split; reflexivity. Qed.
