(** The tables of ilaenv and iparmq. *)
From Coq Require Import Ascii.
From Verif Require Import Base Num Array Blas Lapack Spec SpecLapack SpecTune ParamProofs.
Open Scope Z_scope.

Section Tune.
  Context {F : Type} {NF : Num F}.

  Lemma five s : String.length s = 5%nat -> exists a b c d e, s = String a (String b (String c (String d (String e "")))).
  Proof.
    destruct s as [|a [|b [|c [|d [|e [|f s]]]]]]; cbn; try discriminate. eauto 10.
  Qed.
  Lemma sub00 s : substring 0 0 s = ""%string.
  Proof. destruct s; reflexivity. Qed.

  Lemma eqb_sym s t : (s =? t)%string = (t =? s)%string.
  Proof. apply String.eqb_sym. Qed.
  Lemma eqb5 is2 a b t u1 u2 v : is2 = String.eqb -> (String u1 (String u2 v) =? String a (String b t))%string =
    is2 (String a (String b "")) (String u1 (String u2 "")) && is2 t v.
  Proof.
    intros ->.
    cbn [String.eqb]. rewrite (Ascii.eqb_sym u1), (Ascii.eqb_sym u2), (String.eqb_sym v).
    destruct (Ascii.eqb a u1), (Ascii.eqb b u2); reflexivity.
  Qed.

  (** what a name of the right form is cut into *)
  Definition cut (ispec : Z) (p a b c d e : ascii) (r : string) (n1 n2 n4 : Z) : Z :=
    let c2 := String a (String b "") in
    let c3 := String c (String d (String e "")) in
    let c4 := String d (String e "") in
    let sname := Ascii.eqb p "S" || Ascii.eqb p "D" in
    let cname := Ascii.eqb p "C" || Ascii.eqb p "Z" in
    let two := match String.get 4 r with Some x => Ascii.eqb x "2" | None => false end in
    if (ispec =? 1)%Z then ilaenv_nb (String p (c2 ++ c3)) c2 c3 c4 sname cname two n1 n2 n4
    else if (ispec =? 2)%Z then ilaenv_nbmin (String p (c2 ++ c3)) c2 c3 c4 sname cname
    else if (ispec =? 3)%Z then ilaenv_nx (String p (c2 ++ c3)) c2 c3 c4 sname cname
    else -1.

  Lemma get_len n s x : String.get n s = Some x -> (n < String.length s)%nat.
  Proof. revert n. induction s as [|y s IH]; intros [|n]; cbn; try discriminate; [lia|]. intros H. apply IH in H. lia. Qed.

  Lemma ilaenv_cut ispec p a b c d e r opts n1 n2 n3 n4 : real_letter p \/ complex_letter p -> 1 <= ispec <= 3 ->
    ilaenv ispec (String p (String a (String b (String c (String d (String e r)))))) opts n1 n2 n3 n4 =
    Ok (cut ispec p a b c d e r n1 n2 n4).
  Proof.
    intros P I. unfold ilaenv. destruct (Z.leb_spec 1 ispec), (Z.leb_spec ispec 3); try lia. cbn [andb].
    unfold ilaenv_blk.
    assert (E : ilaenv_subnam (String p (String a (String b (String c (String d (String e r)))))) =
      Ok (String p (String a (String b (String c (String d (String e r))))))).
    { unfold ilaenv_subnam. destruct P as [[-> | ->]|[-> | ->]]; reflexivity. }
    rewrite E. cbn [bind].
    assert (N : negb ((Ascii.eqb p "C" || Ascii.eqb p "Z") || (Ascii.eqb p "S" || Ascii.eqb p "D")) = false).
    { destruct P as [[-> | ->]|[-> | ->]]; reflexivity. }
    rewrite N. cbn [substring]. rewrite !sub00.
    assert (T : ((11 <=? String.length (String p (String a (String b (String c (String d (String e r)))))))%nat &&
      match String.get 10 (String p (String a (String b (String c (String d (String e r)))))) with Some x => Ascii.eqb x "2" | None => false end) =
      match String.get 4 r with Some x => Ascii.eqb x "2" | None => false end).
    { cbn [String.length String.get]. destruct (String.get 4 r) as [x|] eqn:G.
      - apply get_len in G. replace (_ <=? _)%nat with true; [reflexivity|]. symmetry. apply Nat.leb_le. lia.
      - apply Bool.andb_false_r. }
    rewrite T. unfold cut.
    destruct (ispec =? 1); [|destruct (ispec =? 2); [|destruct (ispec =? 3); [|reflexivity]]];
      f_equal; [unfold ilaenv_nb|unfold ilaenv_nbmin|unfold ilaenv_nx]; rewrite ?four_not_five; cbn [substring String.append]; rewrite ?sub00; reflexivity.
  Qed.

  Lemma letters p : real_letter p \/ complex_letter p ->
    (real_letter p /\ (Ascii.eqb p "S" || Ascii.eqb p "D") = true /\ (Ascii.eqb p "C" || Ascii.eqb p "Z") = false) \/
    (complex_letter p /\ (Ascii.eqb p "S" || Ascii.eqb p "D") = false /\ (Ascii.eqb p "C" || Ascii.eqb p "Z") = true).
  Proof. intros [P|P]; [left|right]; (split; [exact P|]); destruct P as [-> | ->]; split; reflexivity. Qed.

  Ltac pick2 x l :=
    match l with
    | nil => idtac
    | cons ?u ?l' => let E := fresh "E" in destruct (String.eqb_spec x u) as [E|E]; [|apply String.eqb_neq in E; pick2 x l']
    end.
  Ltac known E := injection E; clear E; intros; subst.
  Ltac lits := repeat match goal with
    | |- context [(?u =? ?v)%string] => let r := eval vm_compute in (u =? v)%string in
        first [constr_eq r true|constr_eq r false]; change (u =? v)%string with r
    | H : context [(?u =? ?v)%string] |- _ => let r := eval vm_compute in (u =? v)%string in
        first [constr_eq r true|constr_eq r false]; change (u =? v)%string with r in H
    end; cbn [andb orb negb] in *.
  Ltac neqs := repeat match goal with E : (_ =? _)%string = false |- _ => rewrite E end.

  (** the table *)
  Lemma tuning_ok p s r opts n1 n2 n3 n4 : real_letter p \/ complex_letter p -> String.length s = 5%nat ->
    (family "OR" s = true -> complex_letter p) -> (family "UN" s = true -> real_letter p) ->
    ~ In s ["GBTRF"; "PBTRF"; "TRSYL"]%string -> (In s ["SYTRF"; "HETRF"]%string -> String.get 4 r <> Some "2"%char) ->
    ilaenv 1 (String p (s ++ r)) opts n1 n2 n3 n4 = Ok (fst (fst (tuning_row s))) /\
    ilaenv 2 (String p (s ++ r)) opts n1 n2 n3 n4 = Ok (snd (fst (tuning_row s))) /\
    ilaenv 3 (String p (s ++ r)) opts n1 n2 n3 n4 = Ok (snd (tuning_row s)).
  Proof.
    intros P L FO FU NI TS. apply five in L. destruct L as (a & b & c & d & e & ->).
    cbn [String.append]. rewrite !ilaenv_cut by (assumption || lia).
    assert (TT : (String a (String b (String c (String d (String e ""))))) = "SYTRF"%string \/
      (String a (String b (String c (String d (String e ""))))) = "HETRF"%string ->
      match String.get 4 r with Some x => Ascii.eqb x "2" | None => false end = false).
    { intros H. assert (H' : String.get 4 r <> Some "2"%char) by (apply TS; cbn [In]; destruct H as [<-|<-]; auto).
      destruct (String.get 4 r) as [x|]; [|reflexivity]. apply Ascii.eqb_neq. congruence. }
    clear TS.
    assert (FO' : (String a (String b "") =? "OR")%string && (Ascii.eqb p "S" || Ascii.eqb p "D") = false).
    { destruct (String.eqb_spec (String a (String b "")) "OR") as [E|E]; [|reflexivity]. known E.
      destruct (FO eq_refl) as [-> | ->]; reflexivity. }
    assert (FU' : (String a (String b "") =? "UN")%string && (Ascii.eqb p "C" || Ascii.eqb p "Z") = false).
    { destruct (String.eqb_spec (String a (String b "")) "UN") as [E|E]; [|reflexivity]. known E.
      destruct (FU eq_refl) as [-> | ->]; reflexivity. }
    assert (SC : (Ascii.eqb p "S" || Ascii.eqb p "D") || (Ascii.eqb p "C" || Ascii.eqb p "Z") = true).
    { destruct P as [[-> | ->]|[-> | ->]]; reflexivity. }
    clear FO FU P. unfold cut. cbn [Z.eqb Pos.eqb].
    unfold ilaenv_nb, ilaenv_nbmin, ilaenv_nx, tuning_row, find_name, tuning_table, ge_fact. cbn [find fst snd existsb].
    assert (is2E : exists is2, is2 = String.eqb) by eauto. destruct is2E as (is2 & is2E).
    rewrite !(fun u1 u2 v => eqb5 is2 a b (String c (String d (String e ""))) u1 u2 v is2E), !four_not_five, FO', FU', SC. cbn [substring String.append]. rewrite ?sub00.
    set (sn := Ascii.eqb p "S" || Ascii.eqb p "D") in *. set (cn := Ascii.eqb p "C" || Ascii.eqb p "Z") in *.
    clearbody sn cn.
    assert (NI' : forall u, In u ["GBTRF"; "PBTRF"; "TRSYL"]%string -> (u =? String a (String b (String c (String d (String e "")))))%string = false).
    { intros u Hu. apply String.eqb_neq. intros ->. auto. }
    clear NI. set (y := String c (String d (String e ""))) in *.
    assert (X1 := NI' "GBTRF"%string ltac:(cbn; auto)). assert (X2 := NI' "PBTRF"%string ltac:(cbn; auto)).
    assert (X3 := NI' "TRSYL"%string ltac:(cbn; auto)). clear NI'. rewrite (eqb5 is2) in X1, X2, X3 by exact is2E.
    rewrite (eqb_sym (String a (String b y)) "LAORH"), (eqb5 is2 a b y) by exact is2E. subst is2.
    set (x := String a (String b "")) in *. assert (TT' : x = "SY"%string \/ x = "HE"%string -> y = "TRF"%string ->
      match String.get 4 r with Some x => Ascii.eqb x "2" | None => false end = false).
    { intros H1 H2. apply TT. subst y. injection H2. intros -> -> ->. destruct H1 as [H1|H1]; subst x; injection H1; intros -> ->; auto. }
    clear TT. set (two := match String.get 4 r with Some x => Ascii.eqb x "2" | None => false end) in *. clearbody two x y.
    pick2 x (cons "GE"%string (cons "GG"%string (cons "SY"%string (cons "HE"%string (cons "TR"%string (cons "LA"%string
      (cons "ST"%string (cons "GB"%string (cons "PB"%string (@nil string)))))))))).
    all: try subst x; neqs; lits.
    all: rewrite ?Bool.andb_false_r, ?Bool.orb_false_r.
    all: repeat match goal with
      | |- context [(?z =? ?u)%string] => is_var z; let E := fresh "E" in destruct (String.eqb_spec z u) as [E|E]; [subst z|apply String.eqb_neq in E; try rewrite E in *]
      end; lits.
    all: try (rewrite TT' by auto; cbn [andb orb negb]).
    all: try discriminate.
    all: destruct sn; cbn [andb orb negb] in *; repeat split; try reflexivity.
  Qed.

  (** the rules outside the table *)
  Lemma two_stage_ok p s r opts n1 n2 n3 n4 : real_letter p \/ complex_letter p -> In s ["SYTRF"; "HETRF"]%string ->
    String.get 4 r = Some "2"%char -> ilaenv 1 (String p (s ++ r)) opts n1 n2 n3 n4 = Ok 192.
  Proof.
    intros P [<-|[<-|[]]] G; cbn [String.append]; rewrite ilaenv_cut by (assumption || lia); unfold cut; rewrite G; reflexivity.
  Qed.

  Lemma band_ok p s r opts n1 n2 n3 n4 : real_letter p \/ complex_letter p -> In s ["GBTRF"; "PBTRF"]%string ->
    ilaenv 1 (String p (s ++ r)) opts n1 n2 n3 n4 = Ok (if Z.max n2 n4 <=? 64 then 1 else 32) /\
    ilaenv 2 (String p (s ++ r)) opts n1 n2 n3 n4 = Ok 2 /\ ilaenv 3 (String p (s ++ r)) opts n1 n2 n3 n4 = Ok 0.
  Proof.
    intros P [<-|[<-|[]]]; cbn [String.append]; rewrite !ilaenv_cut by (assumption || lia); unfold cut, ilaenv_nb; cbn -[Z.ltb Z.leb Z.max];
      (split; [|destruct P as [[-> | ->]|[-> | ->]]; split; reflexivity]).
    all: destruct (Z.ltb_spec 64 n4), (Z.ltb_spec 64 n2), (Z.leb_spec (Z.max n2 n4) 64); cbn; try reflexivity; lia.
  Qed.

  Lemma sylvester_ok p r opts n1 n2 n3 n4 : real_letter p \/ complex_letter p ->
    (real_letter p -> ilaenv 1 (String p ("TRSYL" ++ r)) opts n1 n2 n3 n4 = Ok (Z.min (Z.max 48 (Z.quot (16 * Z.min n1 n2) 100)) 240)) /\
    (complex_letter p -> ilaenv 1 (String p ("TRSYL" ++ r)) opts n1 n2 n3 n4 = Ok (Z.min (Z.max 24 (Z.quot (8 * Z.min n1 n2) 100)) 80)) /\
    ilaenv 2 (String p ("TRSYL" ++ r)) opts n1 n2 n3 n4 = Ok 2 /\ ilaenv 3 (String p ("TRSYL" ++ r)) opts n1 n2 n3 n4 = Ok 0.
  Proof.
    intros P. cbn [String.append]. rewrite !ilaenv_cut by (assumption || lia). rewrite !(Z.mul_comm _ (Z.min n1 n2)).
    repeat split; try (intros [-> | ->]; reflexivity); destruct P as [[-> | ->]|[-> | ->]]; reflexivity.
  Qed.

  Lemma applies_cut a b g c d e : applies_factor (String a (String b (String g ""))) (String a (String b (String c (String d (String e ""))))) =
    Ascii.eqb c g && qr_suffix (String d (String e "")).
  Proof.
    unfold applies_factor, qr_suffix, factor_kinds. cbn [existsb String.append].
    assert (E : forall q, (String a (String b (String g q)) =? String a (String b (String c (String d (String e "")))))%string =
      Ascii.eqb c g && (String d (String e "") =? q)%string).
    { intros q. cbn [String.eqb]. rewrite !Ascii.eqb_refl, (Ascii.eqb_sym g), (String.eqb_sym q). destruct (Ascii.eqb c g); reflexivity. }
    rewrite !E. destruct (Ascii.eqb c g); reflexivity.
  Qed.

  Lemma family_cut a b t u1 u2 : family (String u1 (String u2 "")) (String a (String b t)) = true -> a = u1 /\ b = u2.
  Proof.
    unfold family. cbn [prefix]. destruct (ascii_dec u1 a) as [->|]; [|discriminate]. destruct (ascii_dec u2 b) as [->|]; [auto|discriminate].
  Qed.

  Lemma orthogonal_ok p s r opts n1 n2 n3 n4 : real_letter p -> String.length s = 5%nat -> family "OR" s = true ->
    ilaenv 1 (String p (s ++ r)) opts n1 n2 n3 n4 = Ok 32 /\
    ilaenv 2 (String p (s ++ r)) opts n1 n2 n3 n4 = Ok (if family "ORG" s || applies_factor "ORM" s then 2 else 1) /\
    ilaenv 3 (String p (s ++ r)) opts n1 n2 n3 n4 = Ok (if applies_factor "ORG" s then 128 else 0).
  Proof.
    intros P L FO. apply five in L. destruct L as (a & b & c & d & e & ->). apply family_cut in FO. destruct FO as [-> ->].
    cbn [String.append]. rewrite !ilaenv_cut by (auto || lia). rewrite !applies_cut.
    assert (FG : family "ORG" (String "O" (String "R" (String c (String d (String e ""))))) = Ascii.eqb c "G").
    { unfold family. cbn [prefix]. destruct (ascii_dec "O" "O"); [|congruence]. destruct (ascii_dec "R" "R"); [|congruence].
      destruct (ascii_dec "G" c) as [<-|N]; [reflexivity|]. symmetry. apply Ascii.eqb_neq. congruence. }
    rewrite FG. unfold cut, ilaenv_nb, ilaenv_nbmin, ilaenv_nx, ge_fact. cbn [Z.eqb Pos.eqb]. rewrite !four_not_five.
    assert (SN : (Ascii.eqb p "S" || Ascii.eqb p "D") = true) by (destruct P as [-> | ->]; reflexivity).
    rewrite SN. lits. cbn [starts]. repeat split.
  Qed.

  Lemma unitary_ok p s r opts n1 n2 n3 n4 : complex_letter p -> String.length s = 5%nat -> family "UN" s = true ->
    ilaenv 1 (String p (s ++ r)) opts n1 n2 n3 n4 = Ok (if applies_factor "UNG" s || applies_factor "UNM" s then 32 else 1) /\
    ilaenv 2 (String p (s ++ r)) opts n1 n2 n3 n4 = Ok (if family "UNG" s || applies_factor "UNM" s then 2 else 1) /\
    ilaenv 3 (String p (s ++ r)) opts n1 n2 n3 n4 = Ok (if applies_factor "UNG" s then 128 else 0).
  Proof.
    intros P L FO. apply five in L. destruct L as (a & b & c & d & e & ->). apply family_cut in FO. destruct FO as [-> ->].
    cbn [String.append]. rewrite !ilaenv_cut by (auto || lia). rewrite !applies_cut.
    assert (FG : family "UNG" (String "U" (String "N" (String c (String d (String e ""))))) = Ascii.eqb c "G").
    { unfold family. cbn [prefix]. destruct (ascii_dec "U" "U"); [|congruence]. destruct (ascii_dec "N" "N"); [|congruence].
      destruct (ascii_dec "G" c) as [<-|N]; [reflexivity|]. symmetry. apply Ascii.eqb_neq. congruence. }
    rewrite FG. unfold cut, ilaenv_nb, ilaenv_nbmin, ilaenv_nx, ge_fact. cbn [Z.eqb Pos.eqb]. rewrite !four_not_five.
    assert (SN : (Ascii.eqb p "C" || Ascii.eqb p "Z") = true) by (destruct P as [-> | ->]; reflexivity).
    rewrite SN. lits. cbn [starts]. repeat split.
    destruct (Ascii.eqb c "G"), (Ascii.eqb c "M"), (qr_suffix (String d (String e ""))); reflexivity.
  Qed.

  (** a name whose first letter is none of the four *)
  Lemma other_letter_ok ispec p r opts n1 n2 n3 n4 : 1 <= ispec <= 3 -> (5 <= String.length r)%nat ->
    ~ real_letter (ascii_upper p) -> ~ complex_letter (ascii_upper p) ->
    ilaenv ispec (String p r) opts n1 n2 n3 n4 = Ok 1.
  Proof.
    intros I L NR NC. unfold ilaenv. destruct (Z.leb_spec 1 ispec), (Z.leb_spec ispec 3); try lia. cbn [andb].
    unfold ilaenv_blk, ilaenv_subnam.
    assert (NN : forall q, q = ascii_upper p -> negb ((Ascii.eqb q "C" || Ascii.eqb q "Z") || (Ascii.eqb q "S" || Ascii.eqb q "D")) = true).
    { intros q ->. unfold real_letter, complex_letter in *.
      destruct (Ascii.eqb_spec (ascii_upper p) "C"); [exfalso; apply NC; auto|].
      destruct (Ascii.eqb_spec (ascii_upper p) "Z"); [exfalso; apply NC; auto|].
      destruct (Ascii.eqb_spec (ascii_upper p) "S"); [exfalso; apply NR; auto|].
      destruct (Ascii.eqb_spec (ascii_upper p) "D"); [exfalso; apply NR; auto|]. reflexivity. }
    destruct (is_lower p) eqn:Lp.
    - cbn [String.length]. destruct (Nat.leb_spec 6 (S (String.length r))); [|lia]. cbn [bind up_prefix].
      rewrite NN; [reflexivity|]. unfold up_ascii, ascii_upper. reflexivity.
    - cbn [bind]. rewrite NN; [reflexivity|]. unfold ascii_upper. unfold is_lower in Lp. rewrite <- chr_code, Lp. reflexivity.
  Qed.

  (** the parameters that do not depend on the name *)
  Lemma fixed_ok name opts n1 n2 n3 n4 :
    ilaenv 4 name opts n1 n2 n3 n4 = Ok 6 /\ ilaenv 5 name opts n1 n2 n3 n4 = Ok 2 /\ ilaenv 7 name opts n1 n2 n3 n4 = Ok 1 /\
    ilaenv 8 name opts n1 n2 n3 n4 = Ok 50 /\ ilaenv 9 name opts n1 n2 n3 n4 = Ok 25 /\
    (forall ispec, 12 <= ispec <= 17 -> ilaenv ispec name opts n1 n2 n3 n4 = iparmq ispec name n2 n3).
  Proof.
    repeat split. intros ispec H. unfold ilaenv.
    destruct (Z.leb_spec 1 ispec); [|lia]. destruct (Z.leb_spec ispec 3); [lia|]. cbn [andb].
    repeat match goal with |- context [(ispec =? ?k)] => destruct (Z.eqb_spec ispec k); [lia|] end.
    destruct (Z.leb_spec 12 ispec), (Z.leb_spec ispec 17); try lia. reflexivity.
  Qed.

  (** the mode of accumulation, all names *)
  Lemma mode_ok p s r ilo ihi : log_ok -> String.length s = 5%nat -> ascii_upper p = p ->
    iparmq 16 (String p (s ++ r)) ilo ihi = Ok (accumulation_mode s (ihi - ilo + 1)).
  Proof.
    intros L H U. apply five in H. destruct H as (a & b & c & d & e & ->).
    unfold iparmq. rewrite iparmq_ns_ok by assumption. cbn [bind Z.eqb Pos.eqb].
    set (nh := ihi - ilo + 1). unfold iparmq_acc, accumulation_mode. cbn [String.append].
    assert (NL : is_lower p = false).
    { destruct (is_lower p) eqn:E; [|reflexivity]. exfalso. assert (ascii_upper p <> p); [|auto].
      clear -E. intros H. assert (T : forall x, (negb (is_lower x) || negb (Ascii.eqb (ascii_upper x) x)) = true).
      { apply ascii_cases. vm_compute. reflexivity. }
      specialize (T p). rewrite E, H, Ascii.eqb_refl in T. discriminate. }
    rewrite NL. unfold str_slice. cbn [String.length]. cbn [Nat.leb bind Nat.sub substring]. rewrite !sub00.
    rewrite (String.eqb_sym _ "GGHRD"), (String.eqb_sym _ "GGHD3").
    destruct (_ || _); [destruct (14 <=? nh); reflexivity|].
    cbn [substring bind]. destruct (String.eqb (String c (String d (String e ""))) "EXC").
    - destruct (14 <=? nh); reflexivity.
    - destruct (_ || _); reflexivity.
  Qed.
End Tune.

From Verif Require Import B64.
Lemma mode_b64 lm p s r ilo ihi : libm_ok lm -> String.length s = 5%nat -> ascii_upper p = p ->
  @iparmq b64 (B64 lm) 16 (String p (s ++ r)) ilo ihi = Ok (accumulation_mode s (ihi - ilo + 1)).
Proof. intros H. exact (mode_ok (NF := B64 lm) p s r ilo ihi (log_ok_b64 lm H)). Qed.

Lemma blocked_wrong F (NF : Num F) opts n1 n2 n3 n4 :
  ilaenv 1 "DGETRF" opts n1 n2 n3 n4 = Ok 1 /\ ilaenv 1 "DPOTRF" opts n1 n2 n3 n4 = Ok 1.
Proof. split; reflexivity. Qed.
