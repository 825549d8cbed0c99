(** Exact arithmetic: the extended reals with one zero and one NaN.  Operations follow IEEE-754
    (src/**.rs use f64) with rounding removed: every finite result is the exact real, overflow does not
    exist, and the invalid or zero-dividing operations give NaN or an infinity as in IEEE. *)
From Coq Require Import Reals Lra.
From Flocq Require Import Core.
From Verif Require Import Base Num B64.
Open Scope R_scope.

Inductive er := Fin (r : R) | PInf | NInf | ENaN.

(** infinity with the sign of a nonzero real; NaN for zero (0 * inf, 0 / 0) *)
Definition er_inf (r : R) : er :=
  if Rlt_bool 0 r then PInf else if Rlt_bool r 0 then NInf else ENaN.
Definition er_dy (m e : Z) : er := Fin (IZR m * powerRZ 2 e).
Definition er_neg (x : er) : er :=
  match x with Fin a => Fin (- a) | PInf => NInf | NInf => PInf | ENaN => ENaN end.
Definition er_add (x y : er) : er :=
  match x, y with
  | Fin a, Fin b => Fin (a + b)
  | ENaN, _ | _, ENaN => ENaN
  | PInf, NInf | NInf, PInf => ENaN
  | PInf, _ | _, PInf => PInf
  | NInf, _ | _, NInf => NInf
  end.
Definition er_sub (x y : er) : er := er_add x (er_neg y).
Definition er_mul (x y : er) : er :=
  match x, y with
  | Fin a, Fin b => Fin (a * b)
  | ENaN, _ | _, ENaN => ENaN
  | PInf, PInf | NInf, NInf => PInf
  | PInf, NInf | NInf, PInf => NInf
  | PInf, Fin b | Fin b, PInf => er_inf b
  | NInf, Fin b | Fin b, NInf => er_inf (- b)
  end.
(** division by the single zero behaves as division by +0 *)
Definition er_div (x y : er) : er :=
  match x, y with
  | Fin a, Fin b => if Req_bool b 0 then er_inf a else Fin (a / b)
  | ENaN, _ | _, ENaN => ENaN
  | Fin _, _ => Fin 0
  | PInf, Fin b => if Rlt_bool b 0 then NInf else PInf
  | NInf, Fin b => if Rlt_bool b 0 then PInf else NInf
  | _, _ => ENaN
  end.
Definition er_abs (x : er) : er :=
  match x with Fin a => Fin (Rabs a) | ENaN => ENaN | _ => PInf end.
Definition er_sqrt (x : er) : er :=
  match x with
  | Fin a => if Rlt_bool a 0 then ENaN else Fin (sqrt a)
  | PInf => PInf
  | _ => ENaN
  end.
Definition er_eq (x y : er) : bool :=
  match x, y with
  | Fin a, Fin b => Req_bool a b
  | PInf, PInf | NInf, NInf => true
  | _, _ => false
  end.
Definition er_lt (x y : er) : bool :=
  match x, y with
  | Fin a, Fin b => Rlt_bool a b
  | NInf, Fin _ | NInf, PInf | Fin _, PInf => true
  | _, _ => false
  end.
Definition er_le (x y : er) : bool := er_lt x y || er_eq x y.
Definition er_isnan (x : er) : bool := match x with ENaN => true | _ => false end.
(** sign bit of a number; the single zero is +0 *)
Definition er_negative (x : er) : bool :=
  match x with Fin a => Rlt_bool a 0 | NInf => true | _ => false end.
Definition er_copysign (x y : er) : er :=
  if er_negative y then er_neg (er_abs x) else er_abs x.
Definition er_signum (x : er) : er :=
  match x with ENaN => ENaN | _ => er_copysign (Fin 1) x end.
Definition er_max (x y : er) : er :=
  match x, y with
  | ENaN, _ => y | _, ENaN => x
  | _, _ => if er_lt x y then y else x
  end.
Definition er_min (x y : er) : er :=
  match x, y with
  | ENaN, _ => y | _, ENaN => x
  | _, _ => if er_lt y x then y else x
  end.
(** only the uses the crate makes: squares and powers of a positive base *)
Definition er_pow (x y : er) : er :=
  if er_eq y (Fin 2) then er_mul x x
  else match x, y with
       | Fin a, Fin b => if Rlt_bool 0 a then Fin (Rpower a b) else ENaN
       | _, _ => ENaN
       end.
Definition er_ln (x : er) : er :=
  match x with
  | Fin a => if Rlt_bool 0 a then Fin (ln a) else if Req_bool a 0 then NInf else ENaN
  | PInf => PInf
  | _ => ENaN
  end.
Definition er_trunc (x : er) : er := match x with Fin a => Fin (IZR (Ztrunc a)) | _ => x end.
Definition er_round_i32 (x : er) : Z :=
  match x with
  | Fin a => clamp_i32 (Znearest (fun z => (0 <=? z)%Z) a)
  | PInf => (2 ^ 31 - 1)%Z
  | NInf => (- 2 ^ 31)%Z
  | ENaN => 0%Z
  end.

#[export] Instance ER : Num er := {
  fdy := er_dy; fadd := er_add; fsub := er_sub; fmul := er_mul; fdiv := er_div; fneg := er_neg;
  fabs := er_abs; fsqrt := er_sqrt; feq := er_eq; flt := er_lt; fle := er_le; fisnan := er_isnan;
  fsignum := er_signum; fcopysign := er_copysign; fmax := er_max; fmin := er_min; fpowf := er_pow;
  flog x b := er_div (er_ln x) (er_ln b); ftrunc := er_trunc; fround_i32 := er_round_i32; fnan := ENaN
}.

(** Rewriting rules: operations on finite values *)
Lemma er_f0 : f0 = Fin 0.
Proof. unfold f0; cbn. unfold er_dy. f_equal. cbn. ring. Qed.
Lemma er_f1 : f1 = Fin 1.
Proof. unfold f1; cbn. unfold er_dy. f_equal. cbn. ring. Qed.
Lemma er_f2 : f2 = Fin 2.
Proof. unfold f2; cbn. unfold er_dy. f_equal. cbn. ring. Qed.
Lemma er_f4 : f4 = Fin 4.
Proof. unfold f4; cbn. unfold er_dy. f_equal. cbn. ring. Qed.
Lemma er_fhalf : fhalf = Fin (1 / 2).
Proof.
  unfold fhalf; cbn [fdy ER]. unfold er_dy. f_equal. change (powerRZ 2 (-1)) with (/ 2 ^ 1). field.
Qed.
Lemma er_fofZ z : fofZ z = Fin (IZR z).
Proof. unfold fofZ; cbn. unfold er_dy. f_equal. cbn. ring. Qed.
Lemma er_addE a b : fadd (Fin a) (Fin b) = Fin (a + b). Proof. reflexivity. Qed.
Lemma er_subE a b : fsub (Fin a) (Fin b) = Fin (a - b). Proof. reflexivity. Qed.
Lemma er_mulE a b : fmul (Fin a) (Fin b) = Fin (a * b). Proof. reflexivity. Qed.
Lemma er_negE a : fneg (Fin a) = Fin (- a). Proof. reflexivity. Qed.
Lemma er_absE a : fabs (Fin a) = Fin (Rabs a). Proof. reflexivity. Qed.
Lemma er_divE a b : b <> 0 -> fdiv (Fin a) (Fin b) = Fin (a / b).
Proof. intros H. cbn. rewrite Req_bool_false by assumption. reflexivity. Qed.
Lemma er_sqrtE a : 0 <= a -> fsqrt (Fin a) = Fin (sqrt a).
Proof. intros H. cbn. rewrite Rlt_bool_false by assumption. reflexivity. Qed.
Lemma er_eqE a b : feq (Fin a) (Fin b) = Req_bool a b. Proof. reflexivity. Qed.
Lemma er_ltE a b : flt (Fin a) (Fin b) = Rlt_bool a b. Proof. reflexivity. Qed.
Lemma er_leE a b : fle (Fin a) (Fin b) = Rle_bool a b.
Proof.
  cbn. unfold er_le; cbn. case Rle_bool_spec; intros; case Rlt_bool_spec; intros; cbn; auto; try lra.
  - apply Req_bool_true. lra.
  - apply Req_bool_false. lra.
Qed.
Lemma er_maxE a b : fmax (Fin a) (Fin b) = Fin (Rmax a b).
Proof. cbn. unfold Rmax. case Rlt_bool_spec; intros; destruct (Rle_dec a b); f_equal; lra. Qed.
Lemma er_minE a b : fmin (Fin a) (Fin b) = Fin (Rmin a b).
Proof. cbn. unfold Rmin. case Rlt_bool_spec; intros; destruct (Rle_dec a b); f_equal; lra. Qed.
Lemma er_sqE a : fpowf (Fin a) f2 = Fin (a * a).
Proof. rewrite er_f2. cbn. unfold er_pow; cbn. rewrite Req_bool_true by reflexivity. reflexivity. Qed.
Lemma er_powE a b : 0 < a -> b <> 2 -> fpowf (Fin a) (Fin b) = Fin (Rpower a b).
Proof.
  intros Ha Hb. cbn. unfold er_pow; cbn. rewrite Req_bool_false by assumption.
  rewrite Rlt_bool_true by assumption. reflexivity.
Qed.
Lemma er_nanE a : fisnan (Fin a) = false. Proof. reflexivity. Qed.
Definition sgn1 (a : R) : R := if Rlt_bool a 0 then -1 else 1.
Lemma er_signumE a : fsignum (Fin a) = Fin (sgn1 a).
Proof.
  cbn. unfold er_copysign, sgn1; cbn. rewrite (Rabs_pos_eq 1) by lra.
  case Rlt_bool; cbn; f_equal; lra.
Qed.
Lemma er_copysignE a b : fcopysign (Fin a) (Fin b) = Fin (sgn1 b * Rabs a).
Proof. cbn. unfold er_copysign, sgn1; cbn. case Rlt_bool; cbn; f_equal; lra. Qed.
Lemma sgn1_sq a : sgn1 a * sgn1 a = 1.
Proof. unfold sgn1. case Rlt_bool; lra. Qed.
Lemma sgn1_abs a : sgn1 a * a = Rabs a.
Proof. unfold sgn1. case Rlt_bool_spec; intros; [rewrite Rabs_left|rewrite Rabs_pos_eq]; lra. Qed.
Lemma Rabs_sgn1 a : Rabs (sgn1 a) = 1.
Proof. unfold sgn1. case Rlt_bool; unfold Rabs; destruct (Rcase_abs _); lra. Qed.
Lemma er_neE a b : fne (Fin a) (Fin b) = negb (Req_bool a b). Proof. reflexivity. Qed.
Lemma er_minpos : fMINPOS = Fin (powerRZ 2 (-1022)).
Proof. unfold fMINPOS; cbn [fdy ER]. unfold er_dy. f_equal. ring. Qed.
Lemma er_eps : fEPS = Fin (powerRZ 2 (-52)).
Proof. unfold fEPS; cbn [fdy ER]. unfold er_dy. f_equal. ring. Qed.
Lemma er_fmax : fMAX = Fin (IZR (2 ^ 53 - 1) * powerRZ 2 971).
Proof. reflexivity. Qed.
