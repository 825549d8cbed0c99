(** The f64 instance of [Num]: IEEE-754 binary64, round to nearest even, one NaN, from Flocq. *)
From Flocq Require Import IEEE754.BinarySingleNaN Core.
From Verif Require Import Base Num.

Definition b64 : Set := binary_float 53 1024.

#[export] Instance prec53 : Prec_gt_0 53 := eq_refl.
#[export] Instance emax1024 : Prec_lt_emax 53 1024 := eq_refl.

(** the float nearest m * 2^e *)
Definition b64_dy (m e : Z) : b64 := binary_normalize 53 1024 prec53 emax1024 mode_NE m e false.

Definition b64_copysign (x y : b64) : b64 :=
  match x with
  | B754_zero _ => B754_zero (Bsign y)
  | B754_infinity _ => B754_infinity (Bsign y)
  | B754_nan => B754_nan
  | B754_finite _ m e H => B754_finite (Bsign y) m e H
  end.

(** f64::signum: NaN for NaN, otherwise 1.0 with the sign bit of x *)
Definition b64_signum (x : b64) : b64 :=
  match x with B754_nan => B754_nan | _ => b64_copysign (b64_dy 1 0) x end.

(** f64::max / min: a NaN argument is ignored.  (On zeros of different sign Rust leaves the
    choice open; the crate only calls them on absolute values and nonnegative products.) *)
Definition b64_max (x y : b64) : b64 :=
  match x, y with
  | B754_nan, _ => y
  | _, B754_nan => x
  | _, _ => if Bltb x y then y else x
  end.
Definition b64_min (x y : b64) : b64 :=
  match x, y with
  | B754_nan, _ => y
  | _, B754_nan => x
  | _, _ => if Bltb y x then y else x
  end.

(** f64::trunc *)
Definition b64_trunc (x : b64) : b64 := Bnearbyint mode_ZR x.

(** x.round() as i32: half away from zero, saturating, NaN to 0 *)
Definition clamp_i32 (z : Z) : Z := Z.max (- 2 ^ 31) (Z.min (2 ^ 31 - 1) z).
Definition b64_round_i32 (x : b64) : Z :=
  match x with
  | B754_zero _ | B754_nan => 0
  | B754_infinity s => if s then - 2 ^ 31 else 2 ^ 31 - 1
  | B754_finite s m e _ =>
      let a := if 0 <=? e then Zpos m * 2 ^ e
               else (Zpos m + 2 ^ (- e - 1)) / 2 ^ (- e) in
      clamp_i32 (if s then - a else a)
  end.

(** The two functions Rust's std takes from the platform's libm. *)
Record libm := { lm_pow : b64 -> b64 -> b64; lm_ln : b64 -> b64 }.

#[export] Instance B64 (lm : libm) : Num b64 := {
  fdy := b64_dy;
  fadd := Bplus mode_NE;
  fsub := Bminus mode_NE;
  fmul := Bmult mode_NE;
  fdiv := Bdiv mode_NE;
  fneg := Bopp;
  fabs := Babs;
  fsqrt := Bsqrt mode_NE;
  feq := Beqb;
  flt := Bltb;
  fle := Bleb;
  fisnan := is_nan;
  fsignum := b64_signum;
  fcopysign := b64_copysign;
  fmax := b64_max;
  fmin := b64_min;
  fpowf := lm_pow lm;
  flog x b := Bdiv mode_NE (lm_ln lm x) (lm_ln lm b);
  ftrunc := b64_trunc;
  fround_i32 := b64_round_i32;
  fnan := B754_nan
}.

(** What theorems assume of libm.  [pow x 2] is the rounded square, [pow 2 k] is exact at the four
    integers dnrm2 uses, dlanv2's [pow 2 (ln(2^-970)/ln 2 / 2)] is a number in (0, 1), and iparmq's
    [ln(n)/ln 2], 150 <= n < 590, does not round to 0. *)
Record libm_ok (lm : libm) : Prop := {
  pow_sq : forall x, lm_pow lm x (b64_dy 2 0) = Bmult mode_NE x x;
  pow_2k : forall k, In k [-511; 505; 518; -519] -> lm_pow lm (b64_dy 2 0) (b64_dy k 0) = b64_dy 1 k;
  pow_safmn2 :
    let y := Bdiv mode_NE (Bdiv mode_NE (lm_ln lm (b64_dy 1 (-970))) (lm_ln lm (b64_dy 2 0))) (b64_dy 2 0) in
    Bltb (b64_dy 0 0) (lm_pow lm (b64_dy 2 0) y) = true /\
    Bltb (lm_pow lm (b64_dy 2 0) y) (b64_dy 1 0) = true;
  ln_ratio : forall n, 150 <= n < 590 ->
    b64_round_i32 (Bdiv mode_NE (lm_ln lm (b64_dy n 0)) (lm_ln lm (b64_dy 2 0))) <> 0
}.

(** A computable libm that meets the contract, used to run examples.  [ln] is replaced by the
    integer base-2 logarithm: the crate only uses ratios of logarithms. *)
Definition ref_log2 (x : b64) : Z :=
  match x with B754_finite _ m e _ => Z.log2 (Zpos m) + e | _ => 0 end.
Definition ref_pow (x y : b64) : b64 :=
  if Beqb y (b64_dy 2 0) then Bmult mode_NE x x
  else if Beqb x (b64_dy 2 0) then b64_dy 1 (Btrunc y)
  else B754_nan.
Definition ref_libm : libm := {| lm_pow := ref_pow; lm_ln x := b64_dy (ref_log2 x) 0 |}.

(** Two floats with the same digits are equal; used to compare floats by computation. *)
Lemma b64_eq_SF (x y : b64) : B2SF x = B2SF y -> x = y.
Proof. apply B2SF_inj. Qed.

Lemma ref_libm_ok : libm_ok ref_libm.
Proof.
  split.
  - intros x. unfold ref_libm, lm_pow, ref_pow.
    replace (Beqb (b64_dy 2 0) (b64_dy 2 0)) with true by (vm_compute; reflexivity).
    reflexivity.
  - intros k H. cbn [In] in H.
    repeat (destruct H as [<- | H]; [apply b64_eq_SF; vm_compute; reflexivity | ]).
    destruct H.
  - cbv zeta. split; vm_compute; reflexivity.
  - intros n H.
    assert (T : forallb (fun n => negb (b64_round_i32 (Bdiv mode_NE (lm_ln ref_libm (b64_dy n 0)) (lm_ln ref_libm (b64_dy 2 0))) =? 0))
                  (map (fun k => 150 + Z.of_nat k) (seq 0 440)) = true) by (vm_compute; reflexivity).
    rewrite forallb_forall in T. specialize (T n). intros E. rewrite E in T.
    enough (negb (0 =? 0) = true) by discriminate. apply T. apply in_map_iff.
    exists (Z.to_nat (n - 150)). split; [lia|]. apply in_seq. lia.
Qed.
