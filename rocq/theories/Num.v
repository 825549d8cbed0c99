(** The number operations the crate uses on f64.  No laws: a theorem over every [Num]
    holds for f64 bit for bit. *)
From Verif Require Import Base.

Class Num (F : Type) := {
  (** [fdy m e] is the literal or constant m * 2^e *)
  fdy : Z -> Z -> F;
  fadd : F -> F -> F;
  fsub : F -> F -> F;
  fmul : F -> F -> F;
  fdiv : F -> F -> F;
  fneg : F -> F;
  fabs : F -> F;                      (* f64::abs *)
  fsqrt : F -> F;                     (* f64::sqrt *)
  feq : F -> F -> bool;               (* == *)
  flt : F -> F -> bool;               (* < *)
  fle : F -> F -> bool;               (* <= *)
  fisnan : F -> bool;                 (* f64::is_nan *)
  fsignum : F -> F;                   (* f64::signum *)
  fcopysign : F -> F -> F;            (* x.copysign(y) *)
  fmax : F -> F -> F;                 (* f64::max *)
  fmin : F -> F -> F;                 (* f64::min *)
  fpowf : F -> F -> F;                (* f64::powf, libm *)
  flog : F -> F -> F;                 (* f64::log(x, base), libm *)
  ftrunc : F -> F;                    (* f64::trunc *)
  fround_i32 : F -> Z;                (* x.round() as i32 *)
  fnan : F                            (* f64::NAN *)
}.

Declare Scope num_scope.
Delimit Scope num_scope with num.
Infix "+" := fadd : num_scope.
Infix "-" := fsub : num_scope.
Infix "*" := fmul : num_scope.
Infix "/" := fdiv : num_scope.
Notation "- x" := (fneg x) : num_scope.
Notation "x =? y" := (feq x y) : num_scope.
Notation "x <? y" := (flt x y) : num_scope.
Notation "x <=? y" := (fle x y) : num_scope.
Notation "x >? y" := (flt y x) : num_scope.
Notation "x >=? y" := (fle y x) : num_scope.

Section Consts.
  Context {F : Type} {NF : Num F}.
  (** integer literals and [i32 as f64] *)
  Definition fofZ (z : Z) : F := fdy z 0.
  Definition f0 : F := fdy 0 0.
  Definition f1 : F := fdy 1 0.
  Definition f2 : F := fdy 2 0.
  Definition f4 : F := fdy 4 0.
  Definition fhalf : F := fdy 1 (-1).
  (** f64::EPSILON, f64::MIN_POSITIVE, f64::MAX *)
  Definition fEPS : F := fdy 1 (-52).
  Definition fMINPOS : F := fdy 1 (-1022).
  Definition fMAX : F := fdy (2 ^ 53 - 1) 971.
  (** x != y *)
  Definition fne (x y : F) : bool := negb (feq x y).
End Consts.
Notation "x <>? y" := (fne x y) (at level 70) : num_scope.
