(** i32 arithmetic with overflow, for the index computation of src/array/indexing.rs and the loop
    counter of src/blas/dscal.rs.  Everywhere else the model uses unbounded integers. *)
From Verif Require Import Base Num Array Blas.

(** Cargo profiles: overflow checks on (debug, src/array/indexing.rs:40 panics) or off (release, it wraps). *)
Inductive profile := Debug | Release.

(** representable in i32 (the index types of src/array/indexing.rs:5, 36) *)
Definition in_i32 (z : Z) : Prop := - 2 ^ 31 <= z <= 2 ^ 31 - 1.
(** the same as a test (src/array/indexing.rs:40) *)
Definition in_i32b (z : Z) : bool := (- 2 ^ 31 <=? z) && (z <=? 2 ^ 31 - 1).
(** two's complement wrap-around (release builds of src/array/indexing.rs:40) *)
Definition wrap32 (z : Z) : Z := (z + 2 ^ 31) mod 2 ^ 32 - 2 ^ 31.
(** result of one i32 operation whose exact value is [z] (each operator at src/array/indexing.rs:40) *)
Definition i32_of (pr : profile) (z : Z) : outcome Z :=
  if in_i32b z then Ok z
  else match pr with Debug => Panic | Release => Ok (wrap32 z) end.

(** src/array/indexing.rs:40 and 54: [((j - 1) * self.rows + (i - 1))], operator by operator *)
Definition off2_i32 (pr : profile) (r i j : Z) : outcome Z :=
  a <- i32_of pr (j - 1) ;;
  b <- i32_of pr (a * r) ;;
  c <- i32_of pr (i - 1) ;;
  i32_of pr (b + c).

Section I32.
  Context {F : Type} {NF : Num F}.
  (** src/array/indexing.rs:36-48 *)
  Definition get2_i32 (pr : profile) (f : fa F) (i j : Z) : outcome F :=
    o <- off2_i32 pr (rows f) i j ;;
    Ok (match zget (data f) o with Some v => v | None => fMINPOS end).
  (** src/array/indexing.rs:50-62 *)
  Definition mod2_i32 (pr : profile) (f : fa F) (i j : Z) (g : F -> F) : outcome (fa F) :=
    o <- off2_i32 pr (rows f) i j ;;
    Ok (match zget (data f) o with
        | Some v => mkFA (zset (data f) o (g v)) (rows f) (cols f) (dflt f)
        | None => mkFA (data f) (rows f) (cols f) (g (dflt f))
        end).

  (** src/blas/dscal.rs:50-56 with i32 counters: [nincx = n * incx], [while i < nincx { ...; i += incx }].
      (The increment is on the i32 counter.) *)
  Fixpoint dscal_while_i32 (pr : profile) (fuel : nat) (da : F) (incx nincx i : Z) (dx : fa F) : outcome (fa F) :=
    if (i <? nincx)%Z then
      match fuel with
      | O => NoFuel
      | S fuel' =>
          i' <- i32_of pr (i + incx) ;;
          dscal_while_i32 pr fuel' da incx nincx i' (mod1 dx i (fun x => fmul x da))
      end
    else Ok dx.
  (** src/blas/dscal.rs:50-56 *)
  Definition dscal_loop_i32 (pr : profile) (fuel : nat) (n : Z) (da : F) (dx : fa F) (incx : Z) : outcome (fa F) :=
    nincx <- i32_of pr (n * incx) ;;
    dscal_while_i32 pr fuel da incx nincx 1 dx.
End I32.
