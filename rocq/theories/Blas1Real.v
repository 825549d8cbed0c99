(** drot in exact arithmetic preserves the sum of squares (C13). *)
From Coq Require Import Reals Lra.
From Verif Require Import Base Num Array Blas Spec SpecR ER Lists FaLemmas Blas1Proofs RsumLemmas.
Open Scope R_scope.

Lemma vec_is_get1 x n inc v t : vec_is x n inc v -> (0 <= t < n)%Z -> get1 x (stride n inc t) = Fin (v t).
Proof. intros H Ht. rewrite get1_elem, (H t Ht). reflexivity. Qed.

Lemma drot_exact n (dx : fa er) incx (dy : fa er) incy (c s : R) (vx vy : Z -> R) :
  (1 <= n)%Z -> incx <> 0%Z -> incy <> 0%Z -> vec_is dx n incx vx -> vec_is dy n incy vy ->
  exists x y, drot n dx incx dy incy (Fin c) (Fin s) = Ok (x, y) /\
    vec_is x n incx (fun t => c * vx t + s * vy t) /\
    vec_is y n incy (fun t => c * vy t - s * vx t).
Proof.
  intros Hn Hx Hy Vx Vy.
  destruct (proj2 (drot_spec n dx incx dy incy (Fin c) (Fin s) Hx Hy) Hn) as (x & y & E & Ux & Uy).
  exists x, y. split; [exact E|]. cbn [to_fa ToFA_fa] in Ux, Uy.
  split; intros t Ht.
  - rewrite (proj1 (proj2 Ux) t Ht), (Vx t Ht). cbn [option_map].
    rewrite (vec_is_get1 dx n incx vx t Vx Ht), (vec_is_get1 dy n incy vy t Vy Ht). reflexivity.
  - rewrite (proj1 (proj2 Uy) t Ht), (Vy t Ht). cbn [option_map].
    rewrite (vec_is_get1 dx n incx vx t Vx Ht), (vec_is_get1 dy n incy vy t Vy Ht). reflexivity.
Qed.

Lemma drot_norm n (dx : fa er) incx (dy : fa er) incy (c s : R) (vx vy : Z -> R) :
  (1 <= n)%Z -> incx <> 0%Z -> incy <> 0%Z -> vec_is dx n incx vx -> vec_is dy n incy vy ->
  c * c + s * s = 1 ->
  exists x y wx wy, drot n dx incx dy incy (Fin c) (Fin s) = Ok (x, y) /\
    vec_is x n incx wx /\ vec_is y n incy wy /\
    Rsum_range (fun t => wx t * wx t + wy t * wy t) 0 (n - 1) =
    Rsum_range (fun t => vx t * vx t + vy t * vy t) 0 (n - 1).
Proof.
  intros Hn Hx Hy Vx Vy Hcs.
  destruct (drot_exact n dx incx dy incy c s vx vy Hn Hx Hy Vx Vy) as (x & y & E & Wx & Wy).
  exists x, y, (fun t => c * vx t + s * vy t), (fun t => c * vy t - s * vx t).
  repeat split; auto.
  apply Rsum_range_ext. intros t Ht.
  replace (_ + _) with ((c * c + s * s) * (vx t * vx t + vy t * vy t)) by ring.
  rewrite Hcs. ring.
Qed.

(** the inverse rotation undoes it *)
Lemma drot_inverse n (dx : fa er) incx (dy : fa er) incy (c s : R) (vx vy : Z -> R) :
  (1 <= n)%Z -> incx <> 0%Z -> incy <> 0%Z -> vec_is dx n incx vx -> vec_is dy n incy vy ->
  c * c + s * s = 1 ->
  exists x y x' y', drot n dx incx dy incy (Fin c) (Fin s) = Ok (x, y) /\
    drot n x incx y incy (Fin c) (Fin (- s)) = Ok (x', y') /\
    vec_is x' n incx vx /\ vec_is y' n incy vy.
Proof.
  intros Hn Hx Hy Vx Vy Hcs.
  destruct (drot_exact n dx incx dy incy c s vx vy Hn Hx Hy Vx Vy) as (x & y & E & Wx & Wy).
  destruct (drot_exact n x incx y incy c (- s) _ _ Hn Hx Hy Wx Wy) as (x' & y' & E' & Wx' & Wy').
  exists x, y, x', y'. repeat split; auto; intros t Ht.
  - rewrite (Wx' t Ht). do 2 f_equal. replace (_ + _) with ((c * c + s * s) * vx t) by ring. rewrite Hcs. ring.
  - rewrite (Wy' t Ht). do 2 f_equal. replace (_ - _) with ((c * c + s * s) * vy t) by ring. rewrite Hcs. ring.
Qed.
