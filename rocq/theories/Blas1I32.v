(** i32 arithmetic of the strided BLAS-1 loops: src/blas/dcopy.rs, src/blas/drot.rs, src/blas/dnrm2.rs with the counters the
    code really has (Blas.v uses unbounded ones).  dscal is in I32.v. *)
From Verif Require Import Base Num Array Blas I32.

(** [if inc < 0 { (-n + 1) * inc + 1 } else { 1 }], operator by operator (src/blas/dcopy.rs:56-57, src/blas/drot.rs:46-47) *)
Definition start_ix_i32 (pr : profile) (n inc : Z) : outcome Z :=
  if inc <? 0 then
    a <- i32_of pr (- n) ;; b <- i32_of pr (a + 1) ;; c <- i32_of pr (b * inc) ;; i32_of pr (c + 1)
  else Ok 1.
(** [1 - (n-1) * incx] (src/blas/dnrm2.rs:50) *)
Definition start_nrm_i32 (pr : profile) (n inc : Z) : outcome Z :=
  if inc <? 0 then a <- i32_of pr (n - 1) ;; b <- i32_of pr (a * inc) ;; i32_of pr (1 - b) else Ok 1.

Section Loops.
  Context {F : Type} {NF : Num F}.
  Notation fa := (fa F).

  (** the loop [for _ in 1..=n { step(ix, iy); ix += incx; iy += incy; }] (src/blas/dcopy.rs:58-62, src/blas/drot.rs:48-54) *)
  Definition pair_loop {S} (pr : profile) (n incx incy : Z) (step : Z -> Z -> S -> S) (ix iy : Z) (s : S) : outcome (Z * Z * S) :=
    for_M (range 1 n) (ix, iy, s) (fun _ '(ix, iy, s) =>
      let s := step ix iy s in
      ix <- i32_of pr (ix + incx) ;; iy <- i32_of pr (iy + incy) ;; Ok (ix, iy, s)).

  (** one element of an unrolled block: the index [i + d] is an i32 sum (src/blas/dcopy.rs:45-51) *)
  Definition copy_at_i32 (pr : profile) (dx : fa) (i d : Z) (dy : fa) : outcome fa :=
    p <- i32_of pr (i + d) ;; Ok (set1 dy p (get1 dx p)).
  (** src/blas/dcopy.rs:45-51 *)
  Definition dcopy_block_i32 (pr : profile) (dx : fa) (i : Z) (dy : fa) : outcome fa :=
    for_M (range 0 6) dy (copy_at_i32 pr dx i).
  (** src/blas/dcopy.rs:34-63 *)
  Definition dcopy_i32 (pr : profile) (n : Z) (dx : fa) (incx : Z) (dy : fa) (incy : Z) : outcome fa :=
    if ((incx =? 1) && (incy =? 1))%Z then
      let m := Z.rem n 7 in
      let dy1 := if (m =? 0)%Z then dy else for_ (range 1 m) dy (fun i d => set1 d i (get1 dx i)) in
      if negb (m =? 0)%Z && (n <? 7)%Z then Ok dy1
      else
        lo <- i32_of pr (m + 1) ;;
        for_M (range_step lo n 7) dy1 (dcopy_block_i32 pr dx)
    else
      ix <- start_ix_i32 pr n incx ;; iy <- start_ix_i32 pr n incy ;;
      r <- pair_loop pr n incx incy (fun ix iy d => set1 d iy (get1 dx ix)) ix iy dy ;;
      Ok (snd r).

  (** src/blas/drot.rs:37-57 *)
  Definition drot_i32 (pr : profile) (n : Z) (dx : fa) (incx : Z) (dy : fa) (incy : Z) (c s : F) : outcome (fa * fa) :=
    if ((incx =? 1) && (incy =? 1))%Z then
      Ok (for_ (range 1 n) (dx, dy) (fun i '(x, y) => drot_step c s i i x y))
    else
      ix <- start_ix_i32 pr n incx ;; iy <- start_ix_i32 pr n incy ;;
      r <- pair_loop pr n incx incy (fun ix iy '(x, y) => drot_step c s ix iy x y) ix iy (dx, dy) ;;
      Ok (snd r).

  (** src/blas/dnrm2.rs:43-87 *)
  Definition dnrm2_i32 (pr : profile) (n : Z) (x : fa) (incx : Z) : outcome F :=
    if (n <=? 0)%Z then Ok f0
    else
      ix0 <- start_nrm_i32 pr n incx ;;
      r <- for_M (range 1 n) (ix0, mkAcc true f0 f0 f0) (fun _ '(ix, a) =>
             let a := nrm_step (get1 x ix) a in
             ix <- i32_of pr (ix + incx) ;; Ok (ix, a)) ;;
      Ok (nrm_finish (snd r)).
End Loops.
