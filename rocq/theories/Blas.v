(** Model of src/blas. *)
From Coq Require Import Ascii.
From Verif Require Import Base Num Array.

(** Rust [char] is its code point; [chr "N"] is the literal 'N' (e.g. src/blas/dgemm.rs:50). *)
Definition chr (a : ascii) : Z := Z.of_N (N_of_ascii a).

(** ** src/blas/lsame.rs:9-20 *)
(** src/blas/lsame.rs:13-14: [c as u8] truncates the code point *)
Definition as_u8 (c : Z) : Z := c mod 256.
(** u8::is_ascii_alphabetic, src/blas/lsame.rs:17-18 *)
Definition is_alpha (b : Z) : bool :=
  ((65 <=? b) && (b <=? 90)) || ((97 <=? b) && (b <=? 122)).
(** u8::to_ascii_lowercase, which eq_ignore_ascii_case (src/blas/lsame.rs:19) compares *)
Definition lower (b : Z) : Z := if (65 <=? b) && (b <=? 90) then b + 32 else b.
(** src/blas/lsame.rs:9-20 *)
Definition lsame (ca cb : Z) : bool :=
  let a := as_u8 ca in
  let b := as_u8 cb in
  (a =? b) || (is_alpha a && is_alpha b && (lower a =? lower b)).

Section Blas.
  Context {F : Type} {NF : Num F}.
  Local Open Scope num_scope.
  Notation fa := (fa F).

  (** ** src/blas/dcopy.rs:20-66 *)
  (** src/blas/dcopy.rs:54-57 and src/blas/drot.rs:46-49: start offset for an increment *)
  Definition start_ix (n inc : Z) : Z :=
    (if inc <? 0 then (- n + 1) * inc + 1 else 1)%Z.

  (** src/blas/dcopy.rs:45-51, one unrolled block *)
  Definition dcopy_block (dx : fa) (i : Z) (dy : fa) : fa :=
    let dy := set1 dy i (get1 dx i) in
    let dy := set1 dy (i + 1)%Z (get1 dx (i + 1)%Z) in
    let dy := set1 dy (i + 2)%Z (get1 dx (i + 2)%Z) in
    let dy := set1 dy (i + 3)%Z (get1 dx (i + 3)%Z) in
    let dy := set1 dy (i + 4)%Z (get1 dx (i + 4)%Z) in
    let dy := set1 dy (i + 5)%Z (get1 dx (i + 5)%Z) in
    let dy := set1 dy (i + 6)%Z (get1 dx (i + 6)%Z) in
    dy.

  (** src/blas/dcopy.rs:34-63 (the early return of lines 39-42 included) *)
  Definition dcopy_fa (n : Z) (dx : fa) (incx : Z) (dy : fa) (incy : Z) : fa :=
    if ((incx =? 1) && (incy =? 1))%Z then
      let m := Z.rem n 7 in
      let dy1 := if (m =? 0)%Z then dy
                 else for_ (range 1 m) dy (fun i d => set1 d i (get1 dx i)) in
      (* early return of lines 39-42 *)
      if negb (m =? 0)%Z && (n <? 7)%Z then dy1
      else for_ (range_step (m + 1) n 7) dy1 (dcopy_block dx)
    else
      let '(_, _, d) :=
        for_ (range 1 n) (start_ix n incx, start_ix n incy, dy)
          (fun _ '(ix, iy, d) => ((ix + incx)%Z, (iy + incy)%Z, set1 d iy (get1 dx ix))) in
      d.

  (** src/blas/dcopy.rs:20-66 *)
  Definition dcopy {DX DY} `{ToFA F DX} `{ToFA F DY} `{FromFA F DY}
      (n : Z) (dx : DX) (incx : Z) (dy : DY) (incy : Z) : outcome DY :=
    let dx := to_fa dx in
    let dy_f := to_fa dy in
    if (n <=? 0)%Z then Ok dy
    else from_fa (dcopy_fa n dx incx dy_f incy).

  (** ** src/blas/dscal.rs:20-60 *)
  Definition dscal_block (da : F) (i : Z) (dx : fa) : fa :=
    let dx := mod1 dx i (fun x => x * da) in
    let dx := mod1 dx (i + 1)%Z (fun x => x * da) in
    let dx := mod1 dx (i + 2)%Z (fun x => x * da) in
    let dx := mod1 dx (i + 3)%Z (fun x => x * da) in
    let dx := mod1 dx (i + 4)%Z (fun x => x * da) in
    dx.

  (** src/blas/dscal.rs:52-56, [while i < nincx]; fuel n suffices (proved in Blas1Proofs.v) *)
  Fixpoint dscal_while (fuel : nat) (da : F) (incx nincx i : Z) (dx : fa) : outcome fa :=
    if (i <? nincx)%Z then
      match fuel with
      | O => NoFuel
      | S fuel' => dscal_while fuel' da incx nincx (i + incx) (mod1 dx i (fun x => x * da))
      end
    else Ok dx.

  (** src/blas/dscal.rs:31-57 *)
  Definition dscal_fa (n : Z) (da : F) (dx : fa) (incx : Z) : outcome fa :=
    if (incx =? 1)%Z then
      let m := Z.rem n 5 in
      let dx1 := if (m =? 0)%Z then dx
                 else for_ (range 1 m) dx (fun i d => mod1 d i (fun x => x * da)) in
      if negb (m =? 0)%Z && (n <? 5)%Z then Ok dx1
      else Ok (for_ (range_step (m + 1) n 5) dx1 (dscal_block da))
    else
      dscal_while (Z.to_nat n) da incx (n * incx)%Z 1 dx.

  (** src/blas/dscal.rs:20-60 *)
  Definition dscal {DX} `{ToFA F DX} `{FromFA F DX}
      (n : Z) (da : F) (dx : DX) (incx : Z) : outcome DX :=
    let dx_f := to_fa dx in
    if (n <=? 0)%Z || (incx <=? 0)%Z || (da =? f1) then Ok dx
    else r <- dscal_fa n da dx_f incx ;; from_fa r.

  (** ** src/blas/drot.rs:21-61 *)
  Definition drot_step (c s : F) (ix iy : Z) (dx dy : fa) : fa * fa :=
    let dtemp := c * get1 dx ix + s * get1 dy iy in
    let dy := set1 dy iy (c * get1 dy iy - s * get1 dx ix) in
    let dx := set1 dx ix dtemp in
    (dx, dy).

  (** src/blas/drot.rs:37-57 *)
  Definition drot_fa (n : Z) (dx : fa) (incx : Z) (dy : fa) (incy : Z) (c s : F) : fa * fa :=
    if ((incx =? 1) && (incy =? 1))%Z then
      for_ (range 1 n) (dx, dy) (fun i '(x, y) => drot_step c s i i x y)
    else
      let '(_, _, r) :=
        for_ (range 1 n) (start_ix n incx, start_ix n incy, (dx, dy))
          (fun _ '(ix, iy, (x, y)) => ((ix + incx)%Z, (iy + incy)%Z, drot_step c s ix iy x y)) in
      r.

  (** src/blas/drot.rs:21-61 *)
  Definition drot {DX DY} `{ToFA F DX} `{FromFA F DX} `{ToFA F DY} `{FromFA F DY}
      (n : Z) (dx : DX) (incx : Z) (dy : DY) (incy : Z) (c s : F) : outcome (DX * DY) :=
    let dx_f := to_fa dx in
    let dy_f := to_fa dy in
    if (n <=? 0)%Z then Ok (dx, dy)
    else
      let '(x, y) := drot_fa n dx_f incx dy_f incy c s in
      x' <- from_fa x ;; y' <- from_fa y ;; Ok (x', y').

  (** ** src/blas/dnrm2.rs:27-88 *)
  (** src/blas/dnrm2.rs:37; f64::RADIX = 2, MIN_EXP = -1021 *)
  Definition nrm_tsml : F := fpowf (fofZ 2) ((fofZ (-1021) - f1) * fhalf).
  (** src/blas/dnrm2.rs:38; MAX_EXP = 1024, DIGITS = 15 *)
  Definition nrm_tbig : F := fpowf (fofZ 2) ((fofZ 1024 - fofZ 15 + f1) * fhalf).
  (** src/blas/dnrm2.rs:39 *)
  Definition nrm_ssml : F := fpowf (fofZ 2) (- (fofZ (-1021) - fofZ 15) * fhalf).
  (** src/blas/dnrm2.rs:40 *)
  Definition nrm_sbig : F := fpowf (fofZ 2) (- (fofZ 1024 + fofZ 15 - f1) * fhalf).

  (** src/blas/dnrm2.rs:45-48, the accumulators *)
  Record nrm_acc := mkAcc { notbig : bool; asml : F; amed : F; abig : F }.

  (** src/blas/dnrm2.rs:53-61, one element *)
  Definition nrm_step (xi : F) (a : nrm_acc) : nrm_acc :=
    let ax := fabs xi in
    if ax >? nrm_tbig then
      mkAcc false (asml a) (amed a) (abig a + fpowf (ax * nrm_sbig) f2)
    else if ax <? nrm_tsml then
      if notbig a then mkAcc (notbig a) (asml a + fpowf (ax * nrm_ssml) f2) (amed a) (abig a)
      else a
    else mkAcc (notbig a) (asml a) (amed a + fpowf ax f2) (abig a).

  (** src/blas/dnrm2.rs:65-87 *)
  Definition nrm_finish (a : nrm_acc) : F :=
    let med_counts := (amed a >? f0) || (amed a >? fMAX) || (amed a <>? amed a) in
    let '(scl, sumsq) :=
      if abig a >? f0 then
        let abig' := if med_counts then abig a + (amed a * nrm_sbig) * nrm_sbig else abig a in
        (f1 / nrm_sbig, abig')
      else if asml a >? f0 then
        if med_counts then
          let amed' := fsqrt (amed a) in
          let asml' := fsqrt (asml a) / nrm_ssml in
          let '(ymin, ymax) := if asml' >? amed' then (amed', asml') else (asml', amed') in
          (f1, fpowf ymax f2 * (f1 + fpowf (ymin / ymax) f2))
        else (f1 / nrm_ssml, asml a)
      else (f1, amed a) in
    scl * fsqrt sumsq.

  (** src/blas/dnrm2.rs:43-87 *)
  Definition dnrm2_fa (n : Z) (x : fa) (incx : Z) : F :=
    if (n <=? 0)%Z then f0
    else
      (* line 50: 1 - (n-1) * incx *)
      let ix0 := (if incx <? 0 then 1 - (n - 1) * incx else 1)%Z in
      let '(_, a) :=
        for_ (range 1 n) (ix0, mkAcc true f0 f0 f0)
          (fun _ '(ix, a) => ((ix + incx)%Z, nrm_step (get1 x ix) a)) in
      nrm_finish a.

  (** src/blas/dnrm2.rs:27-88 *)
  Definition dnrm2 {X} `{ToFA F X} (n : Z) (x : X) (incx : Z) : F := dnrm2_fa n (to_fa x) incx.

  (** ** src/blas/dgemm.rs:27-178 *)
  (** src/blas/dgemm.rs:50-73 *)
  Definition dgemm_info (transa transb : Z) (m n k lda ldb ldc : Z) : Z :=
    (let nota := lsame transa (chr "N") in
     let notb := lsame transb (chr "N") in
     let nrowa := if nota then m else k in
     let nrowb := if notb then k else n in
     if negb nota && negb (lsame transa (chr "C")) && negb (lsame transa (chr "T")) then 1
     else if negb notb && negb (lsame transb (chr "C")) && negb (lsame transb (chr "T")) then 2
     else if m <? 0 then 3
     else if n <? 0 then 4
     else if k <? 0 then 5
     else if lda <? Z.max 1 nrowa then 8
     else if ldb <? Z.max 1 nrowb then 10
     else if ldc <? Z.max 1 m then 13
     else 0)%Z.

  (** src/blas/dgemm.rs:109-117 and 144-152 *)
  Definition dgemm_scale (m : Z) (beta : F) (j : Z) (c : fa) : fa :=
    if beta =? f0 then for_ (range 1 m) c (fun i c => set2 c i j f0)
    else if beta <>? f1 then for_ (range 1 m) c (fun i c => mod2 c i j (fun x => x * beta))
    else c.

  (** src/blas/dgemm.rs:108-124, and 143-159 with [b] reading B transposed *)
  Definition dgemm_axpy (m n k : Z) (alpha beta : F) (a : fa) (b : Z -> Z -> F) (c : fa) : fa :=
    for_ (range 1 n) c (fun j c =>
      let c := dgemm_scale m beta j c in
      for_ (range 1 k) c (fun l c =>
        let temp := alpha * b l j in
        for_ (range 1 m) c (fun i c => mod2 c i j (fun x => x + temp * get2 a i l)))).

  (** src/blas/dgemm.rs:127-139, and 162-174 with [b] reading B transposed *)
  Definition dgemm_dot (m n k : Z) (alpha beta : F) (a : fa) (b : Z -> Z -> F) (c : fa) : fa :=
    for_ (range 1 n) c (fun j c =>
      for_ (range 1 m) c (fun i c =>
        let temp := for_ (range 1 k) f0 (fun l temp => temp + get2 a l i * b l j) in
        if beta =? f0 then set2 c i j (alpha * temp)
        else set2 c i j (alpha * temp + beta * get2 c i j))).

  (** src/blas/dgemm.rs:80-175: what happens to C after validation.  [None]: C is not written back. *)
  Definition dgemm_fa (nota notb : bool) (m n k : Z) (alpha : F) (a b : fa) (beta : F) (c : fa)
    : option fa :=
    if (m =? 0)%Z || (n =? 0)%Z || (((alpha =? f0) || (k =? 0)%Z) && (beta =? f1)) then None
    else if alpha =? f0 then
      Some (if beta =? f0 then
              for_ (range 1 n) c (fun j c => for_ (range 1 m) c (fun i c => set2 c i j f0))
            else
              for_ (range 1 n) c (fun j c =>
                for_ (range 1 m) c (fun i c => mod2 c i j (fun x => x * beta))))
    else if notb then
      if nota then Some (dgemm_axpy m n k alpha beta a (fun l j => get2 b l j) c)
      else Some (dgemm_dot m n k alpha beta a (fun l j => get2 b l j) c)
    else if nota then Some (dgemm_axpy m n k alpha beta a (fun l j => get2 b j l) c)
    else Some (dgemm_dot m n k alpha beta a (fun l j => get2 b j l) c).

  (** src/blas/dgemm.rs:27-178 *)
  Definition dgemm {A B C} `{ToFA F A} `{ToFA F B} `{ToFA F C} `{FromFA F C}
      (transa transb : Z) (m n k : Z) (alpha : F) (a : A) (lda : Z) (b : B) (ldb : Z)
      (beta : F) (c : C) (ldc : Z) : outcome C :=
    a_f <- to_fa_2d a lda ;;
    b_f <- to_fa_2d b ldb ;;
    c_f <- to_fa_2d c ldc ;;
    let info := dgemm_info transa transb m n k lda ldb ldc in
    if negb (info =? 0)%Z then Exit "DGEMM " info
    else
      match dgemm_fa (lsame transa (chr "N")) (lsame transb (chr "N")) m n k alpha a_f b_f beta c_f with
      | None => Ok c
      | Some c' => from_fa c'
      end.

  (** ** src/blas/dtrmm.rs:34-244 *)
  (** src/blas/dtrmm.rs:53-75 *)
  Definition dtrmm_info (side uplo transa diag : Z) (m n lda ldb : Z) : Z :=
    (let lside := lsame side (chr "L") in
     let nrowa := if lside then m else n in
     let upper := lsame uplo (chr "U") in
     if negb lside && negb (lsame side (chr "R")) then 1
     else if negb upper && negb (lsame uplo (chr "L")) then 2
     else if negb (lsame transa (chr "N")) && negb (lsame transa (chr "T"))
             && negb (lsame transa (chr "C")) then 3
     else if negb (lsame diag (chr "U")) && negb (lsame diag (chr "N")) then 4
     else if m <? 0 then 5
     else if n <? 0 then 6
     else if lda <? Z.max 1 nrowa then 9
     else if ldb <? Z.max 1 m then 11
     else 0)%Z.

  Section Trmm.
    Context (nounit : bool) (m n : Z) (alpha : F) (a : fa).

    (** src/blas/dtrmm.rs:99-112: B := alpha*A*B, A upper *)
    Definition trmm_lnu (b : fa) : fa :=
      for_ (range 1 n) b (fun j b =>
        for_ (range 1 m) b (fun k b =>
          if get2 b k j <>? f0 then
            let temp := alpha * get2 b k j in
            let b := for_ (range 1 (k - 1)) b (fun i b => mod2 b i j (fun x => x + temp * get2 a i k)) in
            let temp := if nounit then temp * get2 a k k else temp in
            set2 b k j temp
          else b)).

    (** src/blas/dtrmm.rs:114-127: A lower *)
    Definition trmm_lnl (b : fa) : fa :=
      for_ (range 1 n) b (fun j b =>
        for_ (range_rev 1 m) b (fun k b =>
          if get2 b k j <>? f0 then
            let temp := alpha * get2 b k j in
            let b := set2 b k j temp in
            let b := if nounit then mod2 b k j (fun x => x * get2 a k k) else b in
            for_ (range (k + 1) m) b (fun i b => mod2 b i j (fun x => x + temp * get2 a i k))
          else b)).

    (** src/blas/dtrmm.rs:131-142: B := alpha*A**T*B, A upper *)
    Definition trmm_ltu (b : fa) : fa :=
      for_ (range 1 n) b (fun j b =>
        for_ (range_rev 1 m) b (fun i b =>
          let temp := get2 b i j in
          let temp := if nounit then temp * get2 a i i else temp in
          let temp := for_ (range 1 (i - 1)) temp (fun k temp => temp + get2 a k i * get2 b k j) in
          set2 b i j (alpha * temp))).

    (** src/blas/dtrmm.rs:144-155: A lower *)
    Definition trmm_ltl (b : fa) : fa :=
      for_ (range 1 n) b (fun j b =>
        for_ (range 1 m) b (fun i b =>
          let temp := get2 b i j in
          let temp := if nounit then temp * get2 a i i else temp in
          let temp := for_ (range (i + 1) m) temp (fun k temp => temp + get2 a k i * get2 b k j) in
          set2 b i j (alpha * temp))).

    (** src/blas/dtrmm.rs:170-175 and 188-193: column update *)
    Definition trmm_rn_add (j : Z) (k : Z) (b : fa) : fa :=
      if get2 a k j <>? f0 then
        let temp := alpha * get2 a k j in
        for_ (range 1 m) b (fun i b => mod2 b i j (fun x => x + temp * get2 b i k))
      else b.

    (** src/blas/dtrmm.rs:162-168 and 180-186 *)
    Definition trmm_rn_diag (j : Z) (b : fa) : fa :=
      let temp := if nounit then alpha * get2 a j j else alpha in
      for_ (range 1 m) b (fun i b => set2 b i j (temp * get2 b i j)).

    (** src/blas/dtrmm.rs:161-177: B := alpha*B*A, A upper *)
    Definition trmm_rnu (b : fa) : fa :=
      for_ (range_rev 1 n) b (fun j b =>
        for_ (range 1 (j - 1)) (trmm_rn_diag j b) (trmm_rn_add j)).

    (** src/blas/dtrmm.rs:179-195: A lower *)
    Definition trmm_rnl (b : fa) : fa :=
      for_ (range 1 n) b (fun j b =>
        for_ (range (j + 1) n) (trmm_rn_diag j b) (trmm_rn_add j)).

    (** src/blas/dtrmm.rs:201-206 and 221-226 *)
    Definition trmm_rt_add (k : Z) (j : Z) (b : fa) : fa :=
      if get2 a j k <>? f0 then
        let temp := alpha * get2 a j k in
        for_ (range 1 m) b (fun i b => set2 b i j (get2 b i j + temp * get2 b i k))
      else b.

    (** src/blas/dtrmm.rs:208-216 and 228-236 *)
    Definition trmm_rt_diag (k : Z) (b : fa) : fa :=
      let temp := if nounit then alpha * get2 a k k else alpha in
      if temp <>? f1 then for_ (range 1 m) b (fun i b => set2 b i k (temp * get2 b i k))
      else b.

    (** src/blas/dtrmm.rs:199-217: B := alpha*B*A**T, A upper *)
    Definition trmm_rtu (b : fa) : fa :=
      for_ (range 1 n) b (fun k b =>
        trmm_rt_diag k (for_ (range 1 (k - 1)) b (trmm_rt_add k))).

    (** src/blas/dtrmm.rs:219-237: A lower *)
    Definition trmm_rtl (b : fa) : fa :=
      for_ (range_rev 1 n) b (fun k b =>
        trmm_rt_diag k (for_ (range (k + 1) n) b (trmm_rt_add k))).
  End Trmm.

  (** src/blas/dtrmm.rs:96-240 *)
  Definition dtrmm_fa (lside upper notrans nounit : bool) (m n : Z) (alpha : F) (a b : fa) : fa :=
    if lside then
      if notrans then
        if upper then trmm_lnu nounit m n alpha a b else trmm_lnl nounit m n alpha a b
      else
        if upper then trmm_ltu nounit m n alpha a b else trmm_ltl nounit m n alpha a b
    else
      if notrans then
        if upper then trmm_rnu nounit m n alpha a b else trmm_rnl nounit m n alpha a b
      else
        if upper then trmm_rtu nounit m n alpha a b else trmm_rtl nounit m n alpha a b.

  (** src/blas/dtrmm.rs:34-244 *)
  Definition dtrmm {A B} `{ToFA F A} `{FromFA F A} `{ToFA F B} `{FromFA F B}
      (side uplo transa diag : Z) (m n : Z) (alpha : F) (a : A) (lda : Z) (b : B) (ldb : Z)
    : outcome (A * B) :=
    let a_f := to_fa a in
    let b_f := to_fa b in
    let info := dtrmm_info side uplo transa diag m n lda ldb in
    if negb (info =? 0)%Z then Exit "DTRMM " info
    else if (m =? 0)%Z || (n =? 0)%Z then Ok (a, b)
    else if alpha =? f0 then
      (* lines 86-94 *)
      b' <- from_fa (for_ (range 1 n) b_f (fun j b => for_ (range 1 m) b (fun i b => set2 b i j f0))) ;;
      Ok (a, b')
    else
      let r := dtrmm_fa (lsame side (chr "L")) (lsame uplo (chr "U")) (lsame transa (chr "N"))
                        (lsame diag (chr "N")) m n alpha a_f b_f in
      a' <- from_fa a_f ;; b' <- from_fa r ;; Ok (a', b').
End Blas.
