(** Model of the small LAPACK auxiliaries: src/dlamch.rs, dlapy2.rs, dlarfg.rs, dlaset.rs,
    dlacpy.rs, dlanv2.rs, dlaqr1.rs, ieeeck.rs, iparmq.rs, ilaenv.rs. *)
From Coq Require Import Ascii.
From Verif Require Import Base Num Array Blas.

Section Lapack.
  Context {F : Type} {NF : Num F}.
  Local Open Scope num_scope.
  Notation fa := (fa F).

  (** src/dlamch.rs:21 *)
  Definition mach_eps : F := fEPS * fhalf.

  (** src/dlamch.rs:28-36, the 'S' arm *)
  Definition mach_sfmin : F :=
    let sfmin := fMINPOS in
    let small := f1 / fMAX in
    if small >=? sfmin then small * (f1 + mach_eps) else sfmin.

  (** src/dlamch.rs:13-48 *)
  Definition dlamch (cmach : Z) : F :=
    if (cmach =? chr "E")%Z then mach_eps
    else if (cmach =? chr "S")%Z then mach_sfmin
    else if (cmach =? chr "B")%Z then fofZ 2
    else if (cmach =? chr "P")%Z then mach_eps * fofZ 2
    else if (cmach =? chr "N")%Z then fofZ 53
    else if (cmach =? chr "R")%Z then f1
    else if (cmach =? chr "M")%Z then fofZ (-1021)
    else if (cmach =? chr "U")%Z then fMINPOS
    else if (cmach =? chr "L")%Z then fofZ 1024
    else if (cmach =? chr "O")%Z then fMAX
    else f0.

  (** src/dlapy2.rs:13-25.  [powi(2)] is one multiplication. *)
  Definition dlapy2 (x y : F) : F :=
    if fisnan x then x
    else if fisnan y then y
    else
      let w := fmax (fabs x) (fabs y) in
      let z := fmin (fabs x) (fabs y) in
      if (z =? f0) || (w >? fMAX) then w
      else w * fsqrt (f1 + (z / w) * (z / w)).

  (** src/dlarfg.rs:57-65: the rescaling loop.  It leaves when [knt > 20], so fuel 20 never runs out
      (proved in LarfgProofs.v).  Returns (knt, x, beta, alpha). *)
  Fixpoint dlarfg_loop {X} `{ToFA F X} `{FromFA F X} (fuel : nat) (n incx : Z) (safmin rsafmn : F)
      (knt : nat) (x : X) (beta alpha : F) : outcome (nat * X * F * F) :=
    let knt := S knt in
    x <- dscal (n - 1) rsafmn x incx ;;
    let beta := beta * rsafmn in
    let alpha := alpha * rsafmn in
    if (fabs beta >? safmin) || (20 <? knt)%nat then Ok (knt, x, beta, alpha)
    else match fuel with
         | O => NoFuel
         | S fuel' => dlarfg_loop fuel' n incx safmin rsafmn knt x beta alpha
         end.

  (** src/dlarfg.rs:51 and 68 *)
  Definition larfg_beta (alpha xnorm : F) : F := (- fsignum alpha) * dlapy2 alpha xnorm.

  (** src/dlarfg.rs:73, [for _ in 0..knt { beta *= safmin; }] *)
  Fixpoint mul_times (knt : nat) (safmin beta : F) : F :=
    match knt with O => beta | S k => mul_times k safmin (beta * safmin) end.

  (** src/dlarfg.rs:52 *)
  Definition larfg_safmin : F := dlamch (chr "S") / dlamch (chr "E").

  (** src/dlarfg.rs:33-76.  [tau] is only written; returns (alpha, x, tau). *)
  Definition dlarfg {X} `{ToFA F X} `{FromFA F X} (n : Z) (alpha : F) (x : X) (incx : Z)
    : outcome (F * X * F) :=
    if (n <=? 1)%Z then Ok (alpha, x, f0)
    else
      let xnorm := dnrm2 (n - 1) x incx in
      if xnorm =? f0 then Ok (alpha, x, f0)
      else
        let beta := larfg_beta alpha xnorm in
        let safmin := larfg_safmin in
        r <- (if fabs beta <? safmin then
                let rsafmn := f1 / safmin in
                s <- dlarfg_loop 20 n incx safmin rsafmn 0 x beta alpha ;;
                let '(knt, x, beta, alpha) := s in
                let xnorm := dnrm2 (n - 1) x incx in
                Ok (knt, x, larfg_beta alpha xnorm, alpha)
              else Ok (O, x, beta, alpha)) ;;
        let '(knt, x, beta, alpha) := r in
        let tau := (beta - alpha) / beta in
        x <- dscal (n - 1) (f1 / (alpha - beta)) x incx ;;
        Ok (mul_times knt safmin beta, x, tau).

  (** src/dlaset.rs:27-43 and src/dlacpy.rs:30-46: the loop nest, with the assignment
      [w i j] abstracted (alpha in dlaset, A(i,j) in dlacpy). *)
  Definition tri_fill (uplo m n : Z) (w : Z -> Z -> F) (a : fa) : fa :=
    if (uplo =? chr "U")%Z then
      for_ (range 1 n) a (fun j a => for_ (range j m) a (fun i a => set2 a i j (w i j)))
    else if (uplo =? chr "L")%Z then
      for_ (range 1 n) a (fun j a => for_ (range 1 j) a (fun i a => set2 a i j (w i j)))
    else
      for_ (range 1 n) a (fun j a => for_ (range 1 m) a (fun i a => set2 a i j (w i j))).

  (** src/dlaset.rs:27-47 *)
  Definition dlaset_fa (uplo m n : Z) (alpha beta : F) (a : fa) : fa :=
    let a := tri_fill uplo m n (fun _ _ => alpha) a in
    for_ (range 1 (Z.min n m)) a (fun i a => set2 a i i beta).

  (** src/dlaset.rs:15-50 *)
  Definition dlaset {A} `{ToFA F A} `{FromFA F A} (uplo m n : Z) (alpha beta : F) (a : A) : outcome A :=
    from_fa (dlaset_fa uplo m n alpha beta (to_fa a)).

  (** src/dlacpy.rs:15-49 *)
  Definition dlacpy {A B} `{ToFA F A} `{ToFA F B} `{FromFA F B} (uplo m n : Z) (a : A) (lda : Z)
      (b : B) (ldb : Z) : outcome B :=
    a_f <- to_fa_2d a lda ;;
    b_f <- to_fa_2d b ldb ;;
    from_fa (tri_fill uplo m n (fun i j => get2 a_f i j) b_f).

  (** ** src/dlanv2.rs *)
  (** src/dlanv2.rs:16-27: the ten [&mut] arguments; rt*, cs and sn are only written. *)
  Record nv2 := mkNv2 {
    nA : F; nB : F; nC : F; nD : F;
    nrt1r : F; nrt1i : F; nrt2r : F; nrt2i : F; nCs : F; nSn : F }.

  (** src/dlanv2.rs:29-32 *)
  Definition nv_eps : F := dlamch (chr "P").
  (** src/dlanv2.rs:31.  [trunc] is applied to the power, not to the exponent. *)
  Definition nv_safmn2 : F :=
    ftrunc (fpowf (dlamch (chr "B"))
                  (flog (dlamch (chr "S") / nv_eps) (dlamch (chr "B")) / f2)).
  (** src/dlanv2.rs:32 *)
  Definition nv_safmx2 : F := f1 / nv_safmn2.

  (** src/dlanv2.rs:73-94.  [left = 20 - (count - 1)] is how often [continue] is still allowed.
      Returns (sigma, temp). *)
  Fixpoint nv_loop (left : nat) (sigma temp : F) : F * F :=
    let scale := fmax (fabs temp) (fabs sigma) in
    match left with
    | S left' =>
        if scale >=? nv_safmx2 then nv_loop left' (sigma * nv_safmn2) (temp * nv_safmn2)
        else if scale <=? nv_safmn2 then nv_loop left' (sigma * nv_safmx2) (temp * nv_safmx2)
        else (sigma, temp)
    | O =>
        let '(sigma, temp) :=
          if scale >=? nv_safmx2 then (sigma * nv_safmn2, temp * nv_safmn2) else (sigma, temp) in
        if scale <=? nv_safmn2 then (sigma * nv_safmx2, temp * nv_safmx2) else (sigma, temp)
    end.

  (** the state (a, b, c, d, cs, sn) of src/dlanv2.rs:34-146 *)
  Definition nvst : Type := (F * F * F * F * F * F)%type.

  (** src/dlanv2.rs:119-144: the off-diagonal entries after the diagonal was made equal to [temp] *)
  Definition nv_offdiag (temp : F) (st : nvst) : nvst :=
    let '(a, b, c, d, cs, sn) := st in
    if c <>? f0 then
      if b <>? f0 then
        if fsignum b =? fsignum c then
          let sab := fsqrt (fabs b) in
          let sac := fsqrt (fabs c) in
          let p := fsignum c * sab * sac in
          let tau := f1 / fsqrt (fabs (b + c)) in
          let a := temp + p in
          let d := temp - p in
          let b := b - c in
          let c := f0 in
          let cs1 := sab * tau in
          let sn1 := sac * tau in
          let temp := cs * cs1 - sn * sn1 in
          let sn := cs * sn1 + sn * cs1 in
          let cs := temp in
          (a, b, c, d, cs, sn)
        else st
      else
        let b := - c in
        let c := f0 in
        let temp := cs in
        let cs := - sn in
        let sn := temp in
        (a, b, c, d, cs, sn)
    else st.

  (** src/dlanv2.rs:96-117: one Jacobi-like rotation making the diagonal equal.
      Returns the state and [temp]. *)
  Definition nv_equalise (sigma temp a b c d : F) : F * nvst :=
    let p := fhalf * temp in
    let tau := dlapy2 sigma temp in
    let cs := fsqrt ((f1 + fabs sigma / tau) * fhalf) in
    let sn := (- (p / (tau * cs))) * fsignum sigma in
    let aa := a * cs + b * sn in
    let bb := - (a * sn) + b * cs in
    let cc := c * cs + d * sn in
    let dd := - (c * sn) + d * cs in
    let a := aa * cs + cc * sn in
    let b := bb * cs + dd * sn in
    let c := - (aa * sn) + cc * cs in
    let d := - (bb * sn) + dd * cs in
    let temp := fhalf * (a + d) in
    (temp, (temp, b, c, temp, cs, sn)).

  (** src/dlanv2.rs:50-51 *)
  Definition nv_p (a d : F) : F := fhalf * (a - d).
  (** src/dlanv2.rs:52 *)
  Definition nv_bcmax (b c : F) : F := fmax (fabs b) (fabs c).
  (** src/dlanv2.rs:53 *)
  Definition nv_bcmis (b c : F) : F := fmin (fabs b) (fabs c) * fsignum b * fsignum c.
  (** src/dlanv2.rs:54 *)
  Definition nv_scale (a b c d : F) : F := fmax (fabs (nv_p a d)) (nv_bcmax b c).
  (** src/dlanv2.rs:55 *)
  Definition nv_z (a b c d : F) : F :=
    (nv_p a d / nv_scale a b c d) * nv_p a d + (nv_bcmax b c / nv_scale a b c d) * nv_bcmis b c.

  (** src/dlanv2.rs:58-68: two real eigenvalues *)
  Definition nv_real (a b c d : F) : nvst :=
    let p := nv_p a d in
    let z := p + fcopysign (fsqrt (nv_scale a b c d) * fsqrt (nv_z a b c d)) p in
    let a' := d + z in
    let d' := d - (nv_bcmax b c / z) * nv_bcmis b c in
    let tau := dlapy2 c z in
    (a', b - c, f0, d', z / tau, c / tau).

  (** src/dlanv2.rs:34-146 *)
  Definition nv_main (a b c d : F) : nvst :=
    if c =? f0 then (a, b, c, d, f1, f0)
    else if b =? f0 then (d, - c, f0, a, f0, f1)
    else if (fabs (a - d) <? fEPS) && (fsignum b <>? fsignum c) then (a, b, c, d, f1, f0)
    else if nv_z a b c d >=? f4 * nv_eps then nv_real a b c d
    else
      let '(sigma, temp) := nv_loop 20 (b + c) (a - d) in
      let '(temp, st) := nv_equalise sigma temp a b c d in
      nv_offdiag temp st.

  (** src/dlanv2.rs:16-158 *)
  Definition dlanv2 (a b c d : F) : nv2 :=
    let '(a, b, c, d, cs, sn) := nv_main a b c d in
    let rt1r := a in
    let rt2r := d in
    if c =? f0 then mkNv2 a b c d rt1r f0 rt2r f0 cs sn
    else
      let rt1i := fsqrt (fabs b) * fsqrt (fabs c) in
      mkNv2 a b c d rt1r rt1i rt2r (- rt1i) cs sn.

  (** ** src/dlaqr1.rs:24-68 *)
  (** src/dlaqr1.rs:43-51 *)
  Definition laqr1_2 (h : fa) (sr1 si1 sr2 si2 : F) (v : fa) : fa :=
    let s := fabs (get2 h 1 1 - sr2) + fabs si2 + fabs (get2 h 2 1) in
    if s =? f0 then set1 (set1 v 1 f0) 2 f0
    else
      let h21s := get2 h 2 1 / s in
      let v := set1 v 1 (h21s * get2 h 1 2
                         + (get2 h 1 1 - sr1) * ((get2 h 1 1 - sr2) / s) - si1 * (si2 / s)) in
      set1 v 2 (h21s * (get2 h 1 1 + get2 h 2 2 - sr1 - sr2)).

  (** src/dlaqr1.rs:53-64 *)
  Definition laqr1_3 (h : fa) (sr1 si1 sr2 si2 : F) (v : fa) : fa :=
    let s := fabs (get2 h 1 1 - sr2) + fabs si2 + fabs (get2 h 2 1) + fabs (get2 h 3 1) in
    if s =? f0 then set1 (set1 (set1 v 1 f0) 2 f0) 3 f0
    else
      let h21s := get2 h 2 1 / s in
      let h31s := get2 h 3 1 / s in
      let v := set1 v 1 ((get2 h 1 1 - sr1) * ((get2 h 1 1 - sr2) / s) - si1 * (si2 / s)
                         + get2 h 1 2 * h21s + get2 h 1 3 * h31s) in
      let v := set1 v 2 (h21s * (get2 h 1 1 + get2 h 2 2 - sr1 - sr2) + get2 h 2 3 * h31s) in
      set1 v 3 (h31s * (get2 h 1 1 + get2 h 3 3 - sr1 - sr2) + h21s * get2 h 3 2).

  (** src/dlaqr1.rs:24-68 *)
  Definition dlaqr1 {H V} `{ToFA F H} `{ToFA F V} `{FromFA F V} (n : Z) (h : H) (ldh : Z)
      (sr1 si1 sr2 si2 : F) (v : V) : outcome V :=
    h_f <- to_fa_2d h ldh ;;
    let v_f := to_fa v in
    if negb (n =? 2)%Z && negb (n =? 3)%Z then Ok v
    else if (n =? 2)%Z then from_fa (laqr1_2 h_f sr1 si1 sr2 si2 v_f)
    else from_fa (laqr1_3 h_f sr1 si1 sr2 si2 v_f).

  (** ** src/ieeeck.rs:9-50 *)
  Definition ieeeck (ispec : Z) (zero one : F) : Z :=
    let posinf := one / zero in
    if posinf <=? one then 0%Z else
    let neginf := (- one) / zero in
    if neginf >=? zero then 0%Z else
    let negzro := one / (neginf + one) in
    if negzro <>? zero then 0%Z else
    let neginf := one / negzro in
    if neginf >=? zero then 0%Z else
    let newzro := negzro + zero in
    if newzro <>? zero then 0%Z else
    let posinf := one / newzro in
    if posinf <=? one then 0%Z else
    let neginf := neginf * posinf in
    if neginf >=? zero then 0%Z else
    let posinf := posinf * posinf in
    if posinf <=? one then 0%Z else
    if (ispec =? 0)%Z then 1%Z else
    let nan1 := posinf + neginf in
    let nan2 := posinf / neginf in
    let nan3 := posinf / posinf in
    let nan4 := posinf * zero in
    let nan5 := neginf * negzro in
    let nan6 := nan5 * zero in
    if fisnan nan1 || fisnan nan2 || fisnan nan3 || fisnan nan4 || fisnan nan5 || fisnan nan6
    then 0%Z else 1%Z.

  (** ** src/iparmq.rs, src/ilaenv.rs *)
  (** src/iparmq.rs:58, src/ilaenv.rs:32.  Routine names are ASCII strings, so characters are
      bytes and slicing never falls inside a character. *)
  Definition is_lower (a : ascii) : bool :=
    let c := chr a in ((97 <=? c) && (c <=? 122))%Z.
  (** src/iparmq.rs:62-65, src/ilaenv.rs:32-34 *)
  Definition up_ascii (a : ascii) : ascii :=
    if is_lower a then ascii_of_N (Z.to_N (chr a - 32)) else a.
  (** src/iparmq.rs:59-67, src/ilaenv.rs:33-42: upper-case the first [k] characters *)
  Fixpoint up_prefix (k : nat) (s : string) : string :=
    match k, s with
    | S k', String a s' => String (up_ascii a) (up_prefix k' s')
    | _, _ => s
    end.
  (** [&s[a..b]], src/iparmq.rs:95-101 *)
  Definition str_slice (s : string) (a b : nat) : outcome string :=
    if (b <=? String.length s)%nat then Ok (substring a (b - a) s) else Panic.

  (** src/iparmq.rs:30-41.  The [match nh] computes a value that is thrown away; its only possible
      effect is a panic of the i32 division when the logarithm rounds to 0. *)
  Definition iparmq_ns (ispec nh : Z) : outcome Z :=
    let ns := 2%Z in
    if ((ispec =? 15) || (ispec =? 13) || (ispec =? 16))%Z then
      _ <- (if (nh <? 150)%Z then Ok tt
            else if (nh <? 590)%Z then
              (if (fround_i32 (flog (fofZ nh) f2) =? 0)%Z then Panic else Ok tt)
            else Ok tt) ;;
      Ok (Z.max 2 (ns - Z.rem ns 2))
    else Ok ns.

  (** src/iparmq.rs:51-106 *)
  Definition iparmq_acc (name : string) (nh ns : Z) : outcome Z :=
    match name with
    | EmptyString => Panic
    | String c0 _ =>
        let subnam := if is_lower c0 then up_prefix 6 name else name in
        s16 <- str_slice subnam 1 6 ;;
        if (s16 =? "GGHRD")%string || (s16 =? "GGHD3")%string then
          if (14 <=? nh)%Z then Ok 2%Z else Ok 1%Z
        else
          s36 <- str_slice subnam 3 6 ;;
          if (s36 =? "EXC")%string then
            if (14 <=? nh)%Z then Ok 1%Z else if (14 <=? nh)%Z then Ok 2%Z else Ok 0%Z
          else
            s15 <- str_slice subnam 1 5 ;;
            if (s16 =? "HSEQR")%string || (s15 =? "LAQR")%string then
              if (14 <=? ns)%Z then Ok 1%Z else if (14 <=? ns)%Z then Ok 2%Z else Ok 0%Z
            else Ok 0%Z
    end.

  (** src/iparmq.rs:9-110 *)
  Definition iparmq (ispec : Z) (name : string) (ilo ihi : Z) : outcome Z :=
    let nh := (ihi - ilo + 1)%Z in
    ns <- iparmq_ns ispec nh ;;
    if (ispec =? 12)%Z then Ok 75%Z
    else if (ispec =? 14)%Z then Ok 14%Z
    else if (ispec =? 15)%Z then Ok ns
    else if (ispec =? 13)%Z then Ok (if (nh <? 500)%Z then ns else Z.quot (3 * ns) 2)
    else if (ispec =? 16)%Z then iparmq_acc name nh ns
    else if (ispec =? 17)%Z then Ok 10%Z
    else Ok (-1)%Z.

  (** src/ilaenv.rs:26-76, the ASCII arm ([iz] is 90) *)
  Definition ilaenv_subnam (name : string) : outcome string :=
    match name with
    | EmptyString => Panic
    | String c0 _ =>
        if is_lower c0 then
          if (6 <=? String.length name)%nat then Ok (up_prefix 6 name) else Panic
        else Ok name
    end.

  (** src/ilaenv.rs:100, 117, 130 *)
  Definition qr_suffix (c4 : string) : bool :=
    existsb (String.eqb c4) ["QR"; "RQ"; "LQ"; "QL"; "HR"; "TR"; "BR"]%string.
  (** [c3.starts_with(c)], src/ilaenv.rs:99, 116, 129 *)
  Definition starts (c3 : string) (c : ascii) : bool :=
    match c3 with String a _ => Ascii.eqb a c | EmptyString => false end.

  (** the names of src/ilaenv.rs:96, 111, 124 *)
  Definition ge_fact (c2 c3 : string) : bool :=
    (c2 =? "GE")%string &&
    existsb (String.eqb c3) ["QRF"; "RQF"; "LQF"; "QLF"; "HRD"; "BRD"]%string.

  (** src/ilaenv.rs:92-109 *)
  Definition ilaenv_nb (subnam c2 c3 c4 : string) (sname cname twostage : bool) (n1 n2 n4 : Z) : Z :=
    (if ((c2 =? "LA")%string && (substring 1 5 subnam =? "LAORH")%string)
       || (((c2 =? "SY")%string || (c2 =? "HE")%string) && (c3 =? "TRF")%string && twostage) then 192
    else if ((c2 =? "SY")%string || (c2 =? "HE")%string) && (c3 =? "TRF")%string && negb twostage then 64
    else if ge_fact c2 c3 then 32
    else if (c2 =? "GE")%string && (substring 3 4 subnam =? "QP3RK")%string then 32
    else if ((c2 =? "OR")%string && sname)
       || ((c2 =? "UN")%string && cname && (starts c3 "G" || starts c3 "M") && qr_suffix c4) then 32
    else if ((c2 =? "GB")%string || (c2 =? "PB")%string) && (c3 =? "TRF")%string
            && ((64 <? n4) || (64 <? n2)) then 32
    else if (c2 =? "TR")%string && ((c3 =? "TRI")%string || (c3 =? "EVC")%string) then 64
    else if (c2 =? "TR")%string && (c3 =? "SYL")%string && sname then
      Z.min (Z.max 48 (Z.quot (Z.min n1 n2 * 16) 100)) 240
    else if (c2 =? "TR")%string && (c3 =? "SYL")%string && negb sname then
      Z.min (Z.max 24 (Z.quot (Z.min n1 n2 * 8) 100)) 80
    else if (c2 =? "LA")%string && ((c3 =? "UUM")%string || (c3 =? "TRS")%string) then 64
    else if (c2 =? "ST")%string && (c3 =? "EBZ")%string && sname then 1
    else if (c2 =? "GG")%string && (c3 =? "HD3")%string then 32
    else 1)%Z.

  (** src/ilaenv.rs:110-122 *)
  Definition ilaenv_nbmin (subnam c2 c3 c4 : string) (sname cname : bool) : Z :=
    (if ge_fact c2 c3 then 2
    else if (c2 =? "GE")%string && (substring 3 4 subnam =? "QP3RK")%string then 2
    else if (c2 =? "SY")%string && (c3 =? "TRF")%string && (sname || cname) then 8
    else if ((c2 =? "SY")%string || (c2 =? "HE")%string) && (c3 =? "TRD")%string && (sname || cname) then 2
    else if ((c2 =? "OR")%string && sname) || ((c2 =? "UN")%string && cname) then
      if starts c3 "G" || (starts c3 "M" && qr_suffix c4) then 2 else 1
    else if (c2 =? "GG")%string && (c3 =? "HD3")%string then 2
    else 2)%Z.

  (** src/ilaenv.rs:123-133 *)
  Definition ilaenv_nx (subnam c2 c3 c4 : string) (sname cname : bool) : Z :=
    (if ge_fact c2 c3 then 128
    else if (c2 =? "GE")%string && (substring 3 4 subnam =? "QP3RK")%string then 128
    else if ((c2 =? "SY")%string || (c2 =? "HE")%string) && (c3 =? "TRD")%string && (sname || cname) then 32
    else if (c2 =? "GG")%string && (c3 =? "HD3")%string then 128
    else if ((c2 =? "OR")%string && sname) || ((c2 =? "UN")%string && cname) then
      if starts c3 "G" && qr_suffix c4 then 128 else 0
    else 0)%Z.

  (** src/ilaenv.rs:25-136 *)
  Definition ilaenv_blk (ispec : Z) (name : string) (n1 n2 n4 : Z) : outcome Z :=
    subnam <- ilaenv_subnam name ;;
    match subnam with
    | EmptyString => Panic
    | String c1 _ =>
        let sname := Ascii.eqb c1 "S" || Ascii.eqb c1 "D" in
        let cname := Ascii.eqb c1 "C" || Ascii.eqb c1 "Z" in
        if negb (cname || sname) then Ok 1%Z
        else
          let c2 := substring 1 2 subnam in
          let c3 := substring 3 3 subnam in
          let c4 := substring 1 2 c3 in
          let twostage := (11 <=? String.length subnam)%nat
                          && match String.get 10 subnam with
                             | Some a => Ascii.eqb a "2" | None => false end in
          if (ispec =? 1)%Z then Ok (ilaenv_nb subnam c2 c3 c4 sname cname twostage n1 n2 n4)
          else if (ispec =? 2)%Z then Ok (ilaenv_nbmin subnam c2 c3 c4 sname cname)
          else if (ispec =? 3)%Z then Ok (ilaenv_nx subnam c2 c3 c4 sname cname)
          else Ok (-1)%Z
    end.

  (** src/ilaenv.rs:15-148; the literal 1.6 is 7205759403792794 * 2^-52 *)
  Definition ilaenv (ispec : Z) (name opts : string) (n1 n2 n3 n4 : Z) : outcome Z :=
    if ((1 <=? ispec) && (ispec <=? 3))%Z then ilaenv_blk ispec name n1 n2 n4
    else if (ispec =? 4)%Z then Ok 6%Z
    else if (ispec =? 5)%Z then Ok 2%Z
    else if (ispec =? 6)%Z then Ok (fround_i32 (fofZ (Z.min n1 n2) * fdy 7205759403792794 (-52)))
    else if (ispec =? 7)%Z then Ok 1%Z
    else if (ispec =? 8)%Z then Ok 50%Z
    else if (ispec =? 9)%Z then Ok 25%Z
    else if (ispec =? 10)%Z then Ok (ieeeck 1 f0 f1)
    else if (ispec =? 11)%Z then Ok (ieeeck 0 f0 f1)
    else if ((12 <=? ispec) && (ispec <=? 17))%Z then iparmq ispec name n2 n3
    else Ok (-1)%Z.
End Lapack.
