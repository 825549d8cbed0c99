(** Model of src/dlahqr.rs. *)
From Coq Require Import Ascii.
From Verif Require Import Base Num Array Blas Lapack.

Section Dlahqr.
  Context {F : Type} {NF : Num F}.
  Local Open Scope num_scope.
  Notation fa := (fa F).

  (** src/dlahqr.rs:279-282: a reflector (1, v2, v3), tau-multiples t1 t2 t3, applied to rows k..k+2
      in column j *)
  Definition left3 (k : Z) (v2 v3 t1 t2 t3 : F) (j : Z) (h : fa) : fa :=
    let sum := get2 h k j + v2 * get2 h (k + 1) j + v3 * get2 h (k + 2) j in
    let h := set2 h k j (get2 h k j - sum * t1) in
    let h := set2 h (k + 1) j (get2 h (k + 1) j - sum * t2) in
    set2 h (k + 2) j (get2 h (k + 2) j - sum * t3).
  (** src/dlahqr.rs:306-308 *)
  Definition left2 (k : Z) (v2 t1 t2 : F) (j : Z) (h : fa) : fa :=
    let sum := get2 h k j + v2 * get2 h (k + 1) j in
    let h := set2 h k j (get2 h k j - sum * t1) in
    set2 h (k + 1) j (get2 h (k + 1) j - sum * t2).
  (** src/dlahqr.rs:287-290 (H) and 296-299 (Z): columns k..k+2 in row j *)
  Definition right3 (k : Z) (v2 v3 t1 t2 t3 : F) (j : Z) (h : fa) : fa :=
    let sum := get2 h j k + v2 * get2 h j (k + 1) + v3 * get2 h j (k + 2) in
    let h := set2 h j k (get2 h j k - sum * t1) in
    let h := set2 h j (k + 1) (get2 h j (k + 1) - sum * t2) in
    set2 h j (k + 2) (get2 h j (k + 2) - sum * t3).
  (** src/dlahqr.rs:313-315 (H) and 321-323 (Z) *)
  Definition right2 (k : Z) (v2 t1 t2 : F) (j : Z) (h : fa) : fa :=
    let sum := get2 h j k + v2 * get2 h j (k + 1) in
    let h := set2 h j k (get2 h j k - sum * t1) in
    set2 h j (k + 1) (get2 h j (k + 1) - sum * t2).

  Section Params.
    Context (wantt wantz : bool) (n ilo ihi ldh iloz ihiz : Z).

    (** src/dlahqr.rs:70 *)
    Definition hq_nh : Z := (ihi - ilo + 1)%Z.
    (** src/dlahqr.rs:74 *)
    Definition hq_ulp : F := dlamch (chr "P").
    (** src/dlahqr.rs:73-75 *)
    Definition hq_smlnum : F := dlamch (chr "S") * (fofZ hq_nh / hq_ulp).
    (** src/dlahqr.rs:83 *)
    Definition hq_itmax : Z := (30 * Z.max hq_nh 10)%Z.

    (** src/dlahqr.rs:62-68 *)
    Definition hq_clear (h : fa) : fa :=
      let h := for_ (range ilo (ihi - 3)) h (fun j h =>
                 set2 (set2 h (j + 2) j f0) (j + 3) j f0) in
      if (ilo <=? ihi - 2)%Z then set2 h ihi (ihi - 2) f0 else h.

    (** src/dlahqr.rs:109-122: is the subdiagonal entry (k, k-1) negligible? *)
    Definition hq_small (h : fa) (k : Z) : bool :=
      let hkk1 := fabs (get2 h k (k - 1)) in
      if hkk1 <=? hq_smlnum then true
      else
        let tst := fabs (get2 h (k - 1) (k - 1)) + fabs (get2 h k k) in
        let tst :=
          if tst =? f0 then
            let tst := if (ilo <=? k - 2)%Z then tst + fabs (get2 h (k - 1) (k - 2)) else tst in
            if (k + 1 <=? ihi)%Z then tst + fabs (get2 h (k + 1) k) else tst
          else tst in
        if hkk1 <=? hq_ulp * tst then
          let ab := fmax hkk1 (fabs (get2 h (k - 1) k)) in
          let ba := fmin hkk1 (fabs (get2 h (k - 1) k)) in
          let aa := fmax (fabs (get2 h k k)) (fabs (get2 h (k - 1) (k - 1) - get2 h k k)) in
          let bb := fmin (fabs (get2 h k k)) (fabs (get2 h (k - 1) (k - 1) - get2 h k k)) in
          let s := aa + ab in
          ba * (ab / s) <=? fmax hq_smlnum (hq_ulp * (bb * (aa / s)))
        else false.

    (** src/dlahqr.rs:107-124: the scan.  [k0] is the value [k] had before; it survives when the
        range is empty. *)
    Definition hq_scan (h : fa) (l i k0 : Z) : Z :=
      for_brk (range_rev (l + 1) i) k0 (fun ck _ =>
        if hq_small h ck then (ck, true) else ((ck - 1)%Z, false)).

    (** src/dlahqr.rs:145-166: the 2x2 block from which shifts are taken: (h11, h21, h12, h22).
        kexsh = 10; dat1 = 3/4, dat2 = -0.4375 = -7 * 2^-4 *)
    Definition hq_block (h : fa) (l i kdefl : Z) : F * F * F * F :=
      let dat1 := fofZ 3 / fofZ 4 in
      let dat2 := fdy (-7) (-4) in
      if (Z.rem kdefl 20 =? 0)%Z then
        let s := fabs (get2 h i (i - 1)) + fabs (get2 h (i - 1) (i - 2)) in
        let h11 := dat1 * s + get2 h i i in
        (h11, s, dat2 * s, h11)
      else if (Z.rem kdefl 10 =? 0)%Z then
        let s := fabs (get2 h (l + 1) l) + fabs (get2 h (l + 2) (l + 1)) in
        let h11 := dat1 * s + get2 h l l in
        (h11, s, dat2 * s, h11)
      else
        (get2 h (i - 1) (i - 1), get2 h i (i - 1), get2 h (i - 1) i, get2 h i i).

    (** src/dlahqr.rs:168-205: (rt1r, rt1i, rt2r, rt2i) *)
    Definition hq_shifts (blk : F * F * F * F) : F * F * F * F :=
      let '(h11, h21, h12, h22) := blk in
      let s := fabs h11 + fabs h12 + fabs h21 + fabs h22 in
      if s =? f0 then (f0, f0, f0, f0)
      else
        let h11 := h11 / s in
        let h21 := h21 / s in
        let h12 := h12 / s in
        let h22 := h22 / s in
        let tr := (h11 + h22) / f2 in
        let det := (h11 - tr) * (h22 - tr) - h12 * h21 in
        let rtdisc := fsqrt (fabs det) in
        if det >=? f0 then
          let rt1r := tr * s in
          let rt1i := rtdisc * s in
          (rt1r, rt1i, rt1r, - rt1i)
        else
          let rt1r := tr + rtdisc in
          let rt2r := tr - rtdisc in
          if fabs (rt1r - h22) <=? fabs (rt2r - h22) then
            let rt1r := rt1r * s in (rt1r, f0, rt1r, f0)
          else
            let rt2r := rt2r * s in (rt2r, f0, rt2r, f0).

    (** src/dlahqr.rs:214-223: the scaled first column, stored in v *)
    Definition hq_firstcol (h : fa) (sh : F * F * F * F) (m : Z) (v : fa) : fa :=
      let '(rt1r, rt1i, rt2r, rt2i) := sh in
      let h21s := get2 h (m + 1) m in
      let s := fabs (get2 h m m - rt2r) + fabs rt2i + fabs h21s in
      let h21s := get2 h (m + 1) m / s in
      let v := set1 v 1 (h21s * get2 h m (m + 1)
                 + (get2 h m m - rt1r) * ((get2 h m m - rt2r) / s) - rt1i * (rt2i / s)) in
      let v := set1 v 2 (h21s * (get2 h m m + get2 h (m + 1) (m + 1) - rt1r - rt2r)) in
      let v := set1 v 3 (h21s * get2 h (m + 2) (m + 1)) in
      let s := fabs (get1 v 1) + fabs (get1 v 2) + fabs (get1 v 3) in
      let v := set1 v 1 (get1 v 1 / s) in
      let v := set1 v 2 (get1 v 2 / s) in
      set1 v 3 (get1 v 3 / s).

    (** src/dlahqr.rs:230-231 *)
    Definition hq_can_start (h v : fa) (m : Z) : bool :=
      (fabs (get2 h m (m - 1)) * (fabs (get1 v 2) + fabs (get1 v 3)))
      <=? (hq_ulp * fabs (get1 v 1)
           * (fabs (get2 h (m - 1) (m - 1)) + fabs (get2 h m m) + fabs (get2 h (m + 1) (m + 1)))).

    (** src/dlahqr.rs:207-235: returns (m, v) *)
    Definition hq_start (h : fa) (sh : F * F * F * F) (l i m0 : Z) (v0 : fa) : Z * fa :=
      for_brk (range_rev l (i - 2)) (m0, v0) (fun cm '(_, v) =>
        let v := hq_firstcol h sh cm v in
        if (cm =? l)%Z then ((cm, v), true)
        else if hq_can_start h v cm then ((cm, v), true)
        else ((cm, v), false)).

    (** src/dlahqr.rs:249-255: compute the reflector of step k in v, t1 *)
    Definition hq_reflector (h v : fa) (t1 : F) (m i k : Z) : outcome (fa * F) :=
      let nr := Z.min 3 (i - k + 1) in
      v <- (if (m <? k)%Z then
              t <- from2 h k (k - 1) ;; dcopy nr t 1 v 1
            else Ok v) ;;
      t <- from1 v 2 ;;
      r <- dlarfg nr (get1 v 1) (to_fa t) 1 ;;
      let '(v_1, v_2, t1) := r in
      v <- fa_insert v_2 1 v_1 ;;
      Ok (v, t1).

    (** src/dlahqr.rs:247-326: one step of the sweep.  [i1 i2] are the variables declared in lines
        137-143 (0, 0 unless wantt, then l, i), not those of lines 77-81. *)
    Definition hq_step (i1 i2 l m i k : Z) (st : fa * fa * fa * F) : outcome (fa * fa * fa * F) :=
      let '(h, z, v, t1) := st in
      let nr := Z.min 3 (i - k + 1) in
      r <- hq_reflector h v t1 m i k ;;
      let '(v, t1) := r in
      let h :=
        if (m <? k)%Z then
          let h := set2 h k (k - 1) (get1 v 1) in
          let h := set2 h (k + 1) (k - 1) f0 in
          if (k <? i - 1)%Z then set2 h (k + 2) (k - 1) f0 else h
        else if (l <? m)%Z then mod2 h k (k - 1) (fun x => x * (f1 - t1))
        else h in
      let v2 := get1 v 2 in
      let t2 := t1 * v2 in
      if (nr =? 3)%Z then
        let v3 := get1 v 3 in
        let t3 := t1 * v3 in
        let h := for_ (range k i2) h (left3 k v2 v3 t1 t2 t3) in
        let h := for_ (range i1 (Z.min i (k + 4))) h (right3 k v2 v3 t1 t2 t3) in
        let z := if wantz then for_ (range iloz ihiz) z (right3 k v2 v3 t1 t2 t3) else z in
        Ok (h, z, v, t1)
      else if (nr =? 2)%Z then
        let h := for_ (range k i2) h (left2 k v2 t1 t2) in
        let h := for_ (range i1 i) h (right2 k v2 t1 t2) in
        let z := if wantz then for_ (range iloz ihiz) z (right2 k v2 t1 t2) else z in
        Ok (h, z, v, t1)
      else Ok (h, z, v, t1).

    (** The variables that live across iterations (src/dlahqr.rs:41-44, 48, 84-93). *)
    Record hqst := mkHq {
      sH : fa; sWr : fa; sWi : fa; sZ : fa;
      sV : fa; sT1 : F; sM : Z; sK : Z; sL : Z; sI : Z; sIts : Z; sKdefl : Z;
      sCs : F; sSn : F }.

    (** src/dlahqr.rs:105-328, one iteration; [true] is [break 'loop_140]. *)
    Definition hq_iter (its : Z) (st : hqst) : outcome (hqst * bool) :=
      let i := sI st in
      let h := sH st in
      let k := hq_scan h (sL st) i (sK st) in
      let l := k in
      let h := if (ilo <? l)%Z then set2 h l (l - 1) f0 else h in
      if (i - 1 <=? l)%Z then
        Ok (mkHq h (sWr st) (sWi st) (sZ st) (sV st) (sT1 st) (sM st) k l i its (sKdefl st) (sCs st) (sSn st),
            true)
      else
        let kdefl := (sKdefl st + 1)%Z in
        let '(i1, i2) := if wantt then (l, i) else (0, 0)%Z in
        let sh := hq_shifts (hq_block h l i kdefl) in
        let '(m, v) := hq_start h sh l i (sM st) (sV st) in
        r <- for_M (range m (i - 1)) (h, sZ st, v, sT1 st) (hq_step i1 i2 l m i) ;;
        let '(h, z, v, t1) := r in
        Ok (mkHq h (sWr st) (sWi st) z v t1 m k l i its kdefl (sCs st) (sSn st), false).

    (** src/dlahqr.rs:360 etc.: [for idx in lo..=f.len() { f[idx] = w[(idx - lo) as usize]; }] *)
    Definition write_back (f : fa) (lo : Z) (w : list F) : outcome fa :=
      for_M (range lo (fa_len f)) f (fun idx f =>
        x <- vec_get w (idx - lo) ;; Ok (set1 f idx x)).

    (** src/dlahqr.rs:356-362.  [i2 = n] here (lines 77-81). *)
    Definition hq_rot_rows (i : Z) (cs sn : F) (h : fa) : outcome fa :=
      if (i <? n)%Z then
        h_02 <- from2 h (i - 1) (i + 1) ;;
        h_12 <- from2 h i (i + 1) ;;
        r <- drot (n - i) h_02 ldh h_12 ldh cs sn ;;
        let '(h_02, h_12) := r in
        h' <- write_back h (fa_idx h (i - 1) (i + 1)) h_02 ;;
        write_back h' (fa_idx h i (i + 1)) h_12
      else Ok h.

    (** src/dlahqr.rs:364-368 with i1 = 1: the rotated copies are temporaries, the copies written back
        are the unrotated ones *)
    Definition hq_rot_cols (i : Z) (cs sn : F) (h : fa) : outcome fa :=
      h_10 <- from2 h 1 (i - 1) ;;
      h_11 <- from2 h 1 i ;;
      _ <- drot (i - 1 - 1) h_10 1 h_11 1 cs sn ;;
      h' <- write_back h (fa_idx h 1 (i - 1)) h_10 ;;
      write_back h' (fa_idx h 1 i) h_11.

    (** src/dlahqr.rs:372-376 *)
    Definition hq_rot_z (i : Z) (cs sn : F) (z : fa) : outcome fa :=
      z_00 <- from2 z iloz (i - 1) ;;
      z_01 <- from2 z iloz i ;;
      r <- drot (ihiz - iloz + 1) z_00 1 z_01 1 cs sn ;;
      let '(z_00, z_01) := r in
      z' <- write_back z (fa_idx z iloz (i - 1)) z_00 ;;
      write_back z' (fa_idx z iloz i) z_01.

    (** src/dlahqr.rs:341-378: one or two eigenvalues have been isolated *)
    Definition hq_deflate (st : hqst) : outcome hqst :=
      let i := sI st in
      let l := sL st in
      let h := sH st in
      if (l =? i)%Z then
        Ok (mkHq h (set1 (sWr st) i (get2 h i i)) (set1 (sWi st) i f0) (sZ st) (sV st) (sT1 st) (sM st)
                 (sK st) l i (sIts st) (sKdefl st) (sCs st) (sSn st))
      else if (l =? i - 1)%Z then
        let r := dlanv2 (get2 h (i - 1) (i - 1)) (get2 h (i - 1) i) (get2 h i (i - 1)) (get2 h i i) in
        let h := set2 h (i - 1) (i - 1) (nA r) in
        let h := set2 h (i - 1) i (nB r) in
        let h := set2 h i (i - 1) (nC r) in
        let h := set2 h i i (nD r) in
        let wr := set1 (set1 (sWr st) (i - 1) (nrt1r r)) i (nrt2r r) in
        let wi := set1 (set1 (sWi st) (i - 1) (nrt1i r)) i (nrt2i r) in
        h <- (if wantt then h' <- hq_rot_rows i (nCs r) (nSn r) h ;; hq_rot_cols i (nCs r) (nSn r) h'
              else Ok h) ;;
        z <- (if wantz then hq_rot_z i (nCs r) (nSn r) (sZ st) else Ok (sZ st)) ;;
        Ok (mkHq h wr wi z (sV st) (sT1 st) (sM st) (sK st) l i (sIts st) (sKdefl st) (nCs r) (nSn r))
      else Ok st.

    (** src/dlahqr.rs:95-387, the unbounded [loop].  [conv] stands for the four conversions of lines
        383-386 back to the caller's containers, whose result is overwritten later but which can
        panic.  Returns (state, info). *)
    Fixpoint hq_loop (conv : hqst -> outcome unit) (fuel : nat) (st : hqst) : outcome (hqst * Z) :=
      if (sI st <? ilo)%Z then Ok (st, 0%Z)
      else
        match fuel with
        | O => NoFuel
        | S fuel' =>
            let st := mkHq (sH st) (sWr st) (sWi st) (sZ st) (sV st) (sT1 st) (sM st) (sK st) ilo (sI st)
                           (sIts st) (sKdefl st) (sCs st) (sSn st) in
            st <- for_brk_M (range 0 hq_itmax) st hq_iter ;;
            if (hq_itmax <=? sIts st)%Z then Ok (st, sI st)
            else
              st <- hq_deflate st ;;
              let st := mkHq (sH st) (sWr st) (sWi st) (sZ st) (sV st) (sT1 st) (sM st) (sK st) (sL st)
                             (sL st - 1) (sIts st) 0 (sCs st) (sSn st) in
              _ <- conv st ;;
              hq_loop conv fuel' st
        end.

    (** src/dlahqr.rs:62-93: state before the loop *)
    Definition hq_init (h wr wi z : fa) : hqst :=
      mkHq (hq_clear h) wr wi z (fa_of_vec [f0; f0; f0]) f0 0 ihi ilo ihi 0 0 f0 f0.
  End Params.

  (** src/dlahqr.rs:20-388.  Returns (h, wr, wi, z, info). *)
  Definition dlahqr {H WR WI ZZ}
      `{ToFA F H} `{FromFA F H} `{ToFA F WR} `{FromFA F WR}
      `{ToFA F WI} `{FromFA F WI} `{ToFA F ZZ} `{FromFA F ZZ}
      (fuel : nat) (wantt wantz : bool) (n ilo ihi : Z) (h : H) (ldh : Z) (wr : WR) (wi : WI)
      (iloz ihiz : Z) (z : ZZ) (ldz : Z) : outcome (H * WR * WI * ZZ * Z) :=
    let h_f := to_fa h in
    let wr_f := to_fa wr in
    let wi_f := to_fa wi in
    let z_f := to_fa z in
    if (n =? 0)%Z then Ok (h, wr, wi, z, 0%Z)
    else if (ilo =? ihi)%Z then
      wr' <- from_fa (set1 wr_f ilo (get2 h_f ilo ilo)) ;;
      wi' <- from_fa (set1 wi_f ilo f0) ;;
      Ok (h, wr', wi', z, 0%Z)
    else
      let conv (st : hqst) : outcome (H * WR * WI * ZZ) :=
        h' <- from_fa (sH st) ;; wr' <- from_fa (sWr st) ;;
        wi' <- from_fa (sWi st) ;; z' <- from_fa (sZ st) ;; Ok (h', wr', wi', z') in
      r <- hq_loop wantt wantz n ilo ihi ldh iloz ihiz
             (fun st => _ <- conv st ;; Ok tt) fuel (hq_init ilo ihi h_f wr_f wi_f z_f) ;;
      let '(st, info) := r in
      c <- conv st ;;
      let '(h', wr', wi', z') := c in
      Ok (h', wr', wi', z', info).
End Dlahqr.
