(** Model of src/dlaqr5.rs. *)
From Coq Require Import Ascii.
From Verif Require Import Base Num Array Blas Lapack.

(** [(lo..=hi).step_by(st as usize)] for an i32 [st] (src/dlaqr5.rs:400, 414, 429): panics on 0 even
    when the range is empty; a negative [st] becomes a step beyond i32, so only the first element
    is produced. *)
Definition range_step_i32 (lo hi st : Z) : outcome (list Z) :=
  if st =? 0 then Panic
  else if st <? 0 then Ok (if lo <=? hi then [lo] else [])
  else Ok (range_step lo hi st).

Section Dlaqr5.
  Context {F : Type} {NF : Num F}.
  Local Open Scope num_scope.
  Notation fa := (fa F).

  (** src/dlaqr5.rs:73-76 (and 78-81): rotate three entries *)
  Definition shuffle3 (f : fa) (i : Z) : fa :=
    let swap := get1 f i in
    let f := set1 f i (get1 f (i + 1)) in
    let f := set1 f (i + 1) (get1 f (i + 2)) in
    set1 f (i + 2) swap.

  (** src/dlaqr5.rs:71-83 *)
  Definition shuffle_shifts (nshfts : Z) (sr si : fa) : fa * fa :=
    for_ (range_step 0 (nshfts - 3) 2) (sr, si) (fun i '(sr, si) =>
      if get1 si i <>? get1 si (i + 1) then (shuffle3 sr i, shuffle3 si i) else (sr, si)).

  (** src/dlaqr5.rs:126-129 (and 136-139, 231-234, 253-256): run dlarfg on (alpha, V(2..,m)), rebuild V
      from the tail.  Returns (V, beta). *)
  Definition v_reflect (n : Z) (alpha : F) (m ldv : Z) (v : fa) : outcome (fa * F) :=
    v_1 <- from2 v 2 m ;;
    r <- dlarfg n alpha v_1 1 ;;
    let '(beta, v_1, v_2) := r in
    v <- fa_insert (to_fa v_1) 1 v_2 ;;
    v <- fa_as_2d v ldv ;;
    Ok (v, beta).

  (** src/dlaqr5.rs:149-151 and 203-205, 211-213: 2-column reflector on row j *)
  Definition q5_right2 (c : Z) (v2 t1 t2 : F) (j : Z) (h : fa) : fa :=
    let refsum := get2 h j c + v2 * get2 h j (c + 1) in
    let h := mod2 h j c (fun x => x - refsum * t1) in
    mod2 h j (c + 1) (fun x => x - refsum * t2).
  (** src/dlaqr5.rs:165-167 *)
  Definition q5_left2 (r : Z) (v2 t1 t2 : F) (j : Z) (h : fa) : fa :=
    let refsum := get2 h r j + v2 * get2 h (r + 1) j in
    let h := mod2 h r j (fun x => x - refsum * t1) in
    mod2 h (r + 1) j (fun x => x - refsum * t2).
  (** src/dlaqr5.rs:302-305, 367-370, 381-384: 3-column reflector on row j *)
  Definition q5_right3 (c : Z) (v2 v3 t1 t2 t3 : F) (j : Z) (h : fa) : fa :=
    let refsum := get2 h j c + v2 * get2 h j (c + 1) + v3 * get2 h j (c + 2) in
    let h := mod2 h j c (fun x => x - refsum * t1) in
    let h := mod2 h j (c + 1) (fun x => x - refsum * t2) in
    mod2 h j (c + 2) (fun x => x - refsum * t3).
  (** src/dlaqr5.rs:308-311, 349-352 *)
  Definition q5_left3 (r : Z) (v2 v3 t1 t2 t3 : F) (j : Z) (h : fa) : fa :=
    let refsum := get2 h r j + v2 * get2 h (r + 1) j + v3 * get2 h (r + 2) j in
    let h := mod2 h r j (fun x => x - refsum * t1) in
    let h := mod2 h (r + 1) j (fun x => x - refsum * t2) in
    mod2 h (r + 2) j (fun x => x - refsum * t3).

  Section Params.
    Context (wantt wantz accum : bool) (n ktop kbot nbmps : Z) (sr si : fa)
            (ldh iloz ihiz ldz ldv ldu nv ldwv nh ldwh : Z).

    (** src/dlaqr5.rs:87 *)
    Definition q5_ulp : F := dlamch (chr "P").
    (** src/dlaqr5.rs:86-88 *)
    Definition q5_smlnum : F := dlamch (chr "S") * (fofZ n / q5_ulp).
    (** src/dlaqr5.rs:96 *)
    Definition q5_kdu : Z := (4 * nbmps)%Z.

    (** src/dlaqr5.rs:171-193 and 314-335: clear a negligible H(k+1,k) *)
    Definition q5_vigilant (k : Z) (h : fa) : fa :=
      if get2 h (k + 1) k <>? f0 then
        let tst1 := fabs (get2 h k k) + fabs (get2 h (k + 1) (k + 1)) in
        let tst1 :=
          if tst1 =? f0 then
            let t := tst1 in
            let t := if (ktop + 1 <=? k)%Z then t + fabs (get2 h k (k - 1)) else t in
            let t := if (ktop + 2 <=? k)%Z then t + fabs (get2 h k (k - 2)) else t in
            let t := if (ktop + 3 <=? k)%Z then t + fabs (get2 h k (k - 3)) else t in
            let t := if (k <=? kbot - 2)%Z then t + fabs (get2 h (k + 2) (k + 1)) else t in
            let t := if (k <=? kbot - 3)%Z then t + fabs (get2 h (k + 3) (k + 1)) else t in
            if (k <=? kbot - 4)%Z then t + fabs (get2 h (k + 4) (k + 1)) else t
          else tst1 in
        if fabs (get2 h (k + 1) k) <=? fmax q5_smlnum (q5_ulp * tst1) then
          let h12 := fmax (fabs (get2 h (k + 1) k)) (fabs (get2 h k (k + 1))) in
          let h21 := fmin (fabs (get2 h (k + 1) k)) (fabs (get2 h k (k + 1))) in
          let h11 := fmax (fabs (get2 h (k + 1) (k + 1))) (fabs (get2 h k k - get2 h (k + 1) (k + 1))) in
          let h22 := fmin (fabs (get2 h (k + 1) (k + 1))) (fabs (get2 h k k - get2 h (k + 1) (k + 1))) in
          let scl := h11 + h12 in
          let tst2 := h22 * (h11 / scl) in
          if (tst2 =? f0) || (h21 * (h12 / scl) <=? fmax q5_smlnum (q5_ulp * tst2))
          then set2 h (k + 1) k f0 else h
        else h
      else h.

    (** The matrices that change during the sweep, src/dlaqr5.rs:60-67. *)
    Record q5st := mkQ5 { qH : fa; qZ : fa; qV : fa; qU : fa; qWv : fa; qWh : fa; qVt : fa }.

    (** src/dlaqr5.rs:157-159 and 338-341 *)
    Definition q5_jbot (ndcol : Z) : Z :=
      if accum then Z.min ndcol kbot else if wantt then n else kbot.
    (** src/dlaqr5.rs:99-102 *)
    Definition q5_jtop (incol : Z) : Z :=
      if accum then Z.max ktop incol else if wantt then 1 else ktop.

    (** src/dlaqr5.rs:114-215: the 2-by-2 bulge *)
    Definition q5_bulge22 (incol krcol m22 : Z) (st : q5st) : outcome q5st :=
      let k := (krcol + 2 * (m22 - 1))%Z in
      let h := qH st in
      let v := qV st in
      r <- (if (k =? ktop - 1)%Z then
              h_tmp <- from2 h (k + 1) (k + 1) ;;
              v_tmp <- from2 v 1 m22 ;;
              v_tmp <- dlaqr1 2 h_tmp ldh (get1 sr (2 * m22 - 1)) (get1 si (2 * m22 - 1))
                         (get1 sr (2 * m22)) (get1 si (2 * m22)) v_tmp ;;
              v <- to_fa_2d v_tmp ldv ;;
              r <- v_reflect 2 (get2 v 1 m22) m22 ldv v ;;
              Ok (h, fst r)
            else
              let v := set2 v 2 m22 (get2 h (k + 2) k) in
              r <- v_reflect 2 (get2 h (k + 1) k) m22 ldv v ;;
              let '(v, beta) := r in
              let h := set2 h (k + 1) k beta in
              let h := set2 h (k + 2) k f0 in
              Ok (h, v)) ;;
      let '(h, v) := r in
      let t1 := get2 v 1 m22 in
      let v2 := get2 v 2 m22 in
      let t2 := t1 * v2 in
      let h := for_ (range (q5_jtop incol) (Z.min kbot (k + 3))) h (q5_right2 (k + 1) v2 t1 t2) in
      let h := for_ (range (k + 1) (q5_jbot (incol + q5_kdu))) h (q5_left2 (k + 1) v2 t1 t2) in
      let h := if (ktop <=? k)%Z then q5_vigilant k h else h in
      if accum then
        let kms := (k - incol)%Z in
        let u := for_ (range (Z.max 1 (ktop - incol)) q5_kdu) (qU st) (q5_right2 (kms + 1) v2 t1 t2) in
        Ok (mkQ5 h (qZ st) v u (qWv st) (qWh st) (qVt st))
      else if wantz then
        let z := for_ (range iloz ihiz) (qZ st) (q5_right2 (k + 1) v2 t1 t2) in
        Ok (mkQ5 h z v (qU st) (qWv st) (qWh st) (qVt st))
      else Ok (mkQ5 h (qZ st) v (qU st) (qWv st) (qWh st) (qVt st)).

    (** src/dlaqr5.rs:266-293: the collapsed bulge.  Returns (h, v, vt). *)
    Definition q5_collapsed (k m : Z) (beta : F) (h v vt : fa) : outcome (fa * fa * fa) :=
      h_tmp <- from2 h (k + 1) (k + 1) ;;
      vt <- dlaqr1 3 h_tmp ldh (get1 sr (2 * m - 1)) (get1 si (2 * m - 1))
              (get1 sr (2 * m)) (get1 si (2 * m)) vt ;;
      r <- dlarfg 3 (get1 vt 1) [get1 vt 2] 1 ;;
      let '(_, vt_1, vt_2) := r in
      vt <- fa_insert (to_fa vt_1) 1 vt_2 ;;
      let t1 := get1 vt 1 in
      let t2 := t1 * get1 vt 2 in
      let t3 := t1 * get1 vt 3 in
      let refsum := get2 h (k + 1) k + get1 vt 2 * get2 h (k + 2) k in
      if (fabs (get2 h (k + 2) k - refsum * t2) + refsum * fabs t3)
         >? (q5_ulp * (fabs (get2 h k k) + fabs (get2 h (k + 1) (k + 1)) + fabs (get2 h (k + 2) (k + 2))))
      then
        let h := set2 h (k + 1) k beta in
        let h := set2 h (k + 2) k f0 in
        let h := set2 h (k + 3) k f0 in
        Ok (h, v, vt)
      else
        let h := mod2 h (k + 1) k (fun x => x - refsum * t1) in
        let h := set2 h (k + 2) k f0 in
        let h := set2 h (k + 3) k f0 in
        let v := set2 v 1 m (get1 vt 1) in
        let v := set2 v 2 m (get1 vt 2) in
        let v := set2 v 3 m (get1 vt 3) in
        Ok (h, v, vt).

    (** src/dlaqr5.rs:221-295: the reflector of bulge m.  Returns (h, v, vt). *)
    Definition q5_chase (k m : Z) (h v vt : fa) : outcome (fa * fa * fa) :=
      if (k =? ktop - 1)%Z then
        h_tmp <- from2 h ktop ktop ;;
        v_tmp <- from2 v 1 m ;;
        v_tmp <- dlaqr1 3 h_tmp ldh (get1 sr (2 * m - 1)) (get1 si (2 * m - 1))
                   (get1 sr (2 * m)) (get1 si (2 * m)) v_tmp ;;
        v <- to_fa_2d v_tmp ldv ;;
        r <- v_reflect 3 (get2 v 1 m) m ldv v ;;
        Ok (h, fst r, vt)
      else
        let t1 := get2 v 1 m in
        let t2 := t1 * get2 v 2 m in
        let t3 := t1 * get2 v 3 m in
        let refsum := get2 v 3 m * get2 h (k + 3) (k + 2) in
        let h := set2 h (k + 3) k ((- refsum) * t1) in
        let h := set2 h (k + 3) (k + 1) ((- refsum) * t2) in
        let h := mod2 h (k + 3) (k + 2) (fun x => x - refsum * t3) in
        let v := set2 v 2 m (get2 h (k + 2) k) in
        let v := set2 v 3 m (get2 h (k + 3) k) in
        r <- v_reflect 3 (get2 h (k + 1) k) m ldv v ;;
        let '(v, beta) := r in
        if (get2 h (k + 3) k <>? f0) || (get2 h (k + 3) (k + 1) <>? f0) || (get2 h (k + 3) (k + 2) =? f0) then
          let h := set2 h (k + 1) k beta in
          let h := set2 h (k + 2) k f0 in
          let h := set2 h (k + 3) k f0 in
          Ok (h, v, vt)
        else q5_collapsed k m beta h v vt.

    (** src/dlaqr5.rs:219-336: one bulge *)
    Definition q5_bulge (incol krcol m : Z) (st : q5st) : outcome q5st :=
      let k := (krcol + 2 * (m - 1))%Z in
      r <- q5_chase k m (qH st) (qV st) (qVt st) ;;
      let '(h, v, vt) := r in
      let t1 := get2 v 1 m in
      let v2 := get2 v 2 m in
      let v3 := get2 v 3 m in
      let t2 := t1 * v2 in
      let t3 := t1 * v3 in
      let h := for_ (range (q5_jtop incol) (Z.min kbot (k + 3))) h (q5_right3 (k + 1) v2 v3 t1 t2 t3) in
      let h := q5_left3 (k + 1) v2 v3 t1 t2 t3 (k + 1) h in
      let h := if (k <? ktop)%Z then h else q5_vigilant k h in
      Ok (mkQ5 h (qZ st) v (qU st) (qWv st) (qWh st) vt).

    (** src/dlaqr5.rs:343-354 *)
    Definition q5_left_all (krcol mtop mbot jbot : Z) (v h : fa) : fa :=
      for_ (range_rev mtop mbot) h (fun m h =>
        let k := (krcol + 2 * (m - 1))%Z in
        let t1 := get2 v 1 m in
        let v2 := get2 v 2 m in
        let v3 := get2 v 3 m in
        for_ (range (Z.max ktop (krcol + 2 * m)) jbot) h (q5_left3 (k + 1) v2 v3 t1 (t1 * v2) (t1 * v3))).

    (** src/dlaqr5.rs:358-372 *)
    Definition q5_acc_u (incol krcol mtop mbot : Z) (v u : fa) : fa :=
      for_ (range_rev mtop mbot) u (fun m u =>
        let k := (krcol + 2 * (m - 1))%Z in
        let kms := (k - incol)%Z in
        let i2 := Z.max 1 (Z.max (ktop - incol) (kms - (krcol - incol) + 1)) in
        let i4 := Z.min q5_kdu (krcol + 2 * (mbot - 1) - incol + 5) in
        let t1 := get2 v 1 m in
        let v2 := get2 v 2 m in
        let v3 := get2 v 3 m in
        for_ (range i2 i4) u (q5_right3 (kms + 1) v2 v3 t1 (t1 * v2) (t1 * v3))).

    (** src/dlaqr5.rs:375-386; the range is [mbot..=mtop] in the code *)
    Definition q5_acc_z (krcol mtop mbot : Z) (v z : fa) : fa :=
      for_ (range_rev mbot mtop) z (fun m z =>
        let k := (krcol + 2 * (m - 1))%Z in
        let t1 := get2 v 1 m in
        let v2 := get2 v 2 m in
        let v3 := get2 v 3 m in
        for_ (range iloz ihiz) z (q5_right3 (k + 1) v2 v3 t1 (t1 * v2) (t1 * v3))).

    (** src/dlaqr5.rs:107-388: one column step of the chain *)
    Definition q5_krcol (incol krcol : Z) (st : q5st) : outcome q5st :=
      let mtop := Z.max 1 (Z.quot (ktop - krcol) 2 + 1) in
      let mbot := Z.min nbmps (Z.quot (kbot - krcol - 1) 2) in
      let m22 := (mbot + 1)%Z in
      let bmp22 := ((mbot <? nbmps) && (krcol + 2 * (m22 - 1) =? kbot - 2))%Z in
      st <- (if bmp22 then q5_bulge22 incol krcol m22 st else Ok st) ;;
      st <- for_M (range_rev mtop mbot) st (q5_bulge incol krcol) ;;
      let h := q5_left_all krcol mtop mbot (q5_jbot (incol + q5_kdu)) (qV st) (qH st) in
      if accum then
        Ok (mkQ5 h (qZ st) (qV st) (q5_acc_u incol krcol mtop mbot (qV st) (qU st)) (qWv st) (qWh st) (qVt st))
      else if wantz then
        Ok (mkQ5 h (q5_acc_z krcol mtop mbot (qV st) (qZ st)) (qV st) (qU st) (qWv st) (qWh st) (qVt st))
      else Ok (mkQ5 h (qZ st) (qV st) (qU st) (qWv st) (qWh st) (qVt st)).

    (** src/dlaqr5.rs:405-410 (and 419-424, 434-439): copy the product [w] into [f] at (r0, c0);
        the result is re-dimensioned with [ldz] in all three places *)
    Definition q5_paste (f w : fa) (r0 c0 mm nn ldw ldf : Z) : outcome fa :=
      t <- from2 f r0 c0 ;;
      tmp <- to_fa_2d t ldf ;;
      tmp <- dlacpy (chr "A") mm nn w ldw tmp ldf ;;
      ini <- slice_to (data f) (fa_idx f r0 c0 - 1) ;;
      to_fa_2d (ini ++ data tmp) ldz.

    (** src/dlaqr5.rs:400-411 *)
    Definition q5_horizontal (incol k1 nu jbot : Z) (jcol : Z) (st : q5st) : outcome q5st :=
      let jlen := Z.min nh (jbot - jcol + 1) in
      ut <- from2 (qU st) k1 k1 ;;
      ht <- from2 (qH st) (incol + k1) jcol ;;
      wh <- dgemm (chr "C") (chr "N") nu jlen nu f1 ut ldu ht ldh f0 (qWh st) ldwh ;;
      h <- q5_paste (qH st) wh (incol + k1) jcol nu jlen ldwh ldh ;;
      Ok (mkQ5 h (qZ st) (qV st) (qU st) (qWv st) wh (qVt st)).

    (** src/dlaqr5.rs:414-425 *)
    Definition q5_vertical (incol k1 nu : Z) (jrow : Z) (st : q5st) : outcome q5st :=
      let jlen := Z.min nv (Z.max ktop incol - jrow) in
      ht <- from2 (qH st) jrow (incol + k1) ;;
      ut <- from2 (qU st) k1 k1 ;;
      wv <- dgemm (chr "N") (chr "N") jlen nu nu f1 ht ldh ut ldu f0 (qWv st) ldwv ;;
      h <- q5_paste (qH st) wv jrow (incol + k1) jlen nu ldwv ldh ;;
      Ok (mkQ5 h (qZ st) (qV st) (qU st) wv (qWh st) (qVt st)).

    (** src/dlaqr5.rs:429-440 *)
    Definition q5_zmul (incol k1 nu : Z) (jrow : Z) (st : q5st) : outcome q5st :=
      let jlen := Z.min nv (ihiz - jrow + 1) in
      zt <- from2 (qZ st) jrow (incol + k1) ;;
      ut <- from2 (qU st) k1 k1 ;;
      wv <- dgemm (chr "N") (chr "N") jlen nu nu f1 zt ldz ut ldu f0 (qWv st) ldwv ;;
      z <- q5_paste (qZ st) wv jrow (incol + k1) jlen nu ldwv ldz ;;
      Ok (mkQ5 (qH st) z (qV st) (qU st) wv (qWh st) (qVt st)).

    (** src/dlaqr5.rs:391-442 *)
    Definition q5_far (incol : Z) (st : q5st) : outcome q5st :=
      if accum then
        let '(jtop, jbot) := if wantt then (1, n)%Z else (ktop, kbot) in
        let ndcol := (incol + q5_kdu)%Z in
        let k1 := Z.max 1 (ktop - incol) in
        let nu := (q5_kdu - Z.max 0 (ndcol - kbot) - k1 + 1)%Z in
        cs <- range_step_i32 (Z.min ndcol kbot + 1) jbot nh ;;
        st <- for_M cs st (q5_horizontal incol k1 nu jbot) ;;
        rs <- range_step_i32 jtop (Z.max ktop incol - 1) nv ;;
        st <- for_M rs st (q5_vertical incol k1 nu) ;;
        if wantz then
          zs <- range_step_i32 iloz ihiz nv ;;
          for_M zs st (q5_zmul incol k1 nu)
        else Ok st
      else Ok st.

    (** src/dlaqr5.rs:98-443 *)
    Definition q5_incol (incol : Z) (st : q5st) : outcome q5st :=
      u <- (if accum then dlaset (chr "A") q5_kdu q5_kdu f0 f1 (qU st) else Ok (qU st)) ;;
      let st := mkQ5 (qH st) (qZ st) (qV st) u (qWv st) (qWh st) (qVt st) in
      st <- for_M (range incol (Z.min (incol + 2 * nbmps - 1) (kbot - 2))) st (q5_krcol incol) ;;
      q5_far incol st.

    (** src/dlaqr5.rs:91-443 *)
    Definition q5_main (st : q5st) : outcome q5st :=
      let h := if (ktop + 2 <=? kbot)%Z then set2 (qH st) (ktop + 2) ktop f0 else qH st in
      let st := mkQ5 h (qZ st) (qV st) (qU st) (qWv st) (qWh st) (qVt st) in
      for_M (range_step (ktop - 2 * nbmps + 1) (kbot - 2) (2 * nbmps)) st q5_incol.
  End Params.

  (** src/dlaqr5.rs:22-451.  Returns (h, z, v, u, wv, wh). *)
  Definition dlaqr5 {SR SI H ZZ V U WV WH}
      `{ToFA F SR} `{ToFA F SI} `{ToFA F H} `{FromFA F H} `{ToFA F ZZ} `{FromFA F ZZ}
      `{ToFA F V} `{FromFA F V} `{ToFA F U} `{FromFA F U} `{ToFA F WV} `{FromFA F WV}
      `{ToFA F WH} `{FromFA F WH}
      (wantt wantz : bool) (kacc22 n ktop kbot nshfts : Z) (sr : SR) (si : SI) (h : H) (ldh : Z)
      (iloz ihiz : Z) (z : ZZ) (ldz : Z) (v : V) (ldv : Z) (u : U) (ldu : Z) (nv : Z) (wv : WV) (ldwv : Z)
      (nh : Z) (wh : WH) (ldwh : Z) : outcome (H * ZZ * V * U * WV * WH) :=
    let sr_f := to_fa sr in
    let si_f := to_fa si in
    h_f <- to_fa_2d h ldh ;;
    z_f <- to_fa_2d z ldz ;;
    v_f <- to_fa_2d v ldv ;;
    u_f <- to_fa_2d u ldu ;;
    wv_f <- to_fa_2d wv ldwv ;;
    wh_f <- to_fa_2d wh ldwh ;;
    let vt := fa_of_vec [f0; f0; f0] in
    if (nshfts <? 2)%Z then Ok (h, z, v, u, wv, wh)
    else if (kbot <=? ktop)%Z then Ok (h, z, v, u, wv, wh)
    else
      let '(sr_f, si_f) := shuffle_shifts nshfts sr_f si_f in
      let ns := (nshfts - Z.rem nshfts 2)%Z in
      let accum := ((kacc22 =? 1) || (kacc22 =? 2))%Z in
      let nbmps := Z.quot ns 2 in
      st <- q5_main wantt wantz accum n ktop kbot nbmps sr_f si_f ldh iloz ihiz ldz ldv ldu nv ldwv nh ldwh
              (mkQ5 h_f z_f v_f u_f wv_f wh_f vt) ;;
      h' <- from_fa (qH st) ;; z' <- from_fa (qZ st) ;; v' <- from_fa (qV st) ;;
      u' <- from_fa (qU st) ;; wv' <- from_fa (qWv st) ;; wh' <- from_fa (qWh st) ;;
      Ok (h', z', v', u', wv', wh').
End Dlaqr5.
