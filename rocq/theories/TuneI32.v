(** i32 arithmetic of src/iparmq.rs and src/ilaenv.rs with overflow: debug builds panic, release builds wrap.
    The other operators in these functions (2*nbmps, 3*ns/2, comparisons) work on constants. *)
From Coq Require Import Ascii.
From Verif Require Import Base Num Array Blas Lapack I32.
Open Scope Z_scope.

Section Tune.
  Context {F : Type} {NF : Num F}.
  (** src/iparmq.rs:9-110 with [nh = ihi - ilo + 1] (line 28) operator by operator; the rest depends on nh only *)
  Definition iparmq_i32 (pr : profile) (ispec : Z) (name : string) (ilo ihi : Z) : outcome Z :=
    d <- i32_of pr (ihi - ilo) ;;
    nh <- i32_of pr (d + 1) ;;
    iparmq ispec name 1 nh.

  (** src/ilaenv.rs:103-104: [lo.max((n1.min(n2) * c) / 100).min(hi)] *)
  Definition syl_i32 (pr : profile) (c lo hi m : Z) : outcome Z :=
    p <- i32_of pr (m * c) ;;
    Ok (Z.min (Z.max lo (Z.quot p 100)) hi).
  (** src/ilaenv.rs:92-109.  The two arms with arithmetic are those of ("TR", "SYL"); no earlier arm takes that pair. *)
  Definition ilaenv_nb_i32 (pr : profile) (subnam c2 c3 c4 : string) (sname cname twostage : bool) (n1 n2 n4 : Z) : outcome Z :=
    if (c2 =? "TR")%string && (c3 =? "SYL")%string then
      if sname then syl_i32 pr 16 48 240 (Z.min n1 n2) else syl_i32 pr 8 24 80 (Z.min n1 n2)
    else Ok (ilaenv_nb subnam c2 c3 c4 sname cname twostage n1 n2 n4).
  (** src/ilaenv.rs:25-136 *)
  Definition ilaenv_blk_i32 (pr : profile) (ispec : Z) (name : string) (n1 n2 n4 : Z) : outcome Z :=
    subnam <- ilaenv_subnam name ;;
    match subnam with
    | EmptyString => Panic
    | String c1 _ =>
        let sname := Ascii.eqb c1 "S" || Ascii.eqb c1 "D" in
        let cname := Ascii.eqb c1 "C" || Ascii.eqb c1 "Z" in
        if negb (cname || sname) then Ok 1%Z
        else
          let c2 := substring 1 2 subnam in
          let c3 := substring 3 3 subnam in
          let c4 := substring 1 2 c3 in
          let twostage := (11 <=? String.length subnam)%nat
                          && match String.get 10 subnam with
                             | Some a => Ascii.eqb a "2" | None => false end in
          if (ispec =? 1)%Z then ilaenv_nb_i32 pr subnam c2 c3 c4 sname cname twostage n1 n2 n4
          else if (ispec =? 2)%Z then Ok (ilaenv_nbmin subnam c2 c3 c4 sname cname)
          else if (ispec =? 3)%Z then Ok (ilaenv_nx subnam c2 c3 c4 sname cname)
          else Ok (-1)%Z
    end.
  (** src/ilaenv.rs:15-148.  [as i32] at line 139 saturates, which [fround_i32] already models. *)
  Definition ilaenv_i32 (pr : profile) (ispec : Z) (name opts : string) (n1 n2 n3 n4 : Z) : outcome Z :=
    if ((1 <=? ispec) && (ispec <=? 3))%Z then ilaenv_blk_i32 pr ispec name n1 n2 n4
    else if ((12 <=? ispec) && (ispec <=? 17))%Z then iparmq_i32 pr ispec name n2 n3
    else ilaenv ispec name opts n1 n2 n3 n4.
End Tune.
