(** Nothing computed in binary64 depends on the libm beyond its contract: dnrm2, dlarfg, dlanv2, dlahqr and dlaqr5 give the same
    result for every libm that meets libm_ok. *)
From Coq Require Import Reals Lra Ascii FunctionalExtensionality.
From Flocq Require Import Core BinarySingleNaN.
From Verif Require Import Base Num Array Blas Lapack Dlahqr Dlaqr5 Spec B64 B64Lemmas B64Nn MachProofs Nrm2F64.
Open Scope Z_scope.

(** nothing but dnrm2 and the scaling loop of dlanv2 uses powf and ln: replacing those two operations changes no other function *)
Create HintDb libm_free.
Section Gen.
  Context {F : Type} (N : Num F) (pw lg : F -> F -> F).
  Definition with_libm : Num F := {|
    fdy := @fdy F N; fadd := @fadd F N; fsub := @fsub F N; fmul := @fmul F N; fdiv := @fdiv F N; fneg := @fneg F N; fabs := @fabs F N;
    fsqrt := @fsqrt F N; feq := @feq F N; flt := @flt F N; fle := @fle F N; fisnan := @fisnan F N; fsignum := @fsignum F N;
    fcopysign := @fcopysign F N; fmax := @fmax F N; fmin := @fmin F N; fpowf := pw; flog := lg; ftrunc := @ftrunc F N;
    fround_i32 := @fround_i32 F N; fnan := @fnan F N |}.
  Notation W := with_libm.
  
  Lemma g_fdy : @fdy F W = @fdy F N. Proof. reflexivity. Qed.
  Lemma g_fadd : @fadd F W = @fadd F N. Proof. reflexivity. Qed.
  Lemma g_fsub : @fsub F W = @fsub F N. Proof. reflexivity. Qed.
  Lemma g_fmul : @fmul F W = @fmul F N. Proof. reflexivity. Qed.
  Lemma g_fdiv : @fdiv F W = @fdiv F N. Proof. reflexivity. Qed.
  Lemma g_fneg : @fneg F W = @fneg F N. Proof. reflexivity. Qed.
  Lemma g_fabs : @fabs F W = @fabs F N. Proof. reflexivity. Qed.
  Lemma g_fsqrt : @fsqrt F W = @fsqrt F N. Proof. reflexivity. Qed.
  Lemma g_feq : @feq F W = @feq F N. Proof. reflexivity. Qed.
  Lemma g_flt : @flt F W = @flt F N. Proof. reflexivity. Qed.
  Lemma g_fle : @fle F W = @fle F N. Proof. reflexivity. Qed.
  Lemma g_fisnan : @fisnan F W = @fisnan F N. Proof. reflexivity. Qed.
  Lemma g_fsignum : @fsignum F W = @fsignum F N. Proof. reflexivity. Qed.
  Lemma g_fcopysign : @fcopysign F W = @fcopysign F N. Proof. reflexivity. Qed.
  Lemma g_fmax : @fmax F W = @fmax F N. Proof. reflexivity. Qed.
  Lemma g_fmin : @fmin F W = @fmin F N. Proof. reflexivity. Qed.
  Lemma g_ftrunc : @ftrunc F W = @ftrunc F N. Proof. reflexivity. Qed.
  Lemma g_fnan : @fnan F W = @fnan F N. Proof. reflexivity. Qed.
  Lemma g_fofZ : @fofZ F W = @fofZ F N. Proof. reflexivity. Qed.
  Lemma g_f0 : @f0 F W = @f0 F N. Proof. reflexivity. Qed.
  Lemma g_f1 : @f1 F W = @f1 F N. Proof. reflexivity. Qed.
  Lemma g_f2 : @f2 F W = @f2 F N. Proof. reflexivity. Qed.
  Lemma g_f4 : @f4 F W = @f4 F N. Proof. reflexivity. Qed.
  Lemma g_fhalf : @fhalf F W = @fhalf F N. Proof. reflexivity. Qed.
  Lemma g_fEPS : @fEPS F W = @fEPS F N. Proof. reflexivity. Qed.
  Lemma g_fMINPOS : @fMINPOS F W = @fMINPOS F N. Proof. reflexivity. Qed.
  Lemma g_fMAX : @fMAX F W = @fMAX F N. Proof. reflexivity. Qed.
  Lemma g_fne : @fne F W = @fne F N. Proof. reflexivity. Qed.
  #[local] Hint Rewrite g_fdy g_fadd g_fsub g_fmul g_fdiv g_fneg g_fabs g_fsqrt g_feq g_flt g_fle g_fisnan g_fsignum g_fcopysign g_fmax g_fmin g_ftrunc g_fnan g_fofZ g_f0 g_f1 g_f2 g_f4 g_fhalf g_fEPS g_fMINPOS g_fMAX g_fne : libm_free.
  Ltac g := autorewrite with libm_free; reflexivity.
  Lemma g_fa_default : @fa_default F W = @fa_default F N. Proof. unfold fa_default. g. Qed.
  #[local] Hint Rewrite g_fa_default : libm_free.
  Lemma g_fa_empty : @fa_empty F W = @fa_empty F N. Proof. unfold fa_empty. g. Qed.
  #[local] Hint Rewrite g_fa_empty : libm_free.
  Lemma g_fa_matrix : @fa_matrix F W = @fa_matrix F N. Proof. unfold fa_matrix. g. Qed.
  #[local] Hint Rewrite g_fa_matrix : libm_free.
  Lemma g_get1 : @get1 F W = @get1 F N. Proof. unfold get1. g. Qed.
  #[local] Hint Rewrite g_get1 : libm_free.
  Lemma g_get2 : @get2 F W = @get2 F N. Proof. unfold get2. g. Qed.
  #[local] Hint Rewrite g_get2 : libm_free.
  Lemma g_fa_of_vec : @fa_of_vec F W = @fa_of_vec F N. Proof. unfold fa_of_vec. g. Qed.
  #[local] Hint Rewrite g_fa_of_vec : libm_free.
  Lemma g_fa_of_nested : @fa_of_nested F W = @fa_of_nested F N. Proof. unfold fa_of_nested. g. Qed.
  #[local] Hint Rewrite g_fa_of_nested : libm_free.
  Lemma g_ToFA_vec : @ToFA_vec F W = @ToFA_vec F N. Proof. unfold ToFA_vec. g. Qed.
  #[local] Hint Rewrite g_ToFA_vec : libm_free.
  Lemma g_ToFA_nested : @ToFA_nested F W = @ToFA_nested F N. Proof. unfold ToFA_nested. g. Qed.
  #[local] Hint Rewrite g_ToFA_nested : libm_free.
  Lemma g_dcopy_block : @dcopy_block F W = @dcopy_block F N. Proof. unfold dcopy_block. g. Qed.
  #[local] Hint Rewrite g_dcopy_block : libm_free.
  Lemma g_dcopy_fa : @dcopy_fa F W = @dcopy_fa F N. Proof. unfold dcopy_fa. g. Qed.
  #[local] Hint Rewrite g_dcopy_fa : libm_free.
  Lemma g_dcopy : @dcopy F W = @dcopy F N. Proof. unfold dcopy. g. Qed.
  #[local] Hint Rewrite g_dcopy : libm_free.
  Lemma g_dscal_block : @dscal_block F W = @dscal_block F N. Proof. unfold dscal_block. g. Qed.
  #[local] Hint Rewrite g_dscal_block : libm_free.
  Lemma g_dscal_while : @dscal_while F W = @dscal_while F N. Proof. unfold dscal_while. g. Qed.
  #[local] Hint Rewrite g_dscal_while : libm_free.
  Lemma g_dscal_fa : @dscal_fa F W = @dscal_fa F N. Proof. unfold dscal_fa. g. Qed.
  #[local] Hint Rewrite g_dscal_fa : libm_free.
  Lemma g_dscal : @dscal F W = @dscal F N. Proof. unfold dscal. g. Qed.
  #[local] Hint Rewrite g_dscal : libm_free.
  Lemma g_drot_step : @drot_step F W = @drot_step F N. Proof. unfold drot_step. g. Qed.
  #[local] Hint Rewrite g_drot_step : libm_free.
  Lemma g_drot_fa : @drot_fa F W = @drot_fa F N. Proof. unfold drot_fa. g. Qed.
  #[local] Hint Rewrite g_drot_fa : libm_free.
  Lemma g_drot : @drot F W = @drot F N. Proof. unfold drot. g. Qed.
  #[local] Hint Rewrite g_drot : libm_free.
  Lemma g_dgemm_scale : @dgemm_scale F W = @dgemm_scale F N. Proof. unfold dgemm_scale. g. Qed.
  #[local] Hint Rewrite g_dgemm_scale : libm_free.
  Lemma g_dgemm_axpy : @dgemm_axpy F W = @dgemm_axpy F N. Proof. unfold dgemm_axpy. g. Qed.
  #[local] Hint Rewrite g_dgemm_axpy : libm_free.
  Lemma g_dgemm_dot : @dgemm_dot F W = @dgemm_dot F N. Proof. unfold dgemm_dot. g. Qed.
  #[local] Hint Rewrite g_dgemm_dot : libm_free.
  Lemma g_dgemm_fa : @dgemm_fa F W = @dgemm_fa F N. Proof. unfold dgemm_fa. g. Qed.
  #[local] Hint Rewrite g_dgemm_fa : libm_free.
  Lemma g_dgemm : @dgemm F W = @dgemm F N. Proof. unfold dgemm. g. Qed.
  #[local] Hint Rewrite g_dgemm : libm_free.
  Lemma g_trmm_lnu : @trmm_lnu F W = @trmm_lnu F N. Proof. unfold trmm_lnu. g. Qed.
  #[local] Hint Rewrite g_trmm_lnu : libm_free.
  Lemma g_trmm_lnl : @trmm_lnl F W = @trmm_lnl F N. Proof. unfold trmm_lnl. g. Qed.
  #[local] Hint Rewrite g_trmm_lnl : libm_free.
  Lemma g_trmm_ltu : @trmm_ltu F W = @trmm_ltu F N. Proof. unfold trmm_ltu. g. Qed.
  #[local] Hint Rewrite g_trmm_ltu : libm_free.
  Lemma g_trmm_ltl : @trmm_ltl F W = @trmm_ltl F N. Proof. unfold trmm_ltl. g. Qed.
  #[local] Hint Rewrite g_trmm_ltl : libm_free.
  Lemma g_trmm_rn_add : @trmm_rn_add F W = @trmm_rn_add F N. Proof. unfold trmm_rn_add. g. Qed.
  #[local] Hint Rewrite g_trmm_rn_add : libm_free.
  Lemma g_trmm_rn_diag : @trmm_rn_diag F W = @trmm_rn_diag F N. Proof. unfold trmm_rn_diag. g. Qed.
  #[local] Hint Rewrite g_trmm_rn_diag : libm_free.
  Lemma g_trmm_rnu : @trmm_rnu F W = @trmm_rnu F N. Proof. unfold trmm_rnu. g. Qed.
  #[local] Hint Rewrite g_trmm_rnu : libm_free.
  Lemma g_trmm_rnl : @trmm_rnl F W = @trmm_rnl F N. Proof. unfold trmm_rnl. g. Qed.
  #[local] Hint Rewrite g_trmm_rnl : libm_free.
  Lemma g_trmm_rt_add : @trmm_rt_add F W = @trmm_rt_add F N. Proof. unfold trmm_rt_add. g. Qed.
  #[local] Hint Rewrite g_trmm_rt_add : libm_free.
  Lemma g_trmm_rt_diag : @trmm_rt_diag F W = @trmm_rt_diag F N. Proof. unfold trmm_rt_diag. g. Qed.
  #[local] Hint Rewrite g_trmm_rt_diag : libm_free.
  Lemma g_trmm_rtu : @trmm_rtu F W = @trmm_rtu F N. Proof. unfold trmm_rtu. g. Qed.
  #[local] Hint Rewrite g_trmm_rtu : libm_free.
  Lemma g_trmm_rtl : @trmm_rtl F W = @trmm_rtl F N. Proof. unfold trmm_rtl. g. Qed.
  #[local] Hint Rewrite g_trmm_rtl : libm_free.
  Lemma g_dtrmm_fa : @dtrmm_fa F W = @dtrmm_fa F N. Proof. unfold dtrmm_fa. g. Qed.
  #[local] Hint Rewrite g_dtrmm_fa : libm_free.
  Lemma g_dtrmm : @dtrmm F W = @dtrmm F N. Proof. unfold dtrmm. g. Qed.
  #[local] Hint Rewrite g_dtrmm : libm_free.
  Lemma g_mach_eps : @mach_eps F W = @mach_eps F N. Proof. unfold mach_eps. g. Qed.
  #[local] Hint Rewrite g_mach_eps : libm_free.
  Lemma g_mach_sfmin : @mach_sfmin F W = @mach_sfmin F N. Proof. unfold mach_sfmin. g. Qed.
  #[local] Hint Rewrite g_mach_sfmin : libm_free.
  Lemma g_dlamch : @dlamch F W = @dlamch F N. Proof. unfold dlamch. g. Qed.
  #[local] Hint Rewrite g_dlamch : libm_free.
  Lemma g_dlapy2 : @dlapy2 F W = @dlapy2 F N. Proof. unfold dlapy2. g. Qed.
  #[local] Hint Rewrite g_dlapy2 : libm_free.
  Lemma g_dlarfg_loop : @dlarfg_loop F W = @dlarfg_loop F N. Proof. unfold dlarfg_loop. g. Qed.
  #[local] Hint Rewrite g_dlarfg_loop : libm_free.
  Lemma g_larfg_beta : @larfg_beta F W = @larfg_beta F N. Proof. unfold larfg_beta. g. Qed.
  #[local] Hint Rewrite g_larfg_beta : libm_free.
  Lemma g_mul_times : @mul_times F W = @mul_times F N. Proof. unfold mul_times. g. Qed.
  #[local] Hint Rewrite g_mul_times : libm_free.
  Lemma g_larfg_safmin : @larfg_safmin F W = @larfg_safmin F N. Proof. unfold larfg_safmin. g. Qed.
  #[local] Hint Rewrite g_larfg_safmin : libm_free.
  Hypothesis NRM : @dnrm2 F W = @dnrm2 F N.
  Lemma g_dlarfg : @dlarfg F W = @dlarfg F N. Proof. unfold dlarfg. rewrite NRM. g. Qed.
  #[local] Hint Rewrite g_dlarfg : libm_free.
  Lemma g_dlacpy : @dlacpy F W = @dlacpy F N. Proof. unfold dlacpy. g. Qed.
  #[local] Hint Rewrite g_dlacpy : libm_free.
  Lemma g_nv_eps : @nv_eps F W = @nv_eps F N. Proof. unfold nv_eps. g. Qed.
  #[local] Hint Rewrite g_nv_eps : libm_free.
  Hypothesis LOOP : @nv_loop F W = @nv_loop F N.
  #[local] Hint Rewrite LOOP : libm_free.
  Lemma g_nv_offdiag : @nv_offdiag F W = @nv_offdiag F N. Proof. unfold nv_offdiag. g. Qed.
  #[local] Hint Rewrite g_nv_offdiag : libm_free.
  Lemma g_nv_equalise : @nv_equalise F W = @nv_equalise F N. Proof. unfold nv_equalise. g. Qed.
  #[local] Hint Rewrite g_nv_equalise : libm_free.
  Lemma g_nv_p : @nv_p F W = @nv_p F N. Proof. unfold nv_p. g. Qed.
  #[local] Hint Rewrite g_nv_p : libm_free.
  Lemma g_nv_bcmax : @nv_bcmax F W = @nv_bcmax F N. Proof. unfold nv_bcmax. g. Qed.
  #[local] Hint Rewrite g_nv_bcmax : libm_free.
  Lemma g_nv_bcmis : @nv_bcmis F W = @nv_bcmis F N. Proof. unfold nv_bcmis. g. Qed.
  #[local] Hint Rewrite g_nv_bcmis : libm_free.
  Lemma g_nv_scale : @nv_scale F W = @nv_scale F N. Proof. unfold nv_scale. g. Qed.
  #[local] Hint Rewrite g_nv_scale : libm_free.
  Lemma g_nv_z : @nv_z F W = @nv_z F N. Proof. unfold nv_z. g. Qed.
  #[local] Hint Rewrite g_nv_z : libm_free.
  Lemma g_nv_real : @nv_real F W = @nv_real F N. Proof. unfold nv_real. g. Qed.
  #[local] Hint Rewrite g_nv_real : libm_free.
  Lemma g_nv_main : @nv_main F W = @nv_main F N. Proof. unfold nv_main. g. Qed.
  #[local] Hint Rewrite g_nv_main : libm_free.
  Lemma g_dlanv2 : @dlanv2 F W = @dlanv2 F N. Proof. unfold dlanv2. g. Qed.
  #[local] Hint Rewrite g_dlanv2 : libm_free.
  Lemma g_laqr1_2 : @laqr1_2 F W = @laqr1_2 F N. Proof. unfold laqr1_2. g. Qed.
  #[local] Hint Rewrite g_laqr1_2 : libm_free.
  Lemma g_laqr1_3 : @laqr1_3 F W = @laqr1_3 F N. Proof. unfold laqr1_3. g. Qed.
  #[local] Hint Rewrite g_laqr1_3 : libm_free.
  Lemma g_dlaqr1 : @dlaqr1 F W = @dlaqr1 F N. Proof. unfold dlaqr1. g. Qed.
  #[local] Hint Rewrite g_dlaqr1 : libm_free.
  Lemma g_left3 : @left3 F W = @left3 F N. Proof. unfold left3. g. Qed.
  #[local] Hint Rewrite g_left3 : libm_free.
  Lemma g_left2 : @left2 F W = @left2 F N. Proof. unfold left2. g. Qed.
  #[local] Hint Rewrite g_left2 : libm_free.
  Lemma g_right3 : @right3 F W = @right3 F N. Proof. unfold right3. g. Qed.
  #[local] Hint Rewrite g_right3 : libm_free.
  Lemma g_right2 : @right2 F W = @right2 F N. Proof. unfold right2. g. Qed.
  #[local] Hint Rewrite g_right2 : libm_free.
  Lemma g_hq_ulp : @hq_ulp F W = @hq_ulp F N. Proof. unfold hq_ulp. g. Qed.
  #[local] Hint Rewrite g_hq_ulp : libm_free.
  Lemma g_hq_smlnum : @hq_smlnum F W = @hq_smlnum F N. Proof. unfold hq_smlnum. g. Qed.
  #[local] Hint Rewrite g_hq_smlnum : libm_free.
  Lemma g_hq_clear : @hq_clear F W = @hq_clear F N. Proof. unfold hq_clear. g. Qed.
  #[local] Hint Rewrite g_hq_clear : libm_free.
  Lemma g_hq_small : @hq_small F W = @hq_small F N. Proof. unfold hq_small. g. Qed.
  #[local] Hint Rewrite g_hq_small : libm_free.
  Lemma g_hq_scan : @hq_scan F W = @hq_scan F N. Proof. unfold hq_scan. g. Qed.
  #[local] Hint Rewrite g_hq_scan : libm_free.
  Lemma g_hq_block : @hq_block F W = @hq_block F N. Proof. unfold hq_block. g. Qed.
  #[local] Hint Rewrite g_hq_block : libm_free.
  Lemma g_hq_shifts : @hq_shifts F W = @hq_shifts F N. Proof. unfold hq_shifts. g. Qed.
  #[local] Hint Rewrite g_hq_shifts : libm_free.
  Lemma g_hq_firstcol : @hq_firstcol F W = @hq_firstcol F N. Proof. unfold hq_firstcol. g. Qed.
  #[local] Hint Rewrite g_hq_firstcol : libm_free.
  Lemma g_hq_can_start : @hq_can_start F W = @hq_can_start F N. Proof. unfold hq_can_start. g. Qed.
  #[local] Hint Rewrite g_hq_can_start : libm_free.
  Lemma g_hq_start : @hq_start F W = @hq_start F N. Proof. unfold hq_start. g. Qed.
  #[local] Hint Rewrite g_hq_start : libm_free.
  Lemma g_hq_reflector : @hq_reflector F W = @hq_reflector F N. Proof. unfold hq_reflector. g. Qed.
  #[local] Hint Rewrite g_hq_reflector : libm_free.
  Lemma g_hq_step : @hq_step F W = @hq_step F N. Proof. unfold hq_step. g. Qed.
  #[local] Hint Rewrite g_hq_step : libm_free.
  Lemma g_hq_iter : @hq_iter F W = @hq_iter F N. Proof. unfold hq_iter. g. Qed.
  #[local] Hint Rewrite g_hq_iter : libm_free.
  Lemma g_hq_rot_rows : @hq_rot_rows F W = @hq_rot_rows F N. Proof. unfold hq_rot_rows. g. Qed.
  #[local] Hint Rewrite g_hq_rot_rows : libm_free.
  Lemma g_hq_rot_cols : @hq_rot_cols F W = @hq_rot_cols F N. Proof. unfold hq_rot_cols. g. Qed.
  #[local] Hint Rewrite g_hq_rot_cols : libm_free.
  Lemma g_hq_rot_z : @hq_rot_z F W = @hq_rot_z F N. Proof. unfold hq_rot_z. g. Qed.
  #[local] Hint Rewrite g_hq_rot_z : libm_free.
  Lemma g_hq_deflate : @hq_deflate F W = @hq_deflate F N. Proof. unfold hq_deflate. g. Qed.
  #[local] Hint Rewrite g_hq_deflate : libm_free.
  Lemma g_hq_loop : @hq_loop F W = @hq_loop F N. Proof. unfold hq_loop. g. Qed.
  #[local] Hint Rewrite g_hq_loop : libm_free.
  Lemma g_hq_init : @hq_init F W = @hq_init F N. Proof. unfold hq_init. g. Qed.
  #[local] Hint Rewrite g_hq_init : libm_free.
  Lemma g_dlahqr : @dlahqr F W = @dlahqr F N. Proof. unfold dlahqr. g. Qed.
  #[local] Hint Rewrite g_dlahqr : libm_free.
  Lemma g_shuffle3 : @shuffle3 F W = @shuffle3 F N. Proof. unfold shuffle3. g. Qed.
  #[local] Hint Rewrite g_shuffle3 : libm_free.
  Lemma g_shuffle_shifts : @shuffle_shifts F W = @shuffle_shifts F N. Proof. unfold shuffle_shifts. g. Qed.
  #[local] Hint Rewrite g_shuffle_shifts : libm_free.
  Lemma g_v_reflect : @v_reflect F W = @v_reflect F N. Proof. unfold v_reflect. g. Qed.
  #[local] Hint Rewrite g_v_reflect : libm_free.
  Lemma g_q5_right2 : @q5_right2 F W = @q5_right2 F N. Proof. unfold q5_right2. g. Qed.
  #[local] Hint Rewrite g_q5_right2 : libm_free.
  Lemma g_q5_left2 : @q5_left2 F W = @q5_left2 F N. Proof. unfold q5_left2. g. Qed.
  #[local] Hint Rewrite g_q5_left2 : libm_free.
  Lemma g_q5_right3 : @q5_right3 F W = @q5_right3 F N. Proof. unfold q5_right3. g. Qed.
  #[local] Hint Rewrite g_q5_right3 : libm_free.
  Lemma g_q5_left3 : @q5_left3 F W = @q5_left3 F N. Proof. unfold q5_left3. g. Qed.
  #[local] Hint Rewrite g_q5_left3 : libm_free.
  Lemma g_q5_ulp : @q5_ulp F W = @q5_ulp F N. Proof. unfold q5_ulp. g. Qed.
  #[local] Hint Rewrite g_q5_ulp : libm_free.
  Lemma g_q5_smlnum : @q5_smlnum F W = @q5_smlnum F N. Proof. unfold q5_smlnum. g. Qed.
  #[local] Hint Rewrite g_q5_smlnum : libm_free.
  Lemma g_q5_vigilant : @q5_vigilant F W = @q5_vigilant F N. Proof. unfold q5_vigilant. g. Qed.
  #[local] Hint Rewrite g_q5_vigilant : libm_free.
  Lemma g_q5_bulge22 : @q5_bulge22 F W = @q5_bulge22 F N. Proof. unfold q5_bulge22. g. Qed.
  #[local] Hint Rewrite g_q5_bulge22 : libm_free.
  Lemma g_q5_collapsed : @q5_collapsed F W = @q5_collapsed F N. Proof. unfold q5_collapsed. g. Qed.
  #[local] Hint Rewrite g_q5_collapsed : libm_free.
  Lemma g_q5_chase : @q5_chase F W = @q5_chase F N. Proof. unfold q5_chase. g. Qed.
  #[local] Hint Rewrite g_q5_chase : libm_free.
  Lemma g_q5_bulge : @q5_bulge F W = @q5_bulge F N. Proof. unfold q5_bulge. g. Qed.
  #[local] Hint Rewrite g_q5_bulge : libm_free.
  Lemma g_q5_left_all : @q5_left_all F W = @q5_left_all F N. Proof. unfold q5_left_all. g. Qed.
  #[local] Hint Rewrite g_q5_left_all : libm_free.
  Lemma g_q5_acc_u : @q5_acc_u F W = @q5_acc_u F N. Proof. unfold q5_acc_u. g. Qed.
  #[local] Hint Rewrite g_q5_acc_u : libm_free.
  Lemma g_q5_acc_z : @q5_acc_z F W = @q5_acc_z F N. Proof. unfold q5_acc_z. g. Qed.
  #[local] Hint Rewrite g_q5_acc_z : libm_free.
  Lemma g_q5_krcol : @q5_krcol F W = @q5_krcol F N. Proof. unfold q5_krcol. g. Qed.
  #[local] Hint Rewrite g_q5_krcol : libm_free.
  Lemma g_q5_paste : @q5_paste F W = @q5_paste F N. Proof. unfold q5_paste. g. Qed.
  #[local] Hint Rewrite g_q5_paste : libm_free.
  Lemma g_q5_horizontal : @q5_horizontal F W = @q5_horizontal F N. Proof. unfold q5_horizontal. g. Qed.
  #[local] Hint Rewrite g_q5_horizontal : libm_free.
  Lemma g_q5_vertical : @q5_vertical F W = @q5_vertical F N. Proof. unfold q5_vertical. g. Qed.
  #[local] Hint Rewrite g_q5_vertical : libm_free.
  Lemma g_q5_zmul : @q5_zmul F W = @q5_zmul F N. Proof. unfold q5_zmul. g. Qed.
  #[local] Hint Rewrite g_q5_zmul : libm_free.
  Lemma g_q5_far : @q5_far F W = @q5_far F N. Proof. unfold q5_far. g. Qed.
  #[local] Hint Rewrite g_q5_far : libm_free.
  Lemma g_q5_incol : @q5_incol F W = @q5_incol F N. Proof. unfold q5_incol. g. Qed.
  #[local] Hint Rewrite g_q5_incol : libm_free.
  Lemma g_q5_main : @q5_main F W = @q5_main F N. Proof. unfold q5_main. g. Qed.
  #[local] Hint Rewrite g_q5_main : libm_free.
  Lemma g_dlaqr5 : @dlaqr5 F W = @dlaqr5 F N. Proof. unfold dlaqr5. g. Qed.
  #[local] Hint Rewrite g_dlaqr5 : libm_free.
End Gen.

Section Consts.
  Context (lm : libm) (LM : libm_ok lm).
  Lemma tsml_ : @nrm_tsml b64 (B64 lm) = b64_dy 1 (-511). Proof. exact (b64_tsml lm LM). Qed.
  Lemma tbig_ : @nrm_tbig b64 (B64 lm) = b64_dy 1 505. Proof. exact (b64_tbig lm LM). Qed.
  Lemma ssml_ : @nrm_ssml b64 (B64 lm) = b64_dy 1 518. Proof. exact (b64_ssml lm LM). Qed.
  Lemma sbig_ : @nrm_sbig b64 (B64 lm) = b64_dy 1 (-519). Proof. exact (b64_sbig lm LM). Qed.
  Lemma sq_ x : @fpowf b64 (B64 lm) x (@f2 b64 (B64 lm)) = Bmult mode_NE x x. Proof. exact (b64_sq lm LM x). Qed.
End Consts.

Section Libm.
  Context (lm lm2 : libm) (LM : libm_ok lm) (LM2 : libm_ok lm2).
  Notation L := (B64 lm).
  Notation R := (B64 lm2).

  Lemma nrm_step_libm : @nrm_step b64 L = @nrm_step b64 R.
  Proof.
    apply functional_extensionality; intros x. apply functional_extensionality; intros a. unfold nrm_step.
    rewrite (tsml_ lm LM), (tbig_ lm LM), (ssml_ lm LM), (sbig_ lm LM), !(sq_ lm LM).
    rewrite (tsml_ _ LM2), (tbig_ _ LM2), (ssml_ _ LM2), (sbig_ _ LM2), !(sq_ _ LM2). reflexivity.
  Qed.
  Lemma nrm_finish_libm : @nrm_finish b64 L = @nrm_finish b64 R.
  Proof.
    apply functional_extensionality; intros a. unfold nrm_finish.
    rewrite (ssml_ lm LM), (sbig_ lm LM).
    rewrite (ssml_ _ LM2), (sbig_ _ LM2).
    pose (NR := R). set (fin := fun sq : b64 -> b64 =>
      let med_counts := ((amed a >? f0) || (amed a >? fMAX) || (amed a <>? amed a))%num%bool in
      let '(scl, sumsq) :=
        if (abig a >? f0)%num then ((f1 / b64_dy 1 (-519))%num, if med_counts then (abig a + (amed a * b64_dy 1 (-519)) * b64_dy 1 (-519))%num else abig a)
        else if (asml a >? f0)%num then
          if med_counts then
            let amed' := fsqrt (amed a) in let asml' := (fsqrt (asml a) / b64_dy 1 518)%num in
            let '(ymin, ymax) := if (asml' >? amed')%num then (amed', asml') else (asml', amed') in
            (f1, (sq ymax * (f1 + sq (ymin / ymax)))%num)
          else ((f1 / b64_dy 1 518)%num, asml a)
        else (f1, amed a) in
      (scl * fsqrt sumsq)%num).
    assert (E : (fun x => @fpowf b64 L x (@f2 b64 L)) = (fun x => @fpowf b64 R x (@f2 b64 R)))
      by (apply functional_extensionality; intros x; rewrite (sq_ lm LM), (sq_ _ LM2); reflexivity).
    change (fin (fun x => @fpowf b64 L x (@f2 b64 L)) = fin (fun x => @fpowf b64 R x (@f2 b64 R))). rewrite E. reflexivity.
  Qed.
  Lemma dnrm2_libm : @dnrm2 b64 L = @dnrm2 b64 R.
  Proof. unfold dnrm2, dnrm2_fa. rewrite nrm_step_libm, nrm_finish_libm. reflexivity. Qed.
  Lemma B64_libm : L = with_libm R (@fpowf b64 L) (@flog b64 L).
  Proof. reflexivity. Qed.
  Lemma dlarfg_libm : @dlarfg b64 L = @dlarfg b64 R.
  Proof. pose proof dnrm2_libm as E. rewrite B64_libm in E |- *. apply g_dlarfg. exact E. Qed.

  (** the truncated power is +0 *)
  Lemma trunc01 (x : b64) : Bltb (b64_dy 0 0) x = true -> Bltb x (b64_dy 1 0) = true -> b64_trunc x = b64_dy 0 0.
  Proof.
    intros H0 H1. assert (F : is_finite x = true) by (destruct x as [s|s| |s m e B]; try reflexivity; [destruct s; discriminate|discriminate]).
    rewrite Bltb_correct in H0 by (exact F || reflexivity). rewrite Bltb_correct in H1 by (exact F || reflexivity).
    assert (G0 : (0 < B2R x)%R) by (revert H0; change (B2R (b64_dy 0 0)) with 0%R; case Rlt_bool_spec; [auto|discriminate]).
    assert (G1 : (B2R x < 1)%R) by (revert H1; rewrite (mach_R ref_libm : B2R (b64_dy 1 0) = 1%R); case Rlt_bool_spec; [auto|discriminate]).
    destruct (Bnearbyint_correct 53 1024 emax1024 mode_ZR x) as (E & Fn & S). unfold b64_trunc.
    assert (ER : B2R (Bnearbyint mode_ZR x) = 0%R).
    { rewrite E. unfold round, F2R, scaled_mantissa, cexp, FIX_exp. cbn [round_mode Fnum Fexp]. change (bpow radix2 0) with 1%R. rewrite Rmult_1_r. change (bpow radix2 (- 0)) with 1%R. rewrite Rmult_1_r. rewrite Ztrunc_floor by lra. rewrite (Zfloor_imp 0); [change (IZR 0) with 0%R; ring|]. change (IZR (0 + 1)) with 1%R. lra. }
    assert (SB : Bsign (Bnearbyint mode_ZR x) = false).
    { rewrite S by (apply finite_not_nan; rewrite Fn; exact F). destruct x as [s|s| |s m e B]; cbn [B2R] in G0; try lra. destruct s; [|reflexivity]. exfalso. revert G0. apply Rle_not_lt. apply F2R_le_0. cbn. lia. }
    apply B2R_Bsign_inj; [rewrite Fn; exact F|reflexivity|rewrite ER; reflexivity|exact SB].
  Qed.
  Lemma safmn2_zero lm' : libm_ok lm' -> @nv_safmn2 b64 (B64 lm') = b64_dy 0 0.
  Proof.
    intros O. destruct (pow_safmn2 _ O) as [H0 H1]. cbv zeta in H0, H1. unfold nv_safmn2. cbn [ftrunc fpowf flog B64]. 
    replace (@fdiv b64 (B64 lm') (@dlamch b64 (B64 lm') (chr "S")) (@nv_eps b64 (B64 lm'))) with (b64_dy 1 (-970)) by (apply b64_eq_SF; vm_compute; reflexivity).
    replace (@dlamch b64 (B64 lm') (chr "B")) with (b64_dy 2 0) by (apply b64_eq_SF; vm_compute; reflexivity).
    apply trunc01; assumption.
  Qed.
  Lemma nv_loop_libm : @nv_loop b64 L = @nv_loop b64 R.
  Proof.
    unfold nv_loop, nv_safmx2. rewrite (safmn2_zero lm LM), (safmn2_zero _ LM2). reflexivity.
  Qed.
  Lemma dlahqr_libm : @dlahqr b64 L = @dlahqr b64 R.
  Proof. pose proof dnrm2_libm as E1. pose proof nv_loop_libm as E2. rewrite B64_libm in E1, E2 |- *. apply g_dlahqr; assumption. Qed.
  Lemma dlaqr5_libm : @dlaqr5 b64 L = @dlaqr5 b64 R.
  Proof. pose proof dnrm2_libm as E1. rewrite B64_libm in E1 |- *. apply g_dlaqr5; assumption. Qed.
End Libm.

(** a statement about binary64 that uses dlahqr, dlaqr5, dtrmm and the conversions from vectors carries over from one libm to any other *)
Section Transfer.
  Context (lm lm2 : libm) (LM : libm_ok lm) (LM2 : libm_ok lm2).
  Lemma ToFA_vec_libm : ToFA_vec b64 (B64 lm) = ToFA_vec b64 (B64 lm2).
  Proof. reflexivity. Qed.
  Lemma ToFA_nested_libm : ToFA_nested b64 (B64 lm) = ToFA_nested b64 (B64 lm2).
  Proof. reflexivity. Qed.
  Lemma FromFA_nested_libm : FromFA_nested b64 (B64 lm) = FromFA_nested b64 (B64 lm2).
  Proof. reflexivity. Qed.
  Lemma dtrmm_libm : @dtrmm b64 (B64 lm) = @dtrmm b64 (B64 lm2).
  Proof. rewrite (B64_libm lm lm2). apply g_dtrmm. Qed.
End Transfer.
