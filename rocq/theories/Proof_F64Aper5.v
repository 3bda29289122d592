(** * Proof_F64Aper5: circular_aperture_OTF in double precision: the whole function *)
From Coq Require Import Reals ZArith Lia Lra Psatz Floats.
From Flocq Require Import Core IEEE754.BinarySingleNaN IEEE754.PrimFloat.
From Verif Require Import Base_XR Model_Geo Model_Otf Model_F64 Spec_F64 Spec_F64Aperture Proof_Round Model_F64Size Proof_F64Size Proof_F64Db Proof_F64Slice
  Model_F64Aperture Proof_Aper Proof_F64Aper1 Proof_F64Aper2 Num_PiF64 Proof_F64Aper3 Proof_F64Aper4.
Open Scope R_scope.

(** ** the two thresholds *)
Lemma thr_ok m mf rf r r0 c : stands_for mf m -> Rabs (m - c) <= 4 * mu -> 0 <= c <= 2 -> stands_for rf r -> r0ok r0 -> Rabs (r - r0) <= 2 * mu * r0 -> 0 <= m ->
  exists t, stands_for (mf * rf / 2)%float t /\ Rabs (t - c * r0 / 2) <= 10 * mu * r0.
Proof.
  intros Hm Em C Hr K Er M0. generalize (r0_pos _ K) mu_small tn_mu mumu (small_unit _ K). intros P M T MM SU.
  apply Rabs_le_inv in Er, Em. assert (R0 : 0 < r <= 1.001 * r0).
  { assert (2 * mu * r0 <= 0.001 * r0) by (apply Rmult_le_compat_r; lra). lra. }
  assert (MR : 0 < mu * r0) by (apply Rmult_lt_0_compat; lra).
  assert (MMR : mu * mu * r0 <= 0.001 * (mu * r0)) by (rewrite Rmult_assoc; apply Rmult_le_compat_r; lra).
  assert (E1 : Rabs (m * r - c * r0) <= 8.1 * mu * r0).
  { replace (m * r - c * r0) with ((m - c) * r + c * (r - r0)) by ring. eapply Rle_trans; [apply Rabs_triang|].
    apply Rle_trans with (4 * mu * (1.001 * r0) + 2 * (2 * mu * r0)); [|lra]. apply Rplus_le_compat; rewrite Rabs_mult.
    - apply Rmult_le_compat; auto using Rabs_pos; [apply Rabs_le; lra|rewrite Rabs_pos_eq; lra].
    - apply Rmult_le_compat; auto using Rabs_pos; [rewrite Rabs_pos_eq; lra|apply Rabs_le; lra]. }
  assert (B1 : 0 <= m * r <= 3 * r0).
  { split; [apply Rmult_le_pos; lra|]. apply Rle_trans with (2.1 * (1.001 * r0)); [apply Rmult_le_compat; lra|lra]. }
  set (g := rnd (m * r)). assert (G0 : 0 <= g) by (apply rnd_pos; lra).
  assert (Eg : Rabs (g - m * r) <= 3.1 * mu * r0).
  { eapply Rle_trans; [apply rnd_mix|]. fold mu tn. rewrite Rabs_pos_eq by lra.
    assert (mu * (m * r) <= mu * (3 * r0)) by (apply Rmult_le_compat_l; lra). lra. }
  assert (Hg : stands_for (mf * rf)%float g) by (apply f_mul; auto; apply big_ok with r0 3; auto; simpl; lra).
  apply Rabs_le_inv in Eg, E1.
  assert (G4 : g / 2 <= 2 * r0) by (assert (mu * r0 <= 0.01 * r0) by (apply Rmult_le_compat_r; lra); lra).
  exists (rnd (g / 2)). split.
  - apply f_div; [exact Hg|exact f_two|lra|]. apply big_ok with r0 2; [exact K|lra|simpl; lra].
  - generalize (rnd_mix (g / 2)). fold mu tn. rewrite (Rabs_pos_eq (g / 2)) by lra. intros Q.
    assert (mu * (g / 2) <= mu * (2 * r0)) by (apply Rmult_le_compat_l; lra). apply Rabs_le_inv in Q. apply Rabs_le. lra.
Qed.
Lemma scaled p r0 x d y : 0 < r0 -> Rabs (p / r0 - x) <= 11 * mu -> Rabs (d - y * r0 / 2) <= 10 * mu * r0 ->
  (p < d -> 2 * x <= y + 42 * mu) /\ (d <= p -> y - 42 * mu <= 2 * x).
Proof.
  intros P E D. set (w := p / r0) in *. assert (Pw : p = w * r0) by (unfold w; field; lra). apply Rabs_le_inv in E, D. rewrite Pw.
  assert (Dw : d = d / r0 * r0) by (field; lra). set (z := d / r0) in *. rewrite Dw in *. clear Dw Pw. clearbody z w.
  assert (Z : - (10 * mu) <= z - y / 2 <= 10 * mu).
  { split; apply Rmult_le_reg_r with r0; lra. }
  split; intros H; [assert (w < z) by (apply Rmult_lt_reg_r with r0; lra)|assert (z <= w) by (apply Rmult_le_reg_r with r0; lra)]; lra.
Qed.

(** ** near the two touching positions *)
Lemma sqrt_tq : R_sqrt.sqrt tq <= / 1000000.
Proof. apply sqrt_below; unfold tq, one_rnd; lra. Qed.
Lemma near_pi e q : 0 < e < 1 -> q <= -1 + tq -> Rabs (ring_angle e (acos q)) <= 9 / 1000000.
Proof.
  intros E Q. assert (T : 0 < tq) by (unfold tq, one_rnd; lra).
  assert (A1 : acos (-1) = PI) by (unfold acos; destruct (Rle_dec (-1) (-1)); [reflexivity|lra]).
  assert (H : Rabs (acos q - PI) <= 3 * R_sqrt.sqrt tq).
  { destruct (Rle_lt_dec q (-1)) as [L|L].
    - unfold acos. destruct (Rle_dec q (-1)); [|contradiction]. rewrite Rminus_diag_eq, Rabs_R0 by reflexivity. generalize (sqrt_pos tq). lra.
    - rewrite <- A1. apply acos_holder. apply Rabs_le. lra. }
  generalize (ring_lip e (acos q) PI E) sqrt_tq. rewrite ring_pi, Rminus_0_r. intros. lra.
Qed.
Lemma near_zero e q : 0 < e < 1 -> 1 - tq <= q -> Rabs (ring_angle e (acos q) + 2 * (e * e)) <= 9 / 1000000.
Proof.
  intros E Q. assert (T : 0 < tq) by (unfold tq, one_rnd; lra).
  assert (H : Rabs (acos q - 0) <= 3 * R_sqrt.sqrt tq).
  { destruct (Rle_lt_dec 1 q) as [L|L].
    - rewrite acos_ge1 by exact L. rewrite Rminus_0_r, Rabs_R0. generalize (sqrt_pos tq). lra.
    - rewrite <- acos_1. apply acos_holder. apply Rabs_le. lra. }
  generalize (ring_lip e (acos q) 0 E) sqrt_tq. rewrite ring_0. intros.
  replace (ring_angle e (acos q) + 2 * (e * e)) with (ring_angle e (acos q) - - (2 * (e * e))) by ring. lra.
Qed.
Lemma cos_outer e x : 0.1 <= e <= 0.9 -> 0 <= x -> (1 + e) - 42 * mu <= 2 * x -> ring_cos e (2 * x) <= -1 + tq.
Proof.
  intros E X H. unfold ring_cos. set (d := 2 * x) in *. generalize mu_small. intros M.
  assert (S : (1 + e) * (1 + e) - 200 * mu <= d * d).
  { assert (D : (1 + e - 42 * mu) * (1 + e - 42 * mu) <= d * d) by (apply Rmult_le_compat; lra).
    assert (42 * mu * (1 + e) <= 42 * mu * 2) by (apply Rmult_le_compat_l; lra). assert (0 <= mu * mu) by nra. lra. }
  apply Rmult_le_reg_r with e; [lra|]. unfold Rdiv. rewrite Rmult_assoc, Rinv_l, Rmult_1_r by lra.
  assert (tq * 0.1 <= tq * e) by (apply Rmult_le_compat_l; [unfold tq, one_rnd|]; lra).
  assert (200 * mu <= tq * 0.1) by (unfold tq, one_rnd, mu; lra). lra.
Qed.

(** ** the cross term with its masks *)
Definition one_if (b : bool) : R := if b then 1 else 0.
Lemma f_bool b : stands_for (bool_f64 b) (one_if b).
Proof. destruct b; [exact f_one|exact f_0]. Qed.
Lemma zero_times b : (0 * bool_f64 b)%float = 0%float. Proof. destruct b; reflexivity. Qed.
Lemma c2_nan facos fsin ftan fatan rf pf f b : facos (ring_arg_f64 pf rf f) = nan -> 
  ring_f64 facos fsin ftan fatan pf rf f = (0 * bool_f64 b)%float.
Proof.
  intros H. unfold ring_f64. cbv zeta. rewrite H. rewrite nan_mul_r, nan_div, nan_add_r, nan_sub, nan_sub, num_nan. now rewrite !zero_times.
Qed.
Lemma ring_ok facos fsin ftan fatan pf rf f p r e r0 x : good_libm facos fsin ftan fatan ->
  stands_for pf p -> stands_for rf r -> stands_for f e -> r0ok r0 -> Rabs (r - r0) <= 2 * mu * r0 -> 0 <= p ->
  0 <= x <= 2 -> 0.1 <= e <= 0.9 -> Rabs (p / r0 - x) <= 11 * mu ->
  ap (ring_f64 facos fsin ftan fatan pf rf f)
     (ring_angle e (acos (ring_cos e (2 * x))) + one_if (PrimFloat.ltb 1 (ring_arg_f64 pf rf f)) * (2 * (e * e))) (10 / 1000000).
Proof.
  intros L Hp Hr He K Er P0 X E EX. destruct (q_ok pf rf f p r e r0 x Hp Hr He K Er P0 X E EX) as (Q & HQ & EQ).
  set (q := ring_cos e (2 * x)) in *. assert (E1 : 0 < e < 1) by lra. assert (EQ' := EQ). apply Rabs_le_inv in EQ'.
  destruct (PrimFloat.ltb 1 (ring_arg_f64 pf rf f)) eqn:N; unfold one_if.
  - apply (f_lt _ _ _ _ f_one HQ) in N. rewrite (c2_nan _ _ _ _ _ _ _ true) by (apply (acos_out _ _ _ _ L _ Q HQ); lra).
    rewrite zero_times. exists 0. split; [exact f_0|]. generalize (near_zero e q E1 ltac:(lra)). intros Z.
    rewrite Rmult_1_l. rewrite <- Rabs_Ropp. replace (- (0 - (ring_angle e (acos q) + 2 * (e * e)))) with (ring_angle e (acos q) + 2 * (e * e)) by ring. lra.
  - assert (Q1 : Q <= 1).
    { destruct (Rle_lt_dec Q 1) as [H|H]; [exact H|]. apply (f_lt _ _ _ _ f_one HQ) in H. congruence. }
    rewrite Rmult_0_l, Rplus_0_r.
    destruct (Rlt_le_dec Q (-1)) as [O|O].
    + rewrite (c2_nan _ _ _ _ _ _ _ true) by (apply (acos_out _ _ _ _ L _ Q HQ); lra).
      rewrite zero_times. exists 0. split; [exact f_0|]. generalize (near_pi e q E1 ltac:(lra)). intros Z.
      unfold Rminus. rewrite Rplus_0_l, Rabs_Ropp. lra.
    + generalize (ring_in _ _ _ _ _ Q f e L He E HQ ltac:(lra)). intros (v & Hv & Ev).
      unfold ring_f64. cbv zeta. rewrite (num_fin _ v Hv).
      destruct (near_lit f e He E) as [(m & Hm & Em) _].
      destruct (thr_ok m (1 + f)%float rf r r0 (1 + e) Hm Em ltac:(lra) Hr K Er ltac:(apply Rabs_le_inv in Em; generalize mu_small; lra)) as (t & Ht & Et).
      destruct (scaled p r0 x t (1 + e) (r0_pos _ K) EX Et) as [_ Sc].
      assert (Lp : Rabs (ring_angle e (acos Q) - ring_angle e (acos q)) <= 9 / 1000000).
      { generalize (ring_lip e (acos Q) (acos q) E1) (acos_holder Q q tq EQ) sqrt_tq. lra. }
      set (X1 := (2 * f * fsin (facos (ring_arg_f64 pf rf f)) / pi_f64 + _ - _ - _)%float) in *.
      destruct (PrimFloat.leb pf ((1 + f) * rf / 2)%float) eqn:B; unfold bool_f64.
      * apply ap_w with (1 * 0 + 10 * 0 + 0 * 0 + one_rnd + 9.5 / 1000000); [|unfold one_rnd; lra].
        assert (Bv : Rabs v <= 10).
        { eapply Rle_trans; [apply abs_near; exact Ev|]. 
          assert (G : Rabs (ring_angle e (acos Q)) <= 9.8).
          { generalize (ring_lip e (acos Q) PI E1) (acos_bound Q) pi_3. rewrite ring_pi, Rminus_0_r. intros LL AB P3.
            assert (Rabs (acos Q - PI) <= 3.2) by (apply Rabs_le; lra). lra. }
          unfold eps; lra. }
        assert (A : ap (X1 * 1)%float (v * 1) (1 * 0 + 10 * 0 + 0 * 0 + one_rnd)).
        { replace (1 * 0 + 10 * 0 + 0 * 0 + one_rnd) with (10 * 0 + 1 * 0 + 0 * 0 + one_rnd) by ring.
          apply ap_mul; auto using ap_of, f_one; try lra. rewrite Rabs_pos_eq; lra. }
        destruct A as (w & Hw & Ew). exists w. split; [exact Hw|].
        replace (w - ring_angle e (acos q)) with ((w - v * 1) + ((v - ring_angle e (acos Q)) + (ring_angle e (acos Q) - ring_angle e (acos q)))) by ring.
        eapply Rle_trans; [apply Rabs_triang|]. apply Rplus_le_compat; [exact Ew|]. eapply Rle_trans; [apply Rabs_triang|]. unfold eps in Ev. lra.
      * assert (Hz : stands_for (X1 * 0)%float (rnd (v * 0))) by (apply f_mul; auto using f_0; rewrite Rmult_0_r, Rabs_R0; apply bpow_gt_0).
        rewrite Rmult_0_r in Hz. rewrite (rnd_int 0) in Hz by lia. exists 0. split; [exact Hz|].
        assert (t <= p).
        { destruct (Rle_lt_dec t p) as [H|H]; [exact H|]. assert (H' : p <= t) by lra. apply (f_le _ _ _ _ Hp Ht) in H'. congruence. }
        generalize (near_pi e q E1 (cos_outer e x E ltac:(lra) (Sc H))). intros Z.
        unfold Rminus. rewrite Rplus_0_l, Rabs_Ropp. lra.
Qed.

(** ** the whole function *)
Lemma f_m2 : stands_for (-2)%float (-2).
Proof. apply f_value; [reflexivity|]. cbn. unfold Defs.F2R. simpl. lra. Qed.
Lemma c1_ok f e b : stands_for f e -> 0.1 <= e <= 0.9 -> ap (- 2 * (f * f) * bool_f64 b)%float (- (one_if b * (2 * (e * e)))) (5 * one_rnd).
Proof.
  intros H E. generalize (sq_bounds e E). intros S.
  assert (A : ap (- 2 * (f * f))%float (-2 * (e * e)) (3 * one_rnd)).
  { apply ap_w with (2 * one_rnd + 1 * 0 + 0 * one_rnd + one_rnd); [|unfold one_rnd; lra].
    apply ap_mul; try lra; [apply ap_of; exact f_m2|apply ap_sq; auto|rewrite Rabs_left; lra|rewrite Rabs_pos_eq; lra|unfold one_rnd; lra|unfold one_rnd; lra]. }
  replace (- (one_if b * (2 * (e * e)))) with (-2 * (e * e) * one_if b) by ring.
  apply ap_w with (2 * 0 + 1 * (3 * one_rnd) + 3 * one_rnd * 0 + one_rnd); [|unfold one_rnd; lra].
  apply ap_mul; auto; try lra.
  - apply ap_of, f_bool.
  - apply Rabs_le. lra.
  - apply Rabs_le. unfold one_if. destruct b; lra.
  - unfold one_rnd; lra.
  - unfold one_rnd; lra.
Qed.
Lemma whole facos fsin ftan fatan k u v l D f U V L A E : good_libm facos fsin ftan fatan ->
  stands_for u U -> stands_for v V -> stands_for l L -> stands_for D A -> stands_for f E -> usual_aperture U V L A E ->
  exists out g h, circular_aperture_f64 facos fsin ftan fatan u v l D f = Ok out /\ stands_for out g /\
    circular_aperture_OTF k U V L A E = Ok (Fin h) /\
    Rabs (g - (h + (one_if (PrimFloat.ltb 1 (ring_arg_f64 (rho_f64 u v) (D / l) f)) - one_if (inner_f64 (rho_f64 u v) (D / l) f)) * jump E)) <= / 10 ^ 4.
Proof.
  intros Lm Hu Hv Hl HD He (BL & BA & BE & Fr).
  destruct (radial_units u v l D U V L A Hu Hv Hl HD BL BA Fr) as (p & r & Hp & Hr & K & Er & P0 & X & EX).
  set (x := rel_freq U V L A) in *. set (pf := rho_f64 u v) in *. set (rf := (D / l)%float) in *. set (r0 := A / L) in *.
  destruct (x_ok pf rf p r r0 x Hp Hr K Er P0 X EX) as (z & Hz & Z0 & Ez).
  destruct (y_ok pf rf f p r E r0 x Hp Hr He K Er P0 X BE EX) as (y & Hy & Y0 & Ey).
  assert (L0 : 0 < L) by (generalize pow_200i (bpow_gt_0 radix2 (-200)); lra).
  assert (A0 : 0 < A) by (generalize pow_200i (bpow_gt_0 radix2 (-200)); lra).
  destruct const_a as [Ca Ba]. destruct (const_b f E He BE) as [Cb Bb]. generalize (sq_bounds E BE). intros S2.
  generalize (disc_term _ _ _ _ _ z _ _ x _ Lm Hz Z0 ltac:(lra) Ez Ca Ba). intros Ta.
  assert (X1 : 0 <= x / E) by (apply div_pos; lra).
  generalize (disc_term _ _ _ _ _ y _ _ (x / E) _ Lm Hy Y0 X1 Ey Cb Bb). intros Tb.
  generalize (ring_ok _ _ _ _ pf rf f p r E r0 x Lm Hp Hr He K Er P0 X BE EX). intros Tc.
  generalize (c1_ok f E (inner_f64 pf rf f) He BE). intros T1.
  set (N := one_if (PrimFloat.ltb 1 (ring_arg_f64 pf rf f))) in *. set (I := one_if (inner_f64 pf rf f)) in *.
  assert (N1 : 0 <= N <= 1) by (unfold N, one_if; destruct (PrimFloat.ltb _ _); lra).
  assert (I1 : 0 <= I <= 1) by (unfold I, one_if; destruct (inner_f64 _ _ _); lra).
  assert (Sa : R_sqrt.sqrt (25 * mu) <= / 10000000) by (apply sqrt_below; unfold mu; lra).
  assert (Sb : R_sqrt.sqrt (250 * mu) <= / 5000000) by (apply sqrt_below; unfold mu; lra).
  set (la := 2 / PI * lens1 x) in *. set (lb := 2 * (E * E) / PI * lens1 (x / E)) in *. set (c := ring_angle E (acos (ring_cos E (2 * x)))) in *.
  apply ap_w with (e' := / 1000000) in Ta; [|lra]. apply ap_w with (e' := / 500000) in Tb; [|lra].
  apply ap_w with (e' := / 1000000000) in T1; [|unfold one_rnd; lra].
  generalize pi_3. intros P3.
  assert (Bla : 0 <= la <= 1.6).
  { generalize (lens1_range x ltac:(lra)). intros R. split; [apply Rmult_le_pos; lra|]. apply Rle_trans with (1 * 1.6); [apply Rmult_le_compat; lra|lra]. }
  assert (Blb : 0 <= lb <= 1.6).
  { generalize (lens1_range (x / E) X1). intros R. split; [apply Rmult_le_pos; lra|]. apply Rle_trans with (1 * 1.6); [apply Rmult_le_compat; lra|lra]. }
  assert (Bc : - 9.6 <= c <= 9.6).
  { generalize (ring_lip E (acos (ring_cos E (2 * x))) PI ltac:(lra)) (acos_bound (ring_cos E (2 * x))). rewrite ring_pi, Rminus_0_r. fold c. intros LL AB.
    assert (Rabs (acos (ring_cos E (2 * x)) - PI) <= 3.2) by (apply Rabs_le; lra). assert (Q : Rabs c <= 9.6) by lra. apply Rabs_le_inv in Q. lra. }
  assert (BI : 0 <= I * (2 * (E * E)) <= 2) by (split; [apply Rmult_le_pos; lra|]; apply Rle_trans with (1 * 2); [apply Rmult_le_compat; lra|lra]).
  assert (BN : 0 <= N * (2 * (E * E)) <= 2) by (split; [apply Rmult_le_pos; lra|]; apply Rle_trans with (1 * 2); [apply Rmult_le_compat; lra|lra]).
  generalize (ap_add _ _ _ _ _ _ Ta Tb ltac:(rewrite Rabs_pos_eq; lra) ltac:(lra)). intros S1.
  generalize (ap_add _ _ _ _ _ _ S1 T1 ltac:(apply Rabs_le; lra) ltac:(unfold one_rnd; lra)). intros S3.
  generalize (ap_add _ _ _ _ _ _ S3 Tc ltac:(apply Rabs_le; lra) ltac:(unfold one_rnd; lra)). intros S4.
  apply ap_w with (e' := 14 / 1000000) in S4; [|unfold one_rnd; lra].
  set (num := la + lb + - (I * (2 * (E * E))) + (c + N * (2 * (E * E)))) in *.
  assert (Bn : - 12 <= num <= 15) by (unfold num; lra).
  assert (Bd : 0.19 <= 1 - E * E <= 1) by lra.
  assert (Bq : Rabs (num / (1 - E * E)) <= 100).
  { unfold Rdiv. rewrite Rabs_mult, (Rabs_pos_eq (/ (1 - E * E))) by (left; apply Rinv_0_lt_compat; lra).
    apply Rle_trans with (15 * 6); [|lra]. apply Rmult_le_compat; auto using Rabs_pos; [left; apply Rinv_0_lt_compat; lra|apply Rabs_le; lra|].
    replace 6 with (/ (/ 6)) by lra. apply Rinv_le; lra. }
  generalize (ap_div _ _ _ _ _ _ 0.19 S4 (ap_one_sub f E He BE) ltac:(lra) ltac:(lra) ltac:(unfold one_rnd; lra) ltac:(unfold one_rnd; lra) Bq ltac:(unfold one_rnd; lra)).
  intros (g & Hg & Eg).
  eexists _, g, ((la + lb + c) / (1 - E * E)). repeat split.
  - unfold circular_aperture_f64. cbv zeta. fold pf rf.
    replace (PrimFloat.eqb l 0) with false.
    2:{ symmetry. destruct (PrimFloat.eqb l 0) eqn:Q; [|reflexivity]. apply (f_eq l 0 L 0 Hl f_0) in Q. lra. }
    replace (PrimFloat.ltb 0 f) with true by (symmetry; apply (f_lt _ _ _ _ f_0 He); lra). reflexivity.
  - exact (proj1 Hg).
  - exact (proj2 Hg).
  - rewrite exact_value by lra. reflexivity.
  - replace ((la + lb + c) / (1 - E * E) + (N - I) * jump E) with (num / (1 - E * E)) by (unfold num, jump; field; lra).
    eapply Rle_trans; [exact Eg|]. unfold one_rnd. lra.
Qed.
