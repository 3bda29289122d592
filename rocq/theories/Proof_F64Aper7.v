(** * Proof_F64Aper7: double counting, lost symmetry, wavelengths concerned, and a libm of the kind assumed *)
From Coq Require Import Reals ZArith Lia Lra Psatz Floats List Bool.
From Flocq Require Import Core IEEE754.BinarySingleNaN IEEE754.PrimFloat.
From Verif Require Import Base_XR Model_Geo Model_Otf Spec_Otf Model_F64 Spec_F64 Spec_F64Aperture Proof_Round Model_F64Size Proof_F64Size Model_F64Db Proof_F64Db Proof_F64Slice
  Model_F64Aperture Proof_Lens Proof_Aper Proof_F64Aper1 Proof_F64Aper2 Num_PiF64 Proof_F64Aper3 Proof_F64Aper4 Proof_F64Aper5 Proof_F64Aper6.
Import ListNotations.
Open Scope R_scope.

(** ** counted twice *)
Definition twice (u v l D e : PrimFloat.float) : bool := in_range u v l D && negb (outside_test u v l D e) && inside_test u v l D e.
Lemma twice_ok facos fsin ftan fatan u v l D e : good_libm facos fsin ftan fatan -> in_band l D e = true -> twice u v l D e = true ->
  exists g h E, stands_for e E /\ computed_and_exact facos fsin ftan fatan u v l D e g h /\ 0 <= h <= 1 /\ Rabs (g - (h - jump E)) <= / 10 ^ 4.
Proof.
  intros Lm IB Ag. destruct (in_band_ok l D e IB) as (L & A & E & Hl & HD & He & BL & BA & BE).
  unfold twice in Ag. rewrite !andb_true_iff, negb_true_iff in Ag. destruct Ag as [[IR T1] T2].
  destruct (in_range_ok u v l D L A E Hl HD BL BA BE IR) as (U & V & Hu & Hv & Us).
  destruct (whole _ _ _ _ Np u v l D e U V L A E Lm Hu Hv Hl HD He Us) as (out & g & h & H1 & H2 & H3 & H4).
  exists g, h, E. split; [exact He|]. split; [exists out, U, V, L, A, E; tauto|]. split.
  - assert (L0 : 0 < L) by (generalize pow_200i (bpow_gt_0 radix2 (-200)); lra).
    assert (A0 : 0 < A) by (generalize pow_200i (bpow_gt_0 radix2 (-200)); lra).
    rewrite circ_annulus in H3 by lra. injection H3 as <-.
    generalize (annulus_bounds E (pupil_shift U V L A) ltac:(lra)) PI_RGT_0 (sq_bounds E BE). intros B P S.
    assert (D0 : 0 < PI * (1 - E * E)) by (apply Rmult_lt_0_compat; lra).
    split; [apply div_pos; lra|]. apply Rmult_le_reg_r with (PI * (1 - E * E)); [exact D0|]. unfold Rdiv. rewrite Rmult_assoc, Rinv_l by lra. lra.
  - unfold outside_test, inside_test in *. rewrite T1, T2 in H4. unfold one_if in H4.
    replace (h + (0 - 1) * jump E) with (h - jump E) in H4 by ring. exact H4.
Qed.
Lemma jump_06 E : stands_for wide_eta E -> 1.1245 <= jump E.
Proof.
  intros H. assert (B : 0.599999 <= E <= 0.600001).
  { assert (Q : stands_for wide_eta (5404319552844595 / 9007199254740992)).
    { apply f_value; [reflexivity|]. cbn. unfold Defs.F2R. simpl. lra. }
    destruct H as [_ <-], Q as [_ ->]. lra. }
  unfold jump. assert (S : 0.359998 <= E * E <= 0.360002) by nra.
  apply Rmult_le_reg_r with (1 - E * E); [lra|]. unfold Rdiv. rewrite Rmult_assoc, Rinv_l by lra. lra.
Qed.
Lemma wide_band : in_band example_wavelength example_D wide_eta = true. Proof. vm_compute. reflexivity. Qed.
Lemma wide_all : forallb (fun p => twice (gu 101 (snd p) example_wavelength example_D) (gv 101 (fst p) example_wavelength example_D)
   example_wavelength example_D wide_eta) wide_points = true. Proof. vm_compute. reflexivity. Qed.
Lemma grid_negative facos fsin ftan fatan row col : good_libm facos fsin ftan fatan -> In (row, col) wide_points ->
  exists g h, grid_values facos fsin ftan fatan 101 row col example_wavelength example_D wide_eta g h /\ 0 <= h <= 1 /\ g <= h - 1.12 /\ g <= - 0.12.
Proof.
  intros Lm I. generalize wide_all. rewrite forallb_forall. intros H. specialize (H _ I). cbn [fst snd] in H.
  destruct (twice_ok _ _ _ _ _ _ _ _ _ Lm wide_band H) as (g & h & E & HE & C & B & Eg). exists g, h. split; [exact C|]. split; [exact B|].
  generalize (jump_06 E HE). intros J. apply Rabs_le_inv in Eg. replace (10 ^ 4) with 10000 in Eg by ring. lra.
Qed.

(** ** symmetry *)
Definition close_rho (u v u' v' l D : PrimFloat.float) : bool :=
  PrimFloat.leb (PrimFloat.abs (rho_f64 u v - rho_f64 u' v')) (0x1p-49 * (D / l)).
Lemma f_m49 : stands_for 0x1p-49%float (16 * mu).
Proof. apply f_value; [reflexivity|]. cbn. unfold Defs.F2R, mu. simpl. lra. Qed.
Lemma exact_close e x y : 0.1 <= e <= 0.9 -> 0 <= x <= 2 -> 0 <= y <= 2 -> Rabs (x - y) <= 60 * mu ->
  Rabs ((2 / PI * lens1 x + 2 * (e * e) / PI * lens1 (x / e) + ring_angle e (acos (ring_cos e (2 * x)))) / (1 - e * e)
      - (2 / PI * lens1 y + 2 * (e * e) / PI * lens1 (y / e) + ring_angle e (acos (ring_cos e (2 * y)))) / (1 - e * e)) <= / 10 ^ 4.
Proof.
  intros E X Y D. generalize pi_3 (sq_bounds e E) mu_small. intros P S M.
  assert (P0 : 0 < / PI <= / 3) by (split; [apply Rinv_0_lt_compat; lra|apply Rinv_le; lra]).
  assert (I0 : 0 < / e <= 10) by (split; [apply Rinv_0_lt_compat; lra|replace 10 with (/ 0.1) by lra; apply Rinv_le; lra]).
  assert (Sa : R_sqrt.sqrt (60 * mu) <= / 10000000) by (apply sqrt_below; unfold mu; lra).
  assert (Sb : R_sqrt.sqrt (600 * mu) <= / 3000000) by (apply sqrt_below; unfold mu; lra).
  assert (A : Rabs (lens1 x - lens1 y) <= / 1000000) by (generalize (lens1_holder x y _ ltac:(lra) ltac:(lra) D); lra).
  assert (Q : Rabs (x / e - y / e) <= 600 * mu).
  { replace (x / e - y / e) with ((x - y) * / e) by (field; lra). rewrite Rabs_mult, (Rabs_pos_eq (/ e)) by lra.
    apply Rle_trans with (60 * mu * 10); [apply Rmult_le_compat; auto using Rabs_pos; lra|lra]. }
  assert (B : Rabs (lens1 (x / e) - lens1 (y / e)) <= / 500000) by (generalize (lens1_holder (x / e) (y / e) _ ltac:(apply div_pos; lra) ltac:(apply div_pos; lra) Q); lra).
  assert (G : Rabs (ring_cos e (2 * x) - ring_cos e (2 * y)) <= tq).
  { unfold ring_cos. replace ((1 + e * e - 2 * x * (2 * x)) / 2 / e - (1 + e * e - 2 * y * (2 * y)) / 2 / e) with ((x - y) * (2 * (- (x + y)) * / e)) by (field; lra).
    rewrite !Rabs_mult, Rabs_Ropp, (Rabs_pos_eq 2), (Rabs_pos_eq (x + y)), (Rabs_pos_eq (/ e)) by lra.
    apply Rle_trans with (60 * mu * (2 * 4 * 10)); [|unfold tq, one_rnd, mu; lra].
    apply Rmult_le_compat; auto using Rabs_pos; [apply Rmult_le_pos; lra|]. apply Rmult_le_compat; lra. }
  assert (C : Rabs (ring_angle e (acos (ring_cos e (2 * x))) - ring_angle e (acos (ring_cos e (2 * y)))) <= 9 / 1000000).
  { generalize (ring_lip e (acos (ring_cos e (2 * x))) (acos (ring_cos e (2 * y))) ltac:(lra)) (acos_holder _ _ tq G) sqrt_tq. lra. }
  set (a := lens1 x) in *. set (a' := lens1 y) in *. set (b := lens1 (x / e)) in *. set (b' := lens1 (y / e)) in *.
  set (c := ring_angle e _) in *. set (c' := ring_angle e _) in C |- *.
  replace (_ - _) with ((2 * / PI * (a - a') + 2 * (e * e) * / PI * (b - b') + (c - c')) * / (1 - e * e)) by (field; lra).
  rewrite Rabs_mult, (Rabs_pos_eq (/ (1 - e * e))) by (left; apply Rinv_0_lt_compat; lra).
  apply Rle_trans with (13 / 1000000 * 6); [|replace (10 ^ 4) with 10000 by ring; lra].
  apply Rmult_le_compat; [apply Rabs_pos|left; apply Rinv_0_lt_compat; lra| |replace 6 with (/ (/ 6)) by lra; apply Rinv_le; lra].
  assert (A' : Rabs (2 * / PI * (a - a')) <= 1 * / 1000000).
  { rewrite Rabs_mult, (Rabs_pos_eq (2 * / PI)) by lra. apply Rmult_le_compat; auto using Rabs_pos; lra. }
  assert (B' : Rabs (2 * (e * e) * / PI * (b - b')) <= 1 * / 500000).
  { assert (0 <= 2 * (e * e) * / PI <= 1).
    { split; [apply Rmult_le_pos; lra|]. apply Rle_trans with (2 * / 3); [apply Rmult_le_compat; lra|lra]. }
    rewrite Rabs_mult, (Rabs_pos_eq (2 * (e * e) * / PI)) by lra. apply Rmult_le_compat; auto using Rabs_pos; lra. }
  eapply Rle_trans; [apply Rabs_triang|]. apply Rle_trans with (3 / 1000000 + 9 / 1000000); [|lra]. apply Rplus_le_compat; [|exact C].
  eapply Rle_trans; [apply Rabs_triang|]. lra.
Qed.
Lemma pair_ok facos fsin ftan fatan u v u' v' l D : good_libm facos fsin ftan fatan -> in_band l D example_eta = true ->
  lost u v l D example_eta = true -> agree u' v' l D example_eta = true -> close_rho u v u' v' l D = true ->
  exists g h g' h', computed_and_exact facos fsin ftan fatan u v l D example_eta g h /\ computed_and_exact facos fsin ftan fatan u' v' l D example_eta g' h' /\
    Rabs (h - h') <= / 10 ^ 4 /\ g' + 0.38 <= g.
Proof.
  intros Lm IB Lo Ag Cl. destruct (in_band_ok _ _ _ IB) as (L & A & E & Hl & HD & He & BL & BA & BE).
  unfold lost in Lo. rewrite !andb_true_iff, negb_true_iff in Lo. destruct Lo as [[IR T1] T2].
  unfold agree in Ag. rewrite andb_true_iff in Ag. destruct Ag as [IR' EQ]. apply eqb_prop in EQ.
  destruct (in_range_ok u v l D L A E Hl HD BL BA BE IR) as (U & V & Hu & Hv & Us).
  destruct (in_range_ok u' v' l D L A E Hl HD BL BA BE IR') as (U' & V' & Hu' & Hv' & Us').
  destruct (whole _ _ _ _ Np u v l D _ U V L A E Lm Hu Hv Hl HD He Us) as (out & g & h & H1 & H2 & H3 & H4).
  destruct (whole _ _ _ _ Np u' v' l D _ U' V' L A E Lm Hu' Hv' Hl HD He Us') as (out' & g' & h' & H1' & H2' & H3' & H4').
  exists g, h, g', h'. split; [exists out, U, V, L, A, E; tauto|]. split; [exists out', U', V', L, A, E; tauto|].
  assert (Close : Rabs (h - h') <= / 10 ^ 4).
  { destruct Us as (_ & _ & _ & Fr). destruct Us' as (_ & _ & _ & Fr').
    assert (L0 : 0 < L) by (generalize pow_200i (bpow_gt_0 radix2 (-200)); lra).
    assert (A0 : 0 < A) by (generalize pow_200i (bpow_gt_0 radix2 (-200)); lra).
    destruct (radial_units u v l D U V L A Hu Hv Hl HD BL BA Fr) as (p & r & Hp & Hr & K & Er & P0 & X & EX).
    destruct (radial_units u' v' l D U' V' L A Hu' Hv' Hl HD BL BA Fr') as (p' & r' & Hp' & Hr' & _ & Er' & P0' & X' & EX').
    rewrite exact_value in H3, H3' by lra. injection H3 as <-. injection H3' as <-.
    change (xarg U V L A) with (rel_freq U V L A). change (xarg U' V' L A) with (rel_freq U' V' L A).
    apply exact_close; auto. set (x := rel_freq U V L A) in *. set (x' := rel_freq U' V' L A) in *. set (r0 := A / L) in *.
    generalize (r0_pos _ K) mu_small (small_unit _ K) mumu. intros P M SU MM.
    assert (MR : mu * r0 <= 0.001 * r0) by (apply Rmult_le_compat_r; lra). assert (MR0 : 0 < mu * r0) by (apply Rmult_lt_0_compat; lra).
    assert (MMR : mu * mu * r0 <= 0.001 * (mu * r0)) by (rewrite Rmult_assoc; apply Rmult_le_compat_r; lra).
    apply Rabs_le_inv in Er, EX, EX'. assert (Rr : 0 < r <= 1.01 * r0) by lra.
    assert (Pb : forall q z, 0 <= z <= 2 -> q / r0 - z <= 11 * mu -> q <= 3 * r0).
    { intros q z Z Q. apply Rmult_le_reg_r with (/ r0); [apply Rinv_0_lt_compat; lra|].
      replace (3 * r0 * / r0) with 3 by (field; lra). change (q * / r0) with (q / r0). lra. }
    generalize (Pb p x X (proj2 EX)) (Pb p' x' X' (proj2 EX')). intros Q1 Q2.
    assert (B5 : Rabs (p - p') < bpow radix2 900).
    { apply Rle_lt_trans with (3 * r0); [apply Rabs_le; lra|]. rewrite <- (Rabs_pos_eq (3 * r0)) by lra. apply big_ok with r0 3; auto; [lra|simpl; lra]. }
    generalize (f_sub _ _ _ _ Hp Hp' B5). intros Hs.
    assert (Ht : stands_for (0x1p-49 * (D / l))%float (rnd (16 * mu * r))).
    { apply f_mul; [exact f_m49|exact Hr|]. assert (0 <= 16 * mu * r <= 2 * r0).
      { split; [apply Rmult_le_pos; lra|]. apply Rle_trans with (1 * (1.01 * r0)); [apply Rmult_le_compat; lra|lra]. }
      apply big_ok with r0 2; auto. simpl; lra. }
    unfold close_rho in Cl. apply (f_le _ _ _ _ (f_abs _ _ Hs) Ht) in Cl.
    generalize (rnd_mix (p - p')) (rnd_mix (16 * mu * r)). fold mu tn. intros R1 R2.
    assert (MRr : 0 <= 16 * mu * r <= 16.5 * mu * r0).
    { split; [apply Rmult_le_pos; lra|]. rewrite (Rmult_assoc 16), (Rmult_assoc 16.5).
      assert (mu * r <= mu * (1.01 * r0)) by (apply Rmult_le_compat_l; lra). lra. }
    rewrite (Rabs_pos_eq (16 * mu * r)) in R2 by lra. apply Rabs_le_inv in R2.
    assert (mu * (16 * mu * r) <= 0.01 * (16 * mu * r)) by (apply Rmult_le_compat_r; lra).
    assert (mu * Rabs (p - p') <= 0.01 * Rabs (p - p')) by (apply Rmult_le_compat_r; [apply Rabs_pos|lra]).
    assert (Rabs (p - p') <= Rabs (rnd (p - p')) + Rabs (rnd (p - p') - (p - p'))).
    { replace (p - p') with (rnd (p - p') + - (rnd (p - p') - (p - p'))) at 1 by ring. eapply Rle_trans; [apply Rabs_triang|]. rewrite Rabs_Ropp. lra. }
    assert (Dp : Rabs (p - p') <= 20 * mu * r0) by lra.
    assert (Dw : Rabs (p / r0 - p' / r0) <= 20 * mu).
    { replace (p / r0 - p' / r0) with ((p - p') * / r0) by (field; lra).
      rewrite Rabs_mult, (Rabs_pos_eq (/ r0)) by (left; apply Rinv_0_lt_compat; lra).
      apply Rmult_le_reg_r with r0; [exact P|]. rewrite Rmult_assoc, Rinv_l by lra. lra. }
    apply Rabs_le_inv in Dw. apply Rabs_le. lra. }
  split; [exact Close|].
  unfold outside_test, inside_test in *. rewrite T1, T2 in H4. rewrite EQ in H4'. unfold one_if at 1 2 in H4.
  match type of H4' with Rabs (g' - (h' + (?a - ?a) * _)) <= _ => replace (h' + (a - a) * jump E) with h' in H4' by ring end.
  generalize (jump_04 E He). intros J. apply Rabs_le_inv in H4, H4', Close. replace (10 ^ 4) with 10000 in * by ring. lra.
Qed.
Lemma mirror1 : lost (gu 1501 885 example_wavelength example_D) (gv 1501 930 example_wavelength example_D) example_wavelength example_D example_eta = true.
Proof. vm_compute. reflexivity. Qed.
Lemma mirror2 : agree (gu 1501 615 example_wavelength example_D) (gv 1501 570 example_wavelength example_D) example_wavelength example_D example_eta = true.
Proof. vm_compute. reflexivity. Qed.
Lemma mirror3 : close_rho (gu 1501 885 example_wavelength example_D) (gv 1501 930 example_wavelength example_D)
  (gu 1501 615 example_wavelength example_D) (gv 1501 570 example_wavelength example_D) example_wavelength example_D = true.
Proof. vm_compute. reflexivity. Qed.
Lemma mirror facos fsin ftan fatan : good_libm facos fsin ftan fatan ->
  exists g h g' h', grid_values facos fsin ftan fatan 1501 930 885 example_wavelength example_D example_eta g h /\
    grid_values facos fsin ftan fatan 1501 (1500 - 930) (1500 - 885) example_wavelength example_D example_eta g' h' /\
    Rabs (h - h') <= / 10 ^ 4 /\ g' + 0.38 <= g.
Proof. intros Lm. exact (pair_ok _ _ _ _ _ _ _ _ _ _ Lm example_band mirror1 mirror2 mirror3). Qed.

(** ** wavelengths *)
Definition ring_points : list (nat * nat) := (example_points ++ [(50, 35); (50, 65); (35, 50); (65, 50)])%nat.
Definition bad_wavelength (i : nat) : bool :=
  let l := wavelength_f64 i in in_band l example_D example_eta &&
  existsb (fun p => lost (gu 101 (snd p) l example_D) (gv 101 (fst p) l example_D) l example_D example_eta) ring_points.
Lemma bad_count : length (filter bad_wavelength (seq 0 1371)) = 422%nat. Proof. vm_compute. reflexivity. Qed.
Lemma bad_ok facos fsin ftan fatan : good_libm facos fsin ftan fatan ->
  exists ws, NoDup ws /\ length ws = 422%nat /\ forall i, In i ws -> (i < 1371)%nat /\
    exists row col g h, (row < 101)%nat /\ (col < 101)%nat /\
      grid_values facos fsin ftan fatan 101 row col (wavelength_f64 i) example_D example_eta g h /\ h + 0.38 <= g.
Proof.
  intros Lm. exists (filter bad_wavelength (seq 0 1371)). split; [apply NoDup_filter, seq_NoDup|]. split; [exact bad_count|].
  intros i J. destruct (proj1 (filter_In bad_wavelength i (seq 0 1371)) J) as [I B]. clear J. apply in_seq in I. split; [lia|].
  unfold bad_wavelength in B. rewrite andb_true_iff, existsb_exists in B. destruct B as [IB ([row col] & In' & Lo)]. cbn [fst snd] in Lo.
  destruct (lost_example _ _ _ _ _ _ _ _ Lm IB Lo) as (g & h & C & H). exists row, col, g, h.
  assert (Q : (row < 101)%nat /\ (col < 101)%nat) by (repeat (destruct In' as [In'|In']; [inversion In'; lia|]); destruct In').
  split; [tauto|]. split; [tauto|]. split; assumption.
Qed.
