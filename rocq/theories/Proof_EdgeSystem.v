(** * Proof_EdgeSystem: sampling error of the edge response of a whole camera *)
From Coq Require Import Reals Lra Lia List Psatz.
From Coquelicot Require Import Coquelicot.
From Verif Require Import Base_XR Base_Int Base_Np Model_Geo Model_Scenario Model_Sensor Model_Rad Model_Otf Model_Met
  Spec_Geo Spec_Rad Spec_Otf Spec_Chain Spec_Met Spec_Quality Spec_Trade Spec_Whole Spec_Rating Spec_EdgeError Spec_EdgeSystem
  Proof_RadP Proof_Niirs Proof_Weight Proof_Otf Proof_Lens Proof_Aper Proof_SystemX Proof_AperP Proof_Dull Proof_Turn Proof_Edge Proof_Nonfinite Proof_EdgeError Proof_NiirsDemo Proof_StackDemo Proof_Rating.
Import ListNotations.
Open Scope R_scope.

(** ** discs moved by d and d' *)
Lemma hc_le r x : 0 <= r -> half_chord r x <= r.
Proof.
  intros H. apply Rle_trans with (sqrt (r * r)); [|rewrite sqrt_square by exact H; lra].
  unfold half_chord. apply sqrt_le_1_alt. apply Rmax_lub; nra.
Qed.
Lemma hc_strip r a b : 0 <= r -> a <= b -> 0 <= RInt (half_chord r) a b <= r * (b - a).
Proof.
  intros Hr L. split; [apply ri_nonneg; [exact L | apply hc_cont | intros; apply hc_nonneg]|].
  rewrite <- ri_const. apply ri_le; [exact L | apply hc_cont | apply cont_const | intros; now apply hc_le].
Qed.
Lemma moved r d d' p q : 0 <= r -> RInt (fun x => half_chord r (x - d) - half_chord r (x - d')) p q <= r * Rabs (d - d').
Proof.
  intros Hr. rewrite ri_minus by apply hc_cont_shift. rewrite !ri_shift by apply hc_cont.
  set (h := half_chord r). assert (C : cont h) by apply hc_cont.
  assert (E : forall a b, RInt h a b = RInt h 0 b - RInt h 0 a).
  { intros a b. generalize (ri_chasles h 0 a b C). lra. }
  destruct (Rle_dec d d') as [L|L].
  - rewrite Rabs_left1 by lra. destruct (hc_strip r (q - d') (q - d) Hr ltac:(lra)) as (_ & A). destruct (hc_strip r (p - d') (p - d) Hr ltac:(lra)) as (B & _).
    fold h in A, B. rewrite (E (q - d')) in A. rewrite (E (p - d')) in B. rewrite (E (p - d)), (E (p - d')). lra.
  - rewrite Rabs_pos_eq by lra. destruct (hc_strip r (p - d) (p - d') Hr ltac:(lra)) as (_ & A). destruct (hc_strip r (q - d) (q - d') Hr ltac:(lra)) as (B & _).
    fold h in A, B. rewrite (E (p - d)) in A. rewrite (E (q - d)) in B. rewrite (E (p - d)), (E (p - d')). lra.
Qed.
Definition gain r d d' x := Rmax 0 (half_chord r (x - d) - half_chord r (x - d')).
Lemma gain_cont r d d' : cont (gain r d d').
Proof.
  apply (cont_max (fun _ => 0) (fun x => half_chord r (x - d) - half_chord r (x - d'))); [apply cont_const|].
  apply (cont_minus (fun x => half_chord r (x - d)) (fun x => half_chord r (x - d'))); apply hc_cont_shift.
Qed.
Lemma gain_int r d d' : 0 <= r -> RInt (gain r d d') (-1) 1 <= r * Rabs (d - d').
Proof.
  intros Hr. set (c := Rmax (-1) (Rmin 1 ((d + d') / 2))).
  assert (Hc : -1 <= c <= 1). { unfold c. split; [apply Rmax_l|]. apply Rmax_lub; [lra | apply Rmin_l]. }
  assert (Hl : forall x, -1 < x < c -> x < (d + d') / 2).
  { intros x Hx. unfold c, Rmax, Rmin in Hx. repeat destruct (Rle_dec _ _); lra. }
  assert (Hh : forall x, c < x < 1 -> (d + d') / 2 < x).
  { intros x Hx. unfold c, Rmax, Rmin in Hx. repeat destruct (Rle_dec _ _); lra. }
  rewrite <- (ri_chasles _ (-1) c 1 (gain_cont r d d')).
  assert (D1 : forall x, (d - d') * (x - (d + d') / 2) <= 0 -> gain r d d' x = 0).
  { intros x H. unfold gain. apply Rmax_left. assert (half_chord r (x - d) <= half_chord r (x - d')) by (apply hc_mono; nra). lra. }
  assert (D2 : forall x, 0 <= (d - d') * (x - (d + d') / 2) -> gain r d d' x = half_chord r (x - d) - half_chord r (x - d')).
  { intros x H. unfold gain. apply Rmax_right. assert (half_chord r (x - d') <= half_chord r (x - d)) by (apply hc_mono; nra). lra. }
  destruct (Rle_dec d d') as [L|L].
  - rewrite (ri_zero _ c 1); [|lra|]. 2: { intros x Hx. apply D1. specialize (Hh x Hx). nra. }
    rewrite Rplus_0_r. rewrite (ri_ext_le _ (fun x => half_chord r (x - d) - half_chord r (x - d')) (-1) c); [now apply moved | lra |].
    intros x Hx. apply D2. specialize (Hl x Hx). nra.
  - rewrite (ri_zero _ (-1) c); [|lra|]. 2: { intros x Hx. apply D1. specialize (Hl x Hx). nra. }
    rewrite Rplus_0_l. rewrite (ri_ext_le _ (fun x => half_chord r (x - d) - half_chord r (x - d')) c 1); [now apply moved | lra |].
    intros x Hx. apply D2. specialize (Hh x Hx). nra.
Qed.
Lemma disc_moved d d' : Rabs (disc_overlap 1 1 d - disc_overlap 1 1 d') <= 2 * Rabs (d - d').
Proof.
  assert (K : forall d d', disc_overlap 1 1 d - disc_overlap 1 1 d' <= 2 * Rabs (d - d')).
  { clear. intros d d'. unfold disc_overlap.
    assert (C : forall d, cont (fun x => 2 * Rmin (half_chord 1 x) (half_chord 1 (x - d)))).
    { intros e. apply (cont_mult (fun _ => 2)); [apply cont_const|]. apply (cont_min (half_chord 1) (fun x => half_chord 1 (x - e))); [apply hc_cont | apply hc_cont_shift]. }
    replace (- (1)) with (-1) by lra. rewrite <- ri_minus by apply C. assert (G := gain_int 1 d d' ltac:(lra)).
    apply Rle_trans with (RInt (fun x => 2 * gain 1 d d' x) (-1) 1).
    - apply ri_le; [lra | apply (cont_minus _ _ (C d) (C d')) | apply (cont_mult (fun _ => 2)); [apply cont_const | apply gain_cont] |].
      intros x _. unfold gain, Rmin, Rmax. repeat destruct (Rle_dec _ _); lra.
    - rewrite ri_scal by apply gain_cont. lra. }
  apply Rabs_le. assert (A := K d d'). assert (B := K d' d). rewrite (Rabs_minus_sym d') in B. lra.
Qed.
Lemma annulus_moved eta d d' : 0 <= eta -> Rabs (annulus_overlap eta d - annulus_overlap eta d') <= 2 * (1 + eta) * Rabs (d - d').
Proof.
  intros He.
  assert (K : forall d d', annulus_overlap eta d - annulus_overlap eta d' <= 2 * (1 + eta) * Rabs (d - d')).
  { clear d d'. intros d d'. unfold annulus_overlap.
    assert (C : forall d, cont (fun x => 2 * Rmax 0 (Rmin (half_chord 1 x) (half_chord 1 (x - d)) - Rmax (half_chord eta x) (half_chord eta (x - d))))).
    { intros e. apply (cont_mult (fun _ => 2)); [apply cont_const|].
      apply (cont_max (fun _ => 0) (fun x => Rmin (half_chord 1 x) (half_chord 1 (x - e)) - Rmax (half_chord eta x) (half_chord eta (x - e)))); [apply cont_const|].
      apply (cont_minus (fun x => Rmin (half_chord 1 x) (half_chord 1 (x - e))) (fun x => Rmax (half_chord eta x) (half_chord eta (x - e)))).
      - apply (cont_min (half_chord 1) (fun x => half_chord 1 (x - e))); [apply hc_cont | apply hc_cont_shift].
      - apply (cont_max (half_chord eta) (fun x => half_chord eta (x - e))); [apply hc_cont | apply hc_cont_shift]. }
    rewrite <- ri_minus by apply C. assert (G := gain_int 1 d d' ltac:(lra)). assert (G' := gain_int eta d' d He). rewrite (Rabs_minus_sym d') in G'.
    apply Rle_trans with (RInt (fun x => 2 * (gain 1 d d' x + gain eta d' d x)) (-1) 1).
    - apply ri_le; [lra | apply (cont_minus _ _ (C d) (C d')) | |].
      + apply (cont_mult (fun _ => 2)); [apply cont_const|]. apply (cont_plus (gain 1 d d') (gain eta d' d)); apply gain_cont.
      + intros x _. unfold gain, Rmin, Rmax. repeat destruct (Rle_dec _ _); lra.
    - rewrite ri_scal by (apply (cont_plus (gain 1 d d') (gain eta d' d)); apply gain_cont). rewrite ri_plus by apply gain_cont. lra. }
  apply Rabs_le. assert (A := K d d'). assert (B := K d' d). rewrite (Rabs_minus_sym d') in B. lra.
Qed.

(** ** transfer functions of bounded slope *)
Definition good (m : R -> R) (W L : R) : Prop := gentle m W L /\ forall w, 0 <= w <= W -> Rabs (m w) <= 1.
Lemma good_ext m m' W L : (forall w, 0 <= w <= W -> m' w = m w) -> good m W L -> good m' W L.
Proof. intros E (G & B). split; [intros a b Ha Hb; rewrite !E by auto; auto | intros w Hw; rewrite E; auto]. Qed.
Lemma good_mult m m' W L L' : 0 < W -> good m W L -> good m' W L' -> good (fun w => m w * m' w) W (L + L').
Proof.
  intros HW (G & B) (G' & B'). split.
  - intros a b Ha Hb. replace (m a * m' a - m b * m' b) with ((m a - m b) * m' a + m b * (m' a - m' b)) by ring.
    eapply Rle_trans; [apply Rabs_triang|]. rewrite !Rabs_mult. specialize (G a b Ha Hb). specialize (G' a b Ha Hb). specialize (B b Hb). specialize (B' a Ha).
    assert (P1 := Rabs_pos (m a - m b)). assert (P2 := Rabs_pos (m' a - m' b)).
    replace ((L + L') / W * Rabs (a - b)) with (L / W * Rabs (a - b) + L' / W * Rabs (a - b)) by (field; lra). nra.
  - intros w Hw. apply abs_mul_le_1; auto.
Qed.
Lemma good_abs m W L : good m W L -> good (fun w => Rabs (m w)) W L.
Proof.
  intros (G & B). split.
  - intros a b Ha Hb. eapply Rle_trans; [|exact (G a b Ha Hb)]. apply Rabs_triang_inv2.
  - intros w Hw. rewrite Rabs_Rabsolu. auto.
Qed.
Lemma good_more m W L L' : 0 < W -> L <= L' -> good m W L -> good m W L'.
Proof.
  intros HW H (G & B). split; [|exact B]. intros a b Ha Hb. eapply Rle_trans; [exact (G a b Ha Hb)|].
  apply Rmult_le_compat_r; [apply Rabs_pos|]. apply Rmult_le_compat_r; [left; now apply Rinv_0_lt_compat | exact H].
Qed.

Lemma good_line a W : 0 < W -> good (line_ft a) W (PI * Rabs a * W / 2).
Proof.
  intros HW. assert (P := PI_RGT_0). destruct (Req_EM_T a 0) as [->|N].
  - apply (good_ext (fun _ => 1)).
    + intros w _. unfold line_ft. destruct (Req_EM_T 0 0); [reflexivity | lra].
    + split; [|intros w _; rewrite Rabs_pos_eq; lra]. intros x y _ _. replace (1 - 1) with 0 by ring. rewrite Rabs_R0. unfold Rdiv. lra.
  - assert (E : forall w, line_ft a w = wave (a / 2) w / (PI * a)).
    { intros w. rewrite line_sinc. unfold Rsinc, wave. destruct (Req_EM_T w 0) as [->|M].
      - rewrite Rmult_0_r. replace (Reqb 0 0) with true by (symmetry; now apply Reqb_true). field. split; lra.
      - replace (Reqb (a * w) 0) with false. 2: { symmetry. apply Reqb_false. intros H. apply Rmult_integral in H. lra. }
        replace (2 * PI * (a / 2) * w) with (PI * (a * w)) by field. field. repeat split; lra. }
    assert (Q : 0 < Rabs (PI * a)) by (apply Rabs_pos_lt; apply Rmult_integral_contrapositive; split; lra).
    split.
    + intros x y _ _. rewrite !E. replace (wave (a / 2) x / (PI * a) - wave (a / 2) y / (PI * a)) with ((wave (a / 2) x - wave (a / 2) y) / (PI * a)) by (field; lra).
      unfold Rdiv at 1. rewrite Rabs_mult, Rabs_inv. apply (Rmult_le_reg_r (Rabs (PI * a))); [exact Q|].
      rewrite Rmult_assoc, Rinv_l, Rmult_1_r by lra. eapply Rle_trans; [apply wave_lip|].
      replace (2 * PI * (a / 2)) with (PI * a) by field. rewrite <- (pow2_abs (PI * a)). rewrite (Rabs_mult PI a), (Rabs_pos_eq PI) by lra.
      right. field. lra.
    + intros w _. rewrite E. unfold Rdiv. rewrite Rabs_mult, Rabs_inv. apply (Rmult_le_reg_r (Rabs (PI * a))); [exact Q|].
      rewrite Rmult_assoc, Rinv_l, Rmult_1_r by lra. eapply Rle_trans; [apply wave_bound|]. replace (2 * PI * (a * / 2)) with (PI * a) by field. lra.
Qed.

Lemma exp_le_1 a : a <= 0 -> exp a <= 1.
Proof. intros H. rewrite <- exp_0. destruct (Req_dec a 0) as [->|]; [lra | left; apply exp_increasing; lra]. Qed.
Lemma exp_lip a b : a <= 0 -> b <= 0 -> Rabs (exp a - exp b) <= Rabs (a - b).
Proof.
  assert (K : forall a b, a <= b -> b <= 0 -> exp b - exp a <= b - a).
  { clear. intros a b L H. assert (E : exp a = exp b * exp (a - b)) by (rewrite <- exp_plus; f_equal; ring).
    assert (P := exp_pos b). assert (Q := exp_ineq1_le (a - b)). assert (exp b <= 1) by (rewrite <- exp_0; destruct (Req_dec b 0) as [->|]; [lra | left; apply exp_increasing; lra]).
    assert (exp (a - b) <= 1) by (rewrite <- exp_0; destruct (Req_dec (a - b) 0) as [->|]; [lra | left; apply exp_increasing; lra]).
    rewrite E. nra. }
  assert (M : forall a b, a <= b -> exp a <= exp b). { clear. intros a b H. destruct (Req_dec a b) as [->|]; [lra | left; apply exp_increasing; lra]. }
  intros Ha Hb. destruct (Rle_dec a b) as [L|L].
  - rewrite (Rabs_minus_sym (exp a)), (Rabs_minus_sym a). rewrite !Rabs_pos_eq; [now apply K | lra | specialize (M a b L); lra].
  - rewrite !Rabs_pos_eq; [apply K; lra | lra | specialize (M b a ltac:(lra)); lra].
Qed.
Lemma bell_lip x y : Rabs (exp (- x ^ 2) - exp (- y ^ 2)) <= Rabs (x - y).
Proof.
  destruct (MVT_gen (fun t => exp (- t ^ 2)) y x (fun t => - (2 * t) * exp (- t ^ 2))) as (c & _ & E).
  - intros t _. auto_derive; auto. cbn [Init.Nat.pred]. rewrite ?pow_1. ring_simplify. cbn [pow]. ring_simplify. try reflexivity.
  - intros t _. apply continuity_pt_filterlim. apply (ex_derive_continuous (fun t => exp (- t ^ 2))). auto_derive. auto.
  - rewrite E, Rabs_mult. rewrite <- (Rmult_1_l (Rabs (x - y))) at 2. apply Rmult_le_compat_r; [apply Rabs_pos|].
    rewrite Rabs_mult, Rabs_Ropp, (Rabs_pos_eq (exp _)) by (left; apply exp_pos). rewrite exp_Ropp.
    assert (Q := exp_ineq1_le (c ^ 2)). assert (P := exp_pos (c ^ 2)). apply (Rmult_le_reg_r (exp (c ^ 2))); [exact P|].
    rewrite Rmult_assoc, Rinv_l, Rmult_1_r, Rmult_1_l by lra. apply Rabs_le. assert (A1 := pow2_ge_0 (c - 1)). assert (A2 := pow2_ge_0 (c + 1)). cbn [pow] in *. split; lra.
Qed.
Lemma good_bell k W : 0 < W -> good (fun w => exp (- (k * w) ^ 2)) W (Rabs k * W).
Proof.
  intros HW. split.
  - intros a b _ _. eapply Rle_trans; [apply bell_lip|]. replace (k * a - k * b) with (k * (a - b)) by ring. rewrite Rabs_mult. right. field. lra.
  - intros w _. rewrite Rabs_pos_eq by (left; apply exp_pos). rewrite <- exp_0. assert (0 <= (k * w) ^ 2) by apply pow2_ge_0.
    destruct (Req_dec ((k * w) ^ 2) 0) as [->|]; [rewrite Ropp_0; lra | left; apply exp_increasing; lra].
Qed.
Lemma good_jitter s t W : 0 < W -> good (fun w => jitter_mtf_of s t w 0) W (sqrt 2 * PI * Rabs s * W).
Proof.
  intros HW. assert (P := PI_RGT_0). assert (S := sqrt_pos 2). apply (good_ext (fun w => exp (- (sqrt 2 * PI * s * w) ^ 2))).
  - intros w _. unfold jitter_mtf_of. f_equal. f_equal. replace ((sqrt 2 * PI * s * w) ^ 2) with (sqrt 2 * sqrt 2 * (PI * s * w) ^ 2) by ring. rewrite sqrt_sqrt by lra. ring.
  - replace (sqrt 2 * PI * Rabs s) with (Rabs (sqrt 2 * PI * s)); [now apply good_bell|]. rewrite !Rabs_mult, (Rabs_pos_eq (sqrt 2)), (Rabs_pos_eq PI) by lra. reflexivity.
Qed.
Lemma good_wavefront pv pl Lx Ly l W : 0 < W -> 0 <= pv -> 0 < l -> Lx <> 0 -> good (fun w => wavefront_mtf pv pl Lx Ly l w 0) W (pv * pl ^ 2 / (l * Rabs Lx) * W).
Proof.
  intros HW Hv Hl HL. assert (QL := Rabs_pos_lt Lx HL). set (K := pv * (pl / l) ^ 2). assert (HK : 0 <= K) by (apply Rmult_le_pos; [lra | apply pow2_ge_0]).
  destruct (good_bell (l / Lx) W HW) as (G & B).
  assert (E : forall w, wavefront_mtf pv pl Lx Ly l w 0 = exp (- (K * (1 - exp (- (l / Lx * w) ^ 2))))).
  { intros w. unfold wavefront_mtf. fold K. do 5 f_equal. unfold Rdiv. rewrite Rmult_0_r. ring. }
  assert (N : forall w, 0 <= w <= W -> - (K * (1 - exp (- (l / Lx * w) ^ 2))) <= 0).
  { intros w Hw. specialize (B w Hw). apply Rabs_le_inv in B. assert (0 <= K * (1 - exp (- (l / Lx * w) ^ 2))) by (apply Rmult_le_pos; lra). lra. }
  split.
  - intros a b Ha Hb. rewrite !E. eapply Rle_trans; [apply exp_lip; auto|].
    replace (- (K * (1 - exp (- (l / Lx * a) ^ 2))) - - (K * (1 - exp (- (l / Lx * b) ^ 2)))) with (K * (exp (- (l / Lx * a) ^ 2) - exp (- (l / Lx * b) ^ 2))) by ring.
    rewrite Rabs_mult, (Rabs_pos_eq K HK). apply Rle_trans with (K * (Rabs (l / Lx) * W / W * Rabs (a - b))); [apply Rmult_le_compat_l; [exact HK | exact (G a b Ha Hb)]|].
    right. unfold K, Rdiv. rewrite Rabs_mult, Rabs_inv, (Rabs_pos_eq l) by lra. field. lra.
  - intros w Hw. rewrite E, Rabs_pos_eq by (left; apply exp_pos). apply exp_le_1. auto.
Qed.
Lemma shift_axis w l D : 0 <= w -> pupil_shift w 0 l D = 2 * w * l / D.
Proof. intros H. unfold pupil_shift. replace (w * w + 0 * 0) with (w * w) by ring. rewrite sqrt_square by exact H. reflexivity. Qed.
Lemma good_aperture D eta l W : 0 < W -> 0 < D -> eta < 1 -> 0 < l -> good (fun w => aperture_mtf D eta l w 0) W (4 * l * W / D / (PI * (1 - Rmax 0 eta))).
Proof.
  intros HW HD He Hl. assert (P := PI_RGT_0). split.
  - intros a b Ha Hb. unfold aperture_mtf. rewrite !shift_axis by lra.
    assert (S : Rabs (2 * a * l / D - 2 * b * l / D) = 2 * l / D * Rabs (a - b)).
    { replace (2 * a * l / D - 2 * b * l / D) with (2 * l / D * (a - b)) by (field; lra). rewrite Rabs_mult, (Rabs_pos_eq (2 * l / D)); [reflexivity|].
      left. apply Rdiv_lt_0_compat; lra. }
    destruct (Rlt_dec 0 eta) as [H|H].
    + assert (M := annulus_moved eta (2 * a * l / D) (2 * b * l / D) ltac:(lra)). rewrite S in M. rewrite Rmax_right by lra.
      assert (Q : 0 < PI * (1 - eta * eta)) by (apply Rmult_lt_0_compat; nra).
      set (x := annulus_overlap eta (2 * a * l / D)) in *. set (y := annulus_overlap eta (2 * b * l / D)) in *.
      replace (x / (PI * (1 - eta * eta)) - y / (PI * (1 - eta * eta))) with ((x - y) * / (PI * (1 - eta * eta))) by (field; nra).
      rewrite Rabs_mult, (Rabs_pos_eq (/ _)) by (left; now apply Rinv_0_lt_compat).
      replace (4 * l * W / D / (PI * (1 - eta)) / W * Rabs (a - b)) with (2 * (1 + eta) * (2 * l / D * Rabs (a - b)) * / (PI * (1 - eta * eta))) by (field; repeat split; nra).
      apply Rmult_le_compat_r; [left; now apply Rinv_0_lt_compat | exact M].
    + assert (M := disc_moved (2 * a * l / D) (2 * b * l / D)). rewrite S in M. rewrite Rmax_left by lra.
      set (x := disc_overlap 1 1 (2 * a * l / D)) in *. set (y := disc_overlap 1 1 (2 * b * l / D)) in *. replace (x / PI - y / PI) with ((x - y) * / PI) by (field; lra).
      rewrite Rabs_mult, (Rabs_pos_eq (/ _)) by (left; now apply Rinv_0_lt_compat).
      replace (4 * l * W / D / (PI * (1 - 0)) / W * Rabs (a - b)) with (2 * (2 * l / D * Rabs (a - b)) * / PI) by (field; repeat split; lra).
      apply Rmult_le_compat_r; [left; now apply Rinv_0_lt_compat | exact M].
  - intros w _. destruct (aperture_01 D eta l w 0 Hl HD He). apply Rabs_le. lra.
Qed.
Lemma aperture_end D eta l W : 0 < l -> 0 < D -> eta < 1 -> 0 <= W -> D <= l * W -> aperture_mtf D eta l W 0 = 0.
Proof.
  intros Hl HD He HW H. assert (X : 2 <= pupil_shift W 0 l D).
  { rewrite shift_axis by lra. apply Rmult_le_reg_r with D; [lra|]. unfold Rdiv. rewrite (Rmult_assoc _ (/ D)), Rinv_l by lra. nra. }
  unfold aperture_mtf. destruct (Rlt_dec 0 eta).
  - rewrite annulus_far by lra. unfold Rdiv. ring.
  - rewrite overlap_disjoint by lra. unfold Rdiv. ring.
Qed.
Lemma weighted_close ps (F G : R -> R) e : (forall p, In p ps -> 0 <= snd p) -> (forall p, In p ps -> Rabs (F (fst p) - G (fst p)) <= e) ->
  Rabs (Rsum (map (fun p => snd p * F (fst p)) ps) - Rsum (map (fun p => snd p * G (fst p)) ps)) <= e * Rsum (map snd ps).
Proof.
  induction ps as [|p ps IH]; intros H K.
  - unfold Rsum; cbn. rewrite Rminus_0_r, Rabs_R0. lra.
  - cbn [map]. rewrite !Rsum_cons. specialize (IH (fun q Hq => H q (or_intror Hq)) (fun q Hq => K q (or_intror Hq))).
    specialize (H p (or_introl eq_refl)). specialize (K p (or_introl eq_refl)). apply Rabs_le_inv in IH. apply Rabs_le_inv in K. apply Rabs_le. nra.
Qed.
Lemma good_mean ps (F : R -> R -> R) W L : (forall p, In p ps -> 0 <= snd p) -> 0 < Rsum (map snd ps) -> (forall p, In p ps -> good (F (fst p)) W L) ->
  good (fun w => spectral_mean ps (fun l => F l w)) W L.
Proof.
  intros H S G. unfold spectral_mean. set (T := Rsum (map snd ps)) in *. assert (I : 0 < / T) by now apply Rinv_0_lt_compat. split.
  - intros a b Ha Hb. assert (K := weighted_close ps (fun l => F l a) (fun l => F l b) (L / W * Rabs (a - b)) H (fun p Hp => proj1 (G p Hp) a b Ha Hb)).
    fold T in K. cbv beta in K. set (x := Rsum (map (fun p => snd p * F (fst p) a) ps)) in *. set (y := Rsum (map (fun p => snd p * F (fst p) b) ps)) in *. replace (x / T - y / T) with ((x - y) * / T) by (field; lra).
    rewrite Rabs_mult, (Rabs_pos_eq (/ T)) by lra. apply (Rmult_le_reg_r T); [lra|]. rewrite Rmult_assoc, Rinv_l by lra. lra.
  - intros w Hw. assert (K := weighted_close ps (fun l => F l w) (fun _ => 0) 1 H).
    cbv beta in K. specialize (K (fun p Hp => Rle_trans _ _ _ (Req_le _ _ (f_equal Rabs (Rminus_0_r _))) (proj2 (G p Hp) w Hw))). fold T in K.
    replace (Rsum (map (fun p => snd p * 0) ps)) with 0 in K.
    2: { clear. induction ps; cbn [map]; [reflexivity|]. rewrite Rsum_cons, <- IHps. ring. }
    rewrite Rminus_0_r in K. unfold Rdiv. rewrite Rabs_mult, (Rabs_pos_eq (/ T)) by lra. apply (Rmult_le_reg_r T); [lra|]. rewrite Rmult_assoc, Rinv_l by lra. lra.
Qed.

(** ** turbulence *)
Lemma quintic s q : 0 <= s -> 1 / 6 <= q <= 1 -> 3.44 * s ^ 2 * (2 * q - 1 / 3) <= 1.8 * (1 + 3.44 * s ^ 5 * q).
Proof.
  intros Hs Hq. assert (T : 0 <= (s - 0.72) ^ 2 * (s ^ 3 + 2 * 0.72 * s ^ 2 + 3 * 0.72 ^ 2 * s + 1.5 * 0.72 ^ 3)).
  { apply Rmult_le_pos; [apply pow2_ge_0|]. assert (0 <= s ^ 2) by apply pow2_ge_0. assert (0 <= s ^ 3) by (apply pow_le; exact Hs). lra. }
  replace ((s - 0.72) ^ 2 * (s ^ 3 + 2 * 0.72 * s ^ 2 + 3 * 0.72 ^ 2 * s + 1.5 * 0.72 ^ 3))
    with (s ^ 5 - 2.5 * 0.72 ^ 3 * s ^ 2 + 1.5 * 0.72 ^ 5) in T by lra.
  set (x := s ^ 2) in *. set (y := s ^ 5) in *. assert (0 <= x) by apply pow2_ge_0. assert (0 <= y) by (apply pow_le; exact Hs).
  assert (A : 3.44 * x * (5 / 3) <= 1.8 * (1 + 3.44 * y)) by lra.
  assert (B : 0 <= 1.8 * (1 + 3.44 * y * (1 / 6))) by lra.
  (* both sides are linear in q *)
  set (g := 3.44) in *. set (h := 1.8) in *. clearbody x y g h.
  replace (g * x * (2 * q - 1 / 3)) with ((q - 1 / 6) * (6 / 5) * (g * x * (5 / 3))) by field.
  replace (h * (1 + g * y * q)) with ((q - 1 / 6) * (6 / 5) * (h * (1 + g * y)) + (1 - q) * (6 / 5) * (h * (1 + g * y * (1 / 6)))) by field.
  assert (0 <= (1 - q) * (6 / 5) * (h * (1 + g * y * (1 / 6)))) by (apply Rmult_le_pos; lra).
  assert ((q - 1 / 6) * (6 / 5) * (g * x * (5 / 3)) <= (q - 1 / 6) * (6 / 5) * (h * (1 + g * y))) by (apply Rmult_le_compat_l; lra). lra.
Qed.
Lemma power_n x a n : 0 < x -> Rpower x (INR n * a) = Rpower x a ^ n.
Proof. intros H. rewrite <- (Rpower_pow n (Rpower x a)) by apply exp_pos. rewrite Rpower_mult. f_equal. ring. Qed.
Lemma fried_derive r l D a w : 0 < r -> 0 < l -> 0 < D -> 0 < w ->
  is_derive (fun w => exp (- 3.44 * Rpower (l * w / r) (5 / 3) * (1 - a * Rpower (l * w / D) (1 / 3)))) w
    (- (3.44 * (l / r) * Rpower (l * w / r) (1 / 3) ^ 2 * (5 / 3 - 2 * a * Rpower (l * w / D) (1 / 3)))
     * exp (- 3.44 * Rpower (l * w / r) (5 / 3) * (1 - a * Rpower (l * w / D) (1 / 3)))).
Proof.
  intros Hr Hl HD Hw. replace (- 3.44) with (- (3.44)) by lra. set (g := 3.44). clearbody g. assert (X : 0 < l * w / r) by (apply Rdiv_lt_0_compat; [now apply Rmult_lt_0_compat | lra]).
  assert (Y : 0 < l * w / D) by (apply Rdiv_lt_0_compat; [now apply Rmult_lt_0_compat | lra]).
  unfold Rpower at 1 2. unfold Rpower at 3 4.
  auto_derive; [repeat split; auto; apply X || apply Y|].
  unfold Rdiv. change (exp (5 * / 3 * ln (l * w * / r))) with (Rpower (l * w / r) (5 / 3)). change (exp (1 * / 3 * ln (l * w * / D))) with (Rpower (l * w / D) (1 / 3)).
  change (5 * / 3) with (5 / 3). change (1 * / 3) with (1 / 3). change (l * w * / r) with (l * w / r). change (l * w * / D) with (l * w / D).
  replace (Rpower (l * w / r) (5 / 3)) with (Rpower (l * w / r) (1 / 3) ^ 2 * (l * w / r)).
  2: { rewrite <- (power_n _ (1 / 3) 2) by exact X. rewrite <- (Rpower_1 (l * w / r)) at 2 by exact X. rewrite <- Rpower_plus. f_equal. cbn. field. }
  set (P := Rpower (l * w / r) (1 / 3)). set (Q := Rpower (l * w / D) (1 / 3)).
  replace (1 + - (a * Q)) with (1 - a * Q) by ring. set (E := exp (- g * (P ^ 2 * (l * w / r)) * (1 - a * Q))).
  field. repeat split; lra.
Qed.
Lemma cube_le Y : 0 < Y -> Y <= 4 -> 0 < Rpower Y (1 / 3) <= 5 / 3.
Proof.
  intros H L. split; [apply exp_pos|]. destruct (Rle_dec (Rpower Y (1 / 3)) (5 / 3)) as [A|A]; [exact A|]. exfalso.
  assert (E : Rpower Y (1 / 3) ^ 3 = Y). { rewrite <- (power_n Y (1 / 3) 3) by exact H. replace (INR 3 * (1 / 3)) with 1 by (cbn; field). now apply Rpower_1. }
  assert (P := exp_pos (1 / 3 * ln Y)). fold (Rpower Y (1 / 3)) in P. set (x := Rpower Y (1 / 3)) in *.
  assert ((5 / 3) ^ 3 <= x ^ 3) by (apply pow_incr; lra). lra.
Qed.
Lemma fried_01 r l D a w : 0 < r -> 0 < l -> 0 < D -> 0 <= a <= 1 / 2 -> 0 <= w -> l * w <= 4 * D -> 0 < fried r l D a w <= 1.
Proof.
  intros Hr Hl HD Ha Hw HY. unfold fried. destruct (Rlt_dec 0 w) as [P|P]; [|lra]. split; [apply exp_pos|]. apply exp_le_1.
  assert (Y : 0 < l * w / D) by (apply Rdiv_lt_0_compat; [now apply Rmult_lt_0_compat | lra]).
  assert (Y4 : l * w / D <= 4) by (apply (Rmult_le_reg_r D); [lra|]; unfold Rdiv; rewrite Rmult_assoc, Rinv_l by lra; lra).
  destruct (cube_le _ Y Y4) as (C0 & C1). assert (X := exp_pos (5 / 3 * ln (l * w / r))). fold (Rpower (l * w / r) (5 / 3)) in X.
  set (x := Rpower (l * w / r) (5 / 3)) in *. set (y := Rpower (l * w / D) (1 / 3)) in *.
  assert (0 <= x * (1 - a * y)) by (apply Rmult_le_pos; nra). lra.
Qed.
Lemma fried_inside r l D a W x y : 0 < r -> 0 < l -> 0 < D -> 0 <= a <= 1 / 2 -> l * W <= 4 * D -> 0 < x <= W -> 0 < y <= W ->
  Rabs (fried r l D a x - fried r l D a y) <= 1.8 * (l / r) * Rabs (x - y).
Proof.
  intros Hr Hl HD Ha HY Hx Hy.
  assert (Pos : forall t, Rmin y x <= t <= Rmax y x -> 0 < t <= W) by (intros t; unfold Rmin, Rmax; destruct (Rle_dec y x); lra).
  set (f := fun w => exp (- 3.44 * Rpower (l * w / r) (5 / 3) * (1 - a * Rpower (l * w / D) (1 / 3)))).
  assert (Ef : forall w, 0 < w -> fried r l D a w = f w) by (intros w Hw; unfold fried, f; destruct (Rlt_dec 0 w); [reflexivity | lra]).
  rewrite !Ef by lra.
  destruct (MVT_gen f y x (fun w => - (3.44 * (l / r) * Rpower (l * w / r) (1 / 3) ^ 2 * (5 / 3 - 2 * a * Rpower (l * w / D) (1 / 3))) * f w)) as (c & Hc & E).
  - intros t Ht. apply fried_derive; auto. apply Pos. lra.
  - intros t Ht. apply continuity_pt_filterlim. apply (ex_derive_continuous f). eexists. apply fried_derive; auto. apply Pos. lra.
  - rewrite E, Rabs_mult. apply Rmult_le_compat_r; [apply Rabs_pos|]. specialize (Pos c Hc).
    assert (X : 0 < l * c / r) by (apply Rdiv_lt_0_compat; [apply Rmult_lt_0_compat; lra | lra]).
    assert (Y : 0 < l * c / D) by (apply Rdiv_lt_0_compat; [apply Rmult_lt_0_compat; lra | lra]).
    assert (Y4 : l * c / D <= 4) by (apply (Rmult_le_reg_r D); [lra|]; unfold Rdiv; rewrite Rmult_assoc, Rinv_l by lra; nra).
    destruct (cube_le _ Y Y4) as (C0 & C1). unfold f.
    replace (Rpower (l * c / r) (5 / 3)) with (Rpower (l * c / r) (1 / 3) ^ 5) by (rewrite <- (power_n _ (1 / 3) 5) by exact X; f_equal; cbn; field).
    assert (S := exp_pos (1 / 3 * ln (l * c / r))). fold (Rpower (l * c / r) (1 / 3)) in S.
    set (s := Rpower (l * c / r) (1 / 3)) in *. set (y' := Rpower (l * c / D) (1 / 3)) in *. set (q := 1 - a * y').
    assert (Hq : 1 / 6 <= q <= 1) by (unfold q; nra). assert (Q := quintic s q ltac:(lra) Hq).
    replace (5 / 3 - 2 * a * y') with (2 * q - 1 / 3) by (unfold q; field).
    assert (LR : 0 < l / r) by (apply Rdiv_lt_0_compat; lra).
    replace (- 3.44 * s ^ 5 * q) with (- (3.44 * s ^ 5 * q)) by lra. set (z := 3.44 * s ^ 5 * q) in *.
    assert (Ez := exp_ineq1_le z). assert (Pz := exp_pos z). rewrite exp_Ropp.
    assert (S2 : 0 <= 3.44 * s ^ 2 * (2 * q - 1 / 3)) by (apply Rmult_le_pos; [assert (0 <= s ^ 2) by apply pow2_ge_0; lra | lra]).
    replace (- (3.44 * (l / r) * s ^ 2 * (2 * q - 1 / 3)) * / exp z) with (- (l / r * (3.44 * s ^ 2 * (2 * q - 1 / 3)) * / exp z)) by (set (g := 3.44); ring).
    rewrite Rabs_Ropp, Rabs_pos_eq.
    2: { apply Rmult_le_pos; [apply Rmult_le_pos; lra | left; now apply Rinv_0_lt_compat]. }
    apply (Rmult_le_reg_r (exp z)); [exact Pz|]. rewrite Rmult_assoc, Rinv_l, Rmult_1_r by lra.
    replace (1.8 * (l / r) * exp z) with (l / r * (1.8 * exp z)) by (set (h := 1.8); ring). apply Rmult_le_compat_l; lra.
Qed.
Lemma fried_start r l D a w : 0 < r -> 0 < l -> 0 < D -> 0 <= a <= 1 / 2 -> 0 < w -> l * w <= 4 * D -> l * w <= r ->
  Rabs (fried r l D a w - 1) <= 3.44 * (l / r) * w.
Proof.
  intros Hr Hl HD Ha Hw HY HX. unfold fried. destruct (Rlt_dec 0 w) as [_|N]; [|lra].
  assert (X : 0 < l * w / r) by (apply Rdiv_lt_0_compat; [now apply Rmult_lt_0_compat | lra]).
  assert (X1 : l * w / r <= 1) by (apply (Rmult_le_reg_r r); [lra|]; unfold Rdiv; rewrite Rmult_assoc, Rinv_l by lra; lra).
  assert (Y : 0 < l * w / D) by (apply Rdiv_lt_0_compat; [now apply Rmult_lt_0_compat | lra]).
  assert (Y4 : l * w / D <= 4) by (apply (Rmult_le_reg_r D); [lra|]; unfold Rdiv; rewrite Rmult_assoc, Rinv_l by lra; lra).
  destruct (cube_le _ Y Y4) as (C0 & C1).
  assert (S : Rpower (l * w / r) (5 / 3) <= l * w / r).
  { replace (5 / 3) with (1 + 2 / 3) by field. rewrite Rpower_plus, Rpower_1 by exact X. rewrite <- (Rmult_1_r (l * w / r)) at 3.
    apply Rmult_le_compat_l; [lra|]. unfold Rpower. apply exp_le_1. assert (ln (l * w / r) <= 0); [|lra].
    rewrite <- ln_1. destruct (Req_dec (l * w / r) 1) as [->|]; [lra | left; apply ln_increasing; lra]. }
  assert (S0 := exp_pos (5 / 3 * ln (l * w / r))). fold (Rpower (l * w / r) (5 / 3)) in S0.
  set (x := Rpower (l * w / r) (5 / 3)) in *. set (y := Rpower (l * w / D) (1 / 3)) in *.
  assert (0 <= x * (1 - a * y) <= x) by (assert (0 <= 1 - a * y <= 1) by nra; nra).
  assert (B := exp_lip (- 3.44 * x * (1 - a * y)) 0 ltac:(lra) ltac:(lra)). rewrite exp_0, Rminus_0_r in B. eapply Rle_trans; [exact B|]. apply Rabs_le. replace (3.44 * (l / r) * w) with (3.44 * (l * w / r)) by (set (g := 3.44); field; lra). lra.
Qed.
Lemma good_fried r l D a W : 0 < r -> 0 < l -> 0 < D -> 0 <= a <= 1 / 2 -> 0 < W -> l * W <= 4 * D -> good (fried r l D a) W (1.8 * (l / r) * W).
Proof.
  intros Hr Hl HD Ha HW HY. assert (LR : 0 < l / r) by (apply Rdiv_lt_0_compat; lra).
  assert (Z : forall x, 0 < x <= W -> Rabs (fried r l D a x - fried r l D a 0) <= 1.8 * (l / r) * x).
  { intros x Hx. replace (fried r l D a 0) with 1 by (unfold fried; destruct (Rlt_dec 0 0); lra).
    apply le_epsilon. intros e He. set (t := Rmin x (Rmin (r / l) (e / (3.44 * (l / r))))).
    assert (Ht : 0 < t). { unfold t. repeat apply Rmin_glb_lt; [lra | apply Rdiv_lt_0_compat; lra | apply Rdiv_lt_0_compat; lra]. }
    assert (T1 : t <= x) by apply Rmin_l. assert (T2 : t <= r / l) by (eapply Rle_trans; [apply Rmin_r | apply Rmin_l]).
    assert (T3 : t <= e / (3.44 * (l / r))) by (eapply Rle_trans; [apply Rmin_r | apply Rmin_r]).
    assert (A := fried_inside r l D a W x t Hr Hl HD Ha HY Hx ltac:(lra)).
    assert (T2' : l * t <= r). { apply (Rmult_le_compat_l l) in T2; [|lra]. replace (l * (r / l)) with r in T2 by (field; lra). exact T2. }
    assert (B := fried_start r l D a t Hr Hl HD Ha Ht ltac:(nra) T2').
    assert (C : 3.44 * (l / r) * t <= e). { apply (Rmult_le_compat_l (3.44 * (l / r))) in T3; [|lra]. replace (3.44 * (l / r) * (e / (3.44 * (l / r)))) with e in T3; [exact T3|]. set (g := 3.44 * (l / r)) in *. assert (0 < g) by (unfold g; lra). clearbody g. field. lra. }
    rewrite (Rabs_pos_eq (x - t)) in A by lra. replace (fried r l D a x - 1) with ((fried r l D a x - fried r l D a t) + (fried r l D a t - 1)) by ring.
    eapply Rle_trans; [apply Rabs_triang|]. assert (0 <= 1.8 * (l / r) * t) by (apply Rmult_le_pos; lra). lra. }
  split.
  - intros x y Hx Hy. replace (1.8 * (l / r) * W / W) with (1.8 * (l / r)) by (set (g := 1.8); field; lra).
    destruct (Req_dec x 0) as [->|Nx], (Req_dec y 0) as [->|Ny].
    + replace (fried r l D a 0 - fried r l D a 0) with 0 by ring. rewrite Rminus_0_r, Rabs_R0. lra.
    + rewrite Rabs_minus_sym, (Rabs_minus_sym 0), Rminus_0_r, (Rabs_pos_eq y) by lra. apply Z; lra.
    + rewrite Rminus_0_r, (Rabs_pos_eq x) by lra. apply Z; lra.
    + apply (fried_inside r l D a W); auto; lra.
  - intros w Hw. destruct (fried_01 r l D a w Hr Hl HD Ha ltac:(lra) ltac:(nra)). apply Rabs_le. lra.
Qed.
Lemma good_mix e m m' W L : 0 <= e <= 1 -> 0 < W -> good m W L -> good m' W L -> good (fun w => e * m w + (1 - e) * m' w) W L.
Proof.
  intros He HW (G & B) (G' & B'). split.
  - intros a b Ha Hb. specialize (G a b Ha Hb). specialize (G' a b Ha Hb). apply Rabs_le_inv in G, G'. apply Rabs_le. set (K := L / W * Rabs (a - b)) in *. clearbody K. nra.
  - intros w Hw. specialize (B w Hw). specialize (B' w Hw). apply Rabs_le_inv in B, B'. apply Rabs_le. nra.
Qed.
Lemma good_turbulence r l D drift W : 0 < r -> 0 < l -> 0 < D -> 0 <= drift -> 0 < W -> l * W <= 4 * D ->
  good (fun w => turbulence_mtf r l D drift w 0) W (1.8 * (l / r) * W).
Proof.
  intros Hr Hl HD Hd HW HY. apply (good_ext (fun w => exp (- (drift / r)) * fried r l D (1 / 2) w + (1 - exp (- (drift / r))) * fried r l D 0 w)).
  - intros w Hw. unfold turbulence_mtf. replace (w * w + 0 * 0) with (w * w) by ring. rewrite sqrt_square by lra. reflexivity.
  - apply good_mix; [|exact HW | apply good_fried; lra | apply good_fried; lra].
    assert (0 <= drift / r) by (apply quot_pos; lra). split; [left; apply exp_pos | apply exp_le_1; lra].
Qed.
Lemma r_at_ratio r1 l l' : 0 < r1 -> 0 < l -> l <= l' -> l' / r_at r1 l' <= l / r_at r1 l.
Proof.
  intros Hr Hl L. unfold r_at.
  assert (E : forall x, 0 < x -> Rpower (10 ^ 6 * x) (6 / 5) = 10 ^ 6 * x * Rpower (10 ^ 6 * x) (1 / 5)).
  { intros x Hx. replace (6 / 5) with (1 + 1 / 5) by field. rewrite Rpower_plus, Rpower_1 by lra. reflexivity. }
  rewrite !E by lra. set (p := Rpower (10 ^ 6 * l) (1 / 5)). set (p' := Rpower (10 ^ 6 * l') (1 / 5)).
  assert (P : 0 < p) by apply exp_pos. assert (P' : p <= p') by (apply Rle_Rpower_l; lra).
  replace (l' / (r1 * (10 ^ 6 * l' * p'))) with (/ (r1 * 10 ^ 6) * / p') by (field; repeat split; lra).
  replace (l / (r1 * (10 ^ 6 * l * p))) with (/ (r1 * 10 ^ 6) * / p) by (field; repeat split; lra).
  apply Rmult_le_compat_l; [left; apply Rinv_0_lt_compat; lra|]. apply Rinv_le_contravar; lra.
Qed.

(** ** the product *)
Lemma line_0 a : line_ft a 0 = 1.
Proof. rewrite line_sinc, Rmult_0_r. apply Rsinc_0. Qed.
Lemma mean_eq ps (F G : R -> R) : (forall l, F l = G l) -> spectral_mean ps F = spectral_mean ps G.
Proof. intros E. unfold spectral_mean. f_equal. f_equal. apply map_ext. intros p. now rewrite E. Qed.
Lemma axis_good ps D eta lmin lmax det jit jit' drift pv pl Lx Ly : (forall p, In p ps -> 0 <= snd p) -> 0 < Rsum (map snd ps) ->
  (forall p, In p ps -> lmin <= fst p <= lmax) -> 0 < lmin -> 0 < D -> eta < 1 -> 0 <= pv -> Lx <> 0 ->
  let m w := spectral_mean ps (fun l => aperture_mtf D eta l w 0) * line_ft det w * jitter_mtf_of jit jit' w 0 * line_ft drift w
             * spectral_mean ps (fun l => wavefront_mtf pv pl Lx Ly l w 0) in
  good m (D / lmin) (roughness (D / lmin) eta lmin lmax det jit drift pv pl Lx) /\ m (D / lmin) = 0.
Proof.
  intros Hp Hs Hl H0 HD He Hv HL m. assert (HW : 0 < D / lmin) by (apply Rdiv_lt_0_compat; lra). assert (P := PI_RGT_0). assert (QL := Rabs_pos_lt Lx HL).
  assert (Q : 0 < PI * (1 - Rmax 0 eta)) by (apply Rmult_lt_0_compat; [lra|]; unfold Rmax; destruct (Rle_dec 0 eta); lra).
  split.
  - unfold m, roughness. repeat apply good_mult; try exact HW.
    + apply (good_mean ps (fun l w => aperture_mtf D eta l w 0)); auto. intros p Hi. specialize (Hl p Hi).
      refine (good_more _ _ _ _ HW _ (good_aperture D eta (fst p) (D / lmin) HW HD He ltac:(lra))).
      apply Rmult_le_compat_r; [left; now apply Rinv_0_lt_compat|]. replace (4 * fst p * (D / lmin) / D) with (4 * (fst p / lmin)) by (field; lra).
      apply Rmult_le_compat_l; [lra|]. apply Rmult_le_compat_r; [left; now apply Rinv_0_lt_compat | lra].
    + now apply good_line.
    + now apply good_jitter.
    + now apply good_line.
    + apply (good_mean ps (fun l w => wavefront_mtf pv pl Lx Ly l w 0)); auto. intros p Hi. specialize (Hl p Hi).
      refine (good_more _ _ _ _ HW _ (good_wavefront pv pl Lx Ly (fst p) (D / lmin) HW Hv ltac:(lra) HL)).
      apply Rmult_le_compat_r; [lra|]. apply Rmult_le_compat_l; [apply Rmult_le_pos; [lra | apply pow2_ge_0]|].
      apply Rinv_le_contravar; [now apply Rmult_lt_0_compat|]. apply Rmult_le_compat_r; lra.
  - unfold m. replace (spectral_mean ps (fun l => aperture_mtf D eta l (D / lmin) 0)) with 0; [ring|].
    unfold spectral_mean. assert (Z : forall qs, incl qs ps -> Rsum (map (fun p => snd p * aperture_mtf D eta (fst p) (D / lmin) 0) qs) = 0).
    { induction qs as [|p qs IH]; intros I; [reflexivity|]. cbn [map]. rewrite Rsum_cons, IH by (intros x Hx; apply I; now right).
      specialize (Hl p (I p (or_introl eq_refl))). rewrite aperture_end; try lra. replace D with (lmin * (D / lmin)) at 1 by (field; lra). apply Rmult_le_compat_r; lra. }
    rewrite Z by apply incl_refl. unfold Rdiv. ring.
Qed.
Lemma good_ps s tr q em rows all lmin : good_atmosphere s em all -> seen_rows s all rows -> let ps := charge_spectrum s tr q (giqe_target em) rows in
  In lmin (map fst ps) -> 0 < lmin /\ (forall p, In p ps -> 0 <= snd p) /\ 0 < Rsum (map snd ps).
Proof.
  intros (SR & _) (V & _) ps I.
  assert (A : forall p, In p ps -> 0 < fst p /\ 0 < snd p).
  { intros p Hp. unfold ps, charge_spectrum in Hp. apply filter_In in Hp. destruct Hp as (Hp & Q). apply in_map_iff in Hp. destruct Hp as (a & <- & Ha). cbn [fst snd] in *.
    split; [apply SR, V, Ha|]. destruct (Rlt_dec 0 _); [auto | discriminate]. }
  apply in_map_iff in I. destruct I as (p & <- & Hp). split; [apply A, Hp|]. split; [intros x Hx; left; apply A, Hx|].
  clearbody ps. destruct ps as [|x ps]; [destruct Hp|]. cbn [map]. rewrite Rsum_cons.
  assert (0 <= Rsum (map snd ps)).
  { clear Hp. induction ps as [|y ps IH]; [cbn; lra|]. cbn [map]. rewrite Rsum_cons. assert (0 < snd y) by (apply A; right; now left).
    assert (0 <= Rsum (map snd ps)) by (apply IH; intros z [->|Hz]; apply A; [now left | right; now right]). lra. }
  assert (0 < snd x) by (apply A; now left). lra.
Qed.
Lemma slope_near m W L ifov : 0 < W -> 0 <= L -> good m W L -> m W = 0 ->
  exists e e', blurred_edge (fun w => Rabs (m w)) W (ifov * (1 / 2)) e /\ blurred_edge (fun w => Rabs (m w)) W (ifov * - (1 / 2)) e' /\
    Rabs (slope (map (fun i => Rabs (m (INR i * (W / 50)))) (seq 0 50)) (W / 50) ifov - (e - e')) <= 2 * edge_error (PI * Rabs ifov * W) L W 50.
Proof.
  intros HW HL G Z. destruct (good_abs _ _ _ G) as (G1 & G2). assert (N : INR 50 = 50) by (rewrite INR_IZR_INZ; reflexivity).
  destruct (relative_near (fun w => Rabs (m w)) W L 50 ifov HW HL ltac:(lia) G1) as (r & e & e' & E & A & B & C).
  { split; [exact G2|]. rewrite Z. apply Rabs_R0. }
  rewrite rer_value in E by (rewrite N; lra). rewrite N in E.
  assert (E' : 2 * edge_at (samples (fun w => Rabs (m w)) W 50) (W / 50) ifov (1 / 2) - 1 = r) by congruence.
  exists e, e'. split; [exact A|]. split; [exact B|]. replace (slope _ _ _) with r; [exact C|].
  rewrite <- E'. unfold slope. do 3 f_equal. unfold samples. apply map_ext. intros i. rewrite N. do 2 f_equal. ring.
Qed.
Lemma roughness_pos W eta lmin lmax det jit drift pv pl Lc : 0 < W -> eta < 1 -> 0 < lmin -> lmin <= lmax -> 0 <= pv -> Lc <> 0 ->
  0 <= roughness W eta lmin lmax det jit drift pv pl Lc.
Proof.
  intros HW He H0 H1 Hv HL. assert (P := PI_RGT_0). assert (QL := Rabs_pos_lt Lc HL). unfold roughness.
  assert (Q : 0 < PI * (1 - Rmax 0 eta)) by (apply Rmult_lt_0_compat; [lra|]; unfold Rmax; destruct (Rle_dec 0 eta); lra).
  repeat apply Rplus_le_le_0_compat.
  - apply Rmult_le_pos; [|left; now apply Rinv_0_lt_compat]. apply Rmult_le_pos; [lra|]. left. apply Rdiv_lt_0_compat; lra.
  - assert (A := Rabs_pos det). assert (0 <= PI * Rabs det * W) by (apply Rmult_le_pos; [apply Rmult_le_pos|]; lra). lra.
  - assert (A := Rabs_pos jit). assert (B := sqrt_pos 2). apply Rmult_le_pos; [apply Rmult_le_pos; [apply Rmult_le_pos|]|]; lra.
  - assert (A := Rabs_pos drift). assert (0 <= PI * Rabs drift * W) by (apply Rmult_le_pos; [apply Rmult_le_pos|]; lra). lra.
  - apply Rmult_le_pos; [|lra]. apply Rmult_le_pos; [apply Rmult_le_pos; [lra | apply pow2_ge_0]|]. left. apply Rinv_0_lt_compat. now apply Rmult_lt_0_compat.
Qed.
Lemma share_pos s n : 0 <= s_max_fill s * s_max_n s -> 0 <= share s n.
Proof. intros H. unfold share. destruct (Rlt_dec _ n); [apply quot_pos; lra | lra]. Qed.
Definition air (s : sensor) (c : scen) (ps : list (R * R)) (r1 t w : R) : R :=
  if Rlt_dec 0 (plain c Cn2At1m) then spectral_mean ps (fun l => turbulence_mtf (r_at r1 l) l (s_D s) (plain c AircraftSpeed * (t * s_ntdi s)) w 0) else 1.
Lemma good_air s c ps r1 t lmin lmax : (forall p, In p ps -> 0 <= snd p) -> 0 < Rsum (map snd ps) -> (forall p, In p ps -> lmin <= fst p <= lmax) -> 0 < lmin -> 0 < s_D s ->
  (0 < plain c Cn2At1m -> 0 < r1 /\ 0 <= plain c AircraftSpeed * (t * s_ntdi s) /\ lmax <= 4 * lmin) ->
  good (air s c ps r1 t) (s_D s / lmin) (if Rlt_dec 0 (plain c Cn2At1m) then 1.8 * (s_D s / r_at r1 lmin) else 0).
Proof.
  intros Hp Hs Hl H0 HD T. assert (HW : 0 < s_D s / lmin) by (apply Rdiv_lt_0_compat; lra). unfold air. destruct (Rlt_dec 0 (plain c Cn2At1m)) as [C|C].
  - destruct (T C) as (Hr & Hd & H4). apply (good_mean ps (fun l w => turbulence_mtf (r_at r1 l) l (s_D s) (plain c AircraftSpeed * (t * s_ntdi s)) w 0)); auto.
    intros p Hi. specialize (Hl p Hi). assert (R0 := r_at_pos r1 lmin Hr).
    refine (good_more _ _ _ _ HW _ (good_turbulence (r_at r1 (fst p)) (fst p) (s_D s) _ _ (r_at_pos _ _ Hr) ltac:(lra) HD Hd HW _)).
    + replace (1.8 * (s_D s / r_at r1 lmin)) with (1.8 * (lmin / r_at r1 lmin) * (s_D s / lmin)) by (set (g := 1.8); field; lra).
      apply Rmult_le_compat_r; [lra|]. apply Rmult_le_compat_l; [lra|]. apply r_at_ratio; lra.
    + replace (4 * s_D s) with (4 * lmin * (s_D s / lmin)) by (field; lra). apply Rmult_le_compat_r; lra.
  - split; [|intros w _; rewrite Rabs_pos_eq; lra]. intros x y _ _. replace (1 - 1) with 0 by ring. rewrite Rabs_R0. unfold Rdiv. lra.
Qed.
Lemma mean_one ps F : 0 < Rsum (map snd ps) -> (forall p, In p ps -> F (fst p) = 1) -> spectral_mean ps F = 1.
Proof.
  intros H E. unfold spectral_mean. replace (map (fun p => snd p * F (fst p)) ps) with (map snd ps); [field; lra|].
  apply map_ext_in. intros p Hp. rewrite E by exact Hp. ring.
Qed.
Lemma aperture_one D eta l : 0 < l -> 0 < D -> eta < 1 -> aperture_mtf D eta l 0 0 = 1.
Proof.
  intros Hl HD He. assert (P := PI_RGT_0). assert (S : pupil_shift 0 0 l D = 0).
  { unfold pupil_shift. rewrite !Rmult_0_l, Rplus_0_r, sqrt_0. unfold Rdiv. ring. }
  unfold aperture_mtf. destruct (Rlt_dec 0 eta) as [Q|Q]; rewrite S.
  - rewrite annulus_0 by lra. field. assert (0 < 1 - eta * eta) by nra. split; lra.
  - rewrite disc_overlap_full by lra. field. lra.
Qed.
Lemma fried_zero r l D a : fried r l D a 0 = 1.
Proof. unfold fried. destruct (Rlt_dec 0 0); [lra | reflexivity]. Qed.
Lemma system_one s c ps r1 : 0 < Rsum (map snd ps) -> (forall p, In p ps -> 0 < fst p) -> 0 < s_D s -> s_eta s < 1 -> system_mtf s c ps r1 0 0 = 1.
Proof.
  intros H L HD He. unfold system_mtf. rewrite !line_0. rewrite (mean_one ps (fun l => aperture_mtf (s_D s) (s_eta s) l 0 0) H) by (intros p Hp; apply aperture_one; auto).
  rewrite (mean_one ps (fun l => wavefront_mtf (s_pv s) (s_pv_wl s) (s_Lx s) (s_Ly s) l 0 0) H).
  2: { intros p _. unfold wavefront_mtf. rewrite !Rmult_0_r. unfold Rdiv. rewrite !Rmult_0_l. replace (0 ^ 2 + 0 ^ 2) with 0 by ring. rewrite Ropp_0, exp_0, Rminus_diag_eq, Rmult_0_r, Ropp_0 by reflexivity. apply exp_0. }
  rewrite (mean_one ps (fun l => turbulence_mtf (r_at r1 l) l (s_D s) (plain c AircraftSpeed * (s_int_time s * s_ntdi s)) 0 0) H).
  2: { intros p _. unfold turbulence_mtf. rewrite !Rmult_0_l, Rplus_0_r, sqrt_0, !fried_zero. ring. }
  unfold jitter_mtf_of. rewrite !Rmult_0_r. replace (- (2 * PI ^ 2 * (0 ^ 2 + 0 ^ 2))) with 0 by ring. rewrite exp_0. destruct (Rlt_dec 0 (plain c Cn2At1m)); ring.
Qed.
Lemma niirs5_shape ni it diag s c itp m em tr q : loaded ni it c itp m -> good_camera s ->
  (em = true <-> emissive_band s) -> good_atmosphere s em (atm_rows m) -> 0 < altitude c -> response_curves s tr q ->
  (0 < plain c Cn2At1m -> 0 <= plain c AircraftSpeed) -> forall s1 c1 mt, niirs5 ni it diag s c itp = (s1, c1, Ok mt) ->
  let L := dist (above earth_radius 0 (ground_range c / earth_radius)) (above earth_radius (altitude c) 0) in
  exists rows lmin r1, seen_rows s (atm_rows m) rows /\ (0 < plain c Cn2At1m -> seeing c L r1) /\
    let ps := charge_spectrum s tr q (giqe_target em) rows in
    In lmin (map fst ps) /\ (forall p, In p ps -> lmin <= fst p) /\
    let t := share s (Rmax (charge s tr q (giqe_target em) rows) (charge s tr q (giqe_background em) rows)) * s_int_time s in
    let W := s_D s / lmin in
    let mtf u v := Rabs (system_mtf (with_int_time s t) c ps r1 u v) in
    let T := if Rlt_dec 0 (plain c Cn2At1m) then 1.8 * (s_D s / r_at r1 lmin) else 0 in
    forall lmax, (forall p, In p ps -> fst p <= lmax) -> (0 < plain c Cn2At1m -> lmax <= 4 * lmin) ->
    exists r0 r90 x x' y y', f_rer_0 mt = Fin r0 /\ f_rer_90 mt = Fin r90 /\
      blurred_edge (fun w => mtf w 0) W (s_px s / s_f s * (1 / 2)) x /\ blurred_edge (fun w => mtf w 0) W (s_px s / s_f s * - (1 / 2)) x' /\
      blurred_edge (fun w => mtf 0 w) W (s_py s / s_f s * (1 / 2)) y /\ blurred_edge (fun w => mtf 0 w) W (s_py s / s_f s * - (1 / 2)) y' /\
      Rabs (r0 - (x - x')) <= 2 * edge_error (PI * Rabs (s_px s / s_f s) * W)
        (T + roughness W (s_eta s) lmin lmax (s_wx s / s_f s) (s_sx s) (s_dax s * (t * s_ntdi s)) (s_pv s) (s_pv_wl s) (s_Lx s)) W 50 /\
      Rabs (r90 - (y - y')) <= 2 * edge_error (PI * Rabs (s_py s / s_f s) * W)
        (T + roughness W (s_eta s) lmin lmax (s_wy s / s_f s) (s_sy s) (s_day s * (t * s_ntdi s)) (s_pv s) (s_pv_wl s) (s_Ly s)) W 50 /\
      gentle (fun w => mtf w 0) W (T + roughness W (s_eta s) lmin lmax (s_wx s / s_f s) (s_sx s) (s_dax s * (t * s_ntdi s)) (s_pv s) (s_pv_wl s) (s_Lx s)) /\ mtf W 0 = 0 /\
      gentle (fun w => mtf 0 w) W (T + roughness W (s_eta s) lmin lmax (s_wy s / s_f s) (s_sy s) (s_day s * (t * s_ntdi s)) (s_pv s) (s_pv_wl s) (s_Ly s)) /\ mtf 0 W = 0 /\
      mtf 0 0 = 1 /\
      (forall snr, m_snr (ct_snr (f_contrast mt)) = Fin snr -> 0 < Rmax r0 r90 -> Rmin r0 r90 <> 0 -> 0 < s_frames s -> snr <> 0 -> exists r gw, 0 < r /\ r ^ 3 = Rmax r0 r90 * Rmin r0 r90 ^ 2 /\
         f_rer mt = Fin r /\ f_gsd_w mt = Fin gw /\ f_niirs mt = Fin (rating5 r gw (sqrt (s_frames s) * snr))).
Proof.
  intros Hload Hcam Hem Hatm Halt Hrc Hac s1 c1 mt H L.
  destruct (niirs5_form ni it diag s c itp m em tr q Hload Hcam Hem Hatm Halt Hrc _ _ _ H) as (rows & lmin & r1 & phi & V & SE & _ & _ & I1 & I2 & _ & _ & _ & E0 & E9 & ES & RT & _).
  cbv zeta in *. fold L in SE. set (ps := charge_spectrum s tr q (giqe_target em) rows) in *.
  set (t := share s (Rmax (charge s tr q (giqe_target em) rows) (charge s tr q (giqe_background em) rows)) * s_int_time s) in *.
  exists rows, lmin, r1. split; [exact V|]. split; [exact SE|]. split; [exact I1|]. split; [exact I2|]. intros lmax B H4.
  destruct (good_ps s tr q em rows _ lmin Hatm V I1) as (L0 & W0 & S0). fold ps in W0, S0.
  destruct Hcam as (Ph & _ & (HD & He & Hf & HLx & HLy & Hpv) & _).
  assert (HW : 0 < s_D s / lmin) by (apply Rdiv_lt_0_compat; lra).
  assert (BB : forall p, In p ps -> lmin <= fst p <= lmax) by (intros p Hp; split; auto).
  assert (LL : lmin <= lmax). { apply in_map_iff in I1. destruct I1 as (p & <- & Hp). auto. }
  assert (Ht : 0 <= t). { unfold t. apply Rmult_le_pos; [|exact (ph_time s Ph)]. apply share_pos. exact (Rmult_le_pos _ _ (ph_max_fill s Ph) (Rlt_le _ _ (ph_max_n s Ph))). }
  assert (TC : 0 < plain c Cn2At1m -> 0 < r1 /\ 0 <= plain c AircraftSpeed * (t * s_ntdi s) /\ lmax <= 4 * lmin).
  { intros C. split; [destruct (SE C) as (G & _ & _ & R & _); exact R|]. split; [|auto]. apply Rmult_le_pos; [auto|]. exact (Rmult_le_pos _ _ Ht (ph_ntdi s Ph)). }
  assert (GA := good_air s c ps r1 t lmin lmax W0 S0 BB L0 HD TC).
  assert (TP : 0 <= (if Rlt_dec 0 (plain c Cn2At1m) then 1.8 * (s_D s / r_at r1 lmin) else 0)).
  { destruct (Rlt_dec 0 (plain c Cn2At1m)) as [C|C]; [|lra]. destruct (TC C) as (R & _). assert (0 < s_D s / r_at r1 lmin) by (apply Rdiv_lt_0_compat; [lra | now apply r_at_pos]). lra. }
  set (mx w := spectral_mean ps (fun l => aperture_mtf (s_D s) (s_eta s) l w 0) * line_ft (s_wx s / s_f s) w * jitter_mtf_of (s_sx s) (s_sy s) w 0
     * line_ft (s_dax s * (t * s_ntdi s)) w * spectral_mean ps (fun l => wavefront_mtf (s_pv s) (s_pv_wl s) (s_Lx s) (s_Ly s) l w 0)).
  set (my w := spectral_mean ps (fun l => aperture_mtf (s_D s) (s_eta s) l w 0) * line_ft (s_wy s / s_f s) w * jitter_mtf_of (s_sy s) (s_sx s) w 0
     * line_ft (s_day s * (t * s_ntdi s)) w * spectral_mean ps (fun l => wavefront_mtf (s_pv s) (s_pv_wl s) (s_Ly s) (s_Lx s) l w 0)).
  assert (Ex : forall w, system_mtf (with_int_time s t) c ps r1 w 0 = air s c ps r1 t w * mx w).
  { intros w. unfold system_mtf, mx, air. cbn [with_int_time s_D s_eta s_wx s_wy s_f s_sx s_sy s_dax s_day s_int_time s_ntdi s_pv s_pv_wl s_Lx s_Ly].
    rewrite !line_0. ring. }
  assert (Ey : forall w, system_mtf (with_int_time s t) c ps r1 0 w = air s c ps r1 t w * my w).
  { intros w. unfold system_mtf, my, air. cbn [with_int_time s_D s_eta s_wx s_wy s_f s_sx s_sy s_dax s_day s_int_time s_ntdi s_pv s_pv_wl s_Lx s_Ly].
    rewrite !line_0.
    rewrite (mean_eq ps (fun l => aperture_mtf (s_D s) (s_eta s) l 0 w) (fun l => aperture_mtf (s_D s) (s_eta s) l w 0)) by (intros; apply aperture_swap).
    rewrite (mean_eq ps (fun l => turbulence_mtf (r_at r1 l) l (s_D s) (plain c AircraftSpeed * (t * s_ntdi s)) 0 w) (fun l => turbulence_mtf (r_at r1 l) l (s_D s) (plain c AircraftSpeed * (t * s_ntdi s)) w 0))
      by (intros; apply turbulence_swap).
    rewrite (mean_eq ps (fun l => wavefront_mtf (s_pv s) (s_pv_wl s) (s_Lx s) (s_Ly s) l 0 w) (fun l => wavefront_mtf (s_pv s) (s_pv_wl s) (s_Ly s) (s_Lx s) l w 0))
      by (intros; unfold wavefront_mtf; rewrite (Rplus_comm ((l * 0 / s_Lx s) ^ 2)); reflexivity).
    replace (jitter_mtf_of (s_sx s) (s_sy s) 0 w) with (jitter_mtf_of (s_sy s) (s_sx s) w 0) by (unfold jitter_mtf_of; f_equal; ring). ring. }
  destruct (axis_good ps (s_D s) (s_eta s) lmin lmax (s_wx s / s_f s) (s_sx s) (s_sy s) (s_dax s * (t * s_ntdi s)) (s_pv s) (s_pv_wl s) (s_Lx s) (s_Ly s)
      W0 S0 BB L0 HD He Hpv HLx) as (Gx & Zx).
  destruct (axis_good ps (s_D s) (s_eta s) lmin lmax (s_wy s / s_f s) (s_sy s) (s_sx s) (s_day s * (t * s_ntdi s)) (s_pv s) (s_pv_wl s) (s_Ly s) (s_Lx s)
      W0 S0 BB L0 HD He Hpv HLy) as (Gy & Zy).
  fold mx in Gx. fold my in Gy. change (mx (s_D s / lmin) = 0) in Zx. change (my (s_D s / lmin) = 0) in Zy.
  assert (Rx := roughness_pos (s_D s / lmin) (s_eta s) lmin lmax (s_wx s / s_f s) (s_sx s) (s_dax s * (t * s_ntdi s)) (s_pv s) (s_pv_wl s) (s_Lx s) HW He L0 LL Hpv HLx).
  assert (Ry := roughness_pos (s_D s / lmin) (s_eta s) lmin lmax (s_wy s / s_f s) (s_sy s) (s_day s * (t * s_ntdi s)) (s_pv s) (s_pv_wl s) (s_Ly s) HW He L0 LL Hpv HLy).
  destruct (slope_near _ _ _ (s_px s / s_f s) HW (Rplus_le_le_0_compat _ _ TP Rx) (good_mult _ _ _ _ _ HW GA Gx)) as (x & x' & X1 & X2 & X3); [rewrite Zx; ring|].
  destruct (slope_near _ _ _ (s_py s / s_f s) HW (Rplus_le_le_0_compat _ _ TP Ry) (good_mult _ _ _ _ _ HW GA Gy)) as (y & y' & Y1 & Y2 & Y3); [rewrite Zy; ring|].
  rewrite (map_ext (fun i => Rabs (system_mtf (with_int_time s t) c ps r1 (INR i * (s_D s / lmin / 50)) 0)) (fun i => Rabs (air s c ps r1 t (INR i * (s_D s / lmin / 50)) * mx (INR i * (s_D s / lmin / 50))))) in E0, RT by (intros; now rewrite Ex).
  rewrite (map_ext (fun i => Rabs (system_mtf (with_int_time s t) c ps r1 0 (INR i * (s_D s / lmin / 50)))) (fun i => Rabs (air s c ps r1 t (INR i * (s_D s / lmin / 50)) * my (INR i * (s_D s / lmin / 50))))) in E9, RT by (intros; now rewrite Ey).
  assert (BE : forall f g k e, (forall w : R, f w = g w) -> blurred_edge f (s_D s / lmin) k e -> blurred_edge g (s_D s / lmin) k e).
  { intros f g k e E (J & A & B'). exists J. split; [|exact B']. apply (is_RInt_ext (fun w => f w * wave k w)); [intros w _; now rewrite E | exact A]. }
  do 2 eexists. exists x, x', y, y'. split; [exact E0|]. split; [exact E9|].
  split; [revert X1; apply BE; intros; now rewrite Ex|]. split; [revert X2; apply BE; intros; now rewrite Ex|].
  split; [revert Y1; apply BE; intros; now rewrite Ey|]. split; [revert Y2; apply BE; intros; now rewrite Ey|].
  split; [exact X3|]. split; [exact Y3|].
  assert (GE : forall f g K, (forall w : R, f w = g w) -> gentle f (s_D s / lmin) K -> gentle g (s_D s / lmin) K).
  { intros f g K E Q a b Ha Hb. rewrite <- !E. auto. }
  split; [apply (GE _ _ _ (fun w => eq_sym (f_equal Rabs (Ex w)))); exact (proj1 (good_abs _ _ _ (good_mult _ _ _ _ _ HW GA Gx)))|].
  split; [rewrite Ex, Zx, Rmult_0_r; apply Rabs_R0|].
  split; [apply (GE _ _ _ (fun w => eq_sym (f_equal Rabs (Ey w)))); exact (proj1 (good_abs _ _ _ (good_mult _ _ _ _ _ HW GA Gy)))|].
  split; [rewrite Ey, Zy, Rmult_0_r; apply Rabs_R0|].
  split; [rewrite system_one; [apply Rabs_R1 | exact S0 | intros p Hp; specialize (BB p Hp); lra | exact HD | exact He]|].
  intros snr' ES' M1 M2 M3 M4. rewrite ES in ES'. injection ES' as <-. destruct (RT M1 M2 M3 M4) as (r & R1 & R2 & R3 & R4 & R5). exists r. eexists. repeat (split; [eassumption|]). exact R5.
Qed.
Lemma niirs5_near ni it diag s c itp m em tr q : loaded ni it c itp m -> good_camera s ->
  (em = true <-> emissive_band s) -> good_atmosphere s em (atm_rows m) -> 0 < altitude c -> response_curves s tr q ->
  (0 < plain c Cn2At1m -> 0 <= plain c AircraftSpeed) -> forall s1 c1 mt, niirs5 ni it diag s c itp = (s1, c1, Ok mt) ->
  let L := dist (above earth_radius 0 (ground_range c / earth_radius)) (above earth_radius (altitude c) 0) in
  exists rows lmin r1, seen_rows s (atm_rows m) rows /\ (0 < plain c Cn2At1m -> seeing c L r1) /\
    let ps := charge_spectrum s tr q (giqe_target em) rows in
    In lmin (map fst ps) /\ (forall p, In p ps -> lmin <= fst p) /\
    let t := share s (Rmax (charge s tr q (giqe_target em) rows) (charge s tr q (giqe_background em) rows)) * s_int_time s in
    let W := s_D s / lmin in
    let mtf u v := Rabs (system_mtf (with_int_time s t) c ps r1 u v) in
    let T := if Rlt_dec 0 (plain c Cn2At1m) then 1.8 * (s_D s / r_at r1 lmin) else 0 in
    forall lmax, (forall p, In p ps -> fst p <= lmax) -> (0 < plain c Cn2At1m -> lmax <= 4 * lmin) ->
    exists r0 r90 x x' y y', f_rer_0 mt = Fin r0 /\ f_rer_90 mt = Fin r90 /\
      blurred_edge (fun w => mtf w 0) W (s_px s / s_f s * (1 / 2)) x /\ blurred_edge (fun w => mtf w 0) W (s_px s / s_f s * - (1 / 2)) x' /\
      blurred_edge (fun w => mtf 0 w) W (s_py s / s_f s * (1 / 2)) y /\ blurred_edge (fun w => mtf 0 w) W (s_py s / s_f s * - (1 / 2)) y' /\
      Rabs (r0 - (x - x')) <= 2 * edge_error (PI * Rabs (s_px s / s_f s) * W)
        (T + roughness W (s_eta s) lmin lmax (s_wx s / s_f s) (s_sx s) (s_dax s * (t * s_ntdi s)) (s_pv s) (s_pv_wl s) (s_Lx s)) W 50 /\
      Rabs (r90 - (y - y')) <= 2 * edge_error (PI * Rabs (s_py s / s_f s) * W)
        (T + roughness W (s_eta s) lmin lmax (s_wy s / s_f s) (s_sy s) (s_day s * (t * s_ntdi s)) (s_pv s) (s_pv_wl s) (s_Ly s)) W 50.
Proof.
  intros Hload Hcam Hem Hatm Halt Hrc Hac s1 c1 mt H L.
  destruct (niirs5_shape ni it diag s c itp m em tr q Hload Hcam Hem Hatm Halt Hrc Hac s1 c1 mt H) as (rows & lmin & r1 & V & SE & I1 & I2 & S).
  exists rows, lmin, r1. split; [exact V|]. split; [exact SE|]. split; [exact I1|]. split; [exact I2|]. intros t W mtf T lmax B H4.
  destruct (S lmax B H4) as (r0 & r90 & x & x' & y & y' & E0 & E9 & X1 & X2 & Y1 & Y2 & X3 & Y3 & _).
  exists r0, r90, x, x', y, y'. repeat (split; [assumption|]). assumption.
Qed.
Lemma aperture_slope k u v u' v' l D eta : 0 < l -> 0 < D -> eta < 1 ->
  exists a a', circular_aperture_OTF k u v l D eta = Ok (Fin a) /\ circular_aperture_OTF k u' v' l D eta = Ok (Fin a') /\
    Rabs (a - a') <= 4 * l / (PI * (1 - Rmax 0 eta) * D) * Rabs (sqrt (u * u + v * v) - sqrt (u' * u' + v' * v')).
Proof.
  intros Hl HD He. exists (aperture_mtf D eta l u v), (aperture_mtf D eta l u' v'). split; [now apply circ_value|]. split; [now apply circ_value|].
  set (a := sqrt (u * u + v * v)). set (b := sqrt (u' * u' + v' * v')). assert (Ha : 0 <= a) by apply sqrt_pos. assert (Hb : 0 <= b) by apply sqrt_pos.
  assert (E : forall x y z, z = sqrt (x * x + y * y) -> 0 <= z -> aperture_mtf D eta l x y = aperture_mtf D eta l z 0).
  { intros x y z Hz H. unfold aperture_mtf. rewrite !(shift_axis z) by exact H. unfold pupil_shift. rewrite <- Hz. reflexivity. }
  rewrite (E u v a), (E u' v' b) by (auto; reflexivity). assert (P := PI_RGT_0).
  assert (Q : 0 < PI * (1 - Rmax 0 eta)) by (apply Rmult_lt_0_compat; [lra|]; unfold Rmax; destruct (Rle_dec 0 eta); lra).
  destruct (good_aperture D eta l (1 + a + b) ltac:(lra) HD He Hl) as (G & _). eapply Rle_trans; [apply (G a b); lra|].
  right. field. repeat split; try lra. unfold Rmax. destruct (Rle_dec 0 eta); lra.
Qed.
Definition calm : scen := {| ihaze := 1; altitude := 9000; ground_range := 60000; interp := false;
  plain := fun a => match a with Cn2At1m => 0 | HaWindSpeed => 21 | _ => 290 end; cache := None |}.
Lemma calm_demo : let c := calm in let s := thermal [[1]] 1 in
  loaded demo_load demo_load c false demo_m /\ good_camera s /\ (true = true <-> emissive_band s) /\ good_atmosphere s true (atm_rows demo_m) /\
  0 < altitude c /\ (exists tr q, response_curves s tr q) /\ plain c Cn2At1m <= 0 /\
  exists s1 c1 mt, niirs5 demo_load demo_load no_diag s c false = (s1, c1, Ok mt).
Proof.
  cbv zeta. destruct (thermal_conditions 1) as (A & B & C & D & E & _).
  split; [reflexivity|]. split; [exact B|]. split; [exact C|]. split; [exact D|]. split; [cbn; lra|].
  split. { do 2 eexists. apply curves_exist; [apply ph_tables; apply B | apply B]. }
  split; [cbn; lra|].
  destruct (niirs5_succeeds demo_load demo_load no_diag (thermal [[1]] 1) calm false demo_m true eq_refl B C D) as (mt & snr & x & y & e & H & _); [cbn; lra|].
  do 3 eexists. exact H.
Qed.
Lemma windy_demo : let s := thermal [[1]] 1 in
  loaded demo_load demo_load demo_scen false demo_m /\ good_camera s /\ (true = true <-> emissive_band s) /\
  good_atmosphere s true (atm_rows demo_m) /\ 0 < altitude demo_scen /\ (exists tr q, response_curves s tr q) /\ 0 < plain demo_scen Cn2At1m /\
  0 <= plain demo_scen AircraftSpeed /\ (exists s1 c1 mt, niirs5 demo_load demo_load no_diag s demo_scen false = (s1, c1, Ok mt)) /\
  forall tr q rows, seen_rows s (atm_rows demo_m) rows -> forall p, In p (charge_spectrum s tr q (giqe_target true) rows) -> 8 / 10 ^ 6 <= fst p <= 12 / 10 ^ 6.
Proof.
  cbv zeta. destruct rating_demo as (A & B & C & D & E & F & G & (s1 & c1 & mt & v & r & H & _) & _).
  split; [exact A|]. split; [exact B|]. split; [exact C|]. split; [exact D|]. split; [exact E|]. split; [exact F|]. split; [exact G|].
  split; [cbn; lra|]. split; [now exists s1, c1, mt|].
  intros tr q rows (V & _) p Hp. unfold charge_spectrum in Hp. apply filter_In in Hp. destruct Hp as (Hp & _). apply in_map_iff in Hp.
  destruct Hp as (a & <- & Ha). apply V in Ha. destruct Ha as (_ & lo & hi & Q). cbn in Q. cbn [fst]. rewrite wl770 in Q.
  destruct Q as (Q1 & Q2 & Q3). injection Q1 as <-. injection Q2 as <-. lra.
Qed.
