(** * Proof_Lens: closed forms for the overlap areas of Spec_Otf. *)
From Coq Require Import Reals Lra Psatz.
From Coquelicot Require Import Coquelicot.
From Verif Require Import Base_XR Base_Int Spec_Otf.
Open Scope R_scope.

Lemma hc_cont r : cont (half_chord r).
Proof. unfold half_chord. cont_tac. Qed.
Lemma hc_cont_shift r d : cont (fun x => half_chord r (x - d)).
Proof. unfold half_chord. cont_tac. Qed.
Lemma hc_even r x : half_chord r (- x) = half_chord r x.
Proof. unfold half_chord. f_equal. f_equal. ring. Qed.
Lemma hc_nonneg r x : 0 <= half_chord r x.
Proof. apply sqrt_pos. Qed.
Lemma hc_out r x : r * r <= x * x -> half_chord r x = 0.
Proof. intros H. unfold half_chord. rewrite Rmax_left by lra. apply sqrt_0. Qed.
Lemma hc_out_l r x : 0 <= r -> x < - r -> half_chord r x = 0.
Proof. intros R0 H. apply hc_out. nra. Qed.
Lemma hc_out_r r x : 0 <= r -> r < x -> half_chord r x = 0.
Proof. intros R0 H. apply hc_out. nra. Qed.
Lemma hc_mono r1 r2 x1 x2 : r1 * r1 - x1 * x1 <= r2 * r2 - x2 * x2 ->
  half_chord r1 x1 <= half_chord r2 x2.
Proof. intros H. apply sqrt_le_1_alt. apply Rle_max_compat_l. exact H. Qed.

(* area of half a circular segment *)
Lemma cap_area r th : 0 <= r -> 0 <= th <= PI ->
  RInt (half_chord r) (r * cos th) r = r * r * (th - sin th * cos th) / 2.
Proof.
  intros R0 [T0 T1].
  assert (E : RInt (fun t => - (r * sin t) * half_chord r (r * cos t)) th 0
              = RInt (half_chord r) (r * cos th) (r * cos 0)).
  { rewrite <- (RInt_comp (half_chord r) (fun t => r * cos t) (fun t => - (r * sin t)) th 0).
    - apply RInt_ext. intros x _. reflexivity.
    - intros x _. apply hc_cont.
    - intros x _. split.
      + auto_derive; [exact I | ring].
      + apply (cont_opp (fun t => r * sin t)). cont_tac. }
  rewrite cos_0, Rmult_1_r in E. rewrite <- E.
  rewrite (ri_ext _ (fun t => - (r * r) * (sin t * sin t)) th 0).
  2:{ rewrite Rmin_right, Rmax_left by lra. intros x Hx.
      assert (S : 0 <= sin x) by (apply sin_ge_0; lra).
      replace (half_chord r (r * cos x)) with (r * sin x); [ring|].
      unfold half_chord. symmetry.
      assert (Q : r * r - r * cos x * (r * cos x) = (r * sin x) * (r * sin x)).
      { generalize (sin2_cos2 x). unfold Rsqr. intros. nra. }
      rewrite Q, Rmax_right by (apply Rle_0_sqr). apply sqrt_square. nra. }
  rewrite (ri_deriv (fun t => - (r * r) * ((t - sin t * cos t) / 2))
                    (fun t => - (r * r) * (sin t * sin t))).
  - rewrite sin_0. lra.
  - intros x. auto_derive; [exact I|].
    generalize (sin2_cos2 x). unfold Rsqr. intros. nra.
  - cont_tac.
Qed.

Lemma cap_area_left r th : 0 <= r -> 0 <= th <= PI ->
  RInt (half_chord r) (- r) (- (r * cos th)) = r * r * (th - sin th * cos th) / 2.
Proof.
  intros R0 T. rewrite <- (cap_area r th R0 T).
  replace (- r) with (0 - r) by lra. replace (- (r * cos th)) with (0 - r * cos th) by lra.
  rewrite <- ri_reflect by apply hc_cont. apply RInt_ext. intros x _.
  replace (0 - x) with (- x) by lra. apply hc_even.
Qed.

Lemma disc_area r : 0 <= r -> RInt (half_chord r) (- r) r = PI * (r * r) / 2.
Proof.
  intros R0. generalize (cap_area_left r PI R0). rewrite cos_PI, sin_PI.
  replace (- (r * -1)) with r by lra. intros H. rewrite H.
  - lra.
  - generalize PI_RGT_0; lra.
Qed.

Lemma overlap_cont r1 r2 d :
  cont (fun x => 2 * Rmin (half_chord r1 x) (half_chord r2 (x - d))).
Proof. generalize (hc_cont r1) (hc_cont_shift r2 d); intros. cont_tac. Qed.

Lemma min_zero_l a b : a = 0 -> 0 <= b -> Rmin a b = 0.
Proof. intros -> H. apply Rmin_left; lra. Qed.
Lemma min_zero_r a b : b = 0 -> 0 <= a -> Rmin a b = 0.
Proof. intros -> H. apply Rmin_right; lra. Qed.

(* two circles that meet: A, B are the half-angles under which the common
   chord is seen from the two centres *)
Lemma overlap_lens r1 r2 d A B :
  0 < r1 -> 0 < r2 -> 0 <= d -> 0 <= A <= PI -> 0 <= B <= PI ->
  d = r1 * cos A + r2 * cos B -> r1 * sin A = r2 * sin B ->
  disc_overlap r1 r2 d
  = r1 * r1 * (A - sin A * cos A) + r2 * r2 * (B - sin B * cos B).
Proof.
  intros H1 H2 Hd HA HB Ed Es. unfold disc_overlap.
  set (x0 := r1 * cos A).
  assert (Q : r2 * r2 = (d - x0) * (d - x0) + r1 * r1 * (sin A * sin A)).
  { generalize (sin2_cos2 B). unfold Rsqr. intros S.
    replace (r1 * r1 * (sin A * sin A)) with ((r1 * sin A) * (r1 * sin A)) by ring.
    rewrite Es, Ed. unfold x0.
    replace (r1 * cos A + r2 * cos B - r1 * cos A) with (r2 * cos B) by ring.
    transitivity (r2 * r2 * (sin B * sin B + cos B * cos B)); [rewrite S|]; ring. }
  assert (Q1 : r1 * r1 = x0 * x0 + r1 * r1 * (sin A * sin A)).
  { generalize (sin2_cos2 A). unfold Rsqr, x0. intros S.
    transitivity (r1 * r1 * (sin A * sin A + cos A * cos A)); [rewrite S|]; ring. }
  assert (X0 : - r1 <= x0 <= r1).
  { unfold x0. generalize (COS_bound A). nra. }
  assert (X1 : - r2 <= d - x0 <= r2).
  { unfold x0. rewrite Ed. replace (r1 * cos A + r2 * cos B - r1 * cos A) with (r2 * cos B) by ring.
    generalize (COS_bound B). nra. }
  rewrite <- (ri_chasles _ (- r1) x0 r1) by apply overlap_cont.
  assert (P1 : RInt (fun x => 2 * Rmin (half_chord r1 x) (half_chord r2 (x - d))) x0 r1
               = r1 * r1 * (A - sin A * cos A)).
  { rewrite (ri_ext_le _ (fun x => 2 * half_chord r1 x)); [|lra|].
    - rewrite ri_scal by apply hc_cont. unfold x0. rewrite cap_area by lra. lra.
    - intros x Hx. rewrite Rmin_left; [reflexivity|]. apply hc_mono. nra. }
  assert (P2 : RInt (fun x => 2 * Rmin (half_chord r1 x) (half_chord r2 (x - d))) (- r1) x0
               = r2 * r2 * (B - sin B * cos B)).
  { rewrite (ri_ext_le _ (fun x => 2 * half_chord r2 (x - d))); [|lra|].
    - rewrite (ri_scal (fun x => half_chord r2 (x - d))) by apply hc_cont_shift.
      rewrite ri_shift by apply hc_cont.
      replace (x0 - d) with (- (r2 * cos B)) by (unfold x0; lra).
      assert (L : forall z, RInt (half_chord r2) z (- (r2 * cos B))
                            = RInt (half_chord r2) z (- r2) + RInt (half_chord r2) (- r2) (- (r2 * cos B))).
      { intros z. rewrite ri_chasles by apply hc_cont. reflexivity. }
      rewrite L, cap_area_left by lra.
      assert (Z : RInt (half_chord r2) (- r1 - d) (- r2) = 0).
      { destruct (Rle_lt_dec (- r1 - d) (- r2)) as [W | W].
        - apply ri_zero; [lra|]. intros x Hx. apply hc_out_l; lra.
        - (* then r1 + d < r2: impossible *)
          exfalso. apply (Rlt_irrefl (r2 * r2)). rewrite Q at 1.
          assert (x0 >= - r1) by lra. nra. }
      rewrite Z. lra.
    - intros x Hx. rewrite Rmin_right; [reflexivity|]. apply hc_mono. nra. }
  rewrite P1, P2. ring.
Qed.

Lemma overlap_disjoint r1 r2 d : 0 < r1 -> 0 < r2 -> r1 + r2 <= d -> disc_overlap r1 r2 d = 0.
Proof.
  intros H1 H2 Hd. unfold disc_overlap. apply ri_zero; [lra|]. intros x Hx.
  rewrite min_zero_r; [lra| |apply hc_nonneg].
  apply hc_out. nra.
Qed.

Lemma overlap_inside r1 r2 d : 0 < r1 -> 0 < r2 -> 0 <= d -> d + r2 <= r1 ->
  disc_overlap r1 r2 d = PI * (r2 * r2).
Proof.
  intros H1 H2 Hd Hi. unfold disc_overlap.
  rewrite (ri_ext_le _ (fun x => 2 * half_chord r2 (x - d))); [|lra|].
  - rewrite (ri_scal (fun x => half_chord r2 (x - d))) by apply hc_cont_shift.
    rewrite ri_shift by apply hc_cont.
    rewrite (ri_support (half_chord r2) (- r2) r2).
    + rewrite disc_area by lra. lra.
    + apply hc_cont.
    + lra.
    + lra.
    + lra.
    + intros x Hx. apply hc_out_l; lra.
    + intros x Hx. apply hc_out_r; lra.
  - intros x Hx. f_equal.
    destruct (Rle_lt_dec (r2 * r2) ((x - d) * (x - d))) as [O | I].
    + rewrite (hc_out r2 (x - d) O). apply min_zero_r; [reflexivity | apply hc_nonneg].
    + apply Rmin_right. apply hc_mono. nra.
Qed.

(** ** Equal radii *)
Lemma acos_sin x : -1 <= x <= 1 -> sin (acos x) = sqrt (1 - x * x).
Proof. intros H. rewrite sin_acos by lra. unfold Rsqr. reflexivity. Qed.

Lemma overlap_equal r d : 0 < r -> 0 <= d <= 2 * r ->
  disc_overlap r r d
  = 2 * (r * r) * (acos (d / (2 * r)) - d / (2 * r) * sqrt (1 - d / (2 * r) * (d / (2 * r)))).
Proof.
  intros Hr Hd. set (y := d / (2 * r)).
  assert (Hy : 0 <= y <= 1).
  { unfold y. split; [apply Rdiv_le_0_compat; lra|].
    apply Rmult_le_reg_r with (2 * r); [lra|]. unfold Rdiv. rewrite Rmult_assoc, Rinv_l by lra. lra. }
  generalize (acos_bound y); intros AB.
  rewrite (overlap_lens r r d (acos y) (acos y)); try lra.
  - rewrite cos_acos by lra. rewrite acos_sin by lra. ring.
  - rewrite cos_acos by lra. unfold y. field. lra.
Qed.

(** ** Annuli by inclusion-exclusion *)
Lemma interval_incl a1 a2 b1 b2 : b1 <= a1 -> b2 <= a2 ->
  Rmax 0 (Rmin a1 a2 - Rmax b1 b2)
  = Rmin a1 a2 + Rmin b1 b2 - Rmin a1 b2 - Rmin b1 a2.
Proof.
  intros H1 H2. unfold Rmax, Rmin. repeat destruct (Rle_dec _ _); lra.
Qed.

Lemma overlap_wide r1 r2 d L : 0 <= r1 -> r1 <= L ->
  RInt (fun x => 2 * Rmin (half_chord r1 x) (half_chord r2 (x - d))) (- L) L
  = disc_overlap r1 r2 d.
Proof.
  intros H0 H. unfold disc_overlap. apply ri_support; try lra.
  - apply overlap_cont.
  - intros x Hx. rewrite min_zero_l; [lra| |apply hc_nonneg]. apply hc_out_l; lra.
  - intros x Hx. rewrite min_zero_l; [lra| |apply hc_nonneg]. apply hc_out_r; lra.
Qed.

Lemma overlap_sym r1 r2 d : 0 <= r1 -> 0 <= r2 ->
  disc_overlap r1 r2 d = disc_overlap r2 r1 d.
Proof.
  intros H1 H2.
  set (L := r1 + r2 + Rabs d). generalize (Rabs_pos d); intros HA.
  rewrite <- (overlap_wide r1 r2 d L) by (unfold L; lra).
  assert (E : RInt (fun x => 2 * Rmin (half_chord r2 x) (half_chord r1 (x - d))) (d - L) (d + L)
              = disc_overlap r2 r1 d).
  { unfold disc_overlap. apply ri_support; try lra.
    - apply overlap_cont.
    - unfold L. generalize (Rle_abs d). lra.
    - unfold L. generalize (Rle_abs (- d)). rewrite Rabs_Ropp. lra.
    - intros x Hx. rewrite min_zero_l; [lra| |apply hc_nonneg]. apply hc_out_l; lra.
    - intros x Hx. rewrite min_zero_l; [lra| |apply hc_nonneg]. apply hc_out_r; lra. }
  rewrite <- E. replace (d + L) with (d - - L) by lra.
  rewrite <- (ri_reflect (fun x => 2 * Rmin (half_chord r2 x) (half_chord r1 (x - d)))) by apply overlap_cont.
  apply RInt_ext. intros x _. f_equal.
  replace (d - x - d) with (- x) by ring. rewrite hc_even, Rmin_comm.
  f_equal. replace (d - x) with (- (x - d)) by ring. rewrite hc_even. reflexivity.
Qed.

Lemma annulus_incl_excl eta d : 0 < eta <= 1 ->
  annulus_overlap eta d
  = disc_overlap 1 1 d + disc_overlap eta eta d - 2 * disc_overlap 1 eta d.
Proof.
  intros He. unfold annulus_overlap.
  assert (M : forall x, half_chord eta x <= half_chord 1 x).
  { intros x. apply hc_mono. nra. }
  rewrite (ri_ext_le _ (fun x =>
      2 * Rmin (half_chord 1 x) (half_chord 1 (x - d))
      + 2 * Rmin (half_chord eta x) (half_chord eta (x - d))
      - (2 * Rmin (half_chord 1 x) (half_chord eta (x - d))
         + 2 * Rmin (half_chord eta x) (half_chord 1 (x - d))))); [|lra|].
  - rewrite ri_minus.
    + rewrite !ri_plus by apply overlap_cont.
      replace (-1) with (- (1)) by lra.
      rewrite !overlap_wide by lra.
      rewrite (overlap_sym eta 1) by lra. ring.
    + apply (cont_plus (fun x => 2 * Rmin (half_chord 1 x) (half_chord 1 (x - d)))); apply overlap_cont.
    + apply (cont_plus (fun x => 2 * Rmin (half_chord 1 x) (half_chord eta (x - d)))); apply overlap_cont.
  - intros x Hx. rewrite interval_incl by apply M. ring.
Qed.

Lemma annulus_bounds eta d : 0 <= eta <= 1 -> 0 <= annulus_overlap eta d <= PI * (1 - eta * eta).
Proof.
  intros He. unfold annulus_overlap.
  assert (C : cont (fun x => 2 * Rmax 0 (Rmin (half_chord 1 x) (half_chord 1 (x - d))
                             - Rmax (half_chord eta x) (half_chord eta (x - d))))).
  { generalize (hc_cont 1) (hc_cont eta) (hc_cont_shift 1 d) (hc_cont_shift eta d); intros. cont_tac. }
  split.
  - apply ri_nonneg; [lra | exact C |]. intros x _.
    generalize (Rmax_l 0 (Rmin (half_chord 1 x) (half_chord 1 (x - d))
                             - Rmax (half_chord eta x) (half_chord eta (x - d)))). lra.
  - apply Rle_trans with (RInt (fun x => 2 * half_chord 1 x - 2 * half_chord eta x) (-1) 1).
    + apply ri_le; [lra | exact C | |].
      * generalize (hc_cont 1) (hc_cont eta); intros. cont_tac.
      * intros x _. assert (half_chord eta x <= half_chord 1 x) by (apply hc_mono; nra).
        generalize (Rmin_l (half_chord 1 x) (half_chord 1 (x - d)))
                   (Rmax_l (half_chord eta x) (half_chord eta (x - d))).
        intros. unfold Rmax at 1. destruct (Rle_dec _ _); lra.
    + generalize (hc_cont 1) (hc_cont eta); intros C1 C2.
      rewrite (ri_minus (fun x => 2 * half_chord 1 x)) by cont_tac.
      rewrite !ri_scal by assumption.
      replace (-1) with (- (1)) by lra. rewrite disc_area by lra.
      rewrite (ri_support (half_chord eta) (- eta) eta); auto; try lra.
      * rewrite disc_area by lra. lra.
      * intros x Hx. apply hc_out_l; lra.
      * intros x Hx. apply hc_out_r; lra.
Qed.

(** ** Unequal radii: the angle phi of the source (between the two radii that
    meet in an intersection point) *)
Lemma overlap_unequal eta d phi : 0 < eta < 1 -> 0 < d -> 0 <= phi < PI ->
  d * d = 1 + eta * eta - 2 * eta * cos phi ->
  disc_overlap 1 eta d
  = (1 - eta * eta) * atan ((1 + eta) * tan (phi / 2) / (1 - eta))
    - (1 + eta * eta) / 2 * phi + PI * (eta * eta) - eta * sin phi.
Proof.
  intros He Hd Hphi Ed.
  assert (PI0 := PI_RGT_0).
  set (c := cos (phi / 2)). set (s := sin (phi / 2)).
  assert (Hc : 0 < c) by (unfold c; apply cos_gt_0; lra).
  assert (Hs : 0 <= s) by (unfold s; apply sin_ge_0; lra).
  assert (S1 : s * s + c * c = 1) by (generalize (sin2_cos2 (phi / 2)); unfold Rsqr, s, c; lra).
  assert (Cp : cos phi = c * c - s * s).
  { replace phi with (2 * (phi / 2)) by lra. rewrite cos_2a. reflexivity. }
  assert (Sp : sin phi = 2 * s * c).
  { replace phi with (2 * (phi / 2)) by lra. rewrite sin_2a. reflexivity. }
  set (T := (1 + eta) * tan (phi / 2) / (1 - eta)).
  set (A := atan T - phi / 2).
  assert (Ht : tan (phi / 2) = s / c) by reflexivity.
  set (cA := (1 - eta * cos phi) / d). set (sA := eta * sin phi / d).
  (* cos and sin of atan T, up to the positive factor w *)
  set (w := sqrt (1 + T * T)).
  assert (Hw : 0 < w) by (apply sqrt_lt_R0; nra).
  assert (cT : cos (atan T) = / w) by (rewrite cos_atan; unfold Rsqr; fold w; unfold Rdiv; lra).
  assert (sT : sin (atan T) = T / w) by (rewrite sin_atan; unfold Rsqr; reflexivity).
  assert (Tc : T * (c * (1 - eta)) = s * (1 + eta)).
  { unfold T. rewrite Ht. field. split; lra. }
  assert (W2 : w * (c * (1 - eta)) = d).
  { apply Rsqr_inj.
    - apply Rmult_le_pos; [lra|]. apply Rmult_le_pos; lra.
    - lra.
    - unfold Rsqr. rewrite Ed, Cp.
      assert (WW : w * w = 1 + T * T) by (apply sqrt_sqrt; nra).
      replace (w * (c * (1 - eta)) * (w * (c * (1 - eta))))
        with (w * w * (c * (1 - eta)) * (c * (1 - eta))) by ring.
      rewrite WW.
      replace ((1 + T * T) * (c * (1 - eta)) * (c * (1 - eta)))
        with ((c * (1 - eta)) * (c * (1 - eta)) + (T * (c * (1 - eta))) * (T * (c * (1 - eta)))) by ring.
      rewrite Tc. 
      replace (1 + eta * eta - 2 * eta * (c * c - s * s))
        with ((1 + eta * eta) * (s * s + c * c) - 2 * eta * (c * c - s * s)) by (rewrite S1; ring).
      ring. }
  assert (cT' : cos (atan T) = c * (1 - eta) / d).
  { rewrite cT, <- W2. field. repeat split; lra. }
  assert (sT' : sin (atan T) = s * (1 + eta) / d).
  { rewrite sT, <- W2, <- Tc. field. repeat split; lra. }
  assert (EcA : cos A = cA).
  { unfold A. rewrite cos_minus, cT', sT'. fold c s. unfold cA. rewrite Cp.
    transitivity (((s * s + c * c) - eta * (c * c - s * s)) / d); [field; lra | rewrite S1; reflexivity]. }
  assert (EsA : sin A = sA).
  { unfold A. rewrite sin_minus, cT', sT'. fold c s. unfold sA. rewrite Sp. field. lra. }
  set (B := PI - phi - A).
  assert (EcB : eta * cos B = d - cA).
  { unfold B. replace (PI - phi - A) with (PI - (phi + A)) by ring.
    rewrite Rtrigo_facts.cos_pi_minus, cos_plus, EcA, EsA. unfold cA, sA.
    apply Rmult_eq_reg_r with d; [|lra].
    replace ((d - (1 - eta * cos phi) / d) * d) with (d * d - (1 - eta * cos phi)) by (field; lra).
    rewrite Ed. generalize (sin2_cos2 phi). unfold Rsqr. intros SC.
    transitivity (eta * eta * (sin phi * sin phi + cos phi * cos phi) - eta * cos phi);
      [field; lra | rewrite SC; ring]. }
  assert (EsB : eta * sin B = sA).
  { unfold B. replace (PI - phi - A) with (PI - (phi + A)) by ring.
    rewrite Rtrigo_facts.sin_pi_minus, sin_plus, EcA, EsA. unfold cA, sA. field. lra. }
  assert (T0 : 0 <= T).
  { unfold T. rewrite Ht. apply Rmult_le_pos; [|left; apply Rinv_0_lt_compat; lra].
    apply Rmult_le_pos; [lra|]. apply Rmult_le_pos; [lra|]. left; apply Rinv_0_lt_compat; lra. }
  assert (AT : phi / 2 <= atan T < PI / 2).
  { split; [|apply atan_bound].
    rewrite <- (atan_tan (phi / 2)) by lra.
    destruct (Rle_lt_or_eq_dec 0 (tan (phi / 2))) as [P | Z].
    - rewrite Ht. apply Rmult_le_pos; [lra|]. left; apply Rinv_0_lt_compat; lra.
    - left. apply atan_increasing. unfold T.
      apply Rmult_lt_reg_r with (1 - eta); [lra|].
      unfold Rdiv. rewrite (Rmult_assoc _ (/ (1 - eta))), Rinv_l by lra. nra.
    - right. f_equal. unfold T. rewrite <- Z. field. lra. }
  assert (HA : 0 <= A <= PI) by (unfold A; lra).
  assert (HB : 0 <= B <= PI) by (unfold B, A; lra).
  rewrite (overlap_lens 1 eta d A B); try lra.
  - replace (eta * eta * (B - sin B * cos B))
      with (eta * eta * B - (eta * sin B) * (eta * cos B)) by ring.
    rewrite EsB, EcB, EsA, EcA. unfold B, A, sA. field. lra.
Qed.

(* the two boundary positions *)
Lemma overlap_unequal_pi eta : 0 < eta < 1 -> disc_overlap 1 eta (1 + eta) = 0.
Proof. intros H. apply overlap_disjoint; lra. Qed.
