(** * Proof_F64Aper2: moduli of continuity of the terms of circular_aperture_OTF *)
From Coq Require Import Reals Lra Psatz.
From Coquelicot Require Import Coquelicot.
From Verif Require Import Base_XR Base_Int Model_Geo Model_Otf Spec_Otf Proof_Lens Proof_Aper.
Open Scope R_scope.

(** ** arccos *)
Lemma sin_half t : 0 <= t <= PI / 2 -> t / 2 <= sin t.
Proof.
  intros [A B]. generalize PI_RGT_0 PI_4. intros P P4.
  destruct (sin_bound t 0 A ltac:(lra)) as [S _].
  replace (sin_approx t (2 * 0 + 1)) with (t - t * t * t / 6) in S.
  2:{ unfold sin_approx, sum_f_R0, sin_term. simpl. field. }
  assert (t <= 1.7 \/ 1.7 < t) as [C|C] by lra.
  - assert (t * t <= 1.7 * 1.7) by (apply Rmult_le_compat; lra).
    assert (t * t * t <= 2.89 * t) by (apply Rmult_le_compat_r; lra). lra.
  - assert (T2 : t <= 2) by lra. assert (sin (PI / 2) * 1 = 1) by (rewrite sin_PI2; lra).
    assert (sin t = cos (PI / 2 - t)) by (rewrite cos_shift; reflexivity).
    assert (t - t * t * t / 6 <= sin t) by exact S.
    (* decreasing cubic on [1.7, 2]: split *)
    assert (G : 1 - (PI / 2 - t) * (PI / 2 - t) / 2 <= cos (PI / 2 - t)).
    { destruct (cos_bound (PI / 2 - t) 0) as [G _]; try lra.
      replace (cos_approx (PI / 2 - t) (2 * 0 + 1)) with (1 - (PI / 2 - t) * (PI / 2 - t) / 2) in G.
      2:{ unfold cos_approx, sum_f_R0, cos_term. simpl. field. } exact G. }
    assert (0 <= PI / 2 - t <= 0.3) by lra.
    assert ((PI / 2 - t) * (PI / 2 - t) <= 0.3 * 0.3) by (apply Rmult_le_compat; lra).
    (* t <= PI/2 <= 2 gives t/2 <= 1; need 1 - 0.045 >= t / 2 *)
    assert (t <= 1.91 \/ 1.91 < t) as [D|D] by lra; [lra|].
    assert (0 <= PI / 2 - t <= 0.09) by lra.
    assert ((PI / 2 - t) * (PI / 2 - t) <= 0.09 * 0.09) by (apply Rmult_le_compat; lra).
    assert (PI / 2 <= 1.9) by (generalize PI_ineq; intros Q; destruct (Q 1%nat) as [_ Q1];
      unfold tg_alt, PI_tg, sum_f_R0 in Q1; simpl in Q1; lra). lra.
Qed.
Lemma acos_gap a b : -1 <= a -> a <= b -> b <= 1 -> 0 <= acos a - acos b <= 3 * sqrt (b - a).
Proof.
  intros A B C. generalize (acos_le a b A B C) (acos_bound a) (acos_bound b) PI_RGT_0. intros L Ba Bb P. split; [lra|].
  set (al := acos a) in *. set (be := acos b) in *.
  assert (E : b - a = 2 * sin ((al - be) / 2) * sin ((al + be) / 2)).
  { replace (b - a) with (cos be - cos al) by (unfold al, be; rewrite !cos_acos by lra; ring).
    rewrite form2. replace ((be - al) / 2) with (- ((al - be) / 2)) by field. rewrite sin_neg.
    replace ((be + al) / 2) with ((al + be) / 2) by field. ring. }
  set (d := (al - be) / 2) in *. assert (D0 : 0 <= d <= PI / 2) by (unfold d; lra).
  assert (S : sin d <= sin ((al + be) / 2)).
  { destruct (Rle_lt_dec ((al + be) / 2) (PI / 2)) as [Q|Q].
    - destruct (Rle_lt_or_eq_dec d ((al + be) / 2) ltac:(unfold d; lra)) as [Q'|Q']; [|rewrite <- Q'; lra].
      left. apply sin_increasing_1; unfold d in *; lra.
    - rewrite <- (sin_PI_x ((al + be) / 2)).
      destruct (Rle_lt_or_eq_dec d (PI - (al + be) / 2) ltac:(unfold d; lra)) as [Q'|Q']; [|rewrite <- Q'; lra].
      left. apply sin_increasing_1; unfold d in *; lra. }
  generalize (sin_half d D0). intros H.
  assert (G : d * d / 2 <= b - a).
  { rewrite E. assert (d / 2 * (d / 2) <= sin d * sin ((al + be) / 2)) by (apply Rmult_le_compat; lra). lra. }
  assert (K : al - be = 2 * d) by (unfold d; field). rewrite K.
  apply Rsqr_incr_0_var; [|generalize (sqrt_pos (b - a)); lra]. unfold Rsqr.
  replace (3 * sqrt (b - a) * (3 * sqrt (b - a))) with (9 * (sqrt (b - a) * sqrt (b - a))) by ring.
  rewrite sqrt_sqrt by lra. lra.
Qed.
Definition clip (a : R) : R := Rmax (-1) (Rmin a 1).
Lemma acos_clip a : acos a = acos (clip a).
Proof.
  unfold clip. destruct (Rle_dec a (-1)) as [A|A].
  - rewrite Rmin_left, Rmax_left by lra. unfold acos.
    destruct (Rle_dec a (-1)); [|contradiction]. destruct (Rle_dec (-1) (-1)); [reflexivity|lra].
  - destruct (Rle_dec 1 a) as [B|B].
    + rewrite Rmin_right, Rmax_right by lra. rewrite acos_1. unfold acos.
      destruct (Rle_dec a (-1)); [lra|]. destruct (Rle_dec 1 a); [reflexivity|contradiction].
    + rewrite Rmin_left, Rmax_right by lra. reflexivity.
Qed.
Lemma clip_in a : -1 <= clip a <= 1.
Proof. unfold clip. split; [apply Rmax_l|apply Rmax_lub; [lra|apply Rmin_r]]. Qed.
Lemma clip_mono a b : a <= b -> clip a <= clip b /\ clip b - clip a <= b - a.
Proof. intros H. unfold clip, Rmax, Rmin. repeat destruct (Rle_dec _ _); lra. Qed.
Lemma acos_holder1 a b : a <= b -> Rabs (acos a - acos b) <= 3 * sqrt (b - a).
Proof.
  intros H. rewrite (acos_clip a), (acos_clip b). destruct (clip_mono a b H) as [M G].
  generalize (clip_in a) (clip_in b). intros A B.
  generalize (acos_gap (clip a) (clip b) ltac:(lra) M ltac:(lra)). intros [L U]. rewrite Rabs_pos_eq by lra.
  apply Rle_trans with (1 := U). apply Rmult_le_compat_l; [lra|]. apply sqrt_le_1_alt. exact G.
Qed.
Lemma acos_holder a b d : Rabs (a - b) <= d -> Rabs (acos a - acos b) <= 3 * sqrt d.
Proof.
  intros H. assert (G : forall t, t <= d -> 3 * sqrt t <= 3 * sqrt d).
  { intros t T. apply Rmult_le_compat_l; [lra|]. apply sqrt_le_1_alt. exact T. }
  apply Rabs_le_between in H. destruct (Rle_lt_dec a b) as [L|L].
  - eapply Rle_trans; [apply acos_holder1; exact L|]. apply G. lra.
  - rewrite Rabs_minus_sym. eapply Rle_trans; [apply acos_holder1; lra|]. apply G. lra.
Qed.

(** ** the overlap of equal discs *)
Lemma acos_ge1 x : 1 <= x -> acos x = 0.
Proof. intros H. unfold acos. destruct (Rle_dec x (-1)); [lra|]. destruct (Rle_dec 1 x); [reflexivity|contradiction]. Qed.
Lemma lens1_acos z : 0 <= z -> lens1 z = acos z - sin (2 * acos z) / 2.
Proof.
  intros Z. destruct (Rle_lt_dec z 1) as [L|L].
  - unfold lens1. destruct (Rle_dec z 1); [|contradiction]. rewrite sin_2a, cos_acos, sin_acos by lra. unfold Rsqr. lra.
  - rewrite lens1_out, acos_ge1 by lra. rewrite Rmult_0_r, sin_0. lra.
Qed.
Lemma sin_lip a b : Rabs (sin a - sin b) <= Rabs (a - b).
Proof.
  rewrite form4. rewrite !Rabs_mult, (Rabs_pos_eq 2) by lra.
  generalize (sin_abs_le ((a - b) / 2)) (Rabs_pos (sin ((a - b) / 2))). intros S S0.
  assert (C : Rabs (cos ((a + b) / 2)) <= 1) by (apply Rabs_le, COS_bound).
  replace (Rabs (a - b)) with (2 * 1 * Rabs ((a - b) / 2)).
  2:{ unfold Rdiv. rewrite Rabs_mult, (Rabs_pos_eq (/ 2)) by lra. field. }
  apply Rmult_le_compat; [|exact S0| |exact S]; [apply Rmult_le_pos; [lra|apply Rabs_pos]|apply Rmult_le_compat_l; lra].
Qed.
Lemma lens1_holder x y d : 0 <= x -> 0 <= y -> Rabs (x - y) <= d -> Rabs (lens1 x - lens1 y) <= 6 * sqrt d.
Proof.
  intros X Y D. rewrite !lens1_acos by assumption. generalize (acos_holder x y d D). intros H.
  generalize (sin_lip (2 * acos x) (2 * acos y)). intros S.
  replace (2 * acos x - 2 * acos y) with (2 * (acos x - acos y)) in S by ring.
  rewrite Rabs_mult, (Rabs_pos_eq 2) in S by lra.
  set (p := acos x) in *. set (q := acos y) in *. set (s := sin (2 * p)) in *. set (t := sin (2 * q)) in *.
  replace (p - s / 2 - (q - t / 2)) with ((p - q) + - ((s - t) / 2)) by field.
  eapply Rle_trans; [apply Rabs_triang|]. rewrite Rabs_Ropp. unfold Rdiv. rewrite Rabs_mult, (Rabs_pos_eq (/ 2)) by lra. lra.
Qed.

(** ** the cross term as a function of the angle *)
Definition ring_angle (e p : R) : R :=
  2 * e * sin p / PI + 2 * (e * e) * p / PI - 2 * (e * e) - 2 * (1 - e * e) / PI * atan (e * sin p / (1 - e * cos p)).
Lemma ring_0 e : ring_angle e 0 = - (2 * (e * e)).
Proof. unfold ring_angle. rewrite sin_0. replace (e * 0 / (1 - e * cos 0)) with 0 by (unfold Rdiv; ring). rewrite atan_0. field. apply PI_neq0. Qed.
Lemma ring_pi e : ring_angle e PI = 0.
Proof.
  unfold ring_angle. rewrite sin_PI. replace (e * 0 / (1 - e * cos PI)) with 0 by (unfold Rdiv; ring). rewrite atan_0.
  field. apply PI_neq0.
Qed.
Lemma half_angle e p : 0 < e < 1 -> 0 <= p < PI ->
  atan ((1 + e) * tan (p / 2) / (1 - e)) = p / 2 + atan (e * sin p / (1 - e * cos p)).
Proof.
  intros E P. generalize PI_RGT_0. intros P0.
  set (t := tan (p / 2)). assert (C0 : 0 < cos (p / 2)) by (apply cos_gt_0; lra).
  assert (S0 : 0 <= sin (p / 2)) by (apply sin_ge_0; lra).
  assert (T0 : 0 <= t) by (unfold t, tan, Rdiv; apply Rmult_le_pos; [exact S0|left; apply Rinv_0_lt_compat; exact C0]).
  assert (TT : p / 2 = atan t) by (unfold t; symmetry; apply atan_tan; lra).
  assert (CS : sin (p / 2) = t * cos (p / 2)) by (unfold t, tan; field; lra).
  assert (One : cos (p / 2) * cos (p / 2) * (1 + t * t) = 1).
  { generalize (sin2_cos2 (p / 2)). unfold Rsqr. rewrite CS. lra. }
  assert (Q : 0 < 1 + t * t) by nra.
  assert (sp : sin p = 2 * t / (1 + t * t)).
  { replace p with (2 * (p / 2)) at 1 by field. rewrite sin_2a, CS. apply Rmult_eq_reg_r with (1 + t * t); [|lra].
    replace (2 * t / (1 + t * t) * (1 + t * t)) with (2 * t) by (field; lra).
    replace (2 * (t * cos (p / 2)) * cos (p / 2) * (1 + t * t)) with (2 * t * (cos (p / 2) * cos (p / 2) * (1 + t * t))) by ring.
    rewrite One. ring. }
  assert (cp : cos p = (1 - t * t) / (1 + t * t)).
  { replace p with (2 * (p / 2)) at 1 by field. rewrite cos_2a, CS. apply Rmult_eq_reg_r with (1 + t * t); [|lra].
    replace ((1 - t * t) / (1 + t * t) * (1 + t * t)) with (1 - t * t) by (field; lra).
    replace ((cos (p / 2) * cos (p / 2) - t * cos (p / 2) * (t * cos (p / 2))) * (1 + t * t))
      with ((1 - t * t) * (cos (p / 2) * cos (p / 2) * (1 + t * t))) by ring.
    rewrite One. ring. }
  set (k := (1 + e) * t / (1 - e)). assert (K0 : 0 <= k).
  { unfold k, Rdiv. apply Rmult_le_pos; [apply Rmult_le_pos; lra|left; apply Rinv_0_lt_compat; lra]. }
  assert (Kt : 0 < 1 + k * t) by nra.
  assert (Z : atan_sub k t = e * sin p / (1 - e * cos p)).
  { unfold atan_sub, k. rewrite sp, cp. assert (0 < e * (t * t) + (t * t) - e + 1) by nra. field. repeat split; try lra; try nra. }
  rewrite <- Z, TT. apply atan_sub_correct; [lra| |].
  - generalize (atan_bound k) (atan_bound t). assert (0 <= atan k) by (rewrite <- atan_0; destruct (Rle_lt_or_eq_dec 0 k K0) as [H|H]; [left; apply atan_increasing; exact H|rewrite <- H; lra]).
    assert (0 <= atan t) by (rewrite <- TT; lra). intros. lra.
  - generalize (atan_bound (atan_sub k t)). lra.
Qed.
Lemma ring_code e p : 0 < e < 1 -> 0 <= p < PI ->
  2 * e * sin p / PI + (1 + e * e) * p / PI - 2 * (e * e) - 2 * (1 - e * e) / PI * atan ((1 + e) * tan (p / 2) / (1 - e)) = ring_angle e p.
Proof. intros E P. rewrite half_angle by assumption. unfold ring_angle. field. apply PI_neq0. Qed.

(** ** Lipschitz bound *)
Lemma den_pos e c : 0 < e < 1 -> -1 <= c <= 1 -> 0 < 1 - e * c.
Proof. intros. nra. Qed.
Definition ring_slope (e p : R) : R :=
  2 * e * cos p / PI + 2 * (e * e) / PI - 2 * (1 - e * e) / PI * (e * (cos p - e) / (1 + e * e - 2 * e * cos p)).
Lemma ring_derive e p : 0 < e < 1 -> is_derive (ring_angle e) p (ring_slope e p).
Proof.
  intros E. generalize (COS_bound p) (sin2_cos2 p) PI_RGT_0. unfold Rsqr. intros C SC P.
  generalize (den_pos e (cos p) E C). intros D. unfold ring_angle.
  assert (N : 1 + e * e - 2 * e * cos p = (1 - e * cos p) * (1 - e * cos p) + (e * sin p) * (e * sin p)) by (nra).
  assert (N0 : 0 < 1 + e * e - 2 * e * cos p) by (rewrite N; nra).
  auto_derive; [lra|]. unfold ring_slope.
  set (s := sin p) in *. set (c := cos p) in *.
  replace (2 * e * (1 * c) * / PI + 2 * (e * e) * 1 * / PI) with (2 * e * c / PI + 2 * (e * e) / PI) by (unfold Rdiv; ring).
  assert (Z : forall a b x y, x = y -> a + - (b * x) = a - b * y) by (intros; subst; ring). apply Z. clear Z.
  replace (e * (c - e)) with (e * c * (1 - e * c) - (e * s) * (e * s)).
  2:{ replace (e * s * (e * s)) with (e * e * (s * s)) by ring. replace (s * s) with (1 - c * c) by lra. ring. }
  rewrite N. rewrite N in N0. field. split; [|lra]. apply Rgt_not_eq. eapply Rlt_le_trans; [exact N0|right; ring].
Qed.
Lemma slope_bound e c : 0 < e < 1 -> -1 <= c <= 1 ->
  - 2 <= (1 - e * e) * (e * (c - e) / (1 + e * e - 2 * e * c)) <= 2.
Proof.
  intros E C. assert (N : 0 < 1 + e * e - 2 * e * c \/ (1 - e) * (1 - e) <= 0) by (left; nra).
  assert (N0 : 0 < 1 + e * e - 2 * e * c) by nra.
  assert (A : (1 - e * e) * (e * (c - e)) <= 2 * (1 + e * e - 2 * e * c)).
  { replace (1 - e * e) with ((1 - e) * (1 + e)) by ring.
    assert (H1 : (1 + c) * ((1 - e) * (1 - e) * (2 - e * (1 + e))) >= 0).
    { apply Rle_ge. apply Rmult_le_pos; [lra|]. apply Rmult_le_pos; nra. }
    assert (H2 : (1 - c) * ((1 + e) * (1 + e) * (2 + e * (1 - e))) >= 0).
    { apply Rle_ge. apply Rmult_le_pos; [lra|]. apply Rmult_le_pos; nra. }
    lra. }
  assert (B : - (2 * (1 + e * e - 2 * e * c)) <= (1 - e * e) * (e * (c - e))).
  { replace (1 - e * e) with ((1 - e) * (1 + e)) by ring.
    assert (H1 : (1 + c) * ((1 - e) * (1 - e) * (2 + e * (1 + e))) >= 0).
    { apply Rle_ge. apply Rmult_le_pos; [lra|]. apply Rmult_le_pos; nra. }
    assert (H2 : (1 - c) * ((1 + e) * (1 + e) * (2 - e * (1 - e))) >= 0).
    { apply Rle_ge. apply Rmult_le_pos; [lra|]. apply Rmult_le_pos; nra. }
    lra. }
  set (n := 1 + e * e - 2 * e * c) in *.
  replace ((1 - e * e) * (e * (c - e) / n)) with ((1 - e * e) * (e * (c - e)) / n) by (field; lra).
  split; [apply Rle_div_r|apply Rle_div_l]; lra.
Qed.
Lemma slope_lip e p : 0 < e < 1 -> Rabs (ring_slope e p) <= 3.
Proof.
  intros E. unfold ring_slope. generalize (COS_bound p). intros C. generalize (slope_bound e (cos p) E C). intros S.
  set (c := cos p) in *. set (w := (1 - e * e) * (e * (c - e) / (1 + e * e - 2 * e * c))) in *.
  assert (P3 : 3 <= PI) by (generalize PI2_3_2; lra). generalize PI_RGT_0. intros P.
  replace (2 * e * c / PI + 2 * (e * e) / PI - 2 * (1 - e * e) / PI * (e * (c - e) / (1 + e * e - 2 * e * c)))
    with ((2 * (e * c) + 2 * (e * e) - 2 * w) * / PI) by (unfold w, Rdiv; ring).
  rewrite Rabs_mult, (Rabs_pos_eq (/ PI)) by (left; apply Rinv_0_lt_compat; exact P).
  apply Rle_trans with (9 * / 3); [|lra].
  apply Rmult_le_compat; [apply Rabs_pos|left; apply Rinv_0_lt_compat; exact P| |apply Rinv_le_contravar; lra].
  assert (-1 <= e * c <= 1) by nra. assert (0 <= e * e <= 1) by nra. apply Rabs_le. lra.
Qed.
Lemma ring_lip e p q : 0 < e < 1 -> Rabs (ring_angle e p - ring_angle e q) <= 3 * Rabs (p - q).
Proof.
  intros E. destruct (MVT_gen (ring_angle e) q p (ring_slope e)) as (c & _ & H).
  - intros x _. apply ring_derive. exact E.
  - intros x _. apply continuity_pt_filterlim. apply (ex_derive_continuous (ring_angle e) x). exists (ring_slope e x). apply ring_derive. exact E.
  - rewrite H, Rabs_mult. apply Rmult_le_compat_r; [apply Rabs_pos|]. apply slope_lip. exact E.
Qed.

(** ** the exact value *)
(* the argument of arccos, d the shift in units of the pupil radius *)
Definition ring_cos (e d : R) : R := (1 + e * e - d * d) / 2 / e.
Lemma cross_exact e d : 0 < e < 1 -> 0 <= d -> - (2 / PI) * disc_overlap 1 e d = ring_angle e (acos (ring_cos e d)).
Proof.
  intros E D. generalize PI_RGT_0. intros P. set (q := ring_cos e d).
  assert (Eq : d * d = 1 + e * e - 2 * e * q) by (unfold q, ring_cos; field; lra).
  destruct (Rle_lt_dec d (1 - e)) as [I|I].
  - assert (1 <= q) by nra. rewrite acos_ge1, ring_0, overlap_inside by lra. field. lra.
  - destruct (Rle_lt_dec (1 + e) d) as [O|O].
    + assert (q <= -1) by nra. rewrite overlap_disjoint by lra.
      replace (acos q) with PI by (unfold acos; destruct (Rle_dec q (-1)); [reflexivity|contradiction]). rewrite ring_pi. lra.
    + assert (Q : -1 < q < 1) by (split; nra). generalize (acos_bound_lt q Q). intros B.
      rewrite (overlap_unequal e d (acos q)); try lra.
      * rewrite <- ring_code by lra. field. lra.
      * rewrite cos_acos by lra. exact Eq.
Qed.
Lemma exact_value k u v l D e : 0 < l -> 0 < D -> 0 < e < 1 ->
  circular_aperture_OTF k u v l D e = Ok (Fin ((2 / PI * lens1 (xarg u v l D) + 2 * (e * e) / PI * lens1 (xarg u v l D / e)
    + ring_angle e (acos (ring_cos e (2 * xarg u v l D)))) / (1 - e * e))).
Proof.
  intros L A E. rewrite circ_annulus by assumption. do 2 f_equal. generalize PI_RGT_0 (xarg_nonneg u v l D L A). intros P X.
  rewrite <- cross_exact by lra. rewrite annulus_incl_excl by lra. rewrite shift_xarg by lra.
  rewrite !lens1_overlap by lra. replace (2 * xarg u v l D / (2 * 1)) with (xarg u v l D) by field.
  replace (2 * xarg u v l D / (2 * e)) with (xarg u v l D / e) by (field; lra). field. nra.
Qed.
