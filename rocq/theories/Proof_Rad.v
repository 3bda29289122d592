(** * Proof_Rad: radiometry lemmas *)
From Coq Require Import Reals Lra List Lia ZArith Sorted Psatz.
From Verif Require Import Base_XR Base_Np Base_NpFacts Base_Interp Model_Noise Model_Sensor Model_Rad Spec_Rad.
Import ListNotations.
Open Scope R_scope.

Lemma hc_pos : 0 < hc. Proof. unfold hc; lra. Qed.
Lemma cc_pos : 0 < cc. Proof. unfold cc; lra. Qed.
Lemma kc_pos : 0 < kc. Proof. unfold kc; lra. Qed.
#[export] Hint Resolve hc_pos cc_pos kc_pos : core.
Lemma hc_spec : h_planck = hc. Proof. reflexivity. Qed.
Lemma cc_spec : c_light = cc. Proof. reflexivity. Qed.
Lemma kc_spec : k_boltz = kc. Proof. reflexivity. Qed.

(** ** Blackbody *)
Lemma exp_m1_pos x : 0 < x -> 0 < exp x - 1.
Proof. intros H. pose proof (exp_ineq1 x ltac:(lra)). lra. Qed.
Lemma exp_m1_nz x : x <> 0 -> exp x - 1 <> 0.
Proof. intros H E. apply H. apply exp_inv. rewrite exp_0. lra. Qed.

Lemma bb_fin lam T : lam <> 0 -> blackbody_radiance1 lam T = Fin (planck lam T).
Proof.
  intros Hl. unfold blackbody_radiance1, planck.
  rewrite hc_spec, cc_spec, kc_spec.
  assert (H5 : lam ^ 5 <> 0) by now apply pow_nonzero.
  rewrite (xdiv_fin _ (lam ^ 5)) by auto.
  pose proof hc_pos; pose proof cc_pos; pose proof kc_pos.
  destruct (Req_EM_T T 0) as [->|NT].
  - replace (lam * kc * 0) with 0 by ring.
    rewrite xdiv_zero_pos by now apply Rmult_lt_0_compat. simpl. f_equal. ring.
  - assert (Hd : lam * kc * T <> 0).
    { apply Rmult_integral_contrapositive. split; auto. apply Rmult_integral_contrapositive. split; auto. lra. }
    rewrite xdiv_fin by auto. rewrite xexp_fin, xsub_fin.
    assert (Hx : hc * cc / (lam * kc * T) <> 0).
    { unfold Rdiv. apply Rmult_integral_contrapositive. split; [|now apply Rinv_neq_0_compat].
      apply Rgt_not_eq. now apply Rmult_lt_0_compat. }
    pose proof (exp_m1_nz _ Hx). rewrite xdiv_fin by auto. rewrite xmul_fin. f_equal. field. auto.
Qed.

Lemma planck_pos lam T : 0 < lam -> 0 < T -> 0 < planck lam T.
Proof.
  intros Hl HT. unfold planck. destruct (Req_EM_T T 0); [lra|].
  pose proof hc_pos; pose proof cc_pos; pose proof kc_pos. rewrite hc_spec, cc_spec, kc_spec.
  assert (0 < lam * kc * T) by (apply Rmult_lt_0_compat; auto; apply Rmult_lt_0_compat; auto).
  assert (0 < hc * cc / (lam * kc * T)) by (apply Rdiv_lt_0_compat; auto; apply Rmult_lt_0_compat; auto).
  apply Rdiv_lt_0_compat; [|now apply exp_m1_pos].
  apply Rdiv_lt_0_compat; [|apply pow_lt; auto].
  apply Rmult_lt_0_compat; [lra|apply pow_lt; auto].
Qed.
Lemma planck_zero lam : planck lam 0 = 0.
Proof. unfold planck. destruct (Req_EM_T 0 0); lra. Qed.
Lemma planck_nonneg lam T : 0 < lam -> 0 <= T -> 0 <= planck lam T.
Proof.
  intros Hl [HT| <-]; [left; now apply planck_pos|rewrite planck_zero; lra].
Qed.
Lemma planck_mono lam T1 T2 : 0 < lam -> 0 <= T1 -> T1 < T2 -> planck lam T1 < planck lam T2.
Proof.
  intros Hl H1 H2. destruct H1 as [H1| <-]; [|rewrite planck_zero; apply planck_pos; lra].
  unfold planck. destruct (Req_EM_T T1 0); [lra|]. destruct (Req_EM_T T2 0); [lra|].
  rewrite hc_spec, cc_spec, kc_spec. pose proof hc_pos; pose proof cc_pos; pose proof kc_pos.
  assert (Hlk : 0 < lam * kc) by (apply Rmult_lt_0_compat; auto).
  assert (P1 : 0 < lam * kc * T1) by (apply Rmult_lt_0_compat; auto).
  assert (P2 : 0 < lam * kc * T2) by (apply Rmult_lt_0_compat; lra).
  assert (Hhc : 0 < hc * cc) by (apply Rmult_lt_0_compat; auto).
  assert (X : hc * cc / (lam * kc * T2) < hc * cc / (lam * kc * T1)).
  { apply Rmult_lt_compat_l; auto. apply Rinv_lt_contravar; [apply Rmult_lt_0_compat; auto|].
    apply Rmult_lt_compat_l; auto. }
  assert (X2 : 0 < hc * cc / (lam * kc * T2)) by (apply Rdiv_lt_0_compat; auto).
  apply exp_increasing in X. pose proof (exp_m1_pos _ X2).
  apply Rmult_lt_compat_l.
  - apply Rdiv_lt_0_compat; [|apply pow_lt; auto]. apply Rmult_lt_0_compat; [lra|apply pow_lt; auto].
  - apply Rinv_lt_contravar; [apply Rmult_lt_0_compat; lra|lra].
Qed.

Lemma planck_wien lam T k : lam <> 0 -> 0 < k -> planck (lam / k) (k * T) = k ^ 5 * planck lam T.
Proof.
  intros Hl Hk. unfold planck. destruct (Req_EM_T (k * T) 0) as [E|E]; destruct (Req_EM_T T 0) as [F|F].
  - ring.
  - apply Rmult_integral in E. lra.
  - subst. lra.
  - rewrite kc_spec. pose proof kc_pos.
    replace (lam / k * kc * (k * T)) with (lam * kc * T) by (field; lra).
    assert (Hx : h_planck * c_light / (lam * kc * T) <> 0).
    { rewrite hc_spec, cc_spec. unfold Rdiv. apply Rmult_integral_contrapositive. split.
      - apply Rgt_not_eq. now apply Rmult_lt_0_compat.
      - apply Rinv_neq_0_compat. apply Rmult_integral_contrapositive. split; auto.
        apply Rmult_integral_contrapositive. split; lra. }
    pose proof (exp_m1_nz _ Hx). field. repeat split; auto; lra.
Qed.

Lemma planck_rayleigh_jeans lam T : 0 < lam -> 0 < T ->
  planck lam T <= 2 * c_light * k_boltz * T / lam ^ 4.
Proof.
  intros Hl HT. unfold planck. destruct (Req_EM_T T 0); [lra|].
  rewrite hc_spec, cc_spec, kc_spec. pose proof hc_pos; pose proof cc_pos; pose proof kc_pos.
  set (x := hc * cc / (lam * kc * T)).
  assert (P : 0 < lam * kc * T) by (apply Rmult_lt_0_compat; auto; apply Rmult_lt_0_compat; auto).
  assert (Hx : 0 < x) by (apply Rdiv_lt_0_compat; auto; apply Rmult_lt_0_compat; auto).
  pose proof (exp_ineq1 x ltac:(lra)) as E.
  apply Rle_trans with (2 * hc * cc ^ 2 / lam ^ 5 / x).
  - apply Rmult_le_compat_l.
    + left. apply Rdiv_lt_0_compat; [|apply pow_lt; auto]. apply Rmult_lt_0_compat; [lra|apply pow_lt; auto].
    + apply Rinv_le_contravar; lra.
  - right. unfold x. field. repeat split; lra.
Qed.

(** ** Irradiance *)
Lemma four_sq_pos q : 0 < 1 + 4 * (q * q).
Proof. pose proof (Rle_0_sqr q). unfold Rsqr in *. lra. Qed.
Lemma cone_eq D f : PI / (1 + 4 * (f / D * (f / D))) = cone D f.
Proof. unfold cone. f_equal. f_equal. f_equal. ring. Qed.
Lemma cone_pos D f : 0 < cone D f.
Proof. rewrite <- cone_eq. apply Rdiv_lt_0_compat; [apply PI_RGT_0|apply four_sq_pos]. Qed.
Lemma cone_le_pi D f : cone D f <= PI.
Proof.
  rewrite <- cone_eq. pose proof (four_sq_pos (f / D)) as H. pose proof PI_RGT_0.
  pose proof (Rle_0_sqr (f / D)). unfold Rsqr in *.
  apply Rmult_le_reg_r with (1 + 4 * (f / D * (f / D))); auto.
  unfold Rdiv at 1. rewrite Rmult_assoc, Rinv_l by lra. nra.
Qed.

Lemma afpi_zero f L : at_focal_plane_irradiance 0 f L = Err ZeroDivisionError.
Proof. unfold at_focal_plane_irradiance. now rewrite pydiv_zero. Qed.
Lemma afpi_gen D f L : D <> 0 ->
  at_focal_plane_irradiance D f L
  = Ok (map (fun l => xdiv (xmul l (Fin PI)) (Fin (1 + 4 * (f / D * (f / D))))) L).
Proof. intros H. unfold at_focal_plane_irradiance. now rewrite pydiv_ok. Qed.
Lemma afpi1 D f r : xdiv (xmul (Fin r) (Fin PI)) (Fin (1 + 4 * (f / D * (f / D)))) = Fin (cone D f * r).
Proof.
  pose proof (four_sq_pos (f / D)). rewrite xmul_fin, xdiv_fin by lra. f_equal.
  rewrite <- cone_eq. unfold Rdiv. ring.
Qed.
Lemma afpi_fin {I} D f (g : I -> R) l : D <> 0 ->
  at_focal_plane_irradiance D f (map (fun i => Fin (g i)) l) = Ok (map (fun i => Fin (cone D f * g i)) l).
Proof.
  intros H. rewrite afpi_gen by auto. rewrite map_map. f_equal. apply map_ext. intros i. apply afpi1.
Qed.

Lemma cone_decr D1 f1 D2 f2 : D1 <> 0 -> D2 <> 0 -> Rabs (f1 / D1) < Rabs (f2 / D2) -> cone D2 f2 < cone D1 f1.
Proof.
  intros H1 H2 H. rewrite <- !cone_eq. pose proof (four_sq_pos (f1 / D1)). pose proof (four_sq_pos (f2 / D2)).
  apply Rmult_lt_compat_l; [apply PI_RGT_0|]. apply Rinv_lt_contravar; [now apply Rmult_lt_0_compat|].
  pose proof (Rsqr_lt_abs_1 _ _ H). unfold Rsqr in *. lra.
Qed.

Lemma bb_list wl T : (forall x, In x wl -> x <> 0) ->
  blackbody_radiance wl T = map (fun l => Fin (planck l T)) wl.
Proof. intros H. apply map_ext_in. intros x Hx. apply bb_fin. auto. Qed.

Lemma shield_fin wl T D f : D <> 0 -> (forall x, In x wl -> x <> 0) ->
  cold_shield_self_emission wl T D f = Ok (map (fun l => Fin ((PI - cone D f) * planck l T)) wl).
Proof.
  intros H Hw. unfold cold_shield_self_emission. rewrite pydiv_ok by auto. cbn [bind].
  rewrite bb_list by auto. rewrite map_map. f_equal. apply map_ext. intros l. simpl. f_equal. f_equal.
  rewrite <- cone_eq. rewrite (Rplus_comm (4 * _) 1). reflexivity.
Qed.
Lemma stop_fin wl T e D f : D <> 0 -> (forall x, In x wl -> x <> 0) ->
  cold_stop_self_emission wl T e D f = Ok (map (fun l => Fin (cone D f * (e * planck l T))) wl).
Proof.
  intros H Hw. unfold cold_stop_self_emission. rewrite bb_list by auto. rewrite map_map. simpl.
  apply (afpi_fin D f (fun l => e * planck l T)). auto.
Qed.
Lemma optics_fin wl T e t D f : D <> 0 -> (forall x, In x wl -> x <> 0) ->
  optics_self_emission wl T e t D f = Ok (map (fun l => Fin (cone D f * (t * e * planck l T))) wl).
Proof.
  intros H Hw. unfold optics_self_emission. rewrite bb_list by auto. rewrite map_map. simpl.
  apply (afpi_fin D f (fun l => t * e * planck l T)). auto.
Qed.

(** ** Trapezoids *)
Lemma trapz_fin y x : length y = length x -> trapz (map Fin y) (map Fin x) = Ok (Fin (trapezoid y x)).
Proof.
  intros H. unfold trapz, xdiff, xmids.
  rewrite bmap2_len.
  2:{ rewrite !map2_length. rewrite <- !map_tl || idtac. destruct y, x; simpl in *; auto; try lia.
      rewrite !map_length. lia. }
  cbn [bind]. f_equal. revert x H. induction y as [|y0 y IH]; intros [|x0 x] H; simpl in H; try lia; [reflexivity|].
  destruct y as [|y1 y]; destruct x as [|x1 x]; simpl in H; try lia; [reflexivity|].
  specialize (IH (x1 :: x) ltac:(simpl; lia)). injection H as H.
  cbn [map tl map2] in *. cbn [map2 map]. unfold xsum in *. cbn [fold_right] in *.
  rewrite IH. rewrite xsub_fin, xadd_fin, xmul_fin, xdiv_fin by lra. rewrite xadd_fin. f_equal.
  simpl. f_equal. lra.
Qed.
Lemma trapz_maps {I} (y x : I -> R) l :
  trapz (map (fun i => Fin (y i)) l) (map Fin (map x l)) = Ok (Fin (trapezoid (map y l) (map x l))).
Proof. rewrite <- (map_map y Fin). apply trapz_fin. now rewrite !map_length. Qed.

Lemma trapezoid_mono {I} (f g : I -> R) x l : (forall i, In i l -> f i <= g i) -> ascending (map x l) ->
  trapezoid (map f l) (map x l) <= trapezoid (map g l) (map x l).
Proof.
  intros H S. induction l as [|i l IH]; simpl; [lra|].
  destruct l as [|j l]; simpl; [lra|]. destruct S as [S0 S].
  assert (trapezoid (map f (j :: l)) (map x (j :: l)) <= trapezoid (map g (j :: l)) (map x (j :: l))).
  { apply IH; auto. intros k Hk. apply H. now right. }
  simpl in H0. pose proof (H i (or_introl eq_refl)). pose proof (H j (or_intror (or_introl eq_refl))).
  assert ((x j - x i) * (f i + f j) <= (x j - x i) * (g i + g j)) by (apply Rmult_le_compat_l; lra). lra.
Qed.
Lemma trapezoid_lin {I} a b (f g h : I -> R) x l : (forall i, In i l -> h i = a * f i + b * g i) ->
  trapezoid (map h l) (map x l) = a * trapezoid (map f l) (map x l) + b * trapezoid (map g l) (map x l).
Proof.
  intros H. induction l as [|i l IH]; simpl; [lra|]. destruct l as [|j l]; simpl; [lra|].
  assert (E : trapezoid (map h (j :: l)) (map x (j :: l)) = a * trapezoid (map f (j :: l)) (map x (j :: l)) + b * trapezoid (map g (j :: l)) (map x (j :: l))).
  { apply IH. intros k Hk. apply H. now right. }
  simpl in E. rewrite E. rewrite (H i) by now left. rewrite (H j) by (right; now left). field.
Qed.
Lemma trapezoid_zero {I} (x : I -> R) l : trapezoid (map (fun _ => 0) l) (map x l) = 0.
Proof.
  induction l as [|i l IH]; simpl; auto. destruct l as [|j l]; simpl in *; auto. rewrite IH. lra.
Qed.
Lemma trapezoid_nonneg {I} (f : I -> R) x l : (forall i, In i l -> 0 <= f i) -> ascending (map x l) ->
  0 <= trapezoid (map f l) (map x l).
Proof. intros H S. rewrite <- (trapezoid_zero x l) at 1. apply trapezoid_mono; auto. Qed.
Lemma trapezoid_ext {I} (f g : I -> R) x l : (forall i, In i l -> f i = g i) ->
  trapezoid (map f l) (map x l) = trapezoid (map g l) (map x l).
Proof. intros H. f_equal. now apply map_ext_in. Qed.

(** ** Detection *)
Lemma pdr_maps {I} (E : I -> R) w_x w_y (x q : I -> R) l :
  photon_detection_rate (map (fun i => Fin (E i)) l) w_x w_y (map x l) (map q l)
  = Ok (map (fun i => Fin (x i / (hc * cc) * q i * w_x * w_y * E i)) l).
Proof.
  unfold photon_detection_rate. rewrite bmap2_maps. cbn [bind]. rewrite bmap2_maps. reflexivity.
Qed.

(* spectral photoelectron rate at one wavelength *)
Definition dN1 D f w_x w_y lam rad t q oth : R :=
  lam / (hc * cc) * q * w_x * w_y * (t * (cone D f * rad) + oth).

Lemma signal_rate_maps {I} (x rad t q oth : I -> R) D f w_x w_y dark l : D <> 0 ->
  signal_rate (map x l) (map (fun i => Fin (rad i)) l) (map t l) D f w_x w_y (map q l)
    (map (fun i => Fin (oth i)) l) dark
  = Ok (Fin (trapezoid (map (fun i => dN1 D f w_x w_y (x i) (rad i) (t i) (q i) (oth i)) l) (map x l) + dark),
        map (fun i => Fin (t i * (cone D f * rad i) + oth i)) l,
        map (fun i => Fin (dN1 D f w_x w_y (x i) (rad i) (t i) (q i) (oth i))) l).
Proof.
  intros H. unfold signal_rate. rewrite afpi_fin by auto. cbn [bind].
  rewrite bmap2_maps. cbn [bind]. rewrite bmap2_maps. cbn [bind].
  change (map (fun i => xadd (xmul (Fin (t i)) (Fin (cone D f * rad i))) (Fin (oth i))) l)
    with (map (fun i => Fin (t i * (cone D f * rad i) + oth i)) l).
  rewrite pdr_maps. cbn [bind]. rewrite trapz_maps. reflexivity.
Qed.

Lemma dN1_mono D f w_x w_y lam r r' t t' q q' o o' :
  0 <= lam -> 0 <= w_x -> 0 <= w_y -> 0 <= r <= r' -> 0 <= t <= t' -> 0 <= q <= q' -> 0 <= o <= o' ->
  0 <= dN1 D f w_x w_y lam r t q o <= dN1 D f w_x w_y lam r' t' q' o'.
Proof.
  intros Hl Hx Hy Hr Ht Hq Ho. unfold dN1. pose proof (cone_pos D f) as C.
  assert (L : 0 <= lam / (hc * cc)).
  { apply Rmult_le_pos; auto. left. apply Rinv_0_lt_compat. apply Rmult_lt_0_compat; auto. }
  assert (A : 0 <= lam / (hc * cc) * q * w_x * w_y).
  { apply Rmult_le_pos; auto. apply Rmult_le_pos; auto. apply Rmult_le_pos; tauto. }
  assert (B : lam / (hc * cc) * q * w_x * w_y <= lam / (hc * cc) * q' * w_x * w_y).
  { apply Rmult_le_compat_r; auto. apply Rmult_le_compat_r; auto. apply Rmult_le_compat_l; lra. }
  assert (K : 0 <= cone D f * r <= cone D f * r').
  { split; [apply Rmult_le_pos; lra|apply Rmult_le_compat_l; lra]. }
  assert (M : 0 <= t * (cone D f * r) + o).
  { assert (0 <= t * (cone D f * r)) by (apply Rmult_le_pos; lra). lra. }
  assert (N : t * (cone D f * r) <= t' * (cone D f * r')) by (apply Rmult_le_compat; lra).
  split; [apply Rmult_le_pos; auto|]. apply Rmult_le_compat; auto. lra.
Qed.

(** ** Total radiance *)
Lemma total_radiance1_fin r T a : a_wl a <> 0 ->
  total_radiance1 r T a
  = Fin (a_path a + (1 - r) * planck (a_wl a) T * a_trans a + a_scat a + a_grnd a * (r / db_reflectance)).
Proof. intros H. unfold total_radiance1. rewrite bb_fin by auto. reflexivity. Qed.
Definition rad1 (r T : R) (a : arow) : R :=
  a_path a + (1 - r) * planck (a_wl a) T * a_trans a + a_scat a + a_grnd a * (r / db_reflectance).
Lemma total_radiance_fin atm r T : (forall a, In a atm -> a_wl a <> 0) ->
  total_radiance atm r T = map (fun a => Fin (rad1 r T a)) atm.
Proof. intros H. apply map_ext_in. intros a Ha. apply total_radiance1_fin. auto. Qed.

(** ** Sensor response curves *)
Definition trans_at (s : sensor) (l : R) : R :=
  s_t_filt s * (1 - s_eta s * s_eta s) * interp_tab l (combine (s_owl s) (s_otr s)) 0 0.
Definition qe_at (s : sensor) (l : R) : R := interp_tab l (combine (s_qwl s) (s_qe s)) 0 0.
Definition other_at (s : sensor) (l : R) : R :=
  (PI - cone (s_D s) (s_f s)) * planck l (s_T_shield s)
  + cone (s_D s) (s_f s) * (s_t_filt s * s_e_opt s * planck l (s_T_opt s))
  + cone (s_D s) (s_f s) * (s_e_filt s * planck l (s_T_filt s)).

Lemma sensor_trans_fin s wl : has_tables s -> sensor_opt_trans s wl = Ok (map (trans_at s) wl).
Proof.
  intros [H1 [H2 _]]. unfold sensor_opt_trans, resample_by_wavelength.
  rewrite interp_table_ok by auto. cbn [bind]. now rewrite map_map.
Qed.
Lemma sensor_qe_fin s wl : has_tables s -> sensor_qe s wl = Ok (map (qe_at s) wl).
Proof.
  intros [_ [_ [H1 H2]]]. unfold sensor_qe, resample_by_wavelength.
  now rewrite interp_table_ok by auto.
Qed.
Lemma sensor_other_fin s wl : s_D s <> 0 -> (forall x, In x wl -> x <> 0) ->
  sensor_other_irradiance s wl = Ok (map (fun l => Fin (other_at s l)) wl).
Proof.
  intros H Hw. unfold sensor_other_irradiance.
  rewrite shield_fin, optics_fin, stop_fin by auto. cbn [bind].
  rewrite bmap2_maps. cbn [bind]. rewrite bmap2_maps. reflexivity.
Qed.

Definition dN_at (s : sensor) (lam rad : R) : R :=
  dN1 (s_D s) (s_f s) (s_wx s) (s_wy s) lam rad (trans_at s lam) (qe_at s lam) (other_at s lam).
Definition self_at (s : sensor) (lam : R) : R :=
  lam / (hc * cc) * qe_at s lam * s_wx s * s_wy s * other_at s lam.

Lemma sensor_rate {I} s (x rad : I -> R) l : s_D s <> 0 ->
  signal_rate (map x l) (map (fun i => Fin (rad i)) l) (map (trans_at s) (map x l)) (s_D s) (s_f s) (s_wx s) (s_wy s)
    (map (qe_at s) (map x l)) (map (fun l => Fin (other_at s l)) (map x l)) (s_dark s)
  = Ok (Fin (trapezoid (map (fun i => dN_at s (x i) (rad i)) l) (map x l) + s_dark s),
        map (fun i => Fin (trans_at s (x i) * (cone (s_D s) (s_f s) * rad i) + other_at s (x i))) l,
        map (fun i => Fin (dN_at s (x i) (rad i))) l).
Proof.
  intros H. rewrite !map_map.
  now rewrite (signal_rate_maps x rad (fun i => trans_at s (x i)) (fun i => qe_at s (x i)) (fun i => other_at s (x i))).
Qed.
