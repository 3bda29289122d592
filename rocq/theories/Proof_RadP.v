(** * Proof_RadP: statements C23-C40 *)
From Coq Require Import Reals Lra List Lia ZArith Sorted Psatz.
From Verif Require Import Base_XR Base_Np Base_NpFacts Base_Interp Model_Noise Model_Sensor Model_Rad Spec_Rad Proof_Rad Proof_Snr Proof_Pe.
Import ListNotations.
Open Scope R_scope.

Lemma nth_map_R {A} (f : A -> R) l i d : (i < length l)%nat -> nth i (map f l) 0 = f (nth i l d).
Proof. intros H. rewrite nth_indep with (d' := f d) by (now rewrite map_length). apply map_nth. Qed.

(** ** C23, C24 *)
Lemma bb_positive lam T : 0 < lam -> 0 < T -> exists b, blackbody_radiance1 lam T = Fin b /\ 0 < b /\ b = planck lam T.
Proof. intros H1 H2. exists (planck lam T). rewrite bb_fin by lra. split; auto. split; auto. now apply planck_pos. Qed.
Lemma bb_increasing lam T1 T2 : 0 < lam -> 0 <= T1 -> T1 < T2 ->
  exists b1 b2, blackbody_radiance1 lam T1 = Fin b1 /\ blackbody_radiance1 lam T2 = Fin b2 /\ b1 < b2.
Proof.
  intros H1 H2 H3. exists (planck lam T1), (planck lam T2). rewrite !bb_fin by lra. repeat split. now apply planck_mono.
Qed.
Lemma bb_elementwise wl T : blackbody_radiance wl T = map (fun l => blackbody_radiance1 l T) wl.
Proof. reflexivity. Qed.
Lemma bb_wien lam T k : lam <> 0 -> 0 < k -> exists b, blackbody_radiance1 lam T = Fin b /\
  blackbody_radiance1 (lam / k) (k * T) = Fin (k ^ 5 * b).
Proof.
  intros Hl Hk. exists (planck lam T). rewrite !bb_fin; auto.
  - split; auto. now rewrite planck_wien.
  - unfold Rdiv. apply Rmult_integral_contrapositive. split; auto. apply Rinv_neq_0_compat. lra.
Qed.
Lemma bb_rj lam T : 0 < lam -> 0 < T -> exists b, blackbody_radiance1 lam T = Fin b /\ b <= 2 * c_light * k_boltz * T / lam ^ 4.
Proof. intros Hl HT. exists (planck lam T). rewrite bb_fin by lra. split; auto. now apply planck_rayleigh_jeans. Qed.
Lemma bb_cold lam : lam <> 0 -> blackbody_radiance1 lam 0 = Fin 0.
Proof. intros H. rewrite bb_fin by auto. now rewrite planck_zero. Qed.

(** ** C25 *)
Lemma afpi_cone D f L : D <> 0 -> at_focal_plane_irradiance D f (map Fin L) = Ok (map Fin (map (Rmult (cone D f)) L)).
Proof. intros H. rewrite (afpi_fin D f (fun r => r)) by auto. rewrite map_map. reflexivity. Qed.
Lemma afpi_raises D f L : at_focal_plane_irradiance D f L = Err ZeroDivisionError <-> D = 0.
Proof.
  split.
  - intros H. destruct (Req_dec D 0); auto. rewrite afpi_gen in H by auto. discriminate.
  - intros ->. apply afpi_zero.
Qed.
Lemma afpi_same D1 f1 D2 f2 L : D1 <> 0 -> D2 <> 0 -> f1 / D1 = f2 / D2 -> at_focal_plane_irradiance D1 f1 L = at_focal_plane_irradiance D2 f2 L.
Proof. intros H1 H2 E. rewrite !afpi_gen by auto. now rewrite E. Qed.
Lemma afpi_bounds D f L : D <> 0 -> all_nonneg L ->
  exists E, at_focal_plane_irradiance D f (map Fin L) = Ok (map Fin E) /\
    length E = length L /\ forall i, (i < length L)%nat -> 0 <= nth i E 0 <= PI * nth i L 0.
Proof.
  intros H N. exists (map (Rmult (cone D f)) L). rewrite afpi_cone by auto. split; auto. split; [apply map_length|].
  intros i Hi. rewrite nth_indep with (d' := cone D f * 0) by (now rewrite map_length). rewrite map_nth.
  assert (0 <= nth i L 0) by (apply N, nth_In; auto). pose proof (cone_pos D f). pose proof (cone_le_pi D f). split; [apply Rmult_le_pos; lra|].
  apply Rmult_le_compat_r; auto.
Qed.
Lemma afpi_slower D1 f1 D2 f2 l : D1 <> 0 -> D2 <> 0 -> Rabs (f1 / D1) < Rabs (f2 / D2) -> 0 < l ->
  exists e1 e2, at_focal_plane_irradiance D1 f1 [Fin l] = Ok [Fin e1] /\ at_focal_plane_irradiance D2 f2 [Fin l] = Ok [Fin e2] /\ 0 < e2 < e1.
Proof.
  intros H1 H2 H Hl. exists (cone D1 f1 * l), (cone D2 f2 * l).
  pose proof (afpi_cone D1 f1 [l] H1) as A. pose proof (afpi_cone D2 f2 [l] H2) as B. simpl in A, B. rewrite A, B.
  pose proof (cone_decr _ _ _ _ H1 H2 H). pose proof (cone_pos D2 f2). split; [reflexivity|]. split; [reflexivity|].
  split; [now apply Rmult_lt_0_compat|]. apply Rmult_lt_compat_r; auto.
Qed.

(** ** C26 *)
Lemma isothermal wl T D f : D <> 0 -> (forall x, In x wl -> x <> 0) ->
  exists a b, cold_shield_self_emission wl T D f = Ok (map Fin a) /\ cold_stop_self_emission wl T 1 D f = Ok (map Fin b) /\
    length a = length wl /\ length b = length wl /\
    forall i, (i < length wl)%nat -> nth i a 0 + nth i b 0 = PI * planck (nth i wl 0) T.
Proof.
  intros H Hw. exists (map (fun l => (PI - cone D f) * planck l T) wl), (map (fun l => cone D f * (1 * planck l T)) wl).
  rewrite shield_fin, stop_fin by auto. rewrite !map_map, !map_length. repeat split; auto.
  intros i Hi.
  rewrite !(nth_map_R _ wl i 0) by auto. ring.
Qed.
Lemma optics_kirchhoff wl T e t D f : D <> 0 -> (forall x, In x wl -> x <> 0) ->
  optics_self_emission wl T e t D f = cold_stop_self_emission wl T (t * e) D f.
Proof. reflexivity. Qed.

(** ** C27 *)

Lemma pdr_value E w_x w_y wl qe : length E = length wl -> length qe = length wl ->
  (forall x, In x wl -> x <> 0) ->
  exists dN, photon_detection_rate (map Fin E) w_x w_y wl qe = Ok (map Fin dN) /\ length dN = length wl /\
    forall i, (i < length wl)%nat -> nth i dN 0 * photon_energy (nth i wl 0) = nth i qe 0 * (w_x * w_y) * nth i E 0.
Proof.
  intros L1 L2 Hw. set (l := seq 0 (length wl)).
  assert (E1 : wl = map (fun i => nth i wl 0) l) by apply list_as_map.
  assert (E2 : qe = map (fun i => nth i qe 0) l) by (unfold l; rewrite <- L2; apply list_as_map).
  assert (E3 : map Fin E = map (fun i => Fin (nth i E 0)) l).
  { unfold l. rewrite <- L1. rewrite (list_as_map E 0) at 1. now rewrite map_map. }
  exists (map (fun i => nth i wl 0 / (hc * cc) * nth i qe 0 * w_x * w_y * nth i E 0) l).
  split; [|split].
  - rewrite E1 at 1. rewrite E2 at 1. rewrite E3. rewrite pdr_maps. now rewrite map_map.
  - unfold l. now rewrite map_length, seq_length.
  - intros i Hi. rewrite (nth_map_R _ l i 0%nat) by (unfold l; now rewrite seq_length).
    unfold l. rewrite seq_nth by auto. simpl. unfold photon_energy. rewrite hc_spec, cc_spec.
    assert (nth i wl 0 <> 0) by (apply Hw, nth_In; auto). pose proof hc_pos. pose proof cc_pos.
    field. repeat split; auto; lra.
Qed.
Lemma pdr_shape_error E w_x w_y wl qe : length qe <> length wl -> length qe <> 1%nat -> length wl <> 1%nat ->
  photon_detection_rate E w_x w_y wl qe = Err ValueError.
Proof. intros H1 H2 H3. unfold photon_detection_rate. rewrite bmap2_err by auto. reflexivity. Qed.
Lemma pdr_shape_error2 E w_x w_y wl qe : length qe = length wl -> length E <> length wl -> length E <> 1%nat -> length wl <> 1%nat ->
  photon_detection_rate E w_x w_y wl qe = Err ValueError.
Proof.
  intros H1 H2 H3 H4. unfold photon_detection_rate. rewrite bmap2_len by auto. cbn [bind].
  rewrite bmap2_err; auto; rewrite map2_length, H1; lia.
Qed.

(** ** C28 *)
Lemma nth_combine_app xs ys i : length xs = length ys -> (S i < length xs)%nat ->
  exists pre post, combine xs ys = pre ++ (nth i xs 0, nth i ys 0) :: (nth (S i) xs 0, nth (S i) ys 0) :: post.
Proof.
  revert ys i. induction xs as [|x xs IH]; intros [|y ys] i E H; simpl in *; try lia.
  destruct i as [|i].
  - destruct xs as [|x1 xs]; [simpl in H; lia|]. destruct ys as [|y1 ys]; [discriminate|].
    exists [], (combine xs ys). reflexivity.
  - destruct (IH ys i) as [pre [post F]]; [lia|lia|]. exists ((x, y) :: pre), post. simpl. now rewrite F.
Qed.
Lemma reads_interp xs ys x y : xs <> [] -> length xs = length ys -> StronglySorted Rlt xs -> reads xs ys x y ->
  interp_tab x (combine xs ys) 0 0 = y.
Proof.
  intros N E S H. pose proof (increasing_combine xs ys S) as Inc. destruct H as [H|H|i Hi H|i Hi H].
  - destruct xs as [|x0 xs]; [contradiction|]. destruct ys as [|y0 ys]; [discriminate|]. apply interp_left. apply H. now left.
  - apply interp_right; [now apply combine_nonempty|]. intros [a b] Hp. apply in_combine_l in Hp. simpl. auto.
  - apply interp_node; auto. rewrite H. rewrite <- combine_nth by auto. apply nth_In. rewrite combine_length. lia.
  - destruct (nth_combine_app xs ys i E Hi) as [pre [post F]]. now apply interp_segment with pre post.
Qed.
Lemma reads_total xs ys x : xs <> [] -> StronglySorted Rlt xs -> exists y, reads xs ys x y.
Proof.
  intros N Srt.
  assert (A : forall l x0, x0 <= x -> (forall w, In w (x0 :: l) -> w < x) \/
     (exists i, (S i < length (x0 :: l))%nat /\ nth i (x0 :: l) 0 <= x <= nth (S i) (x0 :: l) 0) \/ (exists i, (i < length (x0 :: l))%nat /\ x = nth i (x0 :: l) 0)).
  { induction l as [|x1 l IH]; intros x0 H0.
    - destruct (Rle_lt_or_eq_dec _ _ H0) as [H|H].
      + left. intros w [<-|[]]. auto.
      + right; right. exists 0%nat. simpl. split; [lia|auto].
    - destruct (Rle_dec x x1) as [H|H].
      + right; left. exists 0%nat. simpl. split; [lia|auto].
      + apply Rnot_le_lt in H. destruct (IH x1) as [B|[[i [Hi B]]|[i [Hi B]]]]; [lra| | |].
        * destruct (Rle_lt_or_eq_dec _ _ H0) as [K|K].
          -- left. intros w [<-|I]; auto.
          -- right; right. exists 0%nat. simpl. split; [lia|auto].
        * right; left. exists (S i). split; [simpl in *; lia|exact B].
        * right; right. exists (S i). split; [simpl in *; lia|exact B]. }
  destruct xs as [|x0 xs]; [contradiction|].
  destruct (Rle_dec x0 x) as [H|H].
  - destruct (A xs x0 H) as [B|[[i [Hi B]]|[i [Hi B]]]].
    + exists 0. now apply reads_above.
    + eexists. eapply reads_between; eauto.
    + eexists. eapply reads_node; eauto.
  - exists 0. apply reads_below. apply Rnot_le_lt in H. inversion Srt as [|? ? _ F]; subst. rewrite Forall_forall in F.
    intros w [<-|I]; auto. specialize (F w I). lra.
Qed.
Lemma resample_reads wl v new : wl <> [] -> length wl = length v -> StronglySorted Rlt wl ->
  exists out, resample_by_wavelength wl v new = Ok out /\ length out = length new /\
    forall i, (i < length new)%nat -> reads wl v (nth i new 0) (nth i out 0).
Proof.
  intros N E S. unfold resample_by_wavelength. rewrite interp_table_ok by auto. cbn [bind].
  eexists; split; [reflexivity|]. split; [apply map_length|]. intros i Hi. rewrite (nth_map_R _ new i 0) by auto.
  destruct (reads_total wl v (nth i new 0) N S) as [y Hy]. now rewrite (reads_interp _ _ _ _ N E S Hy).
Qed.
Lemma reads_unique xs ys x y y' : xs <> [] -> length xs = length ys -> StronglySorted Rlt xs ->
  reads xs ys x y -> reads xs ys x y' -> y = y'.
Proof. intros N E S H H'. rewrite <- (reads_interp _ _ _ _ N E S H). now apply reads_interp. Qed.
Lemma resample_bounds wl v new lo hi : wl <> [] -> length wl = length v -> lo <= 0 <= hi ->
  (forall y, In y v -> lo <= y <= hi) ->
  exists out, resample_by_wavelength wl v new = Ok out /\ length out = length new /\ forall y, In y out -> lo <= y <= hi.
Proof.
  intros N E Z B. unfold resample_by_wavelength. rewrite interp_table_ok by auto. cbn [bind].
  eexists; split; [reflexivity|]. split; [apply map_length|]. intros y Hy. apply in_map_iff in Hy. destruct Hy as [x [<- _]].
  apply interp_bounds with (P := fun y => lo <= y <= hi); auto.
  - now apply combine_nonempty.
  - intros; now apply convex_between.
  - intros [a b] Hp. apply in_combine_r in Hp. auto.
Qed.
Lemma resample_raises wl v new : resample_by_wavelength wl v new = Err ValueError <-> wl = [] \/ length wl <> length v.
Proof.
  unfold resample_by_wavelength, interp_table. destruct wl as [|x wl]; [simpl; tauto|].
  destruct (Nat.eqb _ _) eqn:E; simpl.
  - apply Nat.eqb_eq in E. simpl in E. split; [discriminate|]. intros [H|H]; [discriminate|]. lia.
  - apply Nat.eqb_neq in E. simpl in E. tauto.
Qed.

(** ** C29, C30 *)
Lemma scene_eq r T a : scene_radiance r T a = rad1 r T a.
Proof. unfold scene_radiance, rad1, db_reflectance. lra. Qed.
Lemma total_radiance_value atm r T : (forall a, In a atm -> a_wl a <> 0) ->
  total_radiance atm r T = map (fun a => Fin (scene_radiance r T a)) atm.
Proof. intros H. rewrite total_radiance_fin by auto. apply map_ext. intros a. now rewrite scene_eq. Qed.
Lemma scene_affine r T a : scene_radiance r T a = (1 - r) * scene_radiance 0 T a + r * scene_radiance 1 T a.
Proof. unfold scene_radiance. lra. Qed.
Lemma scene_mono r T1 T2 a : 0 < a_wl a -> 0 < a_trans a -> r < 1 -> 0 <= T1 -> T1 < T2 ->
  scene_radiance r T1 a < scene_radiance r T2 a.
Proof.
  intros H1 H2 H3 H4 H5. unfold scene_radiance. pose proof (planck_mono _ _ _ H1 H4 H5).
  assert ((1 - r) * planck (a_wl a) T1 * a_trans a < (1 - r) * planck (a_wl a) T2 * a_trans a); [|lra].
  apply Rmult_lt_compat_r; auto. apply Rmult_lt_compat_l; lra.
Qed.
Lemma scene_mirror T1 T2 a : scene_radiance 1 T1 a = scene_radiance 1 T2 a.
Proof. unfold scene_radiance. lra. Qed.
Lemma total_radiance_affine atm r T : (forall a, In a atm -> a_wl a <> 0) ->
  exists l0 l1 lr, total_radiance atm 0 T = map Fin l0 /\ total_radiance atm 1 T = map Fin l1 /\ total_radiance atm r T = map Fin lr /\
    length lr = length atm /\ forall i, (i < length atm)%nat -> nth i lr 0 = (1 - r) * nth i l0 0 + r * nth i l1 0.
Proof.
  intros H. exists (map (scene_radiance 0 T) atm), (map (scene_radiance 1 T) atm), (map (scene_radiance r T) atm).
  rewrite !total_radiance_value, !map_map by auto. repeat split; auto. { apply map_length. }
  intros i Hi. rewrite !(nth_map_R _ atm i arow0) by auto. apply scene_affine.
Qed.
Lemma total_radiance_hotter atm r T1 T2 : (forall a, In a atm -> 0 < a_wl a /\ 0 < a_trans a) -> r < 1 -> 0 <= T1 -> T1 < T2 ->
  exists l1 l2, total_radiance atm r T1 = map Fin l1 /\ total_radiance atm r T2 = map Fin l2 /\
    forall i, (i < length atm)%nat -> nth i l1 0 < nth i l2 0.
Proof.
  intros H Hr H1 H2. exists (map (scene_radiance r T1) atm), (map (scene_radiance r T2) atm).
  rewrite !total_radiance_value, !map_map by (intros a I; apply H in I; lra). repeat split; auto.
  intros i Hi. rewrite !(nth_map_R _ atm i arow0) by auto. destruct (H (nth i atm arow0)) as [A B]; [now apply nth_In|].
  now apply scene_mono.
Qed.
Lemma total_radiance_mirror atm T1 T2 : (forall a, In a atm -> a_wl a <> 0) -> total_radiance atm 1 T1 = total_radiance atm 1 T2.
Proof. intros H. rewrite !total_radiance_value by auto. apply map_ext. intros a. f_equal. apply scene_mirror. Qed.
Lemma total_radiance_no_surface atm atm' r T :
  Forall2 (fun a b => a_wl a = a_wl b /\ a_trans a = a_trans b /\ a_path a = a_path b /\ a_scat a = a_scat b /\ a_grnd a = a_grnd b) atm atm' ->
  total_radiance atm r T = total_radiance atm' r T.
Proof.
  induction 1 as [|a b l l' H _ IH]; auto. unfold total_radiance in *. simpl. f_equal; auto.
  destruct H as [H1 [H2 [H3 [H4 H5]]]]. unfold total_radiance1. now rewrite H1, H2, H3, H4, H5.
Qed.

Lemma giqe_emissive atm k : k <> 0%Z -> (forall a, In a atm -> 0 < a_wl a /\ 0 <= a_trans a) ->
  exists t b, giqe_radiance atm k = (map Fin t, map Fin b) /\ length t = length atm /\ length b = length atm /\
    forall i, (i < length atm)%nat ->
      nth i b 0 <= nth i t 0 /\ (0 < a_trans (nth i atm arow0) -> nth i b 0 < nth i t 0) /\
      nth i t 0 = a_path (nth i atm arow0) + a_scat (nth i atm arow0) + a_trans (nth i atm arow0) * planck (a_wl (nth i atm arow0)) 282.
Proof.
  intros K H. assert (W : forall a, In a atm -> a_wl a <> 0) by (intros a I; apply H in I; lra).
  exists (map (scene_radiance 0 282) atm), (map (scene_radiance 0 280) atm).
  unfold giqe_radiance. apply Z.eqb_neq in K. rewrite K. simpl negb. cbv iota.
  rewrite !total_radiance_value by auto. rewrite !map_map, !map_length. repeat split; auto.
  - rewrite !(nth_map_R _ atm i arow0) by auto. destruct (H (nth i atm arow0)) as [A [B|B]]; [now apply nth_In| |].
    + left. apply scene_mono; lra.
    + unfold scene_radiance. rewrite <- B. lra.
  - rewrite !(nth_map_R _ atm i arow0) by auto. intros B. destruct (H (nth i atm arow0)) as [A _]; [now apply nth_In|].
    apply scene_mono; lra.
  - rewrite !(nth_map_R _ atm i arow0) by auto. unfold scene_radiance. lra.
Qed.
Lemma giqe_reflective atm : (forall a, In a atm -> a_wl a <> 0) ->
  giqe_radiance atm 0 = (map (fun a => Fin (scene_radiance 0.15 282 a)) atm, map (fun a => Fin (scene_radiance 0.07 280 a)) atm).
Proof. intros H. unfold giqe_radiance. simpl. now rewrite !total_radiance_value by auto. Qed.
Lemma giqe_reflective_brighter a : 0 < a_wl a -> 0 <= a_trans a -> 0 <= a_grnd a ->
  a_trans a * planck (a_wl a) 282 <= a_grnd a / 0.15 -> 
  scene_radiance 0.07 280 a <= scene_radiance 0.15 282 a.
Proof.
  intros H1 H2 H3 H4. unfold scene_radiance. pose proof (planck_mono (a_wl a) 280 282 H1 ltac:(lra) ltac:(lra)).
  assert (planck (a_wl a) 280 * a_trans a <= planck (a_wl a) 282 * a_trans a) by (apply Rmult_le_compat_r; lra). lra.
Qed.

(** ** C31 *)
Section Rate.
  Variables (wl : list R) (D f w_x w_y dark : R).
  Hypothesis HD : D <> 0.
  Hypothesis Hw : positive_wavelengths wl.
  Let l := seq 0 (length wl).
  Let dn (L tr qe oth : list R) i := dN1 D f w_x w_y (nth i wl 0) (nth i L 0) (nth i tr 0) (nth i qe 0) (nth i oth 0).

  Lemma rate_lists L tr qe oth : length L = length wl -> length tr = length wl -> length qe = length wl -> length oth = length wl ->
    signal_rate wl (map Fin L) tr D f w_x w_y qe (map Fin oth) dark
    = Ok (Fin (trapezoid (map (dn L tr qe oth) l) wl + dark),
          map Fin (map (fun i => nth i tr 0 * (cone D f * nth i L 0) + nth i oth 0) l),
          map Fin (map (dn L tr qe oth) l)).
  Proof.
    intros L1 L2 L3 L4.
    assert (A : forall x : list R, length x = length wl -> x = map (fun i => nth i x 0) l).
    { intros x E. unfold l. rewrite <- E. apply list_as_map. }
    pose proof (signal_rate_maps (fun i => nth i wl 0) (fun i => nth i L 0) (fun i => nth i tr 0) (fun i => nth i qe 0) (fun i => nth i oth 0) D f w_x w_y dark l HD) as E.
    rewrite <- (map_map (fun i => nth i L 0) Fin) in E. rewrite <- (map_map (fun i => nth i oth 0) Fin) in E.
    rewrite <- !A in E by auto. rewrite E. unfold dn. now rewrite !map_map.
  Qed.
  Lemma rate_value L tr qe oth : length L = length wl -> length tr = length wl -> length qe = length wl -> length oth = length wl ->
    exists dN irr, signal_rate wl (map Fin L) tr D f w_x w_y qe (map Fin oth) dark
      = Ok (Fin (trapezoid dN wl + dark), map Fin irr, map Fin dN) /\
      length dN = length wl /\ length irr = length wl /\
      forall i, (i < length wl)%nat ->
        nth i irr 0 = nth i tr 0 * cone D f * nth i L 0 + nth i oth 0 /\
        nth i dN 0 * photon_energy (nth i wl 0) = nth i qe 0 * (w_x * w_y) * nth i irr 0.
  Proof.
    intros L1 L2 L3 L4. do 2 eexists. split; [now apply rate_lists|]. unfold l. rewrite !map_length, seq_length. split; auto. split; auto.
    intros i Hi. rewrite !(nth_map_R _ (seq 0 (length wl)) i 0%nat) by (now rewrite seq_length). rewrite seq_nth by auto. simpl plus.
    split; [ring|]. unfold dn, dN1, photon_energy. rewrite hc_spec, cc_spec. pose proof hc_pos. pose proof cc_pos.
    assert (0 < nth i wl 0) by (apply Hw, nth_In; auto). field. repeat split; lra.
  Qed.
  Lemma rate_affine k L L' Lk tr qe oth :
    length L = length wl -> length L' = length wl -> length Lk = length wl -> length tr = length wl -> length qe = length wl -> length oth = length wl ->
    (forall i, (i < length wl)%nat -> nth i Lk 0 = (1 - k) * nth i L 0 + k * nth i L' 0) ->
    exists r r' i i' ik d d' dk,
      signal_rate wl (map Fin L) tr D f w_x w_y qe (map Fin oth) dark = Ok (Fin r, i, d) /\
      signal_rate wl (map Fin L') tr D f w_x w_y qe (map Fin oth) dark = Ok (Fin r', i', d') /\
      signal_rate wl (map Fin Lk) tr D f w_x w_y qe (map Fin oth) dark = Ok (Fin ((1 - k) * r + k * r'), ik, dk).
  Proof.
    intros L1 L2 L3 L4 L5 L6 H. rewrite !rate_lists by auto.
    do 8 eexists. split; [reflexivity|]. split; [reflexivity|]. f_equal. f_equal. f_equal. f_equal.
    assert (E : wl = map (fun i => nth i wl 0) l) by apply list_as_map.
    rewrite E. rewrite (trapezoid_lin (1 - k) k (dn L tr qe oth) (dn L' tr qe oth)); [ring|].
    intros i Hi. unfold l in Hi. apply in_seq in Hi. unfold dn, dN1. rewrite H by lia. ring.
  Qed.
  Lemma rate_monotone L L' tr tr' qe qe' oth oth' : ascending wl -> 0 <= w_x -> 0 <= w_y ->
    length L = length wl -> length tr = length wl -> length qe = length wl -> length oth = length wl ->
    length L' = length wl -> length tr' = length wl -> length qe' = length wl -> length oth' = length wl ->
    (forall i, (i < length wl)%nat -> 0 <= nth i L 0 <= nth i L' 0 /\ 0 <= nth i tr 0 <= nth i tr' 0 /\ 0 <= nth i qe 0 <= nth i qe' 0 /\ 0 <= nth i oth 0 <= nth i oth' 0) ->
    exists r r' i i' d d',
      signal_rate wl (map Fin L) tr D f w_x w_y qe (map Fin oth) dark = Ok (Fin r, i, d) /\
      signal_rate wl (map Fin L') tr' D f w_x w_y qe' (map Fin oth') dark = Ok (Fin r', i', d') /\
      dark <= r <= r'.
  Proof.
    intros Ha Hx Hy L1 L2 L3 L4 M1 M2 M3 M4 H. rewrite !rate_lists by auto.
    do 6 eexists. split; [reflexivity|]. split; [reflexivity|].
    assert (E : wl = map (fun i => nth i wl 0) l) by apply list_as_map.
    assert (Q : forall i, In i l -> 0 <= dn L tr qe oth i <= dn L' tr' qe' oth' i).
    { intros i Hi. apply in_seq in Hi. destruct (H i) as [A [B [C F]]]; [lia|]. apply dN1_mono; auto.
      left. apply Hw, nth_In. lia. }
    rewrite E in Ha |- *.
    assert (A : 0 <= trapezoid (map (dn L tr qe oth) l) (map (fun i => nth i wl 0) l)).
    { apply trapezoid_nonneg; auto. intros i Hi. apply Q; auto. }
    assert (B : trapezoid (map (dn L tr qe oth) l) (map (fun i => nth i wl 0) l) <= trapezoid (map (dn L' tr' qe' oth') l) (map (fun i => nth i wl 0) l)).
    { apply trapezoid_mono; auto. intros i Hi. apply Q; auto. }
    lra.
  Qed.
End Rate.

(** ** C34 *)
Lemma snr_same s wl r : physical s -> positive_wavelengths wl -> ascending wl -> length r = length wl -> all_nonneg r ->
  exists M, photon_detector_SNR s wl (map Fin r) (map Fin r) = Ok M /\ m_snr M = Fin 0.
Proof.
  intros P Hw Ha L N.
  destruct (snr_value s wl r r P Hw Ha L L N N) as (M & q & HM & _ & _ & _ & _ & _ & _ & _ & _ & S & _).
  exists M. split; auto. rewrite S. f_equal. unfold Rdiv. ring.
Qed.

(** ** C33/C35: the counts *)
Lemma self_eq s lam : other_at s lam = self_irradiance s lam.
Proof. unfold other_at, self_irradiance. ring. Qed.
Lemma electrons_eq s tr q lam L : has_tables s -> sorted_tables s -> response_curves s tr q -> 0 < lam ->
  electrons s (tr lam) (q lam) lam L = dN_at s lam L.
Proof.
  intros [T1 [T2 [T3 T4]]] [S1 S2] [R1 R2] Hl. unfold electrons, dN_at, dN1, trans_at, qe_at, photon_energy.
  rewrite (reads_interp _ _ _ _ T1 T2 S1 (R1 lam)). rewrite (reads_interp _ _ _ _ T3 T4 S2 (R2 lam)).
  rewrite self_eq, hc_spec, cc_spec. pose proof hc_pos. pose proof cc_pos. field. repeat split; lra.
Qed.
Lemma combine_as_map {A B} (x : list A) (y : list B) d e : length y = length x ->
  combine x y = map (fun i => (nth i x d, nth i y e)) (seq 0 (length x)).
Proof.
  revert y. induction x as [|a x IH]; intros [|b y] H; simpl in *; try lia; auto.
  f_equal. rewrite <- seq_shift, map_map. apply IH. lia.
Qed.
Lemma snr_counts s wl rt rb tr q : has_tables s -> sorted_tables s -> response_curves s tr q ->
  s_D s <> 0 -> 0 < s_max_n s -> 0 <= s_max_fill s -> positive_wavelengths wl ->
  length rt = length wl -> length rb = length wl ->
  let rate L := trapezoid (map (fun p => electrons s (tr (fst p)) (q (fst p)) (fst p) (snd p)) (combine wl L)) wl + s_dark s in
  let g := s_int_time s * s_ntdi s in
  let cap := s_max_fill s * s_max_n s in
  exists M k, photon_detector_SNR s wl (map Fin rt) (map Fin rb) = Ok M /\
    m_tgt_rate M = Fin (rate rt) /\ m_bkg_rate M = Fin (rate rb) /\
    m_tgt_n M = Fin (k * (rate rt * g)) /\ m_bkg_n M = Fin (k * (rate rb * g)) /\
    m_int_time M = Fin (k * s_int_time s) /\ m_contrast M = Fin (k * ((rate rt - rate rb) * g)) /\
    m_well_fraction M = Fin (k * Rmax (rate rt * g) (rate rb * g) / s_max_n s) /\
    0 <= k <= 1 /\ (Rmax (rate rt * g) (rate rb * g) <= cap -> k = 1) /\
    (cap <= Rmax (rate rt * g) (rate rb * g) -> k * Rmax (rate rt * g) (rate rb * g) = cap).
Proof.
  intros Ht St Rc HD Hn Hf Hw L1 L2 rate g cap.
  destruct (as_maps wl rt rb L1 L2) as [E1 [E2 E3]]. set (l := seq 0 (length wl)) in *.
  assert (X : forall i, In i l -> 0 < nth i wl 0) by (unfold l; apply (nth_in_seq (fun y => 0 < y)); exact Hw).
  destruct (snr_closed_form s (fun i => nth i wl 0) (fun i => nth i rt 0) (fun i => nth i rb 0) l Ht HD) as [M HM]; auto.
  { intros i Hi. specialize (X i Hi). lra. }
  rewrite <- E1, <- E2, <- E3 in HM.
  assert (Er : forall r : list R, length r = length wl -> rate_of s (fun i => nth i wl 0) (fun i => nth i r 0) l = rate r).
  { intros r Lr. unfold rate, rate_of. f_equal. rewrite (combine_as_map wl r 0 0 Lr). fold l. rewrite map_map. cbn [fst snd].
    rewrite <- E1. f_equal. apply map_ext_in. intros i Hi. symmetry. apply electrons_eq; auto. }
  rewrite !Er in HM by auto. fold g cap in HM.
  destruct HM as (H0 & H1 & H2 & H3 & H4 & H5 & H6 & H7 & _).
  set (T := Rmax (rate rt * g) (rate rb * g)) in *. exists M, (fill T cap).
  assert (C0 : 0 <= cap) by (apply Rmult_le_pos; lra).
  do 6 (split; [assumption|]). split; [rewrite H7; f_equal; ring|]. split; [exact H6|].
  destruct (fill_bounds T cap C0) as [F1 F2]. split; [exact F1|]. unfold fill. split.
  - intros Hc. rcase; [lra|reflexivity].
  - intros Hc. rcase; [field; lra|lra].
Qed.

(** ** C37, C38 *)
Lemma interp_ext {A} (f g : A -> R) l : (forall x, In x l -> f x = g x) -> map f l = map g l.
Proof. intros. now apply map_ext_in. Qed.

Lemma r2p_empty atm s t T : has_tables s -> s_D s <> 0 -> 0 < s_max_n s -> (forall a, In a atm -> ~ in_band s a) ->
  reflectance_to_photoelectrons atm s t T = Err ValueError.
Proof.
  intros Ht HD Hn H. destruct (band_ok s atm) as [b [Hb B]]; [apply Ht|].
  assert (b = []). { destruct b as [|a b]; auto. exfalso. destruct (proj1 (B a)) as [I J]; [now left|]. now apply (H a). }
  subst b. unfold reflectance_to_photoelectrons. rewrite Hb. cbn [bind].
  rewrite (mapM_ok _ (fun r => (Fin (raw s [] t r), []))).
  2:{ intros r _. rewrite (pe_at_fin s []); auto. }
  cbn [bind]. rewrite map_map. cbn [fst].
  rewrite (last_map _ (linspace 0 1 100) _ 0).
  2:{ intros E. apply (f_equal (@length R)) in E. rewrite linspace_length in E. discriminate. }
  cbn [snd]. rewrite <- (map_map (raw s [] t) Fin).
  destruct (linspace_cons 0 1 99) as [x [l [El _]]]. rewrite El. cbn [map].
  change (Fin (raw s [] t x) :: map Fin (map (raw s [] t) l)) with (map Fin (raw s [] t x :: map (raw s [] t) l)).
  rewrite limit_fin by auto. reflexivity.
Qed.

Lemma linspace_sorted n : (1 < n)%nat -> StronglySorted Rlt (linspace 0 1 n).
Proof.
  intros H. assert (A : forall k m, StronglySorted Rlt (map (fun i => 0 + INR i * ((1 - 0) / INR (n - 1))) (seq k m))).
  { intros k m. revert k. induction m as [|m IH]; intros k; simpl; constructor; auto.
    apply Forall_forall. intros x Hx. apply in_map_iff in Hx. destruct Hx as [i [<- Hi]]. apply in_seq in Hi.
    assert (INR k < INR i) by (apply lt_INR; lia).
    assert (0 < (1 - 0) / INR (n - 1)). { apply Rdiv_lt_0_compat; [lra|]. apply lt_0_INR. lia. }
    apply Rplus_lt_compat_l. apply Rmult_lt_compat_r; auto. }
  exact (A 0%nat n).
Qed.
Lemma in_combine_nth {A B} (x : list A) (y : list B) d e p : length x = length y -> In p (combine x y) ->
  exists i, (i < length x)%nat /\ p = (nth i x d, nth i y e).
Proof.
  intros E H. apply In_nth with (d := (d, e)) in H. destruct H as [i [Hi <-]]. exists i.
  rewrite combine_length in Hi. split; [lia|]. now apply combine_nth.
Qed.

Lemma r2p_interp_exact atm s t T : has_tables s -> s_D s <> 0 -> 0 < s_max_n s -> good_rows s atm ->
  exists ref pe w, reflectance_to_photoelectrons atm s t T = Ok (ref, map Fin pe, w) /\
    forall r lft rgt, 0 <= r <= 1 ->
      np_interp (Fin r) ref pe lft rgt = Ok (Fin ((1 - r) * nth 0 pe 0 + r * nth 99 pe 0)).
Proof.
  intros Ht HD Hn G. destruct (good_band s atm Ht G) as [b [Hb [Hne [Hw _]]]].
  do 3 eexists. split; [apply (r2p_closed s atm b); auto|]. intros r lft rgt Hr.
  set (pe := curve s b t). set (p0 := nth 0 pe 0). set (p1 := nth 99 pe 0).
  assert (Lp : length pe = 100%nat) by (unfold pe, curve; now rewrite map_length, linspace_length).
  assert (Ll : length (linspace 0 1 100) = length pe) by (rewrite linspace_length; auto).
  assert (E99 : INR 99 = 99) by (rewrite INR_IZR_INZ; reflexivity).
  assert (Nl : linspace 0 1 100 <> []).
  { intros E. apply (f_equal (@length R)) in E. rewrite linspace_length in E. discriminate. }
  unfold np_interp. rewrite interp_table_ok by auto. cbn [bind]. f_equal. f_equal.
  replace ((1 - r) * p0 + r * p1) with ((p1 - p0) * r + p0) by ring.
  apply interp_affine.
  - apply increasing_combine. apply linspace_sorted. lia.
  - intros p Hp. apply (in_combine_nth _ _ 0 0) in Hp; auto. destruct Hp as [i [Hi ->]]. rewrite linspace_length in Hi. cbn [fst snd].
    unfold pe. rewrite (curve_affine s b t i) by auto. fold pe. fold p0 p1.
    rewrite linspace_nth by auto. change (INR (100 - 1)) with (INR 99). rewrite E99. field.
  - exists (nth 99 (linspace 0 1 100) 0, nth 99 pe 0). split.
    + rewrite <- combine_nth by auto. apply nth_In. rewrite combine_length, Lp, linspace_length. simpl. lia.
    + cbn [fst]. rewrite linspace_nth by lia. change (INR (100 - 1)) with (INR 99). rewrite E99. lra.
  - destruct (linspace_cons 0 1 99) as [x [l [El Ex]]]. fold pe in Lp. rewrite El. destruct pe as [|q0 pe']; [discriminate|].
    simpl combine. do 2 eexists. split; [reflexivity|]. cbn [fst]. rewrite Ex. simpl. lra.
Qed.

(* the counts are those of the physical model, for a 300 K target *)
Lemma band_filter s atm b : band s atm = Ok b -> exists p : arow -> bool, b = filter p atm.
Proof.
  unfold band. destruct (first_of _) as [lo|]; [|discriminate]. destruct (last_of _) as [hi|]; [|discriminate].
  cbn [bind]. intros H. injection H as <-. exists (fun a => andb (Rleb (a_wl a) hi) (Rleb lo (a_wl a))).
  induction atm as [|a l IH]; auto. simpl. destruct (Rleb lo (a_wl a)); simpl; rewrite ?IH; destruct (Rleb (a_wl a) hi); auto.
Qed.
Lemma r2p_value atm s t T tr q : has_tables s -> sorted_tables s -> response_curves s tr q -> s_D s <> 0 -> 0 < s_max_n s ->
  good_rows s atm -> (forall a, In a atm -> in_band s a /\ 0 < a_wl a) ->
  exists ref pe w k, reflectance_to_photoelectrons atm s t T = Ok (ref, map Fin pe, w) /\ 0 < k <= 1 /\
    (forall i, (i < 100)%nat -> nth i pe 0 = collected s tr q atm (k * t) 300 (INR i / 99)) /\
    ((forall i, (i < 100)%nat -> collected s tr q atm t 300 (INR i / 99) <= s_max_n s) -> k = 1).
Proof.
  intros Ht St Rc HD Hn G Hin. destruct (good_band s atm Ht G) as [b [Hb [Hne [Hw B]]]].
  assert (Eb : b = atm).
  { destruct (band_filter s atm b Hb) as [p ->]. clear -Hin B. assert (F : forall a, In a atm -> p a = true).
    { intros a I. assert (In a (filter p atm)) by (apply B; split; auto; now apply Hin). now apply filter_In in H. }
    clear B Hin. induction atm as [|a l IH]; auto. simpl. rewrite (F a) by now left. f_equal. apply IH. intros; apply F; now right. }
  subst b. exists (linspace 0 1 100), (curve s atm t), (map a_wl atm, wts s atm), (shrink (top_raw s atm t) (s_max_n s)).
  split; [apply (r2p_closed s atm atm); auto|].
  destruct (shrink_bounds (top_raw s atm t) (s_max_n s) Hn) as [K K2]. split; [exact K|].
  assert (Ec : forall t r, collected s tr q atm t 300 r = raw s atm t r).
  { intros t' r. unfold collected, raw. f_equal. f_equal. f_equal. apply trapezoid_ext.
    intros a I. rewrite <- scene_eq. apply electrons_eq; auto. now apply Hin. }
  split.
  - intros i Hi. rewrite curve_nth by auto. rewrite Ec. symmetry. apply raw_time.
  - intros H. assert (Y : top_raw s atm t <= s_max_n s).
    { unfold top_raw. destruct (map (raw s atm t) (linspace 0 1 100)) as [|v0 v] eqn:E; [lra|].
      assert (A : forall p, In p (v0 :: v) -> p <= s_max_n s).
      { rewrite <- E. intros p Hp. apply in_map_iff in Hp. destruct Hp as [r [<- Hr]].
        apply In_nth with (d := 0) in Hr. destruct Hr as [i [Hi <-]]. rewrite linspace_length in Hi.
        rewrite linspace_nth by auto. change (INR (100 - 1)) with (INR 99). replace (INR 99) with 99 by (rewrite INR_IZR_INZ; reflexivity).
        replace (0 + INR i * ((1 - 0) / 99)) with (INR i / 99) by field. rewrite <- Ec. auto. }
      destruct (maxl_in v0 v) as [->|I]; apply A; [now left|now right]. }
    unfold shrink. rcase; [lra|reflexivity].
Qed.

(** ** C40 *)
Lemma r2p_temp_ignored atm s t T T' : reflectance_to_photoelectrons atm s t T = reflectance_to_photoelectrons atm s t T'.
Proof. reflexivity. Qed.
Lemma r2p_out_of_band l1 a l2 s t T : has_tables s -> ~ in_band s a ->
  reflectance_to_photoelectrons (l1 ++ a :: l2) s t T = reflectance_to_photoelectrons (l1 ++ l2) s t T.
Proof.
  intros Ht H. unfold reflectance_to_photoelectrons.
  assert (E : band s (l1 ++ a :: l2) = band s (l1 ++ l2)); [|now rewrite E].
  destruct Ht as [Hne _]. destruct (last_of_ok _ Hne) as [hi Hhi].
  unfold band. rewrite Hhi. apply last_of_nth in Hhi; auto.
  destruct (s_owl s) as [|lo w] eqn:Eo; [contradiction|]. cbn [first_of bind]. f_equal.
  assert (F : andb (Rleb lo (a_wl a)) (Rleb (a_wl a) hi) = false).
  { apply Bool.not_true_is_false. intros C. apply Bool.andb_true_iff in C. destruct C as [C1 C2].
    apply Rleb_true in C1. apply Rleb_true in C2. apply H. exists lo, hi. rewrite Eo. repeat split; auto. }
  rewrite !filter_app. f_equal. simpl. destruct (Rleb lo (a_wl a)); simpl; auto.
  simpl in F. now rewrite F.
Qed.

Definition um : R := / 10 ^ 6.
(* a long-wave thermal camera; saturates at [n] electrons *)
Definition demo_sensor (n : R) : sensor := {|
  s_D := 0.1; s_f := 0.2; s_px := 20 * um; s_py := 20 * um; s_wx := 20 * um; s_wy := 20 * um; s_eta := 0;
  s_owl := [8 * um; 12 * um]; s_otr := [1; 1]; s_qwl := [8 * um; 12 * um]; s_qe := [0.5; 0.5];
  s_int_time := 0.001; s_dark := 0; s_other_irr := 0; s_read := 0; s_max_n := n;
  s_max_fill := 1; s_bits := 14; s_ntdi := 1;
  s_T_shield := 70; s_T_opt := 290; s_e_opt := 0.05; s_t_filt := 1; s_T_filt := 70; s_e_filt := 0;
  s_sx := 0; s_sy := 0; s_dax := 0; s_day := 0; s_pv := 0; s_pv_wl := 0.633 * um;
  s_Lx := 0.1; s_Ly := 0.1; s_other_noise := [0]; s_kernel := [[1]]; s_frames := 1 |}.
Definition demo_row (l : R) : arow := {| a_wl := l; a_trans := 0.5; a_path := 1; a_surf := 2; a_scat := 3; a_grnd := 4 |}.
Definition demo_atm : list arow := [demo_row (9 * um); demo_row (10 * um)].

Lemma um_pos : 0 < um. Proof. unfold um. apply Rinv_0_lt_compat. lra. Qed.
Lemma demo_physical n : 0 < n -> physical (demo_sensor n).
Proof.
  pose proof um_pos. intros Hn. constructor; simpl; try lra.
  - repeat split; simpl; auto; discriminate.
  - intros x [<-|[<-|[]]]; lra.
  - intros x [<-|[<-|[]]]; lra.
Qed.
Lemma demo_sorted n : sorted_tables (demo_sensor n).
Proof. pose proof um_pos. split; simpl; repeat constructor; lra. Qed.
Lemma demo_rows n : forall a, In a demo_atm -> in_band (demo_sensor n) a /\ 0 < a_wl a.
Proof.
  pose proof um_pos. intros a I. split; [|destruct I as [<-|[<-|[]]]; simpl; lra].
  exists (8 * um), (12 * um). destruct I as [<-|[<-|[]]]; simpl; repeat split; lra.
Qed.
Lemma demo_good n : good_rows (demo_sensor n) demo_atm.
Proof.
  split.
  - exists (demo_row (9 * um)). split; [now left|]. apply demo_rows. now left.
  - intros a I _. apply Rgt_not_eq. apply (demo_rows n a I).
Qed.
Definition tr_of (s : sensor) (x : R) : R := interp_tab x (combine (s_owl s) (s_otr s)) 0 0.
Definition q_of (s : sensor) (x : R) : R := interp_tab x (combine (s_qwl s) (s_qe s)) 0 0.
Lemma curves_exist s : has_tables s -> sorted_tables s -> response_curves s (tr_of s) (q_of s).
Proof.
  intros [T1 [T2 [T3 T4]]] [S1 S2]. split; intros x.
  - destruct (reads_total (s_owl s) (s_otr s) x T1 S1) as [y Hy]. unfold tr_of. now rewrite (reads_interp _ _ _ _ T1 T2 S1 Hy).
  - destruct (reads_total (s_qwl s) (s_qe s) x T3 S2) as [y Hy]. unfold q_of. now rewrite (reads_interp _ _ _ _ T3 T4 S2 Hy).
Qed.

Lemma collected_affine s tr q atm t T r :
  collected s tr q atm t T r = (1 - r) * collected s tr q atm t T 0 + r * collected s tr q atm t T 1.
Proof.
  unfold collected.
  rewrite (trapezoid_lin (1 - r) r (fun a => electrons s (tr (a_wl a)) (q (a_wl a)) (a_wl a) (scene_radiance 0 T a))
     (fun a => electrons s (tr (a_wl a)) (q (a_wl a)) (a_wl a) (scene_radiance 1 T a))); [ring|].
  intros a _. rewrite (scene_affine r). unfold electrons, Rdiv. ring.
Qed.
Lemma demo_hotter n t T1 T2 : 0 < t -> 0 <= T1 -> T1 < T2 ->
  collected (demo_sensor n) (tr_of (demo_sensor n)) (q_of (demo_sensor n)) demo_atm t T1 0
  < collected (demo_sensor n) (tr_of (demo_sensor n)) (q_of (demo_sensor n)) demo_atm t T2 0.
Proof.
  intros Ht H1 H2. set (s := demo_sensor n). pose proof um_pos as U.
  assert (St : sorted_tables s) by apply demo_sorted.
  assert (Tb : has_tables s) by (repeat split; simpl; auto; discriminate).
  assert (Tr : forall x, 8 * um <= x <= 12 * um -> tr_of s x = 1).
  { intros x Hx. unfold tr_of. apply (reads_interp (s_owl s) (s_otr s)); try apply Tb; try apply St.
    replace 1 with (1 + (1 - 1) * ((x - 8 * um) / (12 * um - 8 * um))) by (unfold Rdiv; ring).
    apply (reads_between (s_owl s) (s_otr s) x 0); simpl; [lia|lra]. }
  assert (Qr : forall x, 8 * um <= x <= 12 * um -> q_of s x = 0.5).
  { intros x Hx. unfold q_of. apply (reads_interp (s_qwl s) (s_qe s)); try apply Tb; try apply St.
    replace 0.5 with (0.5 + (0.5 - 0.5) * ((x - 8 * um) / (12 * um - 8 * um))) by (unfold Rdiv; ring).
    apply (reads_between (s_qwl s) (s_qe s) x 0); simpl; [lia|lra]. }
  assert (E : forall l, 8 * um <= l <= 12 * um ->
    electrons s (tr_of s l) (q_of s l) l (scene_radiance 0 T1 (demo_row l)) < electrons s (tr_of s l) (q_of s l) l (scene_radiance 0 T2 (demo_row l))).
  { intros l Hl. rewrite Tr, Qr by auto. unfold electrons. unfold Rdiv. apply Rmult_lt_compat_r.
    - apply Rinv_0_lt_compat. unfold photon_energy. rewrite hc_spec, cc_spec. apply Rdiv_lt_0_compat; [|lra]. apply Rmult_lt_0_compat; auto.
    - apply Rmult_lt_compat_l.
      + simpl. assert (0 < 20 * um * (20 * um)) by (apply Rmult_lt_0_compat; lra). lra.
      + apply Rplus_lt_compat_r. apply Rmult_lt_compat_l.
        * pose proof (cone_pos (s_D s) (s_f s)). simpl s_t_filt. simpl s_eta. lra.
        * apply scene_mono; simpl; lra. }
  unfold collected. apply Rmult_lt_compat_r; [simpl; lra|]. apply Rmult_lt_compat_r; auto. apply Rplus_lt_compat_r.
  simpl. pose proof (E (9 * um) ltac:(lra)) as A. pose proof (E (10 * um) ltac:(lra)) as B. fold s.
  set (a1 := electrons s (tr_of s (9 * um)) _ _ (scene_radiance 0 T1 _)) in *.
  set (a2 := electrons s (tr_of s (9 * um)) _ _ (scene_radiance 0 T2 _)) in *.
  set (b1 := electrons s (tr_of s (10 * um)) _ _ (scene_radiance 0 T1 _)) in *.
  set (b2 := electrons s (tr_of s (10 * um)) _ _ (scene_radiance 0 T2 _)) in *.
  apply Rplus_lt_compat_r. apply Rmult_lt_compat_r; [lra|]. apply Rmult_lt_compat_l; lra.
Qed.

Lemma between_abs a b r : 0 <= r <= 1 -> (1 - r) * a + r * b <= Rabs a + Rabs b.
Proof.
  intros Hr. pose proof (Rle_abs a). pose proof (Rle_abs b). pose proof (Rabs_pos a). pose proof (Rabs_pos b).
  assert ((1 - r) * a <= (1 - r) * Rabs a) by (apply Rmult_le_compat_l; lra).
  assert (r * b <= r * Rabs b) by (apply Rmult_le_compat_l; lra). nra.
Qed.

Lemma r2p_temperature_refuted :
  ~ (forall atm s t T tr q ref pe w,
       physical s -> sorted_tables s -> response_curves s tr q -> good_rows s atm -> sound_rows atm ->
       (forall a, In a atm -> in_band s a) -> 0 < t -> 0 < T ->
       (forall i, (i < 100)%nat -> collected s tr q atm t T (INR i / 99) <= s_max_n s) ->
       (forall i, (i < 100)%nat -> collected s tr q atm t 300 (INR i / 99) <= s_max_n s) ->
       reflectance_to_photoelectrons atm s t T = Ok (ref, map Fin pe, w) ->
       forall i, (i < 100)%nat -> nth i pe 0 = collected s tr q atm t T (INR i / 99)).
Proof.
  intros H.
  set (c n T r := collected (demo_sensor n) (tr_of (demo_sensor n)) (q_of (demo_sensor n)) demo_atm 1 T r).
  set (n := 1 + Rabs (c 1 300 0) + Rabs (c 1 300 1) + Rabs (c 1 400 0) + Rabs (c 1 400 1)).
  assert (Hn : 0 < n).
  { unfold n. pose proof (Rabs_pos (c 1 300 0)). pose proof (Rabs_pos (c 1 300 1)). pose proof (Rabs_pos (c 1 400 0)). pose proof (Rabs_pos (c 1 400 1)). lra. }
  assert (Cn : forall T r, c n T r = c 1 T r) by reflexivity.
  set (s := demo_sensor n).
  assert (P : physical s) by now apply demo_physical.
  assert (B : forall T, T = 300 \/ T = 400 -> forall i, (i < 100)%nat -> collected s (tr_of s) (q_of s) demo_atm 1 T (INR i / 99) <= s_max_n s).
  { intros T HT i Hi. change (c n T (INR i / 99) <= n). unfold c at 1. rewrite collected_affine. fold (c n T 0) (c n T 1). rewrite !Cn.
    assert (Hr : 0 <= INR i / 99 <= 1).
    { assert (E99 : INR 99 = 99) by (rewrite INR_IZR_INZ; reflexivity).
      assert (0 <= INR i <= 99). { split; [apply pos_INR|]. rewrite <- E99. apply le_INR. lia. } lra. }
    pose proof (between_abs (c 1 T 0) (c 1 T 1) _ Hr). unfold n.
    pose proof (Rabs_pos (c 1 300 0)). pose proof (Rabs_pos (c 1 300 1)). pose proof (Rabs_pos (c 1 400 0)). pose proof (Rabs_pos (c 1 400 1)).
    destruct HT as [-> | ->]; lra. }
  assert (Rc : response_curves s (tr_of s) (q_of s)) by (apply curves_exist; [apply P|apply demo_sorted]).
  assert (So : sound_rows demo_atm).
  { pose proof um_pos. intros a I. destruct I as [<-|[<-|[]]]; simpl; lra. }
  destruct (r2p_value demo_atm s 1 400 (tr_of s) (q_of s)) as [ref [pe [w [k [E [K [V K1]]]]]]].
  { apply P. } { apply demo_sorted. } { exact Rc. } { apply P. } { apply P. } { apply demo_good. } { apply demo_rows. }
  assert (k = 1) by (apply K1; apply B; auto). subst k.
  specialize (H demo_atm s 1 400 (tr_of s) (q_of s) ref pe w P (demo_sorted n) Rc (demo_good n) So).
  assert (X : nth 0 pe 0 = collected s (tr_of s) (q_of s) demo_atm 1 400 (INR 0 / 99)).
  { apply H; auto; try lra; try lia. intros a I. apply (demo_rows n a I). }
  rewrite V in X by lia. rewrite Rmult_1_l in X. replace (INR 0 / 99) with 0 in X by (simpl; field).
  pose proof (demo_hotter n 1 300 400 ltac:(lra) ltac:(lra) ltac:(lra)) as Y. fold s in Y. lra.
Qed.
