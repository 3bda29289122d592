(** * Proof_MetX: where the inputs of the image quality equations come from *)
From Coq Require Import Reals Lra List Lia ZArith Psatz Bool Sorted.
From Verif Require Import Base_XR Base_Np Base_NpFacts Base_Interp Model_Geo Model_Noise Model_Db Model_Scenario Model_Sensor Model_Rad Model_Otf Model_Img Model_Met
  Spec_Noise Spec_Rad Spec_System Spec_Met Spec_Quality Proof_Weight Proof_Rad Proof_Edge Proof_Giqe Proof_Contrast Proof_Niirs.
Import ListNotations.
Open Scope R_scope.

(** ** GIQE 5 with two different edge responses *)
Lemma giqe5_mean_formula x y g s a r : 0 < x -> 0 < y -> 0 < g -> s <> 0 -> 0 < sin a -> 0 < r ->
  r ^ 3 = Rmax x y * (Rmin x y) ^ 2 ->
  let gw := g / Rpower (sin a) (1 / 4) in
  giqe5 (Fin x) (Fin y) (Fin g) (Fin s) (Fin a) =
  (Fin (9.57 - 3.32 * log10 (gw / inch) + 3.32 * (1 - exp (-1.9 / s)) * log10 r - 2 * log10 r ^ 4 - 1.8 / s), Fin gw, Fin r).
Proof.
  intros Hx Hy Hg Hs Ha Hr E gw. rewrite giqe5_value by assumption.
  assert (M : mean5 x y = r).
  { unfold mean5. replace (Rmax x y * (Rmin x y * Rmin x y)) with (r * (r * r)) by (replace (Rmax x y * (Rmin x y * Rmin x y)) with (Rmax x y * (Rmin x y) ^ 2) by ring; rewrite <- E; ring). apply cube_root, Hr. }
  rewrite M. unfold v5. rewrite M. unfold f5. fold gw. f_equal. f_equal. f_equal. lra.
Qed.

(** ** Contrast *)
Lemma filter_sorted (Q : arow -> bool) l : StronglySorted Rlt (map a_wl l) -> StronglySorted Rlt (map a_wl (filter Q l)).
Proof.
  intros H. induction l as [|x l IH]; cbn; [constructor|]. cbn in H. inversion H as [|y m H1 H2]; subst.
  destruct (Q x); [|auto]. cbn. constructor; [auto|]. rewrite Forall_forall in *. intros z Hz. apply H2.
  apply in_map_iff in Hz. destruct Hz as (b & <- & Hb). apply filter_In in Hb. apply in_map. tauto.
Qed.
Section Contrast.
  Variables (ni it : loader) (diag : nat -> nat -> bool) (s : sensor) (c : scen) (itp : bool) (m : atm) (em : bool).
  Hypothesis Hload : loaded ni it c itp m.
  Hypothesis P : physical s.
  Hypothesis So : sorted_tables s.
  Hypothesis Hem : em = true <-> emissive_band s.
  Hypothesis Sr : sound_rows (atm_rows m).

  Lemma contrast_shape rows ct : seen_rows s (atm_rows m) rows -> contrast_part s rows (fst (bookkeeping s c)) = Ok ct ->
    photon_detector_SNR s (map a_wl rows) (map (fun a => Fin (giqe_target em a)) rows) (map (fun a => Fin (giqe_background em a)) rows) = Ok (ct_snr ct) /\
    ct_wl ct = map fst (spectrum s rows (fst (bookkeeping s c))) /\
    ct_w ct = map (fun p => Fin (snd p)) (spectrum s rows (fst (bookkeeping s c))).
  Proof.
    intros V E. assert (Sr' : sound_rows rows) by (intros a Ha; apply Sr, V, Ha).
    destruct (contrast_form s rows (fst (bookkeeping s c)) P Sr') as (M & t & HM & _ & _ & _ & F).
    rewrite F in E. cbv zeta in E. destruct (py_min _) as [lmin|]; [|discriminate]. cbn [bind] in E.
    destruct (finite _); [|discriminate]. cbn [bind] in E. apply ok_inj in E. subst ct. cbn [ct_snr ct_wl ct_w].
    rewrite (emissive_iff s em Hem), <- (bookkeeping_em s c). split; [exact HM|]. split; reflexivity.
  Qed.
  Lemma standard_of rows ct : seen_rows s (atm_rows m) rows -> contrast_part s rows (fst (bookkeeping s c)) = Ok ct ->
    standard_contrast s (atm_rows m) em ct.
  Proof.
    intros V E. exists rows. split; [exact V|]. destruct (contrast_shape rows ct V E) as (A & B & W). split; [exact A|].
    intros tr q RC. assert (Sr' : sound_rows rows) by (intros a Ha; apply Sr, V, Ha).
    assert (EQ : forall a, In a rows -> dN_at s (a_wl a) (giqe_target em a) = electrons s (tr (a_wl a)) (q (a_wl a)) (a_wl a) (giqe_target em a)).
    { intros a Ha. symmetry. apply electrons_at; auto; [apply (ph_tables _ P) | apply RC | apply RC | apply (Sr' a Ha)]. }
    set (g := fun a => dN_at s (a_wl a) (giqe_target em a)) in *.
    assert (Z : spectrum s rows (fst (bookkeeping s c)) = map (fun a => (a_wl a, g a)) (filter (fun a => Rltb 0 (g a)) rows)).
    { unfold spectrum, g. rewrite (emissive_iff s em Hem), <- (bookkeeping_em s c). reflexivity. }
    exists (filter (fun a => Rltb 0 (g a)) rows). split; [split|split].
    - intros a. rewrite filter_In. split.
      + intros [H1 H2]. split; [exact H1|]. apply Rltb_true in H2. rewrite <- EQ by exact H1. exact H2.
      + intros [H1 H2]. split; [exact H1|]. apply Rltb_true. rewrite <- EQ in H2 by exact H1. exact H2.
    - apply filter_sorted.
    - rewrite B, Z, map_map. reflexivity.
    - rewrite W, Z, map_map. apply map_ext_in. intros a Ha. cbn [snd]. f_equal. apply EQ. apply filter_In in Ha. tauto.
  Qed.
  Lemma niirs_standard c1 mt : niirs ni it diag s c itp = (c1, Ok mt) -> standard_contrast s (atm_rows m) em (n_contrast mt).
  Proof. intros H. destruct (niirs_contrast _ _ _ _ _ _ _ _ _ Hload H) as (rows & V & E). apply (standard_of rows); assumption. Qed.
  Lemma niirs5_standard s1 c1 mt : niirs5 ni it diag s c itp = (s1, c1, Ok mt) -> standard_contrast s (atm_rows m) em (f_contrast mt).
  Proof. intros H. destruct (niirs5_contrast _ _ _ _ _ _ _ _ _ _ Hload H) as (rows & V & E). apply (standard_of rows); assumption. Qed.
End Contrast.

(** ** Edges *)
Lemma edges_value m df x y : rows m = 101%nat -> cols m = 101%nat -> 0 <= df -> exists eu ev,
  giqe_edge_terms m df x y = Ok (xsqrt (Fin (slope (u_line m) df x * slope (v_line m) df y)), xsqrt (Fin (eu * ev))) /\
  overshoot (u_line m) df x eu /\ overshoot (v_line m) df y ev.
Proof.
  intros Hr Hc Hd. destruct (lines_ok m Hr Hc) as [E1 E2]. unfold giqe_edge_terms. rewrite E1, E2. cbn [bind].
  rewrite !rer_value by exact Hd. cbn [bind].
  destruct (eho_spec (u_line m) df x Hd) as (eu & -> & Ou). destruct (eho_spec (v_line m) df y Hd) as (ev & -> & Ov). cbn [bind].
  exists eu, ev. split; [reflexivity|]. split; assumption.
Qed.
Lemma lines_of v : let m := {| rows := 101; cols := 101; px := fun i j => nth (i * 101 + j) (map Rabs v) 0 |} in
  u_line m = rightwards v /\ v_line m = upwards v.
Proof.
  cbv zeta. unfold u_line, v_line, rightwards, upwards.
  assert (E : forall n, nth n (map Rabs v) 0 = Rabs (nth n v 0)).
  { intros n. rewrite <- (map_nth Rabs v 0 n). rewrite Rabs_R0. reflexivity. }
  split; apply map_ext; intros i; cbn [px]; apply E.
Qed.
Lemma finite_inv x r : finite x = Ok r -> x = Fin r.
Proof. destruct x; cbn; try discriminate. intros H. apply ok_inj in H. subst. reflexivity. Qed.

Section Steps.
  Variables (ni it : loader) (diag : nat -> nat -> bool) (s : sensor) (c : scen) (itp : bool) (m : atm) (em : bool).
  Hypothesis Hload : loaded ni it c itp m.
  Hypothesis Hcam : good_camera s.
  Hypothesis Hem : em = true <-> emissive_band s.
  Hypothesis Hatm : good_atmosphere s em (atm_rows m).
  Hypothesis Halt : 0 < altitude c.

  Lemma otf_numbers s' c' ct sl t o rows : s' = s \/ s' = no_sharpening s -> altitude c' = altitude c ->
    seen_rows s (atm_rows m) rows -> contrast_part s rows (fst (bookkeeping s c)) = Ok ct ->
    curved_earth_slant_range 0 (altitude c) (ground_range c) = Fin sl ->
    common_OTFs diag Np s' c' (ct_pts ct) (ct_wl ct) (ct_w ct) sl t = Ok o ->
    0 < ct_df ct /\ exists v, system_OTF o = map Fin v /\ length v = (101 * 101)%nat.
  Proof.
    intros Hs' Hc' V E Esl Eo.
    destruct Hcam as (P & So & GO & Hf & Hpx & Hpy). destruct Hatm as (Sr & Ss & a & x & y & Ia & Ba & R1 & R2 & Pos).
    assert (Sr' : sound_rows rows) by (intros b Hb; apply Sr, V, Hb).
    destruct (contrast_shape s c m em P Hem Sr rows ct V E) as (_ & B & W).
    destruct (grid_shape s rows _ ct P Sr' E) as (lmin & _ & _ & L0 & Ecut & Edf & Lp & _).
    split. { rewrite Edf, Ecut. destruct GO as [D0 _]. apply Rdiv_lt_0_compat; [apply Rdiv_lt_0_compat; assumption | lra]. }
    assert (EX : exists a, In a rows /\ 0 < dN_at s (a_wl a) (giqe_target (isem (fst (bookkeeping s c))) a)).
    { exists a. split; [apply V; split; assumption|]. rewrite bookkeeping_em, <- (emissive_iff s em Hem).
      rewrite <- (electrons_at s x y); [exact Pos | apply (ph_tables _ P) | assumption..|]. apply (Sr a Ia). }
    destruct (spectrum_good s rows (fst (bookkeeping s c)) P Sr' (proj2 V Ss) EX) as [GS _].
    destruct (niirs_path _ _ _ Halt Esl) as (P1 & P2 & P3). rewrite B, W in Eo.
    assert (GO' : good_optics s') by (destruct Hs' as [-> | ->]; exact GO).
    assert (Hpx' : 0 < s_px s') by (destruct Hs' as [-> | ->]; exact Hpx).
    assert (Hf' : 0 < s_f s') by (destruct Hs' as [-> | ->]; exact Hf).
    destruct (common_any diag Np s' c' (ct_pts ct) _ sl t GS GO') as (o' & v & Eo' & Ev & Lv); auto.
    { right. rewrite Hc'. auto. }
    rewrite Eo in Eo'. apply ok_inj in Eo'. subst o'. exists v. split; [exact Ev|]. rewrite Lv, Lp. reflexivity.
  Qed.

  Lemma niirs_steps c1 mt : niirs ni it diag s c itp = (c1, Ok mt) -> let ct := n_contrast mt in
    exists t v eu ev, m_int_time (ct_snr ct) = Fin t /\
      common_OTFs diag Np s c1 (ct_pts ct) (ct_wl ct) (ct_w ct) (n_slant mt) t = Ok (n_otf mt) /\
      system_OTF (n_otf mt) = map Fin v /\ length v = (101 * 101)%nat /\
      n_rer mt = xsqrt (Fin (slope (rightwards v) (ct_df ct) (s_px s / s_f s) * slope (upwards v) (ct_df ct) (s_py s / s_f s))) /\
      overshoot (rightwards v) (ct_df ct) (s_px s / s_f s) eu /\ overshoot (upwards v) (ct_df ct) (s_py s / s_f s) ev /\
      n_eho mt = xsqrt (Fin (eu * ev)) /\
      elev_angle (altitude c) (n_slant mt) = Ok (n_elev mt).
  Proof.
    intros H. destruct (niirs_contrast _ _ _ _ _ _ _ _ _ Hload H) as (rows & V & E). cbv zeta.
    unfold niirs in H. unfold load_band in H. rewrite Hload in H. cbn [bind] in H.
    destruct (band s (atm_rows m)) as [rows'|] eqn:Eb; [|discriminate].
    assert (Bs := bookkeeping_same s c).
    destruct (bookkeeping s c) as [z c'] eqn:Ek. cbn [fst snd] in *. destruct Bs as (B1 & B2 & _). injection H as <- H.
    destruct (contrast_part s rows' z) as [ct|]; [|discriminate]. cbn [bind] in H. unfold niirs_rest in H.
    rewrite B1, B2 in H.
    destruct (finite _) as [sl|] eqn:Esl; [cbn [bind] in H|discriminate H]. apply finite_inv in Esl.
    destruct (finite _) as [t|] eqn:Et in H; [cbn [bind] in H|discriminate H]. apply finite_inv in Et.
    destruct (common_OTFs _ _ _ _ _ _ _ _ _) as [o|] eqn:Eo in H; [cbn [bind] in H|discriminate H].
    destruct Hcam as (P & So & GO & Hf & Hpx & Hpy).
    rewrite !pydiv_ok in H by lra. cbn [bind] in H. cbv zeta in H.
    assert (Ec : n_contrast mt = ct).
    { revert H. clear. intros H.
      repeat match type of H with
        | (let* x := ?b in _) = _ => destruct b as [?|]; [cbn [bind] in H|discriminate H]
        | (let (_, _) := ?g in _) = _ => destruct g as [? ?] end.
      apply ok_inj in H. subst mt. reflexivity. }
    rewrite Ec in E.
    destruct (otf_numbers s c' ct sl t o rows (or_introl eq_refl) B1 V) as (D0 & v & Ev & Lv).
    { rewrite Ek. exact E. } { exact Esl. } { exact Eo. }
    rewrite (mtf_image_ok o v Ev) in H. cbn [bind] in H.
    match type of H with context [giqe_edge_terms ?mm ?d ?x ?y] => destruct (edges_value mm d x y eq_refl eq_refl (Rlt_le _ _ D0)) as (eu & ev & EE & Ou & Ov) end.
    rewrite EE in H. cbn [bind] in H.
    destruct (lines_of v) as [Lu Lw]. rewrite Lu in *. rewrite Lw in *.
    destruct (noise_gain _) as [ng|]; [cbn [bind] in H|discriminate H].
    destruct (elev_angle _ _) as [e|] eqn:Ee in H; [cbn [bind] in H|discriminate H].
    destruct (giqe4 _ _ _ _ _ _) as [n4 gp]. apply ok_inj in H. subst mt.
    cbn [n_contrast n_slant n_otf n_rer n_eho n_elev] in *.
    exists t, v, eu, ev. repeat (split; [assumption || reflexivity|]). exact Ee.
  Qed.

  Lemma niirs5_steps s1 c1 mt : niirs5 ni it diag s c itp = (s1, c1, Ok mt) -> let ct := f_contrast mt in
    exists t v, m_int_time (ct_snr ct) = Fin t /\
      common_OTFs diag Np s1 c1 (ct_pts ct) (ct_wl ct) (ct_w ct) (f_slant mt) t = Ok (f_otf mt) /\
      system_OTF (f_otf mt) = map Fin v /\ length v = (101 * 101)%nat /\
      f_rer_0 mt = Fin (slope (rightwards v) (ct_df ct) (s_px s / s_f s)) /\
      f_rer_90 mt = Fin (slope (upwards v) (ct_df ct) (s_py s / s_f s)) /\
      elev_angle (altitude c) (f_slant mt) = Ok (f_elev mt).
  Proof.
    intros H. destruct (niirs5_contrast _ _ _ _ _ _ _ _ _ _ Hload H) as (rows & V & E). cbv zeta.
    unfold niirs5 in H. unfold load_band in H. rewrite Hload in H. cbn [bind] in H.
    destruct (band s (atm_rows m)) as [rows'|] eqn:Eb; [|discriminate].
    assert (Bs := bookkeeping_same s c).
    destruct (bookkeeping s c) as [z c'] eqn:Ek. cbn [fst snd] in *. destruct Bs as (B1 & B2 & _).
    destruct (contrast_part s rows' z) as [ct|]; [|discriminate]. cbv zeta in H. injection H as <- <- H. unfold niirs5_rest in H.
    rewrite B1, B2 in H.
    destruct (finite _) as [sl|] eqn:Esl; [cbn [bind] in H|discriminate H]. apply finite_inv in Esl.
    destruct (finite _) as [t|] eqn:Et in H; [cbn [bind] in H|discriminate H]. apply finite_inv in Et.
    destruct (common_OTFs _ _ _ _ _ _ _ _ _) as [o|] eqn:Eo in H; [cbn [bind] in H|discriminate H].
    destruct Hcam as (P & So & GO & Hf & Hpx & Hpy). cbn [no_sharpening s_px s_py s_f s_frames] in H.
    rewrite !pydiv_ok in H by lra. cbn [bind] in H. cbv zeta in H.
    assert (Ec : f_contrast mt = ct).
    { revert H. clear. intros H.
      repeat match type of H with
        | (let* x := ?b in _) = _ => destruct b as [?|]; [cbn [bind] in H|discriminate H]
        | (let (_, _) := ?g in _) = _ => destruct g as [? ?] end.
      apply ok_inj in H. subst mt. reflexivity. }
    rewrite Ec in E.
    destruct (otf_numbers (no_sharpening s) c' ct sl t o rows (or_intror eq_refl) B1 V) as (D0 & v & Ev & Lv).
    { rewrite Ek. exact E. } { exact Esl. } { exact Eo. }
    rewrite (mtf_image_ok o v Ev) in H. cbn [bind] in H.
    match type of H with context [giqe5_RER ?mm ?d ?x ?y] => rewrite (rer5_ok mm d x y eq_refl eq_refl (Rlt_le _ _ D0)) in H end. cbn [bind] in H.
    destruct (lines_of v) as [Lu Lw]. rewrite Lu, Lw in H.
    destruct (elev_angle _ _) as [e|] eqn:Ee in H; [cbn [bind] in H|discriminate H].
    destruct (giqe5 _ _ _ _ _) as [[n5 gw] rr]. apply ok_inj in H. subst mt.
    cbn [f_contrast f_slant f_otf f_rer_0 f_rer_90 f_elev] in *.
    exists t, v. repeat (split; [assumption || reflexivity|]). exact Ee.
  Qed.
End Steps.
