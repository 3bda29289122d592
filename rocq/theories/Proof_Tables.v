(** * Proof_Tables: lemmas for C136 *)
From Coq Require Import Reals Lra Lia List ZArith.
From Verif Require Import Base_XR Base_Np Base_Interp Model_Geo Model_Db Model_Scenario Model_Sensor Model_Rad Model_Otf Model_Met Model_Img Model_Sim
  Spec_Rad Spec_Met Spec_Tables Proof_Pe Proof_RadP.
Import ListNotations.
Open Scope R_scope.

Lemma table_bad xp fp : length fp <> length xp -> interp_table xp fp = Err ValueError.
Proof. intros H. unfold interp_table. destruct xp; [reflexivity|]. destruct (Nat.eqb_spec (length (r :: xp)) (length fp)); [congruence | reflexivity]. Qed.
(* the three responses of the camera, in the order of the calls *)
Lemma responses_bad s wl : malformed_tables s ->
  sensor_opt_trans s wl = Err ValueError \/ (exists t, sensor_opt_trans s wl = Ok t) /\ sensor_qe s wl = Err ValueError.
Proof.
  intros H. unfold sensor_opt_trans, sensor_qe, resample_by_wavelength.
  destruct (interp_table (s_owl s) (s_otr s)) as [tab|e] eqn:E.
  - right. split; [eexists; reflexivity|]. destruct H as [H|[H|H]].
    + rewrite (table_bad _ _ H) in E. discriminate.
    + rewrite H. reflexivity.
    + rewrite (table_bad _ _ H). reflexivity.
  - left. unfold interp_table in E. destruct (s_owl s); [|destruct (Nat.eqb _ _)]; cbn [bind]; congruence.
Qed.
Lemma responses_closed s wl : has_tables s -> s_D s = 0 ->
  exists t q, sensor_opt_trans s wl = Ok t /\ sensor_qe s wl = Ok q /\ sensor_other_irradiance s wl = Err ZeroDivisionError.
Proof.
  intros (H1 & H2 & H3 & H4) HD. unfold sensor_opt_trans, sensor_qe, resample_by_wavelength, sensor_other_irradiance, cold_shield_self_emission.
  rewrite !interp_table_ok, HD, pydiv_zero by assumption. cbn [bind]. eauto.
Qed.
(* the error that the camera raises whatever it looks at *)
Definition always (s : sensor) (e : exn) : Prop := forall wl,
  sensor_opt_trans s wl = Err e \/
  exists t, sensor_opt_trans s wl = Ok t /\ (sensor_qe s wl = Err e \/ exists q, sensor_qe s wl = Ok q /\ sensor_other_irradiance s wl = Err e).
Lemma always_malformed s : malformed_tables s -> always s ValueError.
Proof. intros H wl. destruct (responses_bad s wl H) as [E|((t & E) & F)]; [left; exact E | right; exists t; split; [exact E | left; exact F]]. Qed.
Lemma always_closed s : has_tables s -> s_D s = 0 -> always s ZeroDivisionError.
Proof. intros H D wl. destruct (responses_closed s wl H D) as (t & q & A & B & C). right. exists t. split; [exact A|]. right. exists q. split; assumption. Qed.

Lemma contrast_always s e rows em : always s e -> contrast_part s rows em = Err e.
Proof.
  intros A. unfold contrast_part. destruct (giqe_radiance rows em) as [tgt bkg]. unfold photon_detector_SNR.
  destruct (A (map a_wl rows)) as [E|(t & E & [F|(q & F & G)])]; rewrite E; cbn [bind]; [reflexivity | rewrite F; reflexivity | rewrite F; cbn [bind]; rewrite G; reflexivity].
Qed.
Lemma pe_always s e atm t r : always s e -> pe_at s atm t r = Err e.
Proof.
  intros A. unfold pe_at.
  destruct (A (map a_wl atm)) as [E|(u & E & [F|(q & F & G)])]; rewrite E; cbn [bind]; [reflexivity | rewrite F; reflexivity | rewrite F; cbn [bind]; rewrite G; reflexivity].
Qed.
Lemma r2p_always s e atm t T : s_owl s <> [] -> always s e -> reflectance_to_photoelectrons atm s t T = Err e.
Proof.
  intros Hn A. unfold reflectance_to_photoelectrons. destruct (band_ok s atm Hn) as (b & E & _). rewrite E. cbn [bind].
  destruct (linspace_cons 0 1 99) as (x & l & El & _). rewrite El. cbn [mapM]. rewrite (pe_always s e) by exact A. reflexivity.
Qed.
Lemma written s c lo : nth_error (s_owl s) 0 = Some lo -> defaults_written lo c (snd (bookkeeping s c)).
Proof.
  intros El. unfold bookkeeping. replace (nth 0 (s_owl s) 0) with lo by (symmetry; apply nth_error_nth; exact El).
  split; intros C.
  - assert (E : Rleb (2.9 / 10 ^ 6) lo = false) by (apply Rleb_false; exact C). rewrite E. cbn. repeat split; reflexivity.
  - assert (E : Rleb (2.9 / 10 ^ 6) lo = true) by (apply Rleb_true; exact C). rewrite E. cbn. repeat split; reflexivity.
Qed.
Lemma analyses_always ni it diag s c itp m lo e : loaded ni it c itp m -> nth_error (s_owl s) 0 = Some lo -> always s e ->
  exists c', niirs ni it diag s c itp = (c', Err e) /\ niirs5 ni it diag s c itp = (s, c', Err e) /\ defaults_written lo c c'.
Proof.
  intros H El A. exists (snd (bookkeeping s c)). assert (Hn : s_owl s <> []) by (intros Z; rewrite Z in El; discriminate).
  assert (L : exists rows, load_band ni it s c itp = Ok rows).
  { unfold load_band. rewrite H. cbn [bind]. destruct (band_ok s (atm_rows m) Hn) as (b & E & _). exists b. exact E. }
  destruct L as (rows & L). assert (W := written s c lo El). unfold niirs, niirs5. rewrite L.
  destruct (bookkeeping s c) as [em c1]. cbn [snd] in *. rewrite (contrast_always s e) by exact A. split; [reflexivity|]. split; [reflexivity | exact W].
Qed.
Lemma malformed_analyses ni it diag s c itp m lo : loaded ni it c itp m -> nth_error (s_owl s) 0 = Some lo -> malformed_tables s ->
  exists c', niirs ni it diag s c itp = (c', Err ValueError) /\ niirs5 ni it diag s c itp = (s, c', Err ValueError) /\ defaults_written lo c c'.
Proof. intros H El M. exact (analyses_always ni it diag s c itp m lo ValueError H El (always_malformed s M)). Qed.
Lemma closed_analyses ni it diag s c itp m lo : loaded ni it c itp m -> nth_error (s_owl s) 0 = Some lo -> has_tables s -> s_D s = 0 ->
  exists c', niirs ni it diag s c itp = (c', Err ZeroDivisionError) /\ niirs5 ni it diag s c itp = (s, c', Err ZeroDivisionError) /\ defaults_written lo c c'.
Proof. intros H El T D. exact (analyses_always ni it diag s c itp m lo _ H El (always_closed s T D)). Qed.
Lemma simulate_always diag d s c r m e : s_owl s <> [] -> always s e -> simulate_rest diag d s c r m = Err e.
Proof. intros Hn A. unfold simulate_rest. rewrite (r2p_always s e) by assumption. reflexivity. Qed.
Lemma malformed_simulation diag d s c r m atm t T : s_owl s <> [] -> malformed_tables s ->
  reflectance_to_photoelectrons atm s t T = Err ValueError /\ simulate_rest diag d s c r m = Err ValueError.
Proof. intros Hn M. split; [apply r2p_always | apply simulate_always]; auto using always_malformed. Qed.
Lemma closed_simulation diag d s c r m atm t T : has_tables s -> s_D s = 0 ->
  reflectance_to_photoelectrons atm s t T = Err ZeroDivisionError /\ simulate_rest diag d s c r m = Err ZeroDivisionError.
Proof. intros M D. split; [apply r2p_always | apply simulate_always]; auto using always_closed; apply M. Qed.

(* a camera for the examples: aperture and efficiencies are free *)
Definition altered_cam (D : R) (qe : list R) : sensor := {|
  s_D := D; s_f := 4; s_px := 8 / 10 ^ 6; s_py := 8 / 10 ^ 6; s_wx := 8 / 10 ^ 6; s_wy := 8 / 10 ^ 6; s_eta := 0.4;
  s_owl := [0.4 / 10 ^ 6; 0.7 / 10 ^ 6]; s_otr := [1; 1]; s_qwl := [0.4 / 10 ^ 6; 0.7 / 10 ^ 6]; s_qe := qe;
  s_int_time := 0.03; s_dark := 0; s_other_irr := 0; s_read := 25; s_max_n := 96000;
  s_max_fill := 0.6; s_bits := 11.9; s_ntdi := 1;
  s_T_shield := 70; s_T_opt := 270; s_e_opt := 0; s_t_filt := 1; s_T_filt := 70; s_e_filt := 0;
  s_sx := 0; s_sy := 0; s_dax := 0; s_day := 0; s_pv := 0; s_pv_wl := 0.633 / 10 ^ 6;
  s_Lx := 1; s_Ly := 1; s_other_noise := [0]; s_kernel := [[1]]; s_frames := 1 |}.
