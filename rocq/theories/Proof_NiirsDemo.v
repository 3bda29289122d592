(** * Proof_NiirsDemo: a concrete camera, atmosphere and scenario for niirs *)
From Coq Require Import Reals Lra List Lia ZArith Psatz Bool Sorted.
From Verif Require Import Base_XR Base_Np Base_NpFacts Base_Interp Model_Geo Model_Noise Model_Db Model_Scenario Model_Sensor Model_Rad Model_Otf Model_Img Model_Met
  Spec_Noise Spec_Rad Spec_System Spec_Met Proof_Db Proof_Rad Proof_Contrast Proof_Niirs.
Import ListNotations.
Open Scope R_scope.

Definition demo_cam (k : list (list R)) (lo hi n : R) : sensor := {|
  s_D := 0.3; s_f := 4; s_px := 8 / 10 ^ 6; s_py := 8 / 10 ^ 6; s_wx := 8 / 10 ^ 6; s_wy := 8 / 10 ^ 6; s_eta := 0.4;
  s_owl := [lo; hi]; s_otr := [1; 1]; s_qwl := [lo; hi]; s_qe := [1; 1];
  s_int_time := 0.03; s_dark := 0; s_other_irr := 0; s_read := 25; s_max_n := 96000;
  s_max_fill := 0.6; s_bits := 11.9; s_ntdi := 1;
  s_T_shield := 70; s_T_opt := 270; s_e_opt := 0; s_t_filt := 1; s_T_filt := 70; s_e_filt := 0;
  s_sx := 0; s_sy := 0; s_dax := 0; s_day := 0; s_pv := 0; s_pv_wl := 0.633 / 10 ^ 6;
  s_Lx := 1; s_Ly := 1; s_other_noise := [0]; s_kernel := k; s_frames := n |}.
Definition demo_m : atm := fun i j => match j with O => wavelength i | _ => 1 end.
Definition demo_load : loader := fun _ _ _ => Ok demo_m.
Definition demo_scen : scen := {| ihaze := 1; altitude := 9000; ground_range := 60000; interp := false;
  plain := fun a => match a with Cn2At1m => 1.7 / 10 ^ 14 | HaWindSpeed => 21 | _ => 290 end; cache := None |}.
Definition no_diag : nat -> nat -> bool := fun _ _ => true.

Lemma demo_good k lo hi n : 0 < lo -> lo < hi -> good_camera (demo_cam k lo hi n).
Proof.
  intros H1 H2. unfold good_camera. cbn. split; [|split; [|split]].
  - constructor; cbn; try lra; try (intros x [<-|[<-|[]]]; lra).
    repeat split; try discriminate; reflexivity.
  - split; repeat (constructor; try lra).
  - unfold good_optics. cbn. repeat split; lra.
  - repeat split; lra.
Qed.
Lemma wavelength_step i : (S i < n_wave)%nat -> wavelength i < wavelength (S i).
Proof. intros H. rewrite !wavelength_val by lia. rewrite S_INR. apply Rmult_lt_compat_r; [apply Rinv_0_lt_compat; lra|]. lra. Qed.
Lemma wavelength_lt i j : (i < j)%nat -> (j < n_wave)%nat -> wavelength i < wavelength j.
Proof.
  intros H Hj. induction j as [|j IH]; [lia|]. destruct (Nat.eq_dec i j) as [->|N]; [apply wavelength_step; lia|].
  apply Rlt_trans with (wavelength j); [apply IH; lia | apply wavelength_step; lia].
Qed.
Lemma wavelength_pos i : (i < n_wave)%nat -> 0 < wavelength i.
Proof.
  intros H. rewrite wavelength_val by exact H. pose proof (pos_INR i). apply Rdiv_lt_0_compat; [|lra].
  assert (0 <= INR i * (13.7 / 1370)) by (apply Rmult_le_pos; lra). lra.
Qed.
Lemma sorted_seq (f : nat -> R) k n : (forall i j, (i < j)%nat -> (j < k + n)%nat -> f i < f j) -> StronglySorted Rlt (map f (seq k n)).
Proof.
  revert k. induction n as [|n IH]; intros k H; cbn [seq map]; constructor.
  - apply IH. intros i j Hi Hj. apply H; lia.
  - rewrite Forall_forall. intros x Hx. apply in_map_iff in Hx. destruct Hx as (i & <- & Hi). apply in_seq in Hi. apply H; lia.
Qed.
(* row i of the database grid lies at 0.3 micron + i nm * 10 *)
Lemma demo_atmosphere k i0 hi n em : (i0 < n_wave)%nat -> wavelength i0 < hi ->
  good_atmosphere (demo_cam k (wavelength i0) hi n) em (atm_rows demo_m).
Proof.
  intros Hi Hh. assert (P0 := wavelength_pos i0 Hi).
  assert (SR : sound_rows (atm_rows demo_m)).
  { intros a Ha. unfold atm_rows in Ha. apply in_map_iff in Ha. destruct Ha as (i & <- & Hi'). apply in_seq in Hi'. cbn.
    assert (W := wavelength_pos i ltac:(lia)). repeat split; lra. }
  split; [exact SR|]. split.
  - unfold atm_rows. rewrite map_map. cbn [a_wl]. apply sorted_seq. intros i j H1 H2. apply wavelength_lt; lia.
  - set (a := {| a_wl := wavelength i0; a_trans := 1; a_path := 1; a_surf := 1; a_scat := 1; a_grnd := 1 |}).
    assert (Ia : In a (atm_rows demo_m)).
    { unfold atm_rows. apply in_map_iff. exists i0. split; [reflexivity|]. apply in_seq. lia. }
    exists a, 1, 1. split; [exact Ia|].
    split. { exists (wavelength i0), hi. cbn. repeat split; try reflexivity; lra. }
    split. { exact (reads_node [wavelength i0; hi] [1; 1] (wavelength i0) 0 ltac:(cbn; lia) eq_refl). }
    split. { exact (reads_node [wavelength i0; hi] [1; 1] (wavelength i0) 0 ltac:(cbn; lia) eq_refl). }
    unfold electrons. cbn [demo_cam s_wx s_wy s_t_filt s_eta s_D s_f].
    assert (T := target_sound em a (SR a Ia)). assert (C := cone_pos 0.3 4).
    assert (0 < haze_radiance a) by (unfold haze_radiance; cbn; lra).
    assert (0 <= self_irradiance (demo_cam k (wavelength i0) hi n) (a_wl a)).
    { rewrite <- Proof_RadP.self_eq. apply Proof_Snr.other_nonneg; [apply demo_good; assumption | exact P0]. }
    assert (0 < photon_energy (a_wl a)).
    { unfold photon_energy. apply Rdiv_lt_0_compat; [|exact P0]. unfold h_planck, c_light. lra. }
    assert (0 < cone 0.3 4 * giqe_target em a) by (apply Rmult_lt_0_compat; lra).
    apply Rdiv_lt_0_compat; [|assumption]. apply Rmult_lt_0_compat; [lra|].
    replace (1 * (1 - 0.4 ^ 2) * 1 * cone 0.3 4 * giqe_target em a) with (0.84 * (cone 0.3 4 * giqe_target em a)) by lra. lra.
Qed.
Lemma demo_wavelength i x : (i < n_wave)%nat -> x = INR i -> wavelength i = (0.3 + x / 100) / 10 ^ 6.
Proof. intros H ->. rewrite wavelength_val by exact H. f_equal. lra. Qed.

(** ** C82: niirs after niirs5 *)
Lemma good_no_sharpening s : good_camera s -> good_camera (no_sharpening s).
Proof. intros [P H]. split; [|exact H]. destruct P. constructor; assumption. Qed.
Section After.
  Variables (ni it : loader) (diag : nat -> nat -> bool) (s : sensor) (c : scen) (itp : bool) (m : atm) (em : bool).
  Hypothesis Hload : loaded ni it c itp m.
  Hypothesis Hcam : good_camera s.
  Hypothesis Hem : em = true <-> emissive_band s.
  Hypothesis Hatm : good_atmosphere s em (atm_rows m).
  Hypothesis Halt : 0 < altitude c.

  Lemma after5 : exists c' m5 mt snr, niirs5 ni it diag s c itp = (no_sharpening s, c', Ok m5) /\
    niirs ni it diag (no_sharpening s) c' itp = (c', Ok mt) /\ n_ng mt = Fin 1 /\
    m_snr (ct_snr (n_contrast mt)) = Fin snr.
  Proof.
    destruct (niirs5_succeeds ni it diag s c itp m em Hload Hcam Hem Hatm Halt) as (m5 & _ & _ & _ & _ & E5 & _).
    destruct (niirs_succeeds ni it diag (no_sharpening s) c itp m em Hload (good_no_sharpening _ Hcam) Hem Hatm Halt) as (mt & snr & ng & E & _ & _ & Es & _ & En & N0 & Q & _).
    { cbn. lra. }
    assert (E' := niirs_idem _ _ _ _ _ _ _ _ E).
    exists (snd (bookkeeping s c)), m5, mt, snr. split; [exact E5|]. split; [exact E'|]. split; [|exact Es].
    rewrite En. f_equal. cbn in Q. nra.
  Qed.
  (* with a valid kernel: same call, different noise gain *)
  Lemma forgets_kernel : Rsum (concat (s_kernel s)) = 1 ->
    exists mt0 c' m5 mt1 ng, niirs ni it diag s c itp = (c', Ok mt0) /\
      niirs5 ni it diag s c itp = (no_sharpening s, c', Ok m5) /\
      niirs ni it diag (no_sharpening s) c' itp = (c', Ok mt1) /\
      n_ng mt0 = Fin ng /\ ng * ng = Rsum (map (fun w => w * w) (concat (s_kernel s))) /\ n_ng mt1 = Fin 1.
  Proof.
    intros K. destruct after5 as (c' & m5 & mt1 & snr & E5 & E1 & N1 & _).
    destruct (niirs_succeeds ni it diag s c itp m em Hload Hcam Hem Hatm Halt K) as (mt0 & snr0 & ng & E & _ & _ & _ & _ & En & _ & Q & _).
    destruct (niirs5_succeeds ni it diag s c itp m em Hload Hcam Hem Hatm Halt) as (m5' & _ & _ & _ & _ & E5' & _).
    assert (c' = snd (bookkeeping s c)) by congruence. subst c'.
    exists mt0, (snd (bookkeeping s c)), m5, mt1, ng. repeat split; auto.
  Qed.
  (* with a kernel niirs refuses: a call of niirs5 makes niirs succeed *)
  Lemma forgets_error : Rsum (concat (s_kernel s)) <> 1 ->
    exists c' m5 mt1, niirs ni it diag s c itp = (c', Err ValueError) /\
      niirs5 ni it diag s c itp = (no_sharpening s, c', Ok m5) /\
      niirs ni it diag (no_sharpening s) c' itp = (c', Ok mt1).
  Proof.
    intros K. destruct after5 as (c' & m5 & mt1 & snr & E5 & E1 & N1 & _).
    destruct (niirs5_succeeds ni it diag s c itp m em Hload Hcam Hem Hatm Halt) as (m5' & _ & _ & _ & _ & E5' & _).
    assert (c' = snd (bookkeeping s c)) by congruence. subst c'.
    exists (snd (bookkeeping s c)), m5, mt1. split; [|split; assumption].
    apply (niirs_kernel_error ni it diag s c itp m em); assumption.
  Qed.
End After.

(** ** The two demo cameras: visible light and thermal infrared *)
Definition sharpen : list (list R) := [[0; - (1/4); 0]; [- (1/4); 2; - (1/4)]; [0; - (1/4); 0]].
Definition visible (k : list (list R)) (n : R) : sensor := demo_cam k (wavelength 10) (7 / 10 ^ 7) n.
Definition thermal (k : list (list R)) (n : R) : sensor := demo_cam k (wavelength 770) (12 / 10 ^ 6) n.
Lemma n_wave_ge : (771 <= n_wave)%nat.
Proof. apply Nat.leb_le. vm_compute. reflexivity. Qed.
Lemma wl10 : wavelength 10 = 0.4 / 10 ^ 6.
Proof. rewrite (demo_wavelength 10 10); [lra | pose proof n_wave_ge; lia | cbn; lra]. Qed.
Lemma wl770 : wavelength 770 = 8 / 10 ^ 6.
Proof. rewrite (demo_wavelength 770 770); [lra | pose proof n_wave_ge; lia|]. rewrite INR_IZR_INZ. reflexivity. Qed.
Lemma visible_good k n : good_camera (visible k n).
Proof. apply demo_good; rewrite wl10; lra. Qed.
Lemma thermal_good k n : good_camera (thermal k n).
Proof. apply demo_good; rewrite wl770; lra. Qed.
Lemma visible_atm k n : good_atmosphere (visible k n) false (atm_rows demo_m).
Proof. apply demo_atmosphere; [pose proof n_wave_ge; lia | rewrite wl10; lra]. Qed.
Lemma thermal_atm k n : good_atmosphere (thermal k n) true (atm_rows demo_m).
Proof. apply demo_atmosphere; [pose proof n_wave_ge; lia | rewrite wl770; lra]. Qed.
Lemma visible_band k n : ~ emissive_band (visible k n).
Proof. unfold emissive_band. cbn [visible demo_cam s_owl nth]. rewrite wl10. lra. Qed.
Lemma thermal_band k n : emissive_band (thermal k n).
Proof. unfold emissive_band. cbn [thermal demo_cam s_owl nth]. rewrite wl770. lra. Qed.
Lemma visible_em k n : false = true <-> emissive_band (visible k n).
Proof. split; [discriminate | intros H; exfalso; exact (visible_band _ _ H)]. Qed.
Lemma thermal_em k n : true = true <-> emissive_band (thermal k n).
Proof. split; auto. intros _. apply thermal_band. Qed.
Lemma demo_loaded itp : loaded demo_load demo_load demo_scen itp demo_m.
Proof. unfold loaded. destruct itp; reflexivity. Qed.
Lemma sharpen_sum : Rsum (concat sharpen) = 1. Proof. cbn. lra. Qed.

Lemma order_matters : exists mt0 c' m5 mt1,
  niirs demo_load demo_load no_diag (visible sharpen 1) demo_scen false = (c', Ok mt0) /\
  niirs5 demo_load demo_load no_diag (visible sharpen 1) demo_scen false = (no_sharpening (visible sharpen 1), c', Ok m5) /\
  niirs demo_load demo_load no_diag (no_sharpening (visible sharpen 1)) c' false = (c', Ok mt1) /\
  n_ng mt0 <> n_ng mt1.
Proof.
  destruct (forgets_kernel demo_load demo_load no_diag (visible sharpen 1) demo_scen false demo_m false (demo_loaded _) (visible_good _ _) (visible_em _ _) (visible_atm _ _)) as (m0 & c' & m5 & m1 & ng & E0 & E5 & E1 & G0 & Q & G1).
  - cbn. lra.
  - exact sharpen_sum.
  - exists m0, c', m5, m1. repeat split; auto. rewrite G0, G1. intros C. injection C as ->. revert Q. cbn. lra.
Qed.

(** ** Forms used by the property theorems *)
Lemma state_visible ni it diag s c itp m : loaded ni it c itp m -> s_owl s <> [] -> ~ emissive_band s ->
  forall c', c' = fst (niirs ni it diag s c itp) \/ c' = snd (fst (niirs5 ni it diag s c itp)) ->
  plain c' TargetReflectance = 0.15 /\ plain c' BackgroundReflectance = 0.07 /\
  (forall a, a <> TargetReflectance -> a <> BackgroundReflectance -> plain c' a = plain c a) /\ same_route c c'.
Proof.
  intros L N E c' H. rewrite niirs_state, niirs5_state in H. destruct (load_band_ok _ _ _ _ _ _ L N) as [rows R]. rewrite R in H.
  assert (H' : c' = snd (bookkeeping s c)) by tauto. subst c'.
  destruct (bookkeeping_reflective s c E) as (A & B & C). split; [exact A|]. split; [exact B|]. split; [exact C|].
  unfold bookkeeping. destruct (Rleb _ _); repeat split.
Qed.
Lemma state_infrared ni it diag s c itp m : loaded ni it c itp m -> s_owl s <> [] -> emissive_band s ->
  forall c', c' = fst (niirs ni it diag s c itp) \/ c' = snd (fst (niirs5 ni it diag s c itp)) ->
  plain c' TargetReflectance = 0 /\ plain c' BackgroundReflectance = 0 /\ plain c' TargetTemperature = 280 /\
  (forall a, a <> TargetReflectance -> a <> BackgroundReflectance -> a <> TargetTemperature -> plain c' a = plain c a) /\ same_route c c'.
Proof.
  intros L N E c' H. rewrite niirs_state, niirs5_state in H. destruct (load_band_ok _ _ _ _ _ _ L N) as [rows R]. rewrite R in H.
  assert (H' : c' = snd (bookkeeping s c)) by tauto. subst c'.
  destruct (bookkeeping_emissive s c E) as (A & B & C & D). split; [exact A|]. split; [exact B|]. split; [exact C|]. split; [exact D|].
  unfold bookkeeping. destruct (Rleb _ _); repeat split.
Qed.
Lemma state_failed ni it diag s c itp : (s_owl s = [] \/ forall m, ~ loaded ni it c itp m) ->
  fst (niirs ni it diag s c itp) = c /\ fst (niirs5 ni it diag s c itp) = (s, c).
Proof.
  intros H. destruct (load_band_err _ _ _ _ _ H) as [e E]. unfold niirs, niirs5. rewrite E. split; reflexivity.
Qed.
Lemma infrared_defaults_refuted : ~ forall ni it diag s c itp m, loaded ni it c itp m -> s_owl s <> [] -> emissive_band s ->
  plain (fst (niirs ni it diag s c itp)) TargetTemperature = 282 /\ plain (fst (niirs ni it diag s c itp)) BackgroundTemperature = 280.
Proof.
  intros F. specialize (F demo_load demo_load no_diag (thermal sharpen 1) demo_scen false demo_m (demo_loaded _) ltac:(discriminate) (thermal_band _ _)).
  destruct (state_infrared demo_load demo_load no_diag (thermal sharpen 1) demo_scen false demo_m (demo_loaded _) ltac:(discriminate) (thermal_band _ _) _ (or_introl eq_refl)) as (_ & _ & T & _).
  destruct F as [F _]. rewrite T in F. lra.
Qed.
Section Total.
  Variables (ni it : loader) (diag : nat -> nat -> bool) (s : sensor) (c : scen) (itp : bool) (m : atm) (em : bool).
  Hypothesis Hload : loaded ni it c itp m.
  Hypothesis Hcam : good_camera s.
  Hypothesis Hem : em = true <-> emissive_band s.
  Hypothesis Hatm : good_atmosphere s em (atm_rows m).
  Hypothesis Halt : 0 < altitude c.
  Lemma niirs_total : Rsum (concat (s_kernel s)) = 1 ->
    exists c' mt snr ng, niirs ni it diag s c itp = (c', Ok mt) /\
      curved_earth_slant_range 0 (altitude c) (ground_range c) = Fin (n_slant mt) /\ 0 < n_slant mt /\
      m_snr (ct_snr (n_contrast mt)) = Fin snr /\
      n_gsd_gm mt = Fin (sqrt ((s_px s / s_f s * n_slant mt) * (s_py s / s_f s * n_slant mt))) /\
      n_ng mt = Fin ng /\ 0 <= ng /\ ng * ng = Rsum (map (fun w => w * w) (concat (s_kernel s))) /\
      (exists e, n_elev mt = Fin e /\ 0 < sin e) /\
      n_niirs mt = giqe3 (n_rer mt) (n_gsd_gm mt) (n_eho mt) (n_ng mt) (xmul (xsqrt (Fin (s_frames s))) (Fin snr)) /\
      (n_niirs_4 mt, n_gsd_gp mt) = giqe4 (n_rer mt) (n_gsd_gm mt) (n_eho mt) (n_ng mt) (xmul (xsqrt (Fin (s_frames s))) (Fin snr)) (n_elev mt).
  Proof. intros K. exists (snd (bookkeeping s c)). exact (niirs_succeeds ni it diag s c itp m em Hload Hcam Hem Hatm Halt K). Qed.
  Lemma niirs_total_err : Rsum (concat (s_kernel s)) <> 1 -> snd (niirs ni it diag s c itp) = Err ValueError.
  Proof. intros K. rewrite (niirs_kernel_error ni it diag s c itp m em Hload Hcam Hem Hatm Halt K). reflexivity. Qed.
  Lemma niirs5_total : exists s' c' mt snr r0 r90 e, niirs5 ni it diag s c itp = (s', c', Ok mt) /\ s_kernel s' = [[1]] /\
      curved_earth_slant_range 0 (altitude c) (ground_range c) = Fin (f_slant mt) /\ 0 < f_slant mt /\
      f_gsd_x mt = s_px s / s_f s * f_slant mt /\ m_snr (ct_snr (f_contrast mt)) = Fin snr /\
      f_rer_0 mt = Fin r0 /\ f_rer_90 mt = Fin r90 /\ f_elev mt = Fin e /\ 0 < sin e /\
      (f_niirs mt, f_gsd_w mt, f_rer mt) = giqe5 (Fin r0) (Fin r90) (Fin (f_gsd_x mt)) (xmul (xsqrt (Fin (s_frames s))) (Fin snr)) (Fin e).
  Proof.
    destruct (niirs5_succeeds ni it diag s c itp m em Hload Hcam Hem Hatm Halt) as (mt & snr & r0 & r90 & e & E & H).
    exists (no_sharpening s), (snd (bookkeeping s c)), mt, snr, r0, r90, e. split; [exact E|]. split; [reflexivity | exact H].
  Qed.
  Lemma order_kernel : Rsum (concat (s_kernel s)) = 1 ->
    exists mt0 c' s' m5 mt1 ng, niirs ni it diag s c itp = (c', Ok mt0) /\
      niirs5 ni it diag s c itp = (s', c', Ok m5) /\ niirs ni it diag s' c' itp = (c', Ok mt1) /\
      n_ng mt0 = Fin ng /\ ng * ng = Rsum (map (fun w => w * w) (concat (s_kernel s))) /\ n_ng mt1 = Fin 1.
  Proof.
    intros K. destruct (forgets_kernel ni it diag s c itp m em Hload Hcam Hem Hatm Halt K) as (mt0 & c' & m5 & mt1 & ng & H).
    exists mt0, c', (no_sharpening s), m5, mt1, ng. exact H.
  Qed.
  Lemma order_error : Rsum (concat (s_kernel s)) <> 1 ->
    exists c' s' m5 mt1, niirs ni it diag s c itp = (c', Err ValueError) /\
      niirs5 ni it diag s c itp = (s', c', Ok m5) /\ niirs ni it diag s' c' itp = (c', Ok mt1).
  Proof.
    intros K. destruct (forgets_error ni it diag s c itp m em Hload Hcam Hem Hatm Halt K) as (c' & m5 & mt1 & H).
    exists c', (no_sharpening s), m5, mt1. exact H.
  Qed.
End Total.
Lemma order_refuted : ~ forall ni it diag s c itp s' c' r5 r,
  niirs5 ni it diag s c itp = (s', c', r5) -> niirs ni it diag s c' itp = (c', r) -> niirs ni it diag s' c' itp = (c', r).
Proof.
  intros F. destruct order_matters as (m0 & c' & m5 & m1 & E0 & E5 & E1 & N).
  specialize (F _ _ _ _ _ _ _ _ _ _ E5 (niirs_idem _ _ _ _ _ _ _ _ E0)). rewrite E1 in F. injection F as F. congruence.
Qed.
