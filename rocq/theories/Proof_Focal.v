(** * Proof_Focal: cameras with a focal length of zero (C136) *)
From Coq Require Import Reals Lra Lia List ZArith Sorted.
From Verif Require Import Base_XR Base_Np Model_Geo Model_Db Model_Scenario Model_Sensor Model_Rad Model_Otf Model_Met
  Spec_Geo Spec_Rad Spec_System Spec_Met Spec_Tables Proof_Geo Proof_Rad Proof_Snr Proof_Pe Proof_RadP Proof_System Proof_Contrast Proof_Niirs Proof_Raises Proof_Tables Proof_NiirsDemo.
Import ListNotations.
Open Scope R_scope.

(* the components come first, then the filter needs the angle of a pixel *)
Lemma common_flat diag s c pts wl w sl t : length w = length wl -> wl <> [] -> NoDup wl -> 0 <= altitude c -> s_f s = 0 ->
  (exists o, common_OTFs diag Np s c pts wl w sl t = Ok o) \/ common_OTFs diag Np s c pts wl w sl t = Err ZeroDivisionError.
Proof.
  intros L W N A F. destruct (Nat.ltb 1 (length (s_kernel s))) eqn:K.
  - right. destruct (common_good diag Np (no_sharpening s) c pts wl w sl t L W N (le_n 1) A (fun _ => or_introl eq_refl)) as (o & E & _).
    unfold common_OTFs in *. rewrite K, F, pydiv_zero.
    change (s_D (no_sharpening s)) with (s_D s) in E. change (s_eta (no_sharpening s)) with (s_eta s) in E.
    change (s_ntdi (no_sharpening s)) with (s_ntdi s) in E. change (s_pv (no_sharpening s)) with (s_pv s) in E.
    change (s_pv_wl (no_sharpening s)) with (s_pv_wl s) in E. change (s_Lx (no_sharpening s)) with (s_Lx s) in E.
    change (s_Ly (no_sharpening s)) with (s_Ly s) in E.
    apply bind_ok in E. destruct E as (ap & Ea & E). rewrite Ea. cbn [bind].
    apply bind_ok in E. destruct E as ([turb r0b] & Et & E). rewrite Et. cbn [bind].
    apply bind_ok in E. destruct E as (wav & Ew & E). rewrite Ew. reflexivity.
  - left. apply Nat.ltb_ge in K.
    destruct (common_good diag Np s c pts wl w sl t L W N K A (fun _ => or_introl eq_refl)) as (o & E & _). exists o. exact E.
Qed.

Lemma flat_analyses : forall ni it diag s c itp m em lo, loaded ni it c itp m -> nth_error (s_owl s) 0 = Some lo -> physical s -> sorted_tables s ->
  (em = true <-> emissive_band s) -> good_atmosphere s em (atm_rows m) -> 0 < altitude c -> s_f s = 0 ->
  exists c', niirs ni it diag s c itp = (c', Err ZeroDivisionError) /\ niirs5 ni it diag s c itp = (no_sharpening s, c', Err ZeroDivisionError)
    /\ defaults_written lo c c'.
Proof.
  intros ni it diag s c itp m em lo Hload Hlo P So Hem Hatm Halt Hf. destruct Hatm as (Sr & Ss & a & x & y & Ia & Ba & R1 & R2 & Pos).
  assert (Ht := ph_tables _ P).
  destruct (band_ok s (atm_rows m)) as (rows & Eb & _); [apply Ht|].
  destruct (seen_band _ _ _ Eb) as [Bi Bs]. specialize (Bs Ss).
  assert (Sr' : sound_rows rows) by (intros b Hb; apply Sr; apply Bi; exact Hb).
  rewrite (emissive_iff s em Hem), <- (bookkeeping_em s c) in Pos.
  assert (Ex : exists a, In a rows /\ 0 < dN_at s (a_wl a) (giqe_target (isem (fst (bookkeeping s c))) a)).
  { exists a. split; [apply Bi; split; assumption|]. rewrite <- (electrons_at s x y) by (auto; apply (Sr a Ia)). exact Pos. }
  destruct (contrast_ok s rows (fst (bookkeeping s c)) P Sr' Bs Ex) as (ct & t & Ec & Ew & Eww & Et & _ & snr & Es).
  destruct (spectrum_good s rows (fst (bookkeeping s c)) P Sr' Bs Ex) as [[GN _] NE].
  assert (Esl := slant_val 0 (altitude c) (ground_range c)).
  match type of Esl with _ = Fin ?q => set (sl := q) in * end. clearbody sl.
  assert (El : load_band ni it s c itp = Ok rows) by (unfold load_band; rewrite Hload; exact Eb).
  exists (snd (bookkeeping s c)).
  assert (Bk := bookkeeping_same s c). destruct Bk as (B1 & B2 & _).
  assert (J : forall s', s_f s' = 0 -> (exists o, common_OTFs diag Np s' (snd (bookkeeping s c)) (ct_pts ct) (ct_wl ct) (ct_w ct) sl t = Ok o)
    \/ common_OTFs diag Np s' (snd (bookkeeping s c)) (ct_pts ct) (ct_wl ct) (ct_w ct) sl t = Err ZeroDivisionError).
  { intros s' F. apply common_flat; auto.
    - rewrite Ew, Eww, !map_length. reflexivity.
    - rewrite Ew. intros C. apply map_eq_nil in C. contradiction.
    - rewrite Ew. exact GN.
    - rewrite B1. lra. }
  assert (W : defaults_written lo c (snd (bookkeeping s c))) by (apply written; exact Hlo).
  unfold niirs, niirs5. rewrite El. destruct (bookkeeping s c) as [z c2] eqn:B. cbn [fst snd] in *. rewrite Ec. cbn [bind].
  split; [|split; [|exact W]]; f_equal.
  - unfold niirs_rest. rewrite B1, B2, Esl. cbn [finite bind]. rewrite Et. cbn [finite bind].
    destruct (J s Hf) as [(o & ->) | ->]; cbn [bind]; [rewrite Hf, pydiv_zero|]; reflexivity.
  - unfold niirs5_rest. rewrite B1, B2, Esl. cbn [finite bind]. rewrite Et. cbn [finite bind].
    destruct (J (no_sharpening s) Hf) as [(o & ->) | ->]; cbn [bind]; [change (s_f (no_sharpening s)) with (s_f s); rewrite Hf, pydiv_zero|]; reflexivity.
Qed.

(* the camera of Proof_NiirsDemo with focal length 0 *)
Definition flat_cam (k : list (list R)) (lo hi n : R) : sensor := {|
  s_D := 0.3; s_f := 0; s_px := 8 / 10 ^ 6; s_py := 8 / 10 ^ 6; s_wx := 8 / 10 ^ 6; s_wy := 8 / 10 ^ 6; s_eta := 0.4;
  s_owl := [lo; hi]; s_otr := [1; 1]; s_qwl := [lo; hi]; s_qe := [1; 1];
  s_int_time := 0.03; s_dark := 0; s_other_irr := 0; s_read := 25; s_max_n := 96000;
  s_max_fill := 0.6; s_bits := 11.9; s_ntdi := 1;
  s_T_shield := 70; s_T_opt := 270; s_e_opt := 0; s_t_filt := 1; s_T_filt := 70; s_e_filt := 0;
  s_sx := 0; s_sy := 0; s_dax := 0; s_day := 0; s_pv := 0; s_pv_wl := 0.633 / 10 ^ 6;
  s_Lx := 1; s_Ly := 1; s_other_noise := [0]; s_kernel := k; s_frames := n |}.
Lemma flat_physical k lo hi n : 0 < lo -> lo < hi -> physical (flat_cam k lo hi n).
Proof.
  intros H1 H2. constructor; cbn; try lra; try (intros x [<-|[<-|[]]]; lra).
  repeat split; try discriminate; reflexivity.
Qed.
Lemma flat_sorted k lo hi n : lo < hi -> sorted_tables (flat_cam k lo hi n).
Proof. intros H. split; repeat (constructor; try lra). Qed.
Lemma flat_atmosphere k i0 hi n em : (i0 < n_wave)%nat -> wavelength i0 < hi ->
  good_atmosphere (flat_cam k (wavelength i0) hi n) em (atm_rows demo_m).
Proof.
  intros Hi Hh. assert (P0 := wavelength_pos i0 Hi).
  assert (SR : sound_rows (atm_rows demo_m)).
  { intros a Ha. unfold atm_rows in Ha. apply in_map_iff in Ha. destruct Ha as (i & <- & Hi'). apply in_seq in Hi'. cbn.
    assert (W := wavelength_pos i ltac:(lia)). repeat split; lra. }
  split; [exact SR|]. split.
  - unfold atm_rows. rewrite map_map. cbn [a_wl]. apply sorted_seq. intros i j H1 H2. apply wavelength_lt; lia.
  - set (a := {| a_wl := wavelength i0; a_trans := 1; a_path := 1; a_surf := 1; a_scat := 1; a_grnd := 1 |}).
    assert (Ia : In a (atm_rows demo_m)).
    { unfold atm_rows. apply in_map_iff. exists i0. split; [reflexivity|]. apply in_seq. lia. }
    exists a, 1, 1. split; [exact Ia|].
    split. { exists (wavelength i0), hi. cbn. repeat split; try reflexivity; lra. }
    split. { exact (reads_node [wavelength i0; hi] [1; 1] (wavelength i0) 0 ltac:(cbn; lia) eq_refl). }
    split. { exact (reads_node [wavelength i0; hi] [1; 1] (wavelength i0) 0 ltac:(cbn; lia) eq_refl). }
    unfold electrons. cbn [flat_cam s_wx s_wy s_t_filt s_eta s_D s_f].
    assert (T := target_sound em a (SR a Ia)). assert (C := cone_pos 0.3 0).
    assert (0 < haze_radiance a) by (unfold haze_radiance; cbn; lra).
    assert (0 <= self_irradiance (flat_cam k (wavelength i0) hi n) (a_wl a)).
    { rewrite <- Proof_RadP.self_eq. apply Proof_Snr.other_nonneg; [apply flat_physical; assumption | exact P0]. }
    assert (0 < photon_energy (a_wl a)).
    { unfold photon_energy. apply Rdiv_lt_0_compat; [|exact P0]. unfold h_planck, c_light. lra. }
    assert (0 < cone 0.3 0 * giqe_target em a) by (apply Rmult_lt_0_compat; lra).
    apply Rdiv_lt_0_compat; [|assumption]. apply Rmult_lt_0_compat; [lra|].
    replace (1 * (1 - 0.4 ^ 2) * 1 * cone 0.3 0 * giqe_target em a) with (0.84 * (cone 0.3 0 * giqe_target em a)) by lra. lra.
Qed.
