(** * Proof_BaselineRows: the shortest wavelength that the camera of RefImage sees *)
From Coq Require Import Reals Lra List Lia ZArith Psatz Bool Sorted.
From Flocq Require Import Core.Raux.
From Verif Require Import Base_XR Base_Np Model_Geo Model_Noise Model_Scenario Model_Sensor Model_Rad Model_Db Model_Otf Model_Img Model_Met Model_Sim
  Spec_Rad Spec_Img Spec_Blur Spec_System Spec_Met Spec_Sim Spec_Centre Spec_Baseline Proof_Rad Proof_RadP Proof_Snr Proof_Weight Proof_Sensor Proof_Native Proof_NiirsDemo Proof_SimDemo Proof_Baseline Proof_BaselineDemo.
Import ListNotations.
Open Scope R_scope.

Lemma capture_tables ri alt s w : estimate_capture_parameters ri alt = Ok (s, w) ->
  s_owl s = [380 / 10 ^ 9; 700 / 10 ^ 9] /\ s_otr s = [1; 1] /\ s_qwl s = s_owl s /\ s_qe s = [1; 1] /\ s_eta s = 0 /\ s_t_filt s = 1 /\ 0 < s_wx s /\ 0 < s_wy s.
Proof.
  intros H. unfold estimate_capture_parameters in H.
  destruct (pydiv _ (ri_gsd ri)) as [f|]; [|discriminate]. cbn [bind] in H.
  destruct (pydiv _ f) as [x|]; [|discriminate]. cbn [bind] in H.
  destruct (xdiv _ _) as [D| | |]; try discriminate.
  unfold sensor_init in H. rewrite pydiv_ok in H by lra. cbn [bind] in H. apply ok_inj in H. injection H as <- <-.
  cbn [s_owl s_otr s_qwl s_qe s_eta s_t_filt s_wx s_wy k_t_filt default_kw]. repeat split; try reflexivity; lra.
Qed.

Lemma flat_reads x : 380 / 10 ^ 9 <= x <= 700 / 10 ^ 9 -> reads [380 / 10 ^ 9; 700 / 10 ^ 9] [1; 1] x 1.
Proof.
  intros Hx. pose proof (reads_between [380 / 10 ^ 9; 700 / 10 ^ 9] [1; 1] x 0 ltac:(cbn; lia) Hx) as H. cbn [nth] in H.
  replace (1 + (1 - 1) * ((x - 380 / 10 ^ 9) / (700 / 10 ^ 9 - 380 / 10 ^ 9))) with 1 in H by ring. exact H.
Qed.

Lemma row_seen ri alt s w a : 0 < ri_gsd ri -> 0 < alt -> estimate_capture_parameters ri alt = Ok (s, w) ->
  380 / 10 ^ 9 <= a_wl a <= 700 / 10 ^ 9 -> 0 < scene_radiance 1 300 a ->
  in_band s a /\ reads (s_owl s) (s_otr s) (a_wl a) 1 /\ reads (s_qwl s) (s_qe s) (a_wl a) 1 /\
  0 < electrons s 1 1 (a_wl a) (scene_radiance 1 300 a).
Proof.
  intros Hg Ha H Hw Hr. destruct (capture_tables _ _ _ _ H) as (T1 & T2 & T3 & T4 & T5 & T6 & T7 & T8).
  destruct (capture_good _ _ _ _ Hg Ha H) as (GC & _ & _).
  split; [|split; [|split]].
  - exists (380 / 10 ^ 9), (700 / 10 ^ 9). rewrite T1. auto.
  - rewrite T1, T2. now apply flat_reads.
  - rewrite T3, T1, T4. now apply flat_reads.
  - unfold electrons. rewrite T5, T6. assert (P0 : 0 < a_wl a) by lra.
    assert (C := cone_pos (s_D s) (s_f s)).
    assert (0 <= self_irradiance s (a_wl a)) by (rewrite <- Proof_RadP.self_eq; apply other_nonneg; [apply GC | exact P0]).
    assert (0 < photon_energy (a_wl a)) by (unfold photon_energy; apply Rdiv_lt_0_compat; [unfold h_planck, c_light; lra | exact P0]).
    assert (0 < cone (s_D s) (s_f s) * scene_radiance 1 300 a) by (apply Rmult_lt_0_compat; lra).
    apply Rdiv_lt_0_compat; [|assumption]. assert (0 < s_wx s * s_wy s) by (apply Rmult_lt_0_compat; lra).
    rewrite ?Rmult_1_l, ?Rmult_1_r. replace (1 - 0 ^ 2) with 1 by ring. rewrite ?Rmult_1_l, ?Rmult_1_r.
    apply Rmult_lt_0_compat; [lra|]. lra.
Qed.

Lemma capture_shortest ri alt s w tr q rows a : 0 < ri_gsd ri -> 0 < alt -> estimate_capture_parameters ri alt = Ok (s, w) ->
  response_curves s tr q -> every_ten_nm rows -> shortest_seen s tr q rows a ->
  Rabs (a_wl a - 380 / 10 ^ 9) <= 0.1 / 10 ^ 9 \/ Rabs (a_wl a - 390 / 10 ^ 9) <= 0.1 / 10 ^ 9.
Proof.
  intros Hg Ha H (Rt & Rq) (_ & _ & K & b & Ib & Nb & Lb) ((Ia & (lo & hi & B1 & B2 & B3) & _) & M).
  destruct (capture_tables _ _ _ _ H) as (T1 & T2 & T3 & T4 & _).
  destruct (capture_good _ _ _ _ Hg Ha H) as (GC & _ & _).
  rewrite T1 in B1. cbn in B1. injection B1 as <-. apply Rabs_le_inv in Nb.
  assert (Wb : 380 / 10 ^ 9 <= a_wl b <= 700 / 10 ^ 9) by lra.
  destruct (row_seen _ _ _ _ b Hg Ha H Wb Lb) as (Sb & R1 & R2 & EL).
  assert (Lab : a_wl a <= a_wl b).
  { apply M. split; [exact Ib|]. split; [exact Sb|].
    replace (tr (a_wl b)) with 1; [replace (q (a_wl b)) with 1; [exact EL|]|].
    - apply (reads_unique (s_qwl s) (s_qe s) (a_wl b)); [rewrite T3, T1; discriminate | rewrite T3, T1, T4; reflexivity | apply GC | exact R2 | apply Rq].
    - apply (reads_unique (s_owl s) (s_otr s) (a_wl b)); [rewrite T1; discriminate | rewrite T1, T2; reflexivity | apply GC | exact R1 | apply Rt]. }
  destruct (K a Ia) as (k & Hk). apply Rabs_le_inv in Hk.
  assert (L : (37 < k)%Z) by (apply lt_IZR; lra). assert (U : (k < 40)%Z) by (apply lt_IZR; lra).
  assert (E : (k = 38 \/ k = 39)%Z) by lia. destruct E as [-> | ->]; [left | right]; apply Rabs_le; lra.
Qed.

Lemma capture_scene ri alt s w rows : 0 < ri_gsd ri -> 0 < alt -> estimate_capture_parameters ri alt = Ok (s, w) ->
  every_ten_nm rows -> good_scene s rows.
Proof.
  intros Hg Ha H (S & So & _ & b & Ib & Nb & Lb). apply Rabs_le_inv in Nb.
  destruct (row_seen _ _ _ _ b Hg Ha H ltac:(lra) Lb) as (Sb & R1 & R2 & EL).
  split; [exact S|]. split; [exact So|]. exists b, 1, 1. auto.
Qed.

Lemma frame_database ri alt s w tr q rows a : 0 < ri_gsd ri -> 0 < alt -> estimate_capture_parameters ri alt = Ok (s, w) ->
  response_curves s tr q -> every_ten_nm rows -> shortest_seen s tr q rows a ->
  let z := Zfloor (frame_pixels s (2 * atan (ri_gsd ri / 2 / slant_flat (sc w))) a) in (z = 131 \/ z = 135)%Z.
Proof. intros Hg Ha H Rc E S. apply (capture_frame ri alt s w a Hg Ha H). eapply capture_shortest; eauto. Qed.

Lemma baseline_database ni it diag d ri r alt s w w1 m T B X : 0 < ri_gsd ri -> 0 < alt -> estimate_capture_parameters ri alt = Ok (s, w) ->
  sr_gsd r = ri_gsd ri -> simulate_image ni it diag d r s w = (w1, Ok (T, B, X)) -> observe ni it w = Ok m -> every_ten_nm (atm_rows m) ->
  rows B = rows T /\ cols B = cols T /\ exists h v, (0 < h <= 135)%nat /\ (0 < v <= 135)%nat /\
    forall a b c y x, plane_near (rows T) (cols T) (px T) h v a b c y x -> px B y x = px T y x.
Proof.
  intros Hg Ha H Er E O EV. assert (GS := capture_scene _ _ _ _ _ Hg Ha H EV).
  destruct (capture_good _ _ _ _ Hg Ha H) as (GC & _ & _).
  assert (Rc : response_curves s (tr_of s) (q_of s)) by (destruct GC as (Ph & St & _); apply curves_exist; [apply Ph | exact St]).
  eapply baseline_plane; eauto. intros a Sa. eapply capture_shortest; eauto.
Qed.
Lemma demo_ten : every_ten_nm (atm_rows demo_m).
Proof.
  split; [exact demo_sound|]. split; [exact demo_sorted_rows|]. split.
  - intros a Ia. unfold atm_rows in Ia. apply in_map_iff in Ia as (i & <- & Hi). apply in_seq in Hi. cbn [a_wl].
    exists (30 + Z.of_nat i)%Z. change (demo_m i 0%nat) with (wavelength i). rewrite (demo_wavelength i (INR i)) by (try reflexivity; unfold n_wave in *; lia).
    rewrite plus_IZR, <- INR_IZR_INZ. apply Rabs_le. lra.
  - exists {| a_wl := wavelength 9; a_trans := 1; a_path := 1; a_surf := 1; a_scat := 1; a_grnd := 1 |}. split; [|split].
    + unfold atm_rows. apply in_map_iff. exists 9%nat. split; [reflexivity|]. apply in_seq. unfold n_wave. lia.
    + cbn [a_wl]. rewrite (demo_wavelength 9 9); [|unfold n_wave; lia | rewrite INR_IZR_INZ; reflexivity]. apply Rabs_le. lra.
    + unfold scene_radiance. cbn [a_path a_scat a_trans a_grnd]. lra.
Qed.
