(** * Proof_DullDemo: a thermal camera, then with shaking optics in rough air *)
From Coq Require Import Reals Lra List Lia ZArith Psatz Bool Sorted.
From Verif Require Import Base_XR Base_Np Base_NpFacts Base_Interp Model_Geo Model_Noise Model_Db Model_Scenario Model_Sensor Model_Rad Model_Otf Model_Img Model_Met
  Spec_Noise Spec_Rad Spec_System Spec_Met Spec_Trade Proof_Db Proof_Rad Proof_Contrast Proof_Niirs Proof_NiirsDemo Proof_Trade Proof_TradeDemo Proof_DullRun.
Import ListNotations.
Open Scope R_scope.

Lemma thermal_in k n a : in_band (thermal k n) a -> 8 / 10 ^ 6 <= a_wl a <= 12 / 10 ^ 6.
Proof. intros (lo & hi & E1 & E2 & H). cbn in E1, E2. injection E1 as <-. injection E2 as <-. rewrite wl770 in H. exact H. Qed.
Lemma thermal_octaves k n : three_octaves (thermal k n) (atm_rows demo_m).
Proof. intros a b _ _ Ha Hb. apply thermal_in in Ha, Hb. lra. Qed.
Lemma thermal_sampled k n q : 0 < q <= 2 -> sampled q (thermal k n) (atm_rows demo_m).
Proof.
  intros Hq a _ Ha. apply thermal_in in Ha. cbn [thermal demo_cam s_px s_py s_f s_D].
  assert (I : / a_wl a <= / (8 / 10 ^ 6)) by (apply Rinv_le_contravar; lra).
  replace (/ (8 / 10 ^ 6)) with 125000 in I by (field; lra).
  assert (J : 0 < / a_wl a) by (apply Rinv_0_lt_compat; lra).
  unfold Rdiv at 3 7. set (i := / a_wl a) in *. split; nra.
Qed.
Lemma thermal_sees k n : sees_ground (thermal k n) (atm_rows demo_m).
Proof.
  apply demo_sees; [exact in771|]. rewrite wl771. lra.
Qed.
Lemma thermal_snr k n : exists s1 c1 mt x, niirs5 demo_load demo_load no_diag (thermal k n) demo_scen false = (s1, c1, Ok mt) /\
  m_snr (ct_snr (f_contrast mt)) = Fin x /\ 0 < x.
Proof.
  assert (Em : true = true <-> emissive_band (thermal k n)) by (split; [intros _; apply thermal_band | reflexivity]).
  destruct (niirs5_succeeds demo_load demo_load no_diag (thermal k n) demo_scen false demo_m true eq_refl (thermal_good k n) Em (thermal_atm k n))
    as (mt & snr & r0 & r9 & e & E & _); [cbn; lra|].
  destruct (bright_cases demo_load demo_load no_diag (thermal k n) demo_scen false demo_m eq_refl) with (ct := f_contrast mt) as (x & Ex & _ & Px).
  - apply thermal_good.
  - apply thermal_good.
  - apply (thermal_atm k n).
  - apply (thermal_atm k n).
  - left. apply thermal_band.
  - right. do 3 eexists. split; [exact E | reflexivity].
  - do 3 eexists. exists x. split; [exact E|]. split; [exact Ex|]. apply Px; [apply demo_exposes | apply thermal_sees].
Qed.
