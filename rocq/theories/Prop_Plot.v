(** * Prop_Plot: theorems about the plots of metrics/functional.py (C105, C106). *)
From Coq Require Import Reals Lra Lia List Sorted ZArith.
From Verif Require Import Base_XR Base_Np Model_Db Model_Scenario Model_Sensor Model_Rad Model_Otf Model_Met Model_Plot
  Spec_Rad Spec_System Spec_Met Spec_Plot Proof_RadP Proof_Contrast Proof_Niirs Proof_NiirsDemo Proof_Plot.
Import ListNotations.
Open Scope R_scope.

(** ** C105 the noise chart is a budget *)
Theorem C105_niirs_budget : forall ni it diag s c itp m, loaded ni it c itp m -> physical s -> sound_rows (atm_rows m) ->
  StronglySorted Rlt (map a_wl (atm_rows m)) -> forall c1 mt max_val, niirs ni it diag s c itp = (c1, Ok mt) ->
  exists ch, plot_noise_terms s (n_contrast mt) max_val = Ok ch /\ budget_chart s (n_contrast mt) max_val ch.
Proof. exact niirs_chart. Qed.
Print Assumptions C105_niirs_budget.

Theorem C105_niirs5_budget : forall ni it diag s c itp m, loaded ni it c itp m -> physical s -> sound_rows (atm_rows m) ->
  StronglySorted Rlt (map a_wl (atm_rows m)) -> forall s1 c1 mt max_val, niirs5 ni it diag s c itp = (s1, c1, Ok mt) ->
  exists ch, plot_noise_terms s1 (f_contrast mt) max_val = Ok ch /\ budget_chart s (f_contrast mt) max_val ch.
Proof. exact niirs5_chart. Qed.
Print Assumptions C105_niirs5_budget.

(* the bars besides the first account for it only when the camera has no other noise *)
Theorem C105_bars_alone : forall total shown other, quadrature total (shown ++ other) ->
  (quadrature total shown <-> forall x, In x other -> x = 0).
Proof. exact quadrature_rest. Qed.
Print Assumptions C105_bars_alone.

Example C105_example : loaded demo_load demo_load demo_scen false demo_m /\ physical (visible sharpen 1) /\ sound_rows (atm_rows demo_m) /\
  StronglySorted Rlt (map a_wl (atm_rows demo_m)) /\
  (exists c1 mt, niirs demo_load demo_load no_diag (visible sharpen 1) demo_scen false = (c1, Ok mt)) /\
  quadrature 5 ([3] ++ [4]) /\ ~ quadrature 5 [3].
Proof.
  split; [apply demo_loaded|]. split; [apply visible_good|]. split; [apply (visible_atm sharpen 1)|]. split; [apply (visible_atm sharpen 1)|].
  split; [destruct order_matters as (mt & c1 & _ & _ & E & _); eauto|].
  unfold quadrature. cbn. split; [split; lra | intros [_ H]; lra].
Qed.

(** ** C106 the MTF chart *)
(* what is on the canvas when the call stops *)
Theorem C106_niirs_chart : forall ni it diag s c itp m em, loaded ni it c itp m -> good_camera s ->
  (em = true <-> emissive_band s) -> good_atmosphere s em (atm_rows m) -> 0 < altitude c ->
  forall c1 mt (up : bool), niirs ni it diag s c itp = (c1, Ok mt) ->
  exists ch, plot_common_MTFs s (n_contrast mt) (n_otf mt) (n_ifov_x mt) (if up then PI / 2 else 0) = (Some ch, Err AttributeError) /\
    chart_shows (s_f s) (s_px s) (ct_df (n_contrast mt)) (n_otf mt) up ch.
Proof. exact niirs_drawn. Qed.
Print Assumptions C106_niirs_chart.

Theorem C106_niirs5_chart : forall ni it diag s c itp m em, loaded ni it c itp m -> good_camera s ->
  (em = true <-> emissive_band s) -> good_atmosphere s em (atm_rows m) -> 0 < altitude c ->
  forall s1 c1 mt (up : bool), niirs5 ni it diag s c itp = (s1, c1, Ok mt) ->
  exists ch, plot_common_MTFs s1 (f_contrast mt) (f_otf mt) (f_ifov_x mt) (if up then PI / 2 else 0) = (Some ch, Err AttributeError) /\
    chart_shows (s_f s) (s_px s) (ct_df (f_contrast mt)) (f_otf mt) up ch.
Proof. exact niirs5_drawn. Qed.
Print Assumptions C106_niirs5_chart.

(* no call returns *)
Theorem C106_always_raises : forall s ct o ifov ang, exists e, snd (plot_common_MTFs s ct o ifov ang) = Err e.
Proof. exact plot_never. Qed.
Print Assumptions C106_always_raises.

Theorem C106_returns_refuted : ~ (forall ni it diag s c itp c1 mt, niirs ni it diag s c itp = (c1, Ok mt) ->
  snd (plot_common_MTFs s (n_contrast mt) (n_otf mt) (n_ifov_x mt) 0) = Ok 0%Z).
Proof. exact never_returns. Qed.
Print Assumptions C106_returns_refuted.

Example C106_example : loaded demo_load demo_load demo_scen false demo_m /\ good_camera (visible sharpen 1) /\ good_camera (thermal sharpen 1) /\
  good_atmosphere (visible sharpen 1) false (atm_rows demo_m) /\ 0 < altitude demo_scen /\
  exists c1 mt, niirs demo_load demo_load no_diag (visible sharpen 1) demo_scen false = (c1, Ok mt).
Proof.
  split; [apply demo_loaded|]. split; [apply visible_good|]. split; [apply thermal_good|]. split; [apply visible_atm|].
  split; [cbn; lra|]. destruct order_matters as (mt & c1 & _ & _ & E & _); eauto.
Qed.
