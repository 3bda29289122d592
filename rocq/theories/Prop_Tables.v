(** * Prop_Tables: sensors that no analysis accepts (C136) *)
From Coq Require Import Reals Lra Lia List.
From Verif Require Import Base_XR Base_Np Model_Geo Model_Db Model_Scenario Model_Sensor Model_Rad Model_Otf Model_Met Model_Img Model_Sim
  Spec_Rad Spec_Met Spec_Tables Proof_NiirsDemo Proof_Tables Proof_Focal.
Import ListNotations.
Open Scope R_scope.

(* response tables of unequal lengths, or no efficiency table: the scenario has been written to, the sensor has not *)
Theorem C136_malformed : forall ni it diag s c itp m lo, loaded ni it c itp m -> nth_error (s_owl s) 0 = Some lo -> malformed_tables s ->
  exists c', niirs ni it diag s c itp = (c', Err ValueError) /\ niirs5 ni it diag s c itp = (s, c', Err ValueError) /\ defaults_written lo c c'.
Proof. exact malformed_analyses. Qed.
Print Assumptions C136_malformed.
Theorem C136_malformed_simulation : forall diag d s c r m atm t T, s_owl s <> [] -> malformed_tables s ->
  reflectance_to_photoelectrons atm s t T = Err ValueError /\ simulate_rest diag d s c r m = Err ValueError.
Proof. exact malformed_simulation. Qed.
Print Assumptions C136_malformed_simulation.

(* an aperture of diameter zero, with sound tables *)
Theorem C136_closed : forall ni it diag s c itp m lo, loaded ni it c itp m -> nth_error (s_owl s) 0 = Some lo -> has_tables s -> s_D s = 0 ->
  exists c', niirs ni it diag s c itp = (c', Err ZeroDivisionError) /\ niirs5 ni it diag s c itp = (s, c', Err ZeroDivisionError) /\ defaults_written lo c c'.
Proof. exact closed_analyses. Qed.
Print Assumptions C136_closed.
Theorem C136_closed_simulation : forall diag d s c r m atm t T, has_tables s -> s_D s = 0 ->
  reflectance_to_photoelectrons atm s t T = Err ZeroDivisionError /\ simulate_rest diag d s c r m = Err ZeroDivisionError.
Proof. exact closed_simulation. Qed.
Print Assumptions C136_closed_simulation.

(* a focal length of zero, with everything else sound: niirs5 has replaced the sharpening kernel by the time it raises *)
Theorem C136_flat : forall ni it diag s c itp m em lo, loaded ni it c itp m -> nth_error (s_owl s) 0 = Some lo -> physical s -> sorted_tables s ->
  (em = true <-> emissive_band s) -> good_atmosphere s em (atm_rows m) -> 0 < altitude c -> s_f s = 0 ->
  exists c', niirs ni it diag s c itp = (c', Err ZeroDivisionError) /\ niirs5 ni it diag s c itp = (no_sharpening s, c', Err ZeroDivisionError)
    /\ defaults_written lo c c'.
Proof. exact flat_analyses. Qed.
Print Assumptions C136_flat.

(* the efficiency measured at three wavelengths, qe_wavelengths left at the two of the constructor *)
Example C136_example_malformed : let s := altered_cam 0.3 [0.1; 0.9; 0.1] in
  loaded demo_load demo_load demo_scen false demo_m /\ malformed_tables s /\ s_owl s <> [] /\
  exists c', niirs demo_load demo_load no_diag s demo_scen false = (c', Err ValueError) /\ plain c' TargetReflectance = 0.15.
Proof.
  cbv zeta. set (s := altered_cam _ _). assert (M : malformed_tables s) by (right; right; discriminate).
  split; [reflexivity|]. split; [exact M|]. split; [discriminate|].
  destruct (C136_malformed demo_load demo_load no_diag s demo_scen false demo_m (0.4 / 10 ^ 6) eq_refl eq_refl M) as (c' & A & _ & B & _).
  exists c'. split; [exact A|]. apply B. lra.
Qed.
Example C136_example_closed : let s := altered_cam 0 [0.1; 0.9] in
  loaded demo_load demo_load demo_scen false demo_m /\ has_tables s /\ s_D s = 0 /\
  snd (niirs demo_load demo_load no_diag s demo_scen false) = Err ZeroDivisionError.
Proof.
  cbv zeta. set (s := altered_cam _ _). assert (H : has_tables s) by (repeat split; discriminate). assert (D : s_D s = 0) by reflexivity.
  split; [reflexivity|]. split; [exact H|]. split; [exact D|].
  destruct (C136_closed demo_load demo_load no_diag s demo_scen false demo_m (0.4 / 10 ^ 6) eq_refl eq_refl H D) as (c' & -> & _). reflexivity.
Qed.
(* the sharpening kernel of three rows is gone, although no rating was computed *)
Example C136_example_flat : let s := flat_cam sharpen (wavelength 10) (7 / 10 ^ 7) 1 in
  physical s /\ good_atmosphere s false (atm_rows demo_m) /\ s_f s = 0 /\ s_kernel s = sharpen /\
  exists s' c', niirs5 demo_load demo_load no_diag s demo_scen false = (s', c', Err ZeroDivisionError) /\ s_kernel s' = [[1]].
Proof.
  cbv zeta. assert (W : 0 < wavelength 10 < 7 / 10 ^ 7) by (rewrite wl10; lra). set (s := flat_cam _ _ _ _).
  assert (P : physical s) by (apply flat_physical; apply W). assert (So : sorted_tables s) by (apply flat_sorted; apply W).
  assert (G : good_atmosphere s false (atm_rows demo_m)) by (apply flat_atmosphere; [pose proof n_wave_ge; lia | apply W]).
  assert (Em : false = true <-> emissive_band s).
  { split; [discriminate|]. unfold emissive_band. cbn [s flat_cam s_owl nth]. rewrite wl10. lra. }
  split; [exact P|]. split; [exact G|]. split; [reflexivity|]. split; [reflexivity|].
  assert (A : 0 < altitude demo_scen) by (cbn; lra).
  destruct (C136_flat demo_load demo_load no_diag s demo_scen false demo_m false (wavelength 10) eq_refl eq_refl P So Em G A eq_refl) as (c' & _ & E & _).
  exists (no_sharpening s), c'. split; [exact E | reflexivity].
Qed.
