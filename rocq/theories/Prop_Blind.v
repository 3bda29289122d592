(** * Prop_Blind: cameras that see no wavelength of the atmosphere (C135) *)
From Coq Require Import Reals Lra Lia List.
From Verif Require Import Base_XR Base_Np Model_Geo Model_Db Model_Scenario Model_Sensor Model_Rad Model_Otf Model_Met Model_Img Model_Sim
  Spec_Rad Spec_Met Spec_Blind Proof_NiirsDemo Proof_Blind.
Import ListNotations.
Open Scope R_scope.

(* no table of the optics at all: nothing has been written yet *)
Theorem C135_no_table : forall ni it diag s c itp m, s_owl s = [] -> loaded ni it c itp m ->
  niirs ni it diag s c itp = (c, Err IndexError) /\ niirs5 ni it diag s c itp = (s, c, Err IndexError).
Proof. exact no_table. Qed.
Print Assumptions C135_no_table.
Theorem C135_no_table_simulation : forall diag d s c r m atm t T, s_owl s = [] ->
  reflectance_to_photoelectrons atm s t T = Err IndexError /\ simulate_rest diag d s c r m = Err IndexError.
Proof. exact no_table_simulation. Qed.
Print Assumptions C135_no_table_simulation.

(* a band beside the wavelengths of the file: the scenario has been written to, the kernel of the sensor has not *)
Theorem C135_sees_nothing : forall ni it diag s c itp m lo, loaded ni it c itp m -> has_tables s -> s_D s <> 0 -> sees_nothing s m ->
  nth_error (s_owl s) 0 = Some lo ->
  exists c', niirs ni it diag s c itp = (c', Err ValueError) /\ niirs5 ni it diag s c itp = (s, c', Err ValueError) /\
    (lo < 2.9 / 10 ^ 6 -> plain c' TargetReflectance = 0.15 /\ plain c' BackgroundReflectance = 0.07) /\
    (2.9 / 10 ^ 6 <= lo -> plain c' TargetReflectance = 0 /\ plain c' BackgroundReflectance = 0 /\ plain c' TargetTemperature = 280).
Proof. exact nothing_seen_visible. Qed.
Print Assumptions C135_sees_nothing.
Theorem C135_sees_nothing_simulation : forall diag d s c r m, has_tables s -> s_D s <> 0 -> 0 < s_max_n s -> sees_nothing s m ->
  simulate_rest diag d s c r m = Err ValueError.
Proof. exact nothing_simulated. Qed.
Print Assumptions C135_sees_nothing_simulation.

(* with the wavelengths of the database: the band ends below 0.3, begins above 14 micrometres, or lies between two neighbours *)
Theorem C135_when : forall s m lo hi, database_wavelengths m -> nth_error (s_owl s) 0 = Some lo -> nth_error (s_owl s) (length (s_owl s) - 1) = Some hi ->
  (sees_nothing s m <-> hi < 0.3 / 10 ^ 6 \/ 14 / 10 ^ 6 < lo \/ exists k, (k < 1370)%nat /\ stored_wavelength k < lo /\ hi < stored_wavelength (S k)).
Proof. exact blind_iff. Qed.
Print Assumptions C135_when.

(* a camera for a laser line, 551 to 559 nm: every rating and every picture fails *)
Example C135_example_line : let s := demo_cam [[1]] (0.551 / 10 ^ 6) (0.559 / 10 ^ 6) 1 in
  loaded demo_load demo_load demo_scen false demo_m /\ database_wavelengths demo_m /\ has_tables s /\ s_D s <> 0 /\ 0 < s_max_n s /\ sees_nothing s demo_m /\
  snd (niirs demo_load demo_load no_diag s demo_scen false) = Err ValueError.
Proof.
  cbv zeta. set (s := demo_cam _ _ _ _).
  assert (L : loaded demo_load demo_load demo_scen false demo_m) by reflexivity.
  assert (W : database_wavelengths demo_m) by (intros i Hi; apply demo_wavelength; [exact Hi | reflexivity]).
  assert (T : has_tables s) by (repeat split; discriminate).
  assert (D : s_D s <> 0) by (cbn; lra).
  assert (N : sees_nothing s demo_m).
  { apply (C135_when s demo_m (0.551 / 10 ^ 6) (0.559 / 10 ^ 6) W eq_refl eq_refl). right. right. exists 25%nat. split; [lia|].
    unfold stored_wavelength. rewrite !INR_IZR_INZ. cbn [Z.of_nat Pos.of_succ_nat Pos.succ]. split; lra. }
  split; [exact L|]. split; [exact W|]. split; [exact T|]. split; [exact D|]. split; [cbn; lra|]. split; [exact N|].
  destruct (C135_sees_nothing demo_load demo_load no_diag s demo_scen false demo_m _ L T D N eq_refl) as (c' & -> & _). reflexivity.
Qed.
(* a camera built without wavelengths *)
Example C135_example_no_table : forall kw, exists s, sensor_init 0.3 4 (8 / 10 ^ 6) [] 0.4 None None None kw = Ok s /\ s_owl s = [] /\
  niirs demo_load demo_load no_diag s demo_scen false = (demo_scen, Err IndexError).
Proof.
  intros kw. unfold sensor_init. rewrite pydiv_ok by lra. cbn [bind]. eexists. split; [reflexivity|]. split; [reflexivity|].
  eapply (proj1 (C135_no_table _ _ _ _ _ _ demo_m _ _)). Unshelve. all: reflexivity.
Qed.
