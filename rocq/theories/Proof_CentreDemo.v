(** * Proof_CentreDemo: examples for displaced pictures *)
From Coq Require Import Reals Lra List Lia ZArith Psatz Bool.
From Flocq Require Import Core.Raux.
From Verif Require Import Base_XR Base_Np Model_Geo Model_Noise Model_Scenario Model_Sensor Model_Rad Model_Db Model_Otf Model_Img Model_Met Model_Sim
  Spec_Rad Spec_Img Spec_Blur Spec_System Spec_Met Spec_Sim Spec_Turn Spec_Centre Proof_Image Proof_ImgX Proof_Sim Proof_NiirsDemo Proof_SimP Proof_SimDemo Proof_SimX Proof_Native Proof_GainDemo Proof_NativeDemo Proof_Centre Proof_CentreX.
Import ListNotations.
Open Scope R_scope.

Definition perfect (n : nat) : cimg := {| crows := n; ccols := n; re := fun _ _ => 1; im := fun _ _ => 0 |}.
Definition slope : img := {| rows := 12; cols := 12; px := fun i j => 3 + INR i + 2 * INR j |}.

Lemma displaced_by_two : ~ (forall T gsd rng otf n kd df B sp, nonempty T -> 0 < gsd -> 0 < rng -> 0 < df -> crows otf = n -> ccols otf = n ->
  (21 <= n)%nat -> Nat.odd n = true -> (forall p q, (p < n)%nat -> (q < n)%nat -> re otf p q = 1 /\ im otf p q = 0) ->
  apply_otf_to_image T gsd Np rng otf kd df Py (gsd / rng) = Ok (B, sp) ->
  forall y x, (y < rows T)%nat -> (x < cols T)%nat -> px B y x = px T y x).
Proof.
  intros A. destruct (few_pixels slope 1 1 (perfect 21) 21 Np 9 2) as (B & sp & E & _ & _ & V); try reflexivity; try lra; try lia; [split; cbn; lia|right; right; lia|intros; split; reflexivity|].
  assert (P := atan_half_pos 1 1 ltac:(lra) ltac:(lra)). assert (Q : 0 < INR 9) by (apply lt_0_INR; lia).
  specialize (A slope 1 1 (perfect 21) 21%nat Np (1 / (INR 9 * (2 * atan (1 / 2 / 1)))) B sp).
  assert (C := V 5%nat 5%nat ltac:(cbn; lia) ltac:(cbn; lia)). rewrite A in C; try reflexivity; try lra; try lia; try (cbn; lia); try exact E.
  - cbn in C. lra.
  - split; cbn; lia.
  - apply Rdiv_lt_0_compat; [lra|]. apply Rmult_lt_0_compat; lra.
  - intros; split; reflexivity.
Qed.
Lemma half_demo : exists df B sp, 0 < df /\ kept_middle 21 (px (psf_raw (perfect 21))) (psf_side df (2 * atan (1 / 2 / 1))) /\
  apply_otf_to_image slope 1 Np 1 (perfect 21) Np df Py (1 / 1) = Ok (B, sp) /\ psf_side df (2 * atan (1 / 2 / 1)) = 20%Z /\
  plane_near (rows slope) (cols slope) (px slope) (rows sp) (cols sp) 3 1 2 6 6 /\ px B 6%nat 6%nat = ramp 3 1 2 (6 - / 2) (6 - / 2).
Proof.
  assert (P := atan_half_pos 1 1 ltac:(lra) ltac:(lra)). assert (Q : INR 20 = 20) by (rewrite INR_IZR_INZ; reflexivity).
  assert (F : forall p q, (p < 21)%nat -> (q < 21)%nat -> re (perfect 21) p q = 1 /\ im (perfect 21) p q = 0) by (intros; split; reflexivity).
  destruct (half_pixel slope 1 1 (perfect 21) 21 Np) as (B & sp & E & Br & Bc & Sr & Sc & V); try reflexivity; try lra; try lia; [split; cbn; lia|exact F|].
  exists (1 / (INR (21 - 1) * (2 * atan (1 / 2 / 1)))), B, sp. change (21 - 1)%nat with 20%nat in *.
  assert (D : 0 < 1 / (INR 20 * (2 * atan (1 / 2 / 1)))) by (apply Rdiv_lt_0_compat; [lra|]; apply Rmult_lt_0_compat; lra).
  assert (SD : psf_side (1 / (INR 20 * (2 * atan (1 / 2 / 1)))) (2 * atan (1 / 2 / 1)) = Z.of_nat 20).
  { apply side_int; [exact D|exact P|lia|]. field. lra. }
  split; [exact D|]. split.
  - rewrite SD. right. right. right. exists 0%nat. split; [lia|]. split; [lia|]. change (Z.to_nat (Z.of_nat 20)) with (2 * 10)%nat.
    apply (half_held (perfect 21) 21 10); try reflexivity; try lia. exact F.
  - split; [exact E|]. split; [exact SD|]. split.
    + rewrite Sr, Sc. unfold plane_near. cbn [slope rows cols px]. change (10 / 2)%nat with 5%nat. repeat split; try lia. intros i j _ _. unfold ramp. ring.
    + rewrite V by (cbn; lia). cbn [slope px Nat.sub]. unfold ramp. simpl (INR _). lra.
Qed.
Lemma frame_demo tr q a : shortest_seen native_cam tr q (atm_rows demo_m) a -> middle_anyway (frame_pixels native_cam (2 * atan (sr_gsd demo_ref / 2 / slant_flat (sc demo_world))) a).
Proof.
  intros [(_ & Ba & _) _]. left. apply (red_band [[1]]) in Ba. unfold frame_pixels. change (sc demo_world) with demo_over. rewrite demo_range.
  change (s_D native_cam) with 0.3. change (sr_gsd demo_ref) with 18.
  replace (18 / 2 / 9000) with (/ 1000) by lra. assert (G := atan_ge (/ 1000) ltac:(lra)). assert (P : 0 < atan (/ 1000)) by lra.
  apply Rmult_lt_reg_r with (2 * atan (/ 1000)); [lra|]. unfold Rdiv. rewrite Rmult_assoc, Rinv_l by lra. lra.
Qed.
Lemma sim_hypotheses : good_camera native_cam /\ good_geometry (sc demo_world) /\ good_scene native_cam (atm_rows demo_m) /\ (length (s_kernel native_cam) <= 1)%nat /\
  0 < sr_gsd demo_ref /\ observe demo_load demo_load demo_world = Ok demo_m.
Proof.
  split; [exact native_good|]. split; [exact demo_geometry|]. split; [exact (demo_scene [[1]])|]. split; [cbn; lia|]. split; [cbn; lra|]. exact world_demo.
Qed.
Lemma native_curves : exists tr q, response_curves native_cam tr q.
Proof.
  destruct native_good as (P & S & _). exists (Proof_RadP.tr_of native_cam), (Proof_RadP.q_of native_cam).
  apply Proof_RadP.curves_exist; [apply P | exact S].
Qed.
(* pixels of 3 micrometres behind 4 m: 6.75 mm on the ground, 2000 of them across the frame *)
Definition fine_cam : sensor := with_pitch (red_cam [[1]]) (3 / 10 ^ 6) (3 / 10 ^ 6).
Lemma wide_demo : (forall tr q a, shortest_seen fine_cam tr q (atm_rows demo_m) a -> middle_anyway (frame_pixels fine_cam (2 * atan (0.00675 / 2 / slant_flat (sc demo_world))) a)) /\
  (s_px fine_cam + s_py fine_cam) / 2 * slant_flat (sc demo_world) = 0.00675 * s_f fine_cam.
Proof.
  change (sc demo_world) with demo_over. rewrite demo_range. split; [|cbn; lra].
  intros tr q a [(_ & Ba & _) _]. right. left. apply (red_band [[1]]) in Ba. unfold frame_pixels. change (s_D fine_cam) with 0.3.
  assert (A := atan_le (0.00675 / 2 / 9000) ltac:(lra)). assert (P : 0 < atan (0.00675 / 2 / 9000)) by (rewrite <- atan_0; apply atan_increasing; lra).
  apply Rmult_le_reg_r with (2 * atan (0.00675 / 2 / 9000)); [lra|].
  replace (750 * a_wl a / 0.3 / (2 * atan (0.00675 / 2 / 9000)) * (2 * atan (0.00675 / 2 / 9000))) with (750 * a_wl a / 0.3); [lra|].
  revert P. generalize (atan (0.00675 / 2 / 9000)) (750 * a_wl a / 0.3). intros u v Hu. field. lra.
Qed.
