(** * Proof_Baseline: the camera of estimate_capture_parameters in simulate_image *)
From Coq Require Import Reals Lra List Lia ZArith Psatz Bool Sorted.
From Flocq Require Import Core.Raux.
From Verif Require Import Base_XR Base_Np Model_Geo Model_Noise Model_Scenario Model_Sensor Model_Rad Model_Db Model_Otf Model_Img Model_Met Model_Sim
  Spec_Rad Spec_Img Spec_Blur Spec_System Spec_Met Spec_Sim Spec_Centre Proof_Weight Proof_Sensor Proof_Store Proof_Native Proof_Image Proof_CentreX.
Import ListNotations.
Open Scope R_scope.

Lemma capture_range ri alt s w : 0 < alt -> estimate_capture_parameters ri alt = Ok (s, w) -> slant_flat (sc w) = alt.
Proof.
  intros Ha H. destruct (capture_focal _ _ _ _ H) as (_ & _ & _ & Ea & Eg).
  unfold slant_flat. rewrite Ea, Eg. replace (alt * alt + 0 * 0) with (alt * alt) by ring. apply sqrt_square. lra.
Qed.
Lemma capture_aperture ri alt s w : 0 < ri_gsd ri -> 0 < alt -> estimate_capture_parameters ri alt = Ok (s, w) ->
  0 < atan (ri_gsd ri / 2 / alt) /\ s_D s * (2 * atan (ri_gsd ri / 2 / alt)) = 2.16 / 10 ^ 6 /\ 0 < s_D s.
Proof.
  intros Hg Ha H. destruct (capture_ok ri alt ltac:(lra) ltac:(lra)) as (s' & w' & H' & Ef & _ & _ & _ & ED & _).
  rewrite H in H'. apply ok_inj in H'. injection H' as <- <-.
  destruct (capture_focal _ _ _ _ H) as (Ex & _ & Ff & _).
  assert (Hf : 0 < s_f s) by nra.
  assert (Q : s_px s / 2 / s_f s = ri_gsd ri / 2 / alt).
  { rewrite <- Ef. field. lra. }
  rewrite Q in ED.
  assert (A : 0 < atan (ri_gsd ri / 2 / alt)).
  { rewrite <- atan_0. apply atan_increasing. apply Rdiv_lt_0_compat; lra. }
  set (a := atan _) in *.
  assert (N : s_D s <> 0).
  { intros Z. rewrite Z in ED. unfold Rdiv at 1 in ED. rewrite Rinv_0, Rmult_0_r in ED. lra. }
  assert (P : s_D s * (2 * a) = 2.16 / 10 ^ 6).
  { assert (M := f_equal (fun z => z * s_D s * 4) ED). cbv beta in M.
    unfold Rdiv at 1 in M. rewrite (Rmult_assoc (540 / 10 ^ 9)), Rinv_l in M by exact N. lra. }
  split; [exact A|]. split; [exact P|].
  apply Rmult_lt_reg_r with (2 * a); [lra|]. lra.
Qed.
Lemma capture_good ri alt s w : 0 < ri_gsd ri -> 0 < alt -> estimate_capture_parameters ri alt = Ok (s, w) ->
  good_camera s /\ good_geometry (sc w) /\ (length (s_kernel s) <= 1)%nat.
Proof.
  intros Hg Ha H. destruct (capture_aperture _ _ _ _ Hg Ha H) as (_ & _ & HD).
  destruct (capture_focal _ _ _ _ H) as (Ex & Ey & Ff & Ea & Eg).
  assert (Hf : 0 < s_f s) by nra.
  split; [|split; [split; [rewrite Ea; exact Ha | rewrite Eg, Rabs_R0; lra]|]].
  - revert HD Hf Ex Ey. unfold estimate_capture_parameters in H.
    destruct (pydiv _ (ri_gsd ri)) as [f|]; [|discriminate]. cbn [bind] in H.
    destruct (pydiv _ f) as [x|]; [|discriminate]. cbn [bind] in H.
    destruct (xdiv _ _) as [D| | |]; try discriminate.
    unfold sensor_init in H. rewrite pydiv_ok in H by lra. cbn [bind] in H. apply ok_inj in H. injection H as <- _.
    cbn [s_D s_f s_px s_py]. intros HD Hf _ _. unfold good_camera. split; [|split; [|split]].
    + constructor; cbn; try lra; try (intros y [<-|[<-|[]]]; lra). repeat split; try discriminate; reflexivity.
    + split; cbn; repeat (constructor; try lra).
    + unfold good_optics. cbn. repeat split; lra.
    + cbn. repeat split; lra.
  - unfold estimate_capture_parameters in H.
    destruct (pydiv _ (ri_gsd ri)) as [f|]; [|discriminate]. cbn [bind] in H.
    destruct (pydiv _ f) as [x|]; [|discriminate]. cbn [bind] in H.
    destruct (xdiv _ _) as [D| | |]; try discriminate.
    unfold sensor_init in H. rewrite pydiv_ok in H by lra. cbn [bind] in H. apply ok_inj in H. injection H as <- _. cbn. lia.
Qed.
(* coarser than the guide of simulate_image by a factor of at least twelve *)
Lemma capture_undersampled ri alt s w l : 0 < ri_gsd ri -> 0 < alt -> estimate_capture_parameters ri alt = Ok (s, w) ->
  380 / 10 ^ 9 <= l <= 700 / 10 ^ 9 -> 12 * (slant_flat (sc w) / (4 * (s_D s / l))) < ri_gsd ri.
Proof.
  intros Hg Ha H Hl. rewrite (capture_range _ _ _ _ Ha H). destruct (capture_aperture _ _ _ _ Hg Ha H) as (A & P & HD).
  assert (T : atan (ri_gsd ri / 2 / alt) <= ri_gsd ri / 2 / alt).
  { apply Proof_Sim.atan_le. apply Rlt_le, Rdiv_lt_0_compat; lra. }
  set (a := atan _) in *. set (g := ri_gsd ri) in *. set (D := s_D s) in *.
  replace (12 * (alt / (4 * (D / l)))) with (3 * alt * l / D) by (field; lra).
  apply Rmult_lt_reg_r with D; [exact HD|]. replace (3 * alt * l / D * D) with (3 * alt * l) by (field; lra).
  assert (B : 2 * a * alt <= g).
  { replace g with (2 * (g / 2 / alt) * alt) at 1 by (field; lra). apply Rmult_le_compat_r; lra. }
  assert (C : D * (2 * a * alt) <= D * g) by (apply Rmult_le_compat_l; lra).
  replace (D * (2 * a * alt)) with (D * (2 * a) * alt) in C by ring. rewrite P in C.
  assert (3 * alt * l <= 3 * alt * (700 / 10 ^ 9)) by (apply Rmult_le_compat_l; lra). lra.
Qed.
Lemma floor_131 x : 131 <= x < 132 -> Zfloor x = 131%Z.
Proof. intros H. apply Zfloor_imp. cbn. lra. Qed.
Lemma floor_135 x : 135 <= x < 136 -> Zfloor x = 135%Z.
Proof. intros H. apply Zfloor_imp. cbn. lra. Qed.
Lemma capture_frame ri alt s w a : 0 < ri_gsd ri -> 0 < alt -> estimate_capture_parameters ri alt = Ok (s, w) ->
  Rabs (a_wl a - 380 / 10 ^ 9) <= 0.1 / 10 ^ 9 \/ Rabs (a_wl a - 390 / 10 ^ 9) <= 0.1 / 10 ^ 9 ->
  let z := Zfloor (frame_pixels s (2 * atan (ri_gsd ri / 2 / slant_flat (sc w))) a) in (z = 131 \/ z = 135)%Z.
Proof.
  intros Hg Ha H Hl. rewrite (capture_range _ _ _ _ Ha H). destruct (capture_aperture _ _ _ _ Hg Ha H) as (A & P & HD).
  cbv zeta. unfold frame_pixels. replace (750 * a_wl a / s_D s / (2 * atan (ri_gsd ri / 2 / alt)))
    with (750 * a_wl a / (s_D s * (2 * atan (ri_gsd ri / 2 / alt)))).
  2: { revert A. generalize (atan (ri_gsd ri / 2 / alt)). intros y Hy. field. lra. }
  rewrite P. destruct Hl as [Hl|Hl]; apply Rabs_le_inv in Hl; [left; apply floor_131 | right; apply floor_135]; lra.
Qed.
Lemma baseline_plane ni it diag d ri r alt s w w1 m T B X tr q : 0 < ri_gsd ri -> 0 < alt -> estimate_capture_parameters ri alt = Ok (s, w) ->
  sr_gsd r = ri_gsd ri -> simulate_image ni it diag d r s w = (w1, Ok (T, B, X)) -> observe ni it w = Ok m ->
  good_scene s (atm_rows m) -> response_curves s tr q ->
  (forall a, shortest_seen s tr q (atm_rows m) a -> Rabs (a_wl a - 380 / 10 ^ 9) <= 0.1 / 10 ^ 9 \/ Rabs (a_wl a - 390 / 10 ^ 9) <= 0.1 / 10 ^ 9) ->
  rows B = rows T /\ cols B = cols T /\ exists h v, (0 < h <= 135)%nat /\ (0 < v <= 135)%nat /\
    forall a b c y x, plane_near (rows T) (cols T) (px T) h v a b c y x -> px B y x = px T y x.
Proof.
  intros Hg Ha H Er E O GS Rc Sh. destruct (capture_good _ _ _ _ Hg Ha H) as (GC & GG & K).
  destruct (native_capture _ _ _ _ Ha H) as (_ & _ & EM).
  destruct (sim_plane ni it diag d r s w w1 m T B X tr q E O GC GG GS K ltac:(lra) ltac:(rewrite Er; exact EM) Rc) as (R1 & R2 & a0 & S0 & h & v & Hh & Hv & PL).
  - intros a Sa. rewrite Er. right. right. destruct (capture_frame ri alt s w a Hg Ha H (Sh a Sa)) as [-> | ->]; split; cbn; lia.
  - assert (Z0 := capture_frame ri alt s w a0 Hg Ha H (Sh a0 S0)). cbv zeta in Z0. rewrite Er in Hh, Hv, PL.
    set (z := Zfloor _) in *.
    assert (B0 : (Z.to_nat (Z.max 1 z) <= 135)%nat) by (destruct Z0 as [-> | ->]; cbn; lia).
    split; [exact R1|]. split; [exact R2|]. exists h, v. split; [lia|]. split; [lia|]. intros a b c y x Pn. rewrite (PL a b c y x Pn).
    assert (Lg : lag (Z.max 1 z) = 0) by (destruct Z0 as [-> | ->]; reflexivity).
    rewrite Lg, !Rminus_0_r. destruct Pn as (B1 & B2 & B3 & B4 & V). symmetry.
    assert (h / 2 < h)%nat by (apply Nat.div_lt; lia). assert (v / 2 < v)%nat by (apply Nat.div_lt; lia).
    apply V; lia.
Qed.
