(** * Prop_Conditioning: how far the ratings move when their inputs do (C133) *)
From Coq Require Import Reals Lra Lia List.
From Coquelicot Require Import Coquelicot.
From Verif Require Import Base_XR Base_Np Model_Geo Model_Db Model_Scenario Model_Sensor Model_Rad Model_Otf Model_Met
  Spec_Geo Spec_Rad Spec_Otf Spec_Chain Spec_Met Spec_Whole Spec_Rating Spec_EdgeError Spec_EdgeSystem Spec_Conditioning
  Proof_RadP Proof_NiirsDemo Proof_Rating Proof_EdgeSystem Proof_EdgeError Proof_Overshoot Proof_Giqe Proof_Conditioning Proof_Relative.
Import ListNotations.
Open Scope R_scope.

(* edge responses known up to a factor k, sample distance up to a factor j: the GIQE 5 rating moves by no more than this *)
Theorem C133_giqe5 : forall x y x' y' g g' s s' a k j,
  0 < x -> 0 < y -> 0 < g -> 0 < s -> 0 < s' -> 0 < sin a -> within k x x' -> within k y y' -> within j g g' ->
  exists v v' w w' r r', giqe5 (Fin x) (Fin y) (Fin g) (Fin s) (Fin a) = (Fin v, Fin w, Fin r) /\
    giqe5 (Fin x') (Fin y') (Fin g') (Fin s') (Fin a) = (Fin v', Fin w', Fin r') /\ within k r r' /\ within j w w' /\
    forall M, Rabs (log10 r) <= M -> Rabs (log10 r') <= M ->
      Rabs (v - v') <= (3.32 + 8 * M ^ 3) * log10 k + 3.32 * log10 j + (6.308 * M + 1.8) * Rabs (1 / s - 1 / s').
Proof. exact giqe5_moves. Qed.
Print Assumptions C133_giqe5.

Theorem C133_giqe3 : forall r r' g g' h h' n n' s s' k j, 0 < r -> 0 < g -> s <> 0 -> s' <> 0 -> within k r r' -> within j g g' ->
  exists v v', giqe3 (Fin r) (Fin g) (Fin h) (Fin n) (Fin s) = Fin v /\ giqe3 (Fin r') (Fin g') (Fin h') (Fin n') (Fin s') = Fin v' /\
    Rabs (v - v') <= 3.32 * (log10 k + log10 j) + 1.48 * Rabs (h - h') + Rabs (n / s - n' / s').
Proof. exact giqe3_moves. Qed.
Print Assumptions C133_giqe3.

(* GIQE 4: on one side of its threshold, and across it, where the change of the coefficients adds no more than 0.16 decades of the
   sample distance in inches and 1.258 log10 (10/9) *)
Theorem C133_giqe4 : forall r r' g g' h h' n n' s s' a k j, 0 < r -> 0 < g -> s <> 0 -> s' <> 0 -> 0 < sin a -> within k r r' -> within j g g' ->
  exists v v' p p', giqe4 (Fin r) (Fin g) (Fin h) (Fin n) (Fin s) (Fin a) = (Fin v, Fin p) /\
    giqe4 (Fin r') (Fin g') (Fin h') (Fin n') (Fin s') (Fin a) = (Fin v', Fin p') /\
    let d := 2.817 * log10 k + 3.32 * log10 j + 0.656 * Rabs (h - h') + 0.334 * Rabs (n / s - n' / s') in
    ((0.9 <= r <-> 0.9 <= r') -> Rabs (v - v') <= d) /\
    Rabs (v - v') <= d + 0.16 * Rmax (Rabs (log10 (p / inch))) (Rabs (log10 (p' / inch))) + 1.258 * log10 (1 / 0.9).
Proof. exact giqe4_moves. Qed.
Print Assumptions C133_giqe4.

(* enough samples give the slope of the blurred edge up to a factor k, with at most a quarter period of the last frequency on half a pixel *)
Theorem C133_relative_edge_response : forall m W L n ifov k, 0 < W -> gentle m W L -> transfer m W -> m 0 = 1 ->
  (forall w, 0 <= w <= W -> 0 <= m w) -> 0 < ifov -> ifov * W <= 1 / 2 -> (0 < n)%nat -> 1 <= k ->
  relative_share (PI * ifov * W) L W n <= 1 - 1 / k ->
  exists r e e', relative_edge_response (samples m W n) (W / INR n) ifov = Ok (Fin r) /\
    blurred_edge m W (ifov * (1 / 2)) e /\ blurred_edge m W (ifov * - (1 / 2)) e' /\ 0 < e - e' /\ within k (e - e') r.
Proof. exact relative_ratio. Qed.
Print Assumptions C133_relative_edge_response.

(* the rating of niirs5 is that of the exact edge responses of camera and atmosphere up to the factor k that fifty samples may cost *)
Theorem C133_niirs5 : forall ni it diag s c itp m em tr q, loaded ni it c itp m -> good_camera s ->
  (em = true <-> emissive_band s) -> good_atmosphere s em (atm_rows m) -> 0 < altitude c -> response_curves s tr q ->
  (0 < plain c Cn2At1m -> 0 <= plain c AircraftSpeed) -> forall s1 c1 mt snr, niirs5 ni it diag s c itp = (s1, c1, Ok mt) ->
  m_snr (ct_snr (f_contrast mt)) = Fin snr -> 0 < snr -> 0 < s_frames s ->
  let L := dist (above earth_radius 0 (ground_range c / earth_radius)) (above earth_radius (altitude c) 0) in
  exists rows lmin r1, seen_rows s (atm_rows m) rows /\ (0 < plain c Cn2At1m -> seeing c L r1) /\
    let ps := charge_spectrum s tr q (giqe_target em) rows in
    In lmin (map fst ps) /\ (forall p, In p ps -> lmin <= fst p) /\
    let t := share s (Rmax (charge s tr q (giqe_target em) rows) (charge s tr q (giqe_background em) rows)) * s_int_time s in
    let W := s_D s / lmin in
    let mtf u v := Rabs (system_mtf (with_int_time s t) c ps r1 u v) in
    let T := if Rlt_dec 0 (plain c Cn2At1m) then 1.8 * (s_D s / r_at r1 lmin) else 0 in
    forall lmax k, (forall p, In p ps -> fst p <= lmax) -> (0 < plain c Cn2At1m -> lmax <= 4 * lmin) -> 1 <= k ->
    s_px s / s_f s * W <= 1 / 2 -> s_py s / s_f s * W <= 1 / 2 ->
    relative_share (PI * (s_px s / s_f s) * W)
      (T + roughness W (s_eta s) lmin lmax (s_wx s / s_f s) (s_sx s) (s_dax s * (t * s_ntdi s)) (s_pv s) (s_pv_wl s) (s_Lx s)) W 50 <= 1 - 1 / k ->
    relative_share (PI * (s_py s / s_f s) * W)
      (T + roughness W (s_eta s) lmin lmax (s_wy s / s_f s) (s_sy s) (s_day s * (t * s_ntdi s)) (s_pv s) (s_pv_wl s) (s_Ly s)) W 50 <= 1 - 1 / k ->
    exists x x' y y' r r' gw v,
      blurred_edge (fun w => mtf w 0) W (s_px s / s_f s * (1 / 2)) x /\ blurred_edge (fun w => mtf w 0) W (s_px s / s_f s * - (1 / 2)) x' /\
      blurred_edge (fun w => mtf 0 w) W (s_py s / s_f s * (1 / 2)) y /\ blurred_edge (fun w => mtf 0 w) W (s_py s / s_f s * - (1 / 2)) y' /\
      0 < x - x' /\ 0 < y - y' /\ 0 < r' /\ r' ^ 3 = Rmax (x - x') (y - y') * Rmin (x - x') (y - y') ^ 2 /\
      f_rer mt = Fin r /\ within k r' r /\ f_gsd_w mt = Fin gw /\ f_niirs mt = Fin v /\
      forall M, Rabs (log10 r) <= M -> Rabs (log10 r') <= M ->
        Rabs (v - rating5 r' gw (sqrt (s_frames s) * snr)) <= (3.32 + 8 * M ^ 3) * log10 k.
Proof. exact niirs5_rated. Qed.
Print Assumptions C133_niirs5.

(* edge responses a tenth too small, equal distance and noise: not even a fifth of a level *)
Example C133_example_giqe5 : exists v v' w w' r r', giqe5 (Fin 1) (Fin 1) (Fin 0.5) (Fin 50) (Fin (PI / 2)) = (Fin v, Fin w, Fin r) /\
  giqe5 (Fin 0.9) (Fin 0.95) (Fin 0.5) (Fin 50) (Fin (PI / 2)) = (Fin v', Fin w', Fin r') /\
  Rabs (v - v') <= (3.32 + 8 * (log10 (10 / 9)) ^ 3) * log10 (10 / 9).
Proof.
  assert (S : 0 < sin (PI / 2)) by (rewrite sin_PI2; lra).
  destruct (C133_giqe5 1 1 0.9 0.95 0.5 0.5 50 50 (PI / 2) (10 / 9) 1 ltac:(lra) ltac:(lra) ltac:(lra) ltac:(lra) ltac:(lra) S) as (v & v' & w & w' & r & r' & A & B & C & _ & D);
    try (unfold within; lra).
  exists v, v', w, w', r, r'. split; [exact A|]. split; [exact B|].
  assert (R1 : r = 1).
  { generalize A. rewrite (giqe5_value 1 1 0.5 50 (PI / 2)) by (auto; lra). intros Q. injection Q. intros R _ _. rewrite <- R. apply mean5_same. lra. }
  assert (L0 : log10 1 = 0) by (unfold log10; rewrite ln_1; unfold Rdiv; ring).
  subst r. assert (K := log10_within _ _ _ Rlt_0_1 C). rewrite L0 in *.
  assert (P := Rabs_pos (0 - log10 r')). specialize (D (log10 (10 / 9))).
  replace (1 / 50 - 1 / 50) with 0 in D by ring. rewrite Rabs_R0 in D.
  eapply Rle_trans; [apply D|].
  - lra.
  - rewrite <- Rabs_Ropp. replace (- log10 r') with (0 - log10 r') by ring. exact K.
  - lra.
Qed.
Example C133_example_giqe3 : exists v v', giqe3 (Fin 0.9) (Fin 0.5) (Fin 1.1) (Fin 1) (Fin 50) = Fin v /\ giqe3 (Fin 0.45) (Fin 1) (Fin 1.1) (Fin 1) (Fin 50) = Fin v' /\
  Rabs (v - v') <= 6.64 * log10 2.
Proof.
  destruct (C133_giqe3 0.9 0.45 0.5 1 1.1 1.1 1 1 50 50 2 2 ltac:(lra) ltac:(lra) ltac:(lra) ltac:(lra)) as (v & v' & A & B & C); try (unfold within; lra).
  exists v, v'. split; [exact A|]. split; [exact B|]. replace (1.1 - 1.1) with 0 in C by lra. replace (1 / 50 - 1 / 50) with 0 in C by ring. rewrite Rabs_R0 in C. lra.
Qed.
(* fifty samples of a triangle, pixels of a quarter period of the last frequency: the relative edge response is right within a twentieth *)
Example C133_example_triangle : exists r e e', relative_edge_response (samples ramp 1 50) (1 / INR 50) (1 / 4) = Ok (Fin r) /\
  blurred_edge ramp 1 (1 / 4 * (1 / 2)) e /\ blurred_edge ramp 1 (1 / 4 * - (1 / 2)) e' /\ 0 < e - e' /\ within 1.05 (e - e') r.
Proof.
  apply (C133_relative_edge_response ramp 1 1 50 (1 / 4) 1.05 ltac:(lra) ramp_gentle ramp_transfer); try lra; try lia.
  - unfold ramp. ring.
  - intros w Hw. unfold ramp. lra.
  - unfold relative_share. replace (INR 50) with 50 by (rewrite INR_IZR_INZ; reflexivity). assert (P := PI_RGT_0). assert (P4 := PI_4).
    assert (PI * PI <= 16) by nra. lra.
Qed.
(* a thermal camera in calm air, 8 to 12 micrometres: the whole run, with the factor 1.3 *)
Example C133_example_niirs5 : exists s1 c1 mt snr v r r' gw, niirs5 demo_load demo_load no_diag (thermal [[1]] 1) calm false = (s1, c1, Ok mt) /\
  m_snr (ct_snr (f_contrast mt)) = Fin snr /\ 0 < snr /\ f_niirs mt = Fin v /\ f_rer mt = Fin r /\ f_gsd_w mt = Fin gw /\ 0 < r' /\ within 1.3 r' r /\
  forall M, Rabs (log10 r) <= M -> Rabs (log10 r') <= M -> Rabs (v - rating5 r' gw (sqrt 1 * snr)) <= (3.32 + 8 * M ^ 3) * log10 1.3.
Proof. exact calm_rated. Qed.
(* doubling the sample distance at an edge response of 0.8, overhead *)
Example C133_example_giqe4 : exists v v' p p', giqe4 (Fin 0.8) (Fin 0.5) (Fin 1.1) (Fin 1) (Fin 50) (Fin (PI / 2)) = (Fin v, Fin p) /\
  giqe4 (Fin 0.8) (Fin 1) (Fin 1.1) (Fin 1) (Fin 50) (Fin (PI / 2)) = (Fin v', Fin p') /\ Rabs (v - v') <= 3.32 * log10 2.
Proof.
  destruct (C133_giqe4 0.8 0.8 0.5 1 1.1 1.1 1 1 50 50 (PI / 2) 1 2) as (v & v' & p & p' & A & B & C & _); try (unfold within; lra).
  { rewrite sin_PI2. lra. }
  exists v, v', p, p'. split; [exact A|]. split; [exact B|]. specialize (C ltac:(lra)). rewrite log10_1, !Rminus_eq_0, Rabs_R0 in C. lra.
Qed.
