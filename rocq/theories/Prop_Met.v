(** * Prop_Met: theorems about metrics/functional.py (C75-C86, C95). *)
From Coq Require Import Reals Lra Lia List Sorted.
From Verif Require Import Base_XR Base_Np Model_Geo Model_Noise Model_Db Model_Scenario Model_Sensor Model_Rad Model_Otf Model_Img Model_Met
  Spec_Noise Spec_Rad Spec_System Spec_Met Spec_Quality Proof_Db Proof_RadP Proof_Edge Proof_Giqe Num_Met Proof_Contrast Proof_Niirs Proof_NiirsDemo Proof_MetX.
Import ListNotations.
Open Scope R_scope.

(** ** C75 *)
Theorem C75_edge_response_is_sine_integral : forall mtf df ifov x, 0 <= df ->
  edge_response x mtf df ifov = Ok (Fin (edge_at mtf df ifov x)).
Proof. exact er_value. Qed.
Print Assumptions C75_edge_response_is_sine_integral.

Theorem C75_antisymmetric : forall mtf df ifov x, 0 <= df -> exists a b,
  edge_response x mtf df ifov = Ok (Fin a) /\ edge_response (- x) mtf df ifov = Ok (Fin b) /\ a + b = 1.
Proof. exact er_antisymmetric. Qed.
Print Assumptions C75_antisymmetric.

Theorem C75_half_at_the_edge : forall mtf df ifov, 0 <= df -> edge_response 0 mtf df ifov = Ok (Fin (1 / 2)).
Proof. exact er_centre. Qed.
Print Assumptions C75_half_at_the_edge.

Theorem C75_relative_edge_response : forall mtf df ifov, 0 <= df ->
  relative_edge_response mtf df ifov = Ok (Fin (2 * edge_at mtf df ifov (1 / 2) - 1)).
Proof. exact rer_value. Qed.
Print Assumptions C75_relative_edge_response.

(* only the product of pixel position and ifov matters *)
Theorem C75_scale : forall mtf df ifov k x, edge_response (k * x) mtf df ifov = edge_response x mtf df (k * ifov).
Proof. exact er_scale. Qed.
Print Assumptions C75_scale.

Theorem C75_linear : forall a b m1 m2 m df ifov x, length m1 = length m -> length m2 = length m ->
  (forall i, (i < length m)%nat -> nth i m 0 = a * nth i m1 0 + b * nth i m2 0) ->
  edge_at m df ifov x - 1 / 2 = a * (edge_at m1 df ifov x - 1 / 2) + b * (edge_at m2 df ifov x - 1 / 2).
Proof. exact edge_linear. Qed.
Print Assumptions C75_linear.

(* below one cycle per pixel a non-negative MTF gives a non-negative slope, at
   most twice the area under the MTF in cycles per pixel *)
Theorem C75_slope_bounds : forall mtf df ifov, 0 <= df -> 0 <= ifov -> all_nonneg mtf ->
  (forall i, (i < length mtf)%nat -> freq_of df i * ifov <= 1) ->
  exists r, relative_edge_response mtf df ifov = Ok (Fin r) /\
    0 <= r <= 2 * ifov * trapezoid mtf (map (freq_of df) (seq 0 (length mtf))).
Proof. exact rer_bounds. Qed.
Print Assumptions C75_slope_bounds.

Example C75_example : exists r, relative_edge_response [1; 0.5; 0] 0.25 1 = Ok (Fin r) /\ 0 <= r <= 0.5.
Proof.
  destruct (rer_bounds [1; 0.5; 0] 0.25 1) as (r & E & B); [lra | lra | | | ].
  - intros x [<-|[<-|[<-|[]]]]; lra.
  - intros [|[|[|i]]] H; unfold freq_of; cbn in *; try lia; lra.
  - exists r. split; [exact E|]. unfold freq_of in B. cbn in B. lra.
Qed.

(** ** C76 *)
Theorem C76_overshoot : forall mtf df ifov, 0 <= df -> exists r,
  edge_height_overshoot mtf df ifov = Ok (Fin r) /\
  (exists k, (k < 9)%nat /\ r = edge_at mtf df ifov (overshoot_place k)) /\
  ((forall k, (k < 8)%nat -> edge_at mtf df ifov (overshoot_place k) < edge_at mtf df ifov (overshoot_place (S k))) ->
     r = edge_at mtf df ifov (5 / 4)) /\
  ((exists k, (k < 8)%nat /\ edge_at mtf df ifov (overshoot_place (S k)) <= edge_at mtf df ifov (overshoot_place k)) ->
     forall k, (k < 9)%nat -> edge_at mtf df ifov (overshoot_place k) <= r).
Proof. exact eho_spec. Qed.
Print Assumptions C76_overshoot.

(* an MTF that is zero everywhere: the edge response is flat at 1/2 *)
Example C76_example : edge_height_overshoot [0; 0] 1 1 = Ok (Fin (1 / 2)).
Proof.
  destruct (eho_spec [0; 0] 1 1 ltac:(lra)) as (r & E & (k & _ & ->) & _). rewrite E. do 2 f_equal.
  unfold edge_at. cbn [length seq map nth trapezoid]. lra.
Qed.

(** ** C77 *)
Theorem C77_detector_limit : forall mtf df, mtf <> [] -> 0 <= df -> forall s ifov r,
  exists g, ground_resolved_distance mtf df (Fin s) ifov r = Ok (Fin g) /\ 2 * ifov * r <= g.
Proof. exact grd_floor. Qed.
Print Assumptions C77_detector_limit.

(* the frequency at which the falling MTF reaches 3/snr *)
Theorem C77_resolved_frequency : forall mtf df, mtf <> [] -> 0 <= df -> forall s ifov r,
  strictly_falling mtf -> s <> 0 -> (1 < length mtf)%nat ->
  nth (length mtf - 1) mtf 0 <= 3 / s <= nth 0 mtf 0 ->
  exists f, on_curve mtf df f (3 / s) /\
    ground_resolved_distance mtf df (Fin s) ifov r = Ok (Fin (Rmax (r / (f + / 10 ^ 12)) (2 * ifov * r))).
Proof. exact grd_curve. Qed.
Print Assumptions C77_resolved_frequency.

Theorem C77_better_with_snr : forall mtf df, mtf <> [] -> 0 <= df -> forall s1 s2 ifov r,
  never_rising mtf -> 0 <= r -> 0 < s1 -> s1 <= s2 -> exists g1 g2,
    ground_resolved_distance mtf df (Fin s1) ifov r = Ok (Fin g1) /\
    ground_resolved_distance mtf df (Fin s2) ifov r = Ok (Fin g2) /\ g2 <= g1.
Proof. exact grd_snr. Qed.
Print Assumptions C77_better_with_snr.

(* snr 6 needs an MTF of 1/2, which lies at frequency 5 *)
Example C77_example : ground_resolved_distance [1; 0.5; 0] 5 (Fin 6) 0.001 100 = Ok (Fin (100 / (5 + / 10 ^ 12))).
Proof.
  destruct (grd_curve [1; 0.5; 0] 5 ltac:(discriminate) ltac:(lra) 6 0.001 100) as (f & (i & t & Hi & Ht & Ef & Ey) & E).
  - intros [|[|i]] [|[|[|j]]] H; cbn in *; try lia; lra.
  - lra.
  - cbn; lia.
  - cbn. lra.
  - assert (f = 5).
    { destruct i as [|[|i]]; cbn in Hi, Ey, Ef; try lia; lra. }
    rewrite E, H. do 2 f_equal. rewrite Rmax_left; [reflexivity|]. apply Rle_trans with 1; [lra|].
    apply Rmult_le_reg_r with (5 + / 10 ^ 12); [lra|]. unfold Rdiv. rewrite Rmult_assoc, Rinv_l by lra. lra.
Qed.

(** ** C78 *)
(* everything that makes a picture better raises the rating *)
Theorem C78_monotone : forall r1 r2 g1 g2 e1 e2 n1 n2 s1 s2,
  0 < r1 <= r2 -> 0 < g2 <= g1 -> e2 <= e1 -> 0 <= n2 <= n1 -> 0 < s1 <= s2 ->
  exists v1 v2, giqe3 (Fin r1) (Fin g1) (Fin e1) (Fin n1) (Fin s1) = Fin v1 /\
    giqe3 (Fin r2) (Fin g2) (Fin e2) (Fin n2) (Fin s2) = Fin v2 /\ v1 <= v2 /\
    (r1 < r2 \/ g2 < g1 \/ e2 < e1 \/ n2 < n1 \/ (0 < n1 /\ s1 < s2) -> v1 < v2).
Proof. exact giqe3_mono. Qed.
Print Assumptions C78_monotone.

(* k times coarser sampling costs 3.32 log10 k, and k times the RER makes up for it *)
Theorem C78_scaling : forall r g e n s k, 0 < r -> 0 < g -> s <> 0 -> 0 < k ->
  exists v v', giqe3 (Fin r) (Fin g) (Fin e) (Fin n) (Fin s) = Fin v /\
    giqe3 (Fin r) (Fin (k * g)) (Fin e) (Fin n) (Fin s) = Fin v' /\ v' = v - 3.32 * log10 k /\
    giqe3 (Fin (k * r)) (Fin (k * g)) (Fin e) (Fin n) (Fin s) = Fin v.
Proof. exact giqe3_double. Qed.
Print Assumptions C78_scaling.

(* the formula, so that the coefficients count *)
Theorem C78_formula : forall r g e n s, 0 < r -> 0 < g -> s <> 0 ->
  giqe3 (Fin r) (Fin g) (Fin e) (Fin n) (Fin s) =
  Fin (11.81 + 3.32 * (log10 r - log10 (g / inch)) - 1.48 * e - n / s).
Proof. exact giqe3_value. Qed.
Print Assumptions C78_formula.

Theorem C78_no_contrast_in_the_edge : forall g e n s, 0 < g -> s <> 0 ->
  giqe3 (Fin 0) (Fin g) (Fin e) (Fin n) (Fin s) = NInf /\
  forall r, r < 0 -> giqe3 (Fin r) (Fin g) (Fin e) (Fin n) (Fin s) = NaN.
Proof. exact giqe3_blurred. Qed.
Print Assumptions C78_no_contrast_in_the_edge.

(* one inch, RER 1, no overshoot, no noise *)
Example C78_example : giqe3 (Fin 1) (Fin inch) (Fin 0) (Fin 0) (Fin 1) = Fin 11.81.
Proof.
  rewrite giqe3_value; [|lra|apply inch_pos|lra]. f_equal. unfold log10. replace (inch / inch) with 1 by (unfold inch; lra).
  rewrite ln_1. lra.
Qed.

(** ** C79 *)
Theorem C79_monotone : forall r g1 g2 e1 e2 n1 n2 s1 s2 a1 a2,
  0 < r -> 0 < g2 <= g1 -> e2 <= e1 -> 0 <= n2 <= n1 -> 0 < s1 <= s2 -> 0 < a1 <= a2 -> a2 <= PI / 2 ->
  exists v1 v2 p1 p2,
    giqe4 (Fin r) (Fin g1) (Fin e1) (Fin n1) (Fin s1) (Fin a1) = (Fin v1, Fin p1) /\
    giqe4 (Fin r) (Fin g2) (Fin e2) (Fin n2) (Fin s2) (Fin a2) = (Fin v2, Fin p2) /\
    v1 <= v2 /\ p2 <= p1 /\ g1 <= p1 /\
    (g2 < g1 \/ e2 < e1 \/ n2 < n1 \/ (0 < n1 /\ s1 < s2) -> v1 < v2).
Proof. exact giqe4_mono. Qed.
Print Assumptions C79_monotone.

Theorem C79_formula : forall r g e n s a, 0 < r -> 0 < g -> s <> 0 -> 0 < sin a ->
  let gp := g / sqrt (sin a) in
  giqe4 (Fin r) (Fin g) (Fin e) (Fin n) (Fin s) (Fin a) =
  (Fin (10.251 - (if Rle_dec 0.9 r then 3.32 else 3.16) * log10 (gp / inch)
        + (if Rle_dec 0.9 r then 1.559 else 2.817) * log10 r - 0.656 * e - 0.334 * n / s), Fin gp).
Proof. exact giqe4_formula. Qed.
Print Assumptions C79_formula.

Theorem C79_overhead : forall r g e n s, 0 < r -> 0 < g -> s <> 0 ->
  exists v, giqe4 (Fin r) (Fin g) (Fin e) (Fin n) (Fin s) (Fin (PI / 2)) = (Fin v, Fin g).
Proof. exact giqe4_overhead. Qed.
Print Assumptions C79_overhead.

(* on either side of 0.9 a better RER raises the rating *)
Theorem C79_rer_on_one_side : forall r1 r2 g e n s a,
  0 < r1 -> r1 < r2 -> (r2 < 0.9 \/ 0.9 <= r1) -> 0 < g -> s <> 0 -> 0 < a < PI ->
  exists v1 v2 p, giqe4 (Fin r1) (Fin g) (Fin e) (Fin n) (Fin s) (Fin a) = (Fin v1, Fin p) /\
    giqe4 (Fin r2) (Fin g) (Fin e) (Fin n) (Fin s) (Fin a) = (Fin v2, Fin p) /\ v1 < v2.
Proof. exact giqe4_rer. Qed.
Print Assumptions C79_rer_on_one_side.

(* and also across 0.9 if the ground-plane GSD is below 2.289 inches *)
Theorem C79_rer_fine_sampling : forall r1 r2 g e n s a,
  0 < r1 -> r1 < r2 -> 0 < g -> s <> 0 -> 0 < a < PI -> g / sqrt (sin a) <= 2.289 * inch ->
  exists v1 v2 p, giqe4 (Fin r1) (Fin g) (Fin e) (Fin n) (Fin s) (Fin a) = (Fin v1, Fin p) /\
    giqe4 (Fin r2) (Fin g) (Fin e) (Fin n) (Fin s) (Fin a) = (Fin v2, Fin p) /\ v1 < v2.
Proof. exact giqe4_keep. Qed.
Print Assumptions C79_rer_fine_sampling.

(* but not for coarser ground sampling *)
Theorem C79_rer_drop : forall g e n s a, s <> 0 -> 0 < a < PI -> 2.291 * inch <= g / sqrt (sin a) ->
  exists v1 v2 p, giqe4 (Fin 0.89999) (Fin g) (Fin e) (Fin n) (Fin s) (Fin a) = (Fin v1, p) /\
    giqe4 (Fin 0.9) (Fin g) (Fin e) (Fin n) (Fin s) (Fin a) = (Fin v2, p) /\ v2 < v1.
Proof. exact giqe4_drop. Qed.
Print Assumptions C79_rer_drop.

Theorem C79_rer_monotone_refuted : ~ forall r1 r2 g e n s a v1 v2 p1 p2,
  0 < r1 -> r1 <= r2 -> 0 < g -> 0 < s -> 0 < a <= PI / 2 ->
  giqe4 (Fin r1) (Fin g) (Fin e) (Fin n) (Fin s) (Fin a) = (Fin v1, p1) ->
  giqe4 (Fin r2) (Fin g) (Fin e) (Fin n) (Fin s) (Fin a) = (Fin v2, p2) -> v1 <= v2.
Proof. exact giqe4_rer_refuted. Qed.
Print Assumptions C79_rer_monotone_refuted.

(* a 10 cm GSD straight down is coarse enough *)
Example C79_example : 2.291 * inch <= 0.1 / sqrt (sin (PI / 2)).
Proof. rewrite sin_PI2, sqrt_1. unfold inch. lra. Qed.

(** ** C80 *)
Theorem C80_symmetric : forall x y g s a, giqe5 (Fin x) (Fin y) g s a = giqe5 (Fin y) (Fin x) g s a.
Proof. exact giqe5_sym. Qed.
Print Assumptions C80_symmetric.

Theorem C80_mean : forall x y g s a, 0 < x -> 0 < y -> 0 < g -> s <> 0 -> 0 < a < PI ->
  exists v gw r, giqe5 (Fin x) (Fin y) (Fin g) (Fin s) (Fin a) = (Fin v, Fin gw, Fin r) /\
    Rmin x y <= r <= Rmax x y /\ r ^ 3 = Rmax x y * (Rmin x y) ^ 2 /\ g <= gw /\ (a = PI / 2 -> gw = g).
Proof. exact giqe5_mean. Qed.
Print Assumptions C80_mean.

Theorem C80_formula : forall x g s a, 0 < x -> 0 < g -> s <> 0 -> 0 < sin a ->
  let gw := g / Rpower (sin a) (1 / 4) in
  giqe5 (Fin x) (Fin x) (Fin g) (Fin s) (Fin a) =
  (Fin (9.57 - 3.32 * log10 (gw / inch) + 3.32 * (1 - exp (-1.9 / s)) * log10 x - 2 * log10 x ^ 4 - 1.8 / s), Fin gw, Fin x).
Proof. exact giqe5_formula. Qed.
Print Assumptions C80_formula.

Theorem C80_two_edges : forall x y g s a r, 0 < x -> 0 < y -> 0 < g -> s <> 0 -> 0 < sin a -> 0 < r ->
  r ^ 3 = Rmax x y * (Rmin x y) ^ 2 ->
  let gw := g / Rpower (sin a) (1 / 4) in
  giqe5 (Fin x) (Fin y) (Fin g) (Fin s) (Fin a) =
  (Fin (9.57 - 3.32 * log10 (gw / inch) + 3.32 * (1 - exp (-1.9 / s)) * log10 r - 2 * log10 r ^ 4 - 1.8 / s), Fin gw, Fin r).
Proof. exact giqe5_mean_formula. Qed.
Print Assumptions C80_two_edges.
(* edges 8 and 1 average to 2 *)
Example C80_two_edges_example : 2 ^ 3 = Rmax 8 1 * (Rmin 8 1) ^ 2 /\ 0 < sin (PI / 2).
Proof. rewrite Rmax_left, Rmin_right, sin_PI2 by lra. lra. Qed.

Theorem C80_gsd_and_elevation : forall x y g1 g2 s a1 a2,
  0 < x -> 0 < y -> 0 < g2 <= g1 -> s <> 0 -> 0 < a1 <= a2 -> a2 <= PI / 2 ->
  exists v1 w1 v2 w2 r, giqe5 (Fin x) (Fin y) (Fin g1) (Fin s) (Fin a1) = (Fin v1, Fin w1, Fin r) /\
    giqe5 (Fin x) (Fin y) (Fin g2) (Fin s) (Fin a2) = (Fin v2, Fin w2, Fin r) /\
    v1 <= v2 /\ (g2 < g1 \/ a1 < a2 -> v1 < v2).
Proof. exact giqe5_gsd. Qed.
Print Assumptions C80_gsd_and_elevation.

(* for relative edge responses up to 1 *)
Theorem C80_monotone : forall x y x' y' g1 g2 s1 s2 a1 a2,
  0 < x <= x' -> 0 < y <= y' -> x' <= 1 -> y' <= 1 -> 0 < g2 <= g1 ->
  0 < s1 <= s2 -> 0 < a1 <= a2 -> a2 <= PI / 2 ->
  exists v1 w1 r1 v2 w2 r2, giqe5 (Fin x) (Fin y) (Fin g1) (Fin s1) (Fin a1) = (Fin v1, Fin w1, Fin r1) /\
    giqe5 (Fin x') (Fin y') (Fin g2) (Fin s2) (Fin a2) = (Fin v2, Fin w2, Fin r2) /\
    v1 <= v2 /\ w2 <= w1 /\ r1 <= r2.
Proof. exact giqe5_mono. Qed.
Print Assumptions C80_monotone.

(* the test case named in the documentation: NIIRS 5 *)
Theorem C80_documented_case : exists v,
  giqe5 (Fin 0.35) (Fin 0.35) (Fin 0.52832) (Fin 50) (Fin (PI / 2)) = (Fin v, Fin 0.52832, Fin 0.35) /\ Rabs (v - 5) < 0.016.
Proof. exact giqe5_test_case. Qed.
Print Assumptions C80_documented_case.

Example C80_example : 0 < 0.35 /\ 0 < 0.52832 /\ (50 <> 0) /\ 0 < PI / 2 < PI.
Proof. pose proof PI_RGT_0. lra. Qed.

(** ** C81 *)
(* in visible light the scenario ends with the reflectances the equation uses,
   and nothing else changes *)
Theorem C81_visible_light : forall ni it diag s c itp m, loaded ni it c itp m -> s_owl s <> [] -> ~ emissive_band s ->
  forall c', c' = fst (niirs ni it diag s c itp) \/ c' = snd (fst (niirs5 ni it diag s c itp)) ->
  plain c' TargetReflectance = 0.15 /\ plain c' BackgroundReflectance = 0.07 /\
  (forall a, a <> TargetReflectance -> a <> BackgroundReflectance -> plain c' a = plain c a) /\ same_route c c'.
Proof. exact state_visible. Qed.
Print Assumptions C81_visible_light.

Theorem C81_infrared : forall ni it diag s c itp m, loaded ni it c itp m -> s_owl s <> [] -> emissive_band s ->
  forall c', c' = fst (niirs ni it diag s c itp) \/ c' = snd (fst (niirs5 ni it diag s c itp)) ->
  plain c' TargetReflectance = 0 /\ plain c' BackgroundReflectance = 0 /\ plain c' TargetTemperature = 280 /\
  (forall a, a <> TargetReflectance -> a <> BackgroundReflectance -> a <> TargetTemperature -> plain c' a = plain c a) /\ same_route c c'.
Proof. exact state_infrared. Qed.
Print Assumptions C81_infrared.

(* an atmosphere that cannot be loaded leaves the scenario alone *)
Theorem C81_no_atmosphere : forall ni it diag s c itp, (s_owl s = [] \/ forall m, ~ loaded ni it c itp m) ->
  fst (niirs ni it diag s c itp) = c /\ fst (niirs5 ni it diag s c itp) = (s, c).
Proof. exact state_failed. Qed.
Print Assumptions C81_no_atmosphere.

(* the documented temperatures (target 282 K, background 280 K) do not arrive *)
Theorem C81_infrared_defaults_refuted : ~ forall ni it diag s c itp m, loaded ni it c itp m -> s_owl s <> [] -> emissive_band s ->
  plain (fst (niirs ni it diag s c itp)) TargetTemperature = 282 /\ plain (fst (niirs ni it diag s c itp)) BackgroundTemperature = 280.
Proof. exact infrared_defaults_refuted. Qed.
Print Assumptions C81_infrared_defaults_refuted.

Example C81_example : loaded demo_load demo_load demo_scen false demo_m /\
  s_owl (thermal sharpen 1) <> [] /\ emissive_band (thermal sharpen 1) /\ ~ emissive_band (visible sharpen 1) /\
  plain (fst (niirs demo_load demo_load no_diag (thermal sharpen 1) demo_scen false)) TargetTemperature = 280 /\
  plain (fst (niirs demo_load demo_load no_diag (thermal sharpen 1) demo_scen false)) BackgroundTemperature = 290.
Proof.
  split; [apply demo_loaded|]. split; [discriminate|]. split; [apply thermal_band|]. split; [apply visible_band|].
  destruct (state_infrared demo_load demo_load no_diag (thermal sharpen 1) demo_scen false demo_m (demo_loaded _) ltac:(discriminate) (thermal_band _ _) _ (or_introl eq_refl)) as (_ & _ & T & B & _).
  split; [exact T|]. rewrite B by discriminate. reflexivity.
Qed.

(** ** C95: inputs for which niirs and niirs5 work *)
Theorem C95_niirs_succeeds : forall ni it diag s c itp m em, loaded ni it c itp m -> good_camera s ->
  (em = true <-> emissive_band s) -> good_atmosphere s em (atm_rows m) -> 0 < altitude c -> Rsum (concat (s_kernel s)) = 1 ->
  exists c' mt snr ng, niirs ni it diag s c itp = (c', Ok mt) /\
    curved_earth_slant_range 0 (altitude c) (ground_range c) = Fin (n_slant mt) /\ 0 < n_slant mt /\
    m_snr (ct_snr (n_contrast mt)) = Fin snr /\
    n_gsd_gm mt = Fin (sqrt ((s_px s / s_f s * n_slant mt) * (s_py s / s_f s * n_slant mt))) /\
    n_ng mt = Fin ng /\ 0 <= ng /\ ng * ng = Rsum (map (fun w => w * w) (concat (s_kernel s))) /\
    (exists e, n_elev mt = Fin e /\ 0 < sin e) /\
    n_niirs mt = giqe3 (n_rer mt) (n_gsd_gm mt) (n_eho mt) (n_ng mt) (xmul (xsqrt (Fin (s_frames s))) (Fin snr)) /\
    (n_niirs_4 mt, n_gsd_gp mt) = giqe4 (n_rer mt) (n_gsd_gm mt) (n_eho mt) (n_ng mt) (xmul (xsqrt (Fin (s_frames s))) (Fin snr)) (n_elev mt).
Proof. exact niirs_total. Qed.
Print Assumptions C95_niirs_succeeds.

(* the kernel is the only thing that can still go wrong *)
Theorem C95_kernel_not_normalised : forall ni it diag s c itp m em, loaded ni it c itp m -> good_camera s ->
  (em = true <-> emissive_band s) -> good_atmosphere s em (atm_rows m) -> 0 < altitude c -> Rsum (concat (s_kernel s)) <> 1 ->
  snd (niirs ni it diag s c itp) = Err ValueError.
Proof. exact niirs_total_err. Qed.
Print Assumptions C95_kernel_not_normalised.

Theorem C95_niirs5_succeeds : forall ni it diag s c itp m em, loaded ni it c itp m -> good_camera s ->
  (em = true <-> emissive_band s) -> good_atmosphere s em (atm_rows m) -> 0 < altitude c ->
  exists s' c' mt snr r0 r90 e, niirs5 ni it diag s c itp = (s', c', Ok mt) /\ s_kernel s' = [[1]] /\
    curved_earth_slant_range 0 (altitude c) (ground_range c) = Fin (f_slant mt) /\ 0 < f_slant mt /\
    f_gsd_x mt = s_px s / s_f s * f_slant mt /\ m_snr (ct_snr (f_contrast mt)) = Fin snr /\
    f_rer_0 mt = Fin r0 /\ f_rer_90 mt = Fin r90 /\ f_elev mt = Fin e /\ 0 < sin e /\
    (f_niirs mt, f_gsd_w mt, f_rer mt) = giqe5 (Fin r0) (Fin r90) (Fin (f_gsd_x mt)) (xmul (xsqrt (Fin (s_frames s))) (Fin snr)) (Fin e).
Proof. exact niirs5_total. Qed.
Print Assumptions C95_niirs5_succeeds.

Example C95_example : loaded demo_load demo_load demo_scen false demo_m /\
  good_camera (visible sharpen 1) /\ good_camera (thermal sharpen 1) /\
  good_atmosphere (visible sharpen 1) false (atm_rows demo_m) /\ good_atmosphere (thermal sharpen 1) true (atm_rows demo_m) /\
  Rsum (concat sharpen) = 1.
Proof.
  exact (conj (demo_loaded _) (conj (visible_good _ _) (conj (thermal_good _ _) (conj (visible_atm _ _) (conj (thermal_atm _ _) sharpen_sum))))).
Qed.

(* signal and spectral weights are those of the standard target and background *)
Theorem C95_niirs_contrast : forall ni it diag s c itp m em, loaded ni it c itp m -> physical s -> sorted_tables s ->
  (em = true <-> emissive_band s) -> sound_rows (atm_rows m) ->
  forall c1 mt, niirs ni it diag s c itp = (c1, Ok mt) -> standard_contrast s (atm_rows m) em (n_contrast mt).
Proof. exact niirs_standard. Qed.
Print Assumptions C95_niirs_contrast.

Theorem C95_niirs5_contrast : forall ni it diag s c itp m em, loaded ni it c itp m -> physical s -> sorted_tables s ->
  (em = true <-> emissive_band s) -> sound_rows (atm_rows m) ->
  forall s1 c1 mt, niirs5 ni it diag s c itp = (s1, c1, Ok mt) -> standard_contrast s (atm_rows m) em (f_contrast mt).
Proof. exact niirs5_standard. Qed.
Print Assumptions C95_niirs5_contrast.

(* edge response and overshoot are those of the system's transfer function for
   that spectrum, integration time and slant range, along both axes *)
Theorem C95_niirs_edges : forall ni it diag s c itp m em, loaded ni it c itp m -> good_camera s ->
  (em = true <-> emissive_band s) -> good_atmosphere s em (atm_rows m) -> 0 < altitude c ->
  forall c1 mt, niirs ni it diag s c itp = (c1, Ok mt) -> let ct := n_contrast mt in
    exists t v eu ev, m_int_time (ct_snr ct) = Fin t /\
      common_OTFs diag Np s c1 (ct_pts ct) (ct_wl ct) (ct_w ct) (n_slant mt) t = Ok (n_otf mt) /\
      system_OTF (n_otf mt) = map Fin v /\ length v = (101 * 101)%nat /\
      n_rer mt = xsqrt (Fin (slope (rightwards v) (ct_df ct) (s_px s / s_f s) * slope (upwards v) (ct_df ct) (s_py s / s_f s))) /\
      overshoot (rightwards v) (ct_df ct) (s_px s / s_f s) eu /\ overshoot (upwards v) (ct_df ct) (s_py s / s_f s) ev /\
      n_eho mt = xsqrt (Fin (eu * ev)) /\
      elev_angle (altitude c) (n_slant mt) = Ok (n_elev mt).
Proof. exact niirs_steps. Qed.
Print Assumptions C95_niirs_edges.

(* niirs5: same, without the sharpening kernel (s1 is the camera afterwards) *)
Theorem C95_niirs5_edges : forall ni it diag s c itp m em, loaded ni it c itp m -> good_camera s ->
  (em = true <-> emissive_band s) -> good_atmosphere s em (atm_rows m) -> 0 < altitude c ->
  forall s1 c1 mt, niirs5 ni it diag s c itp = (s1, c1, Ok mt) -> let ct := f_contrast mt in
    exists t v, m_int_time (ct_snr ct) = Fin t /\
      common_OTFs diag Np s1 c1 (ct_pts ct) (ct_wl ct) (ct_w ct) (f_slant mt) t = Ok (f_otf mt) /\
      system_OTF (f_otf mt) = map Fin v /\ length v = (101 * 101)%nat /\
      f_rer_0 mt = Fin (slope (rightwards v) (ct_df ct) (s_px s / s_f s)) /\
      f_rer_90 mt = Fin (slope (upwards v) (ct_df ct) (s_py s / s_f s)) /\
      elev_angle (altitude c) (f_slant mt) = Ok (f_elev mt).
Proof. exact niirs5_steps. Qed.
Print Assumptions C95_niirs5_edges.

(* the sharpening camera in visible light: some row of the atmosphere is lit *)
Example C95_lit_example : exists c1 mt x, niirs demo_load demo_load no_diag (visible sharpen 1) demo_scen false = (c1, Ok mt) /\
  In x (ct_wl (n_contrast mt)).
Proof.
  destruct order_matters as (mt & c1 & d & e & E & _).
  destruct (niirs_grid demo_load demo_load no_diag (visible sharpen 1) demo_scen false demo_m (demo_loaded _)
    (proj1 (visible_good _ _)) (proj1 (visible_atm sharpen 1)) c1 mt E) as (l & H & _).
  exists c1, mt, l. auto.
Qed.

(** ** C82 *)
(* a call of niirs5 in between replaces the noise gain of the kernel by 1 *)
Theorem C82_forgets_kernel : forall ni it diag s c itp m em, loaded ni it c itp m -> good_camera s ->
  (em = true <-> emissive_band s) -> good_atmosphere s em (atm_rows m) -> 0 < altitude c -> Rsum (concat (s_kernel s)) = 1 ->
  exists mt0 c' s' m5 mt1 ng, niirs ni it diag s c itp = (c', Ok mt0) /\
    niirs5 ni it diag s c itp = (s', c', Ok m5) /\ niirs ni it diag s' c' itp = (c', Ok mt1) /\
    n_ng mt0 = Fin ng /\ ng * ng = Rsum (map (fun w => w * w) (concat (s_kernel s))) /\ n_ng mt1 = Fin 1.
Proof. exact order_kernel. Qed.
Print Assumptions C82_forgets_kernel.

(* a kernel niirs refuses is accepted after niirs5 *)
Theorem C82_forgets_error : forall ni it diag s c itp m em, loaded ni it c itp m -> good_camera s ->
  (em = true <-> emissive_band s) -> good_atmosphere s em (atm_rows m) -> 0 < altitude c -> Rsum (concat (s_kernel s)) <> 1 ->
  exists c' s' m5 mt1, niirs ni it diag s c itp = (c', Err ValueError) /\
    niirs5 ni it diag s c itp = (s', c', Ok m5) /\ niirs ni it diag s' c' itp = (c', Ok mt1).
Proof. exact order_error. Qed.
Print Assumptions C82_forgets_error.

Theorem C82_order_independent_refuted : ~ forall ni it diag s c itp s' c' r5 r,
  niirs5 ni it diag s c itp = (s', c', r5) -> niirs ni it diag s c' itp = (c', r) -> niirs ni it diag s' c' itp = (c', r).
Proof. exact order_refuted. Qed.
Print Assumptions C82_order_independent_refuted.

Example C82_example : exists mt0 c' s' m5 mt1,
  niirs demo_load demo_load no_diag (visible sharpen 1) demo_scen false = (c', Ok mt0) /\
  niirs5 demo_load demo_load no_diag (visible sharpen 1) demo_scen false = (s', c', Ok m5) /\
  niirs demo_load demo_load no_diag s' c' false = (c', Ok mt1) /\ n_ng mt0 <> n_ng mt1.
Proof. destruct order_matters as (a & b & d & e & H). exists a, b, (no_sharpening (visible sharpen 1)), d, e. exact H. Qed.

(** ** C83 *)
Theorem C83_niirs_idempotent : forall ni it diag s c itp c1 r,
  niirs ni it diag s c itp = (c1, r) -> niirs ni it diag s c1 itp = (c1, r).
Proof. exact niirs_idem. Qed.
Print Assumptions C83_niirs_idempotent.

Theorem C83_niirs5_idempotent : forall ni it diag s c itp s1 c1 r,
  niirs5 ni it diag s c itp = (s1, c1, r) -> niirs5 ni it diag s1 c1 itp = (s1, c1, r).
Proof. exact niirs5_idem. Qed.
Print Assumptions C83_niirs5_idempotent.

Example C83_example : exists c1 mt, niirs demo_load demo_load no_diag (visible sharpen 1) demo_scen false = (c1, Ok mt) /\
  plain c1 TargetReflectance <> plain demo_scen TargetReflectance.
Proof.
  destruct order_matters as (a & b & d & e & H & _). exists b, a. split; [exact H|].
  destruct (state_visible demo_load demo_load no_diag (visible sharpen 1) demo_scen false demo_m (demo_loaded _) ltac:(discriminate) (visible_band _ _) b) as (T & _).
  - left. rewrite H. reflexivity.
  - rewrite T. cbn. lra.
Qed.

(** ** C84 *)
Theorem C84_niirs_noise : forall ni it diag s c itp m em, loaded ni it c itp m -> physical s -> sorted_tables s ->
  (em = true <-> emissive_band s) -> sound_rows (atm_rows m) -> StronglySorted Rlt (map a_wl (atm_rows m)) ->
  forall c1 mt, niirs ni it diag s c itp = (c1, Ok mt) -> split_noise s (atm_rows m) em (n_contrast mt).
Proof. exact niirs_split. Qed.
Print Assumptions C84_niirs_noise.

Theorem C84_niirs5_noise : forall ni it diag s c itp m em, loaded ni it c itp m -> physical s -> sorted_tables s ->
  (em = true <-> emissive_band s) -> sound_rows (atm_rows m) -> StronglySorted Rlt (map a_wl (atm_rows m)) ->
  forall s1 c1 mt, niirs5 ni it diag s c itp = (s1, c1, Ok mt) -> split_noise s (atm_rows m) em (f_contrast mt).
Proof. exact niirs5_split. Qed.
Print Assumptions C84_niirs5_noise.

(* the thermal camera: both noise terms are numbers *)
Example C84_example : exists c1 mt pn sn, niirs demo_load demo_load no_diag (thermal sharpen 1) demo_scen false = (c1, Ok mt) /\
  ct_path_noise (n_contrast mt) = Fin pn /\ ct_scene_noise (n_contrast mt) = Fin sn.
Proof.
  destruct (niirs_total demo_load demo_load no_diag (thermal sharpen 1) demo_scen false demo_m true (demo_loaded _) (thermal_good _ _) (thermal_em _ _) (thermal_atm _ _)) as (c1 & mt & _ & _ & E & _);
    [cbn; lra | exact sharpen_sum|].
  destruct (niirs_split demo_load demo_load no_diag (thermal sharpen 1) demo_scen false demo_m true (demo_loaded _)
    (proj1 (thermal_good _ _)) (proj1 (proj2 (thermal_good _ _))) (thermal_em _ _) (proj1 (thermal_atm sharpen 1)) (proj1 (proj2 (thermal_atm sharpen 1))) c1 mt E)
    as (rows & _ & H).
  destruct (H _ _ (curves_exist _ (ph_tables _ (proj1 (thermal_good _ _))) (proj1 (proj2 (thermal_good _ _))))) as (t & pn & sn & _ & _ & A & B & _).
  exists c1, mt, pn, sn. auto.
Qed.

(** ** C85 *)
(* stacking n frames changes nothing but the SNR in the rating *)
Theorem C85_stacking : forall ni it diag s c itp n c1 m1, niirs ni it diag s c itp = (c1, Ok m1) ->
  exists m2, niirs ni it diag (with_frames s n) c itp = (c1, Ok m2) /\
    n_contrast m2 = n_contrast m1 /\ n_otf m2 = n_otf m1 /\ n_rer m2 = n_rer m1 /\ n_eho m2 = n_eho m1 /\ n_ng m2 = n_ng m1 /\
    n_gsd_gm m2 = n_gsd_gm m1 /\ n_elev m2 = n_elev m1 /\ n_gsd_gp m2 = n_gsd_gp m1 /\
    n_niirs m1 = giqe3 (n_rer m1) (n_gsd_gm m1) (n_eho m1) (n_ng m1) (xmul (xsqrt (Fin (s_frames s))) (m_snr (ct_snr (n_contrast m1)))) /\
    n_niirs m2 = giqe3 (n_rer m1) (n_gsd_gm m1) (n_eho m1) (n_ng m1) (xmul (xsqrt (Fin n)) (m_snr (ct_snr (n_contrast m1)))).
Proof. exact niirs_frames. Qed.
Print Assumptions C85_stacking.

(* more frames raise the rating of a bright target; a target darker than its
   background (negative snr) is rated lower the more frames are stacked *)
Theorem C85_rating : forall r g e ng x n1 n2, 0 < r -> 0 < g -> 0 <= ng -> 0 < n1 -> n1 < n2 -> x <> 0 ->
  exists v1 v2, giqe3 (Fin r) (Fin g) (Fin e) (Fin ng) (xmul (xsqrt (Fin n1)) (Fin x)) = Fin v1 /\
    giqe3 (Fin r) (Fin g) (Fin e) (Fin ng) (xmul (xsqrt (Fin n2)) (Fin x)) = Fin v2 /\
    (0 < x -> v1 <= v2) /\ (0 < x -> 0 < ng -> v1 < v2) /\ (x < 0 -> 0 < ng -> v2 < v1).
Proof. exact giqe3_frames. Qed.
Print Assumptions C85_rating.

Example C85_example : exists c1 m1, niirs demo_load demo_load no_diag (visible sharpen 1) demo_scen false = (c1, Ok m1).
Proof. destruct order_matters as (a & b & d & e & H & _). exists b, a. exact H. Qed.

(** ** C86 *)
(* row i, column j of the grid: the zero frequency is in the middle *)
Theorem C86_grid : forall ni it diag s c itp m, loaded ni it c itp m -> physical s -> sound_rows (atm_rows m) ->
  forall c1 mt, niirs ni it diag s c itp = (c1, Ok mt) -> let ct := n_contrast mt in
    exists lmin, In lmin (ct_wl ct) /\ (forall x, In x (ct_wl ct) -> lmin <= x) /\ 0 < lmin /\
    ct_cutoff ct = s_D s / lmin /\ ct_df ct = ct_cutoff ct / 50 /\ length (ct_pts ct) = (101 * 101)%nat /\
    forall i j, (i <= 100)%nat -> (j <= 100)%nat ->
      nth (i * 101 + j) (ct_pts ct) (0, 0) = ((INR j - 50) * ct_df ct, (50 - INR i) * ct_df ct).
Proof. exact niirs_grid. Qed.
Print Assumptions C86_grid.

Example C86_example : exists c1 mt, niirs demo_load demo_load no_diag (visible sharpen 1) demo_scen false = (c1, Ok mt) /\
  nth (50 * 101 + 50) (ct_pts (n_contrast mt)) (0, 0) = (0, 0).
Proof.
  destruct order_matters as (mt & c1 & d & e & E & _). exists c1, mt. split; [exact E|].
  destruct (niirs_grid demo_load demo_load no_diag (visible sharpen 1) demo_scen false demo_m (demo_loaded _)
    (proj1 (visible_good _ _)) (proj1 (visible_atm sharpen 1)) c1 mt E) as (l & _ & _ & _ & _ & _ & _ & H).
  rewrite (H 50%nat 50%nat) by lia. rewrite (INR_IZR_INZ 50). f_equal; cbn; ring.
Qed.
