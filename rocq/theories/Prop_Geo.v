(** * Prop_Geo: theorems about geospatial.py (properties C01-C05).
    Statements only; proofs are in Proof_Geo.v. *)
From Coq Require Import Reals Lra List.
From Verif Require Import Base_XR Base_Np Model_Geo Spec_Geo Proof_Geo.
Open Scope R_scope.

(** ** C01 *)
Theorem C01_slant_range_is_distance :
  forall ht hs g,
    curved_earth_slant_range ht hs g
    = Fin (dist (above earth_radius ht (g / earth_radius)) (above earth_radius hs 0)).
Proof. exact slant_is_distance. Qed.
Print Assumptions C01_slant_range_is_distance.

Theorem C01_slant_range_symmetric :
  forall ht hs g, curved_earth_slant_range ht hs g = curved_earth_slant_range hs ht g.
Proof. exact slant_symmetric. Qed.
Print Assumptions C01_slant_range_symmetric.

Theorem C01_slant_range_overhead :
  forall ht hs, curved_earth_slant_range ht hs 0 = Fin (Rabs (hs - ht)).
Proof. exact slant_overhead. Qed.
Print Assumptions C01_slant_range_overhead.

Theorem C01_slant_range_increasing :
  forall ht hs g1 g2,
    - earth_radius < ht -> - earth_radius < hs ->
    0 <= g1 -> g1 < g2 -> g2 <= PI * earth_radius ->
    exists s1 s2, curved_earth_slant_range ht hs g1 = Fin s1 /\
                  curved_earth_slant_range ht hs g2 = Fin s2 /\ s1 < s2.
Proof. exact slant_increasing. Qed.
Print Assumptions C01_slant_range_increasing.

Example C01_ex : (* 9 km altitude, 0 m against 60 km ground range *)
  - earth_radius < 0 /\ - earth_radius < 9000 /\ 0 <= 0 /\ 0 < 60000 /\ 60000 <= PI * earth_radius.
Proof. pose proof PI2_3_2. unfold earth_radius. repeat split; lra. Qed.

(** ** C02 *)
Theorem C02_nadir_is_geometric_angle :
  forall k ht hs g s,
    - earth_radius < ht -> - earth_radius < hs ->
    curved_earth_slant_range ht hs g = Fin s -> s <> 0 ->
    exists phi, nadir_angle k ht hs s = Ok (Fin phi) /\
      is_angle phi (vsub origin (above earth_radius hs 0))
                   (vsub (above earth_radius ht (g / earth_radius)) (above earth_radius hs 0)).
Proof. exact nadir_of_slant. Qed.
Print Assumptions C02_nadir_is_geometric_angle.

Theorem C02_nadir_overhead_is_zero :
  forall k ht hs, - earth_radius < ht -> ht < hs ->
    exists s, curved_earth_slant_range ht hs 0 = Fin s /\ nadir_angle k ht hs s = Ok (Fin 0).
Proof. exact nadir_overhead. Qed.
Print Assumptions C02_nadir_overhead_is_zero.

Theorem C02_nadir_raises_iff :
  forall ht hs b,
    nadir_angle Py ht hs b = Err ZeroDivisionError <-> (b = 0 \/ hs = - earth_radius).
Proof. exact nadir_raises_iff. Qed.
Print Assumptions C02_nadir_raises_iff.

Theorem C02_nadir_nan_iff :
  forall k ht hs b,
    0 < earth_radius + hs -> 0 <= earth_radius + ht -> 0 < b ->
    nadir_angle k ht hs b = Ok NaN <->
    ~ (Rabs (earth_radius + hs - b) <= earth_radius + ht <= earth_radius + hs + b).
Proof. exact nadir_nan_iff. Qed.
Print Assumptions C02_nadir_nan_iff.

Example C02_ex : (* a 20 km path cannot join the ground to a 50 km high sensor *)
  nadir_angle Py 0 50000 20000 = Ok NaN.
Proof.
  apply C02_nadir_nan_iff; unfold earth_radius; try lra.
  intros [H _]. rewrite Rabs_pos_eq in H by lra. lra.
Qed.
Example C02_ex2 : exists s, curved_earth_slant_range 0 9000 0 = Fin s /\ s <> 0 /\ s = 9000.
Proof.
  exists 9000. rewrite slant_overhead. rewrite Rabs_pos_eq by lra.
  split; [f_equal; lra|lra].
Qed.

(** ** C03 *)
Theorem C03_path_is_the_segment :
  forall k hs (T : pt),
    0 < earth_radius + hs -> 0 < dist T (on_axis earth_radius hs) ->
    exists zs hp,
      altitude_along_slant_path k (height earth_radius T) hs (dist T (on_axis earth_radius hs)) = Ok (zs, hp) /\
      length zs = 10000%nat /\ length hp = 10000%nat /\
      forall i, (i < 10000)%nat ->
        nth i zs NaN = Fin (INR i * dist T (on_axis earth_radius hs) / 9999) /\
        nth i hp NaN = Fin (height earth_radius (along T (on_axis earth_radius hs) (INR i / 9999))).
Proof. exact path_of_point. Qed.
Print Assumptions C03_path_is_the_segment.

Theorem C03_path_endpoints :
  forall k ht hs g s,
    - earth_radius < ht -> - earth_radius < hs ->
    curved_earth_slant_range ht hs g = Fin s -> s <> 0 ->
    exists zs hp,
      altitude_along_slant_path k ht hs s = Ok (zs, hp) /\
      nth 0 zs NaN = Fin 0 /\ nth 9999 zs NaN = Fin s /\
      nth 0 hp NaN = Fin ht /\ nth 9999 hp NaN = Fin hs.
Proof. exact path_endpoints. Qed.
Print Assumptions C03_path_endpoints.

Theorem C03_zero_length_path_raises :
  forall ht hs, altitude_along_slant_path Py ht hs 0 = Err ZeroDivisionError.
Proof. exact path_zero. Qed.
Print Assumptions C03_zero_length_path_raises.

Example C03_ex : (* target 100 km east of a sensor at 9 km *)
  0 < earth_radius + 9000 /\ 0 < dist (100000, earth_radius) (on_axis earth_radius 9000).
Proof.
  split; [unfold earth_radius; lra|]. apply sqrt_lt_R0. unfold dot, vsub, on_axis; simpl. lra.
Qed.

(** ** C04 *)
Theorem C04_path_below_higher_end :
  forall k hs (T : pt),
    0 < earth_radius + hs -> 0 < dist T (on_axis earth_radius hs) ->
    exists zs hp,
      altitude_along_slant_path k (height earth_radius T) hs (dist T (on_axis earth_radius hs)) = Ok (zs, hp) /\
      forall i, (i < 10000)%nat ->
        exists h, nth i hp NaN = Fin h /\ h <= Rmax (height earth_radius T) hs.
Proof. exact path_bounded. Qed.
Print Assumptions C04_path_below_higher_end.

Example C04_ex : 0 < earth_radius + 9000 /\ 0 < dist (above earth_radius 0 0.01) (on_axis earth_radius 9000).
Proof.
  split; [unfold earth_radius; lra|]. apply sqrt_lt_R0. unfold dot, vsub, on_axis, above; simpl.
  assert (0 < sin 0.01) by (apply sin_gt_0; pose proof PI2_3_2; lra).
  assert (H1 : 0 < (earth_radius + 0) * sin 0.01 - 0) by (unfold earth_radius; lra).
  pose proof (Rmult_lt_0_compat _ _ H1 H1). pose proof (Rle_0_sqr ((earth_radius + 0) * cos 0.01 - (earth_radius + 9000))).
  unfold Rsqr in *. lra.
Qed.

(** ** C05 *)
Theorem C05_elevation_sine_positive :
  forall altitude g s,
    0 < altitude -> curved_earth_slant_range 0 altitude g = Fin s ->
    exists e, elev_angle altitude s = Ok (Fin e) /\ 0 < sin e /\ -(PI/2) <= e <= PI/2.
Proof. exact elev_positive. Qed.
Print Assumptions C05_elevation_sine_positive.

Theorem C05_elevation_offset :
  forall altitude g s,
    0 < altitude -> 0 <= g -> g < PI * earth_radius ->
    curved_earth_slant_range 0 altitude g = Fin s ->
    exists e zeta,
      elev_angle altitude s = Ok (Fin e) /\
      is_angle zeta (above earth_radius 0 (g / earth_radius))
                    (vsub (above earth_radius altitude 0) (above earth_radius 0 (g / earth_radius))) /\
      e - (PI / 2 - zeta) = g / earth_radius.
Proof. exact elev_offset. Qed.
Print Assumptions C05_elevation_offset.

(* The documented meaning ("sensor elevation angle as measured from the target")
   is therefore wrong for every positive ground range. *)
Theorem C05_elevation_at_target_refuted :
  ~ (forall altitude g s e zeta,
       0 < altitude -> 0 <= g -> g < PI * earth_radius ->
       curved_earth_slant_range 0 altitude g = Fin s ->
       elev_angle altitude s = Ok (Fin e) ->
       is_angle zeta (above earth_radius 0 (g / earth_radius))
                     (vsub (above earth_radius altitude 0) (above earth_radius 0 (g / earth_radius))) ->
       e = PI / 2 - zeta).
Proof. exact elev_at_target_refuted. Qed.
Print Assumptions C05_elevation_at_target_refuted.

Example C05_ex : 0 < 9000 /\ 0 <= 60000 /\ 60000 < PI * earth_radius /\
  exists s, curved_earth_slant_range 0 9000 60000 = Fin s.
Proof.
  pose proof PI2_3_2. unfold earth_radius at 1. repeat split; try lra.
  rewrite slant_is_distance. eexists; reflexivity.
Qed.
