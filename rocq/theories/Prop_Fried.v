(** * Prop_Fried: the Hufnagel-Valley 5/7 profile and Fried's coherence diameter on vertical paths (C124) *)
From Coq Require Import Reals Lra List Lia.
From Coquelicot Require Import Coquelicot.
From Verif Require Import Base_XR Base_Np Model_Geo Model_Otf Spec_Chain Proof_Turb Proof_Fried Proof_FriedBv Num_Fried Num_FriedPath.
Import ListNotations.
Open Scope R_scope.

(** ** C124 *)
(* n+1 evenly spaced samples of a path of length L: as n grows, coherence_diameter tends to Fried's
   spherical wave formula with a true integral *)
Theorem C124_fine_sampling : forall lam L (cn2 : R -> R), 0 < lam -> 0 < L ->
  (forall z, 0 <= z <= L -> continuous cn2 z /\ 0 < cn2 z) ->
  exists (r : nat -> R) (J : R), is_RInt (fun z => cn2 z * five_thirds (z / L)) 0 L J /\ 0 < J /\
    (forall n, (1 <= n)%nat ->
       coherence_diameter lam (map (fun i => Fin (L * INR i / INR n)) (seq 0 (S n)))
                              (map (fun i => Fin (cn2 (L * INR i / INR n))) (seq 0 (S n))) = Ok (Fin (r n))) /\
    is_lim_seq r (Rpower (0.423 * (2 * PI / lam) ^ 2 * J) (- (3 / 5))).
Proof. exact fine_sampling. Qed.
Print Assumptions C124_fine_sampling.

(* uniform turbulence over a kilometre: the integral is 3/8 of the length times the strength *)
Example C124_fine_sampling_example :
  (forall z, 0 <= z <= 1000 -> continuous (fun _ : R => / 10 ^ 15) z /\ 0 < / 10 ^ 15)
  /\ coherence_diameter 1 (map (fun i => Fin (1000 * INR i / INR 1)) (seq 0 2)) (map (fun i => Fin (/ 10 ^ 15)) (seq 0 2))
     = Ok (Fin (Rpower (0.423 * (2 * PI / 1) ^ 2 * (500 / 10 ^ 15)) (- (3 / 5)))).
Proof.
  split; [intros; split; [apply continuous_const | lra]|].
  destruct (coherence_even 1 1000 1 (fun _ => / 10 ^ 15)) as (r & E & _ & F); [lra | lra | lia | intros; lra|].
  rewrite E, F. do 3 f_equal. f_equal. cbn [seq map Spec_Rad.trapezoid]. change (INR 0) with 0. change (INR 1) with 1.
  replace (1000 * 1 / 1 / 1000) with 1 by field. replace (1000 * 0 / 1 / 1000) with 0 by field.
  replace (five_thirds 0) with 0 by (unfold five_thirds; destruct (Rlt_dec 0 0); lra).
  replace (five_thirds 1) with 1 by (unfold five_thirds; destruct (Rlt_dec 0 1); [unfold Rpower; rewrite ln_1, Rmult_0_r, exp_0; reflexivity | lra]). lra.
Qed.

(* the whole column of turbulence, for any wind speed and any strength at the ground *)
Theorem C124_whole_column : forall v a prof,
  (forall h, hufnagel_valley_turbulence_profile (Fin h) v a = Fin (prof h)) ->
  (forall H, ex_RInt prof 0 H) /\
  is_lim (fun H => RInt prof 0 H) p_infty (5.94 * 3628800 / 10 ^ 20 * (v / 27) ^ 2 + 4.05 / 10 ^ 13 + 100 * a).
Proof. exact whole_profile. Qed.
Print Assumptions C124_whole_column.

Example C124_whole_column_example : exists prof, forall h, hufnagel_valley_turbulence_profile (Fin h) 21 (1.7 / 10 ^ 14) = Fin (prof h).
Proof. exists (fun h => hv h 21 (1.7 / 10 ^ 14)). intros h. apply hv_fin. Qed.

(* "7 urad isoplanatic angle along a vertical slant path into space": wavelength 0.5 micrometre,
   theta = (2.914 k^2 integral of cn2(h) h^(5/3))^(-3/5), any path of 60 km or more *)
Theorem C124_seven_microradians : forall H prof, 60000 <= H ->
  (forall h, hufnagel_valley_turbulence_profile (Fin h) 21 (1.7 / 10 ^ 14) = Fin (prof h)) ->
  exists J, is_RInt (fun h => prof h * five_thirds h) 0 H J /\
    6.85 / 10 ^ 6 <= Rpower (2.914 * (2 * PI / (5 / 10 ^ 7)) ^ 2 * J) (- (3 / 5)) <= 6.95 / 10 ^ 6.
Proof. exact iso_angle_of. Qed.
Print Assumptions C124_seven_microradians.

(* "5 cm coherence diameter (r0)": a source far above, the telescope on the ground *)
Theorem C124_five_centimetres : forall L, 10 ^ 6 <= L ->
  exists r l, (forall n, (1 <= n)%nat ->
      coherence_diameter (5 / 10 ^ 7) (map (fun i => Fin (L * INR i / INR n)) (seq 0 (S n)))
        (map (fun i => hufnagel_valley_turbulence_profile (Fin (L - L * INR i / INR n)) 21 (1.7 / 10 ^ 14)) (seq 0 (S n))) = Ok (Fin (r n)))
    /\ is_lim_seq r (Finite l) /\ 0.0495 <= l <= 0.0498.
Proof. exact looking_up. Qed.
Print Assumptions C124_five_centimetres.

(* the same on the ten thousand samples altitude_along_slant_path takes of a path of 100 to 120 km *)
Theorem C124_five_centimetres_as_sampled : forall k L, 100000 <= L <= 120000 ->
  exists zp hp r, altitude_along_slant_path k L 0 L = Ok (zp, hp) /\
    coherence_diameter (5 / 10 ^ 7) zp (map (fun h => hufnagel_valley_turbulence_profile h 21 (1.7 / 10 ^ 14)) hp) = Ok (Fin r) /\
    0.048 <= r <= 0.052.
Proof. exact up_code. Qed.
Print Assumptions C124_five_centimetres_as_sampled.

(* the other way round, as the image chain calls it -- the target on the ground, the camera above --
   the coherence diameter is a hundred times larger and grows with the distance: 22 micrometres per metre *)
Theorem C124_seen_from_above : forall k L, 60000 <= L <= 10 ^ 6 ->
  exists zp hp r, altitude_along_slant_path k 0 L L = Ok (zp, hp) /\
    coherence_diameter (5 / 10 ^ 7) zp (map (fun h => hufnagel_valley_turbulence_profile h 21 (1.7 / 10 ^ 14)) hp) = Ok (Fin r) /\
    2.16 / 10 ^ 5 * L <= r <= 2.23 / 10 ^ 5 * L.
Proof. exact down_code. Qed.
Print Assumptions C124_seen_from_above.

Theorem C124_seen_from_above_fine : forall L, 60000 <= L ->
  exists r l, (forall n, (1 <= n)%nat ->
      coherence_diameter (5 / 10 ^ 7) (map (fun i => Fin (L * INR i / INR n)) (seq 0 (S n)))
        (map (fun i => hufnagel_valley_turbulence_profile (Fin (L * INR i / INR n)) 21 (1.7 / 10 ^ 14)) (seq 0 (S n))) = Ok (Fin (r n)))
    /\ is_lim_seq r (Finite l) /\ 2.18 / 10 ^ 5 * L <= l <= 2.21 / 10 ^ 5 * L.
Proof. exact looking_down. Qed.
Print Assumptions C124_seen_from_above_fine.

(* a satellite at 400 km: more than eight metres *)
Example C124_satellite : exists zp hp r, altitude_along_slant_path Py 0 400000 400000 = Ok (zp, hp) /\
    coherence_diameter (5 / 10 ^ 7) zp (map (fun h => hufnagel_valley_turbulence_profile h 21 (1.7 / 10 ^ 14)) hp) = Ok (Fin r) /\ 8.6 <= r <= 9.
Proof.
  destruct (down_code Py 400000) as (zp & hp & r & A & B & C); [lra|]. exists zp, hp, r. repeat split; [exact A | exact B | lra | lra].
Qed.
