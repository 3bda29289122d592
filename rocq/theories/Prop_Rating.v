(** * Prop_Rating: property C121; properties C79 and C80, further statements. *)
From Coq Require Import Reals Lra List.
From Verif Require Import Base_XR Base_Np Model_Db Model_Scenario Model_Sensor Model_Rad Model_Otf Model_Met
  Spec_Geo Spec_Rad Spec_Otf Spec_Met Spec_Quality Spec_Trade Spec_Whole Spec_Rating
  Proof_RadP Proof_NiirsDemo Proof_StackDemo Proof_Rating.
Import ListNotations.
Open Scope R_scope.

(** ** C121 *)
(* niirs5: every number of the result from camera, scenario and atmosphere *)
Theorem C121_niirs5 : forall ni it diag s c itp m em tr q, loaded ni it c itp m -> good_camera s ->
  (em = true <-> emissive_band s) -> good_atmosphere s em (atm_rows m) -> 0 < altitude c -> response_curves s tr q ->
  let G := above earth_radius 0 (ground_range c / earth_radius) in
  let S := above earth_radius (altitude c) 0 in
  let L := dist G S in
  forall s1 c1 mt, niirs5 ni it diag s c itp = (s1, c1, Ok mt) ->
  exists rows lmin r1 phi, seen_rows s (atm_rows m) rows /\ (0 < plain c Cn2At1m -> seeing c L r1) /\
    is_angle phi (vsub origin S) (vsub G S) /\ 0 < cos phi /\
    let ps := charge_spectrum s tr q (giqe_target em) rows in
    In lmin (map fst ps) /\ (forall p, In p ps -> lmin <= fst p) /\
    let nt := charge s tr q (giqe_target em) rows in let nb := charge s tr q (giqe_background em) rows in
    let t := share s (Rmax nt nb) * s_int_time s in
    let df := s_D s / lmin / 50 in
    let mtf := system_mtf (with_int_time s t) c ps r1 in
    let r0 := slope (map (fun i => Rabs (mtf (INR i * df) 0)) (seq 0 50)) df (s_px s / s_f s) in
    let r90 := slope (map (fun i => Rabs (mtf 0 (INR i * df))) (seq 0 50)) df (s_py s / s_f s) in
    let gsd := s_px s / s_f s * L in let gw := gsd / Rpower (cos phi) (1 / 4) in
    let snr := frame_snr s nt nb in
    f_slant mt = L /\ f_gsd_x mt = gsd /\ f_elev mt = Fin (PI / 2 - phi) /\ f_rer_0 mt = Fin r0 /\ f_rer_90 mt = Fin r90 /\
    m_snr (ct_snr (f_contrast mt)) = Fin snr /\
    (0 < Rmax r0 r90 -> Rmin r0 r90 <> 0 -> 0 < s_frames s -> snr <> 0 -> exists r, 0 < r /\ r ^ 3 = Rmax r0 r90 * Rmin r0 r90 ^ 2 /\
       f_rer mt = Fin r /\ f_gsd_w mt = Fin gw /\ f_niirs mt = Fin (rating5 r gw (sqrt (s_frames s) * snr))) /\
    (Rmax r0 r90 < 0 -> f_rer mt = NaN /\ f_niirs mt = NaN).
Proof. exact niirs5_form. Qed.
Print Assumptions C121_niirs5.

(* niirs: the same with the camera's sharpening kernel *)
Theorem C121_niirs : forall ni it diag s c itp m em tr q, loaded ni it c itp m -> good_camera s ->
  (em = true <-> emissive_band s) -> good_atmosphere s em (atm_rows m) -> 0 < altitude c -> response_curves s tr q ->
  let G := above earth_radius 0 (ground_range c / earth_radius) in
  let S := above earth_radius (altitude c) 0 in
  let L := dist G S in
  forall c1 mt, niirs ni it diag s c itp = (c1, Ok mt) ->
  exists rows lmin r1 g phi eu ev, seen_rows s (atm_rows m) rows /\ (0 < plain c Cn2At1m -> seeing c L r1) /\
    (forall u w, sharpening diag s u w (g u w)) /\ is_angle phi (vsub origin S) (vsub G S) /\ 0 < cos phi /\
    let ps := charge_spectrum s tr q (giqe_target em) rows in
    In lmin (map fst ps) /\ (forall p, In p ps -> lmin <= fst p) /\
    let nt := charge s tr q (giqe_target em) rows in let nb := charge s tr q (giqe_background em) rows in
    let t := share s (Rmax nt nb) * s_int_time s in
    let df := s_D s / lmin / 50 in
    let mtf u w := system_mtf (with_int_time s t) c ps r1 u w * g u w in
    let lu := map (fun i => Rabs (mtf (INR i * df) 0)) (seq 0 50) in
    let lv := map (fun i => Rabs (mtf 0 (INR i * df))) (seq 0 50) in
    let r0 := slope lu df (s_px s / s_f s) in let r90 := slope lv df (s_py s / s_f s) in
    overshoot lu df (s_px s / s_f s) eu /\ overshoot lv df (s_py s / s_f s) ev /\
    let gsd := sqrt ((s_px s / s_f s * L) * (s_py s / s_f s * L)) in let gp := gsd / sqrt (cos phi) in
    let ng := sqrt (Rsum (map (fun w => w * w) (concat (s_kernel s)))) in
    let snr := frame_snr s nt nb in let rer := sqrt (r0 * r90) in let eho := sqrt (eu * ev) in
    n_slant mt = L /\ n_gsd_gm mt = Fin gsd /\ n_elev mt = Fin (PI / 2 - phi) /\ n_ng mt = Fin ng /\
    m_snr (ct_snr (n_contrast mt)) = Fin snr /\
    (0 <= r0 * r90 -> n_rer mt = Fin rer) /\ (r0 * r90 < 0 -> n_rer mt = NaN) /\
    (0 <= eu * ev -> n_eho mt = Fin eho) /\ (eu * ev < 0 -> n_eho mt = NaN) /\
    (0 < r0 * r90 -> 0 <= eu * ev -> 0 < s_frames s -> snr <> 0 ->
       n_gsd_gp mt = Fin gp /\ n_niirs mt = Fin (rating3 rer gsd eho ng (sqrt (s_frames s) * snr)) /\
       n_niirs_4 mt = Fin (rating4 0.334 rer gp eho ng (sqrt (s_frames s) * snr))).
Proof. exact niirs_form. Qed.
Print Assumptions C121_niirs.

(* a thermal camera: the hypotheses hold, and both runs end with numbers *)
Example C121_example : let s := thermal [[1]] 1 in
  loaded demo_load demo_load demo_scen false demo_m /\ good_camera s /\ (true = true <-> emissive_band s) /\
  good_atmosphere s true (atm_rows demo_m) /\ 0 < altitude demo_scen /\ (exists tr q, response_curves s tr q) /\ 0 < plain demo_scen Cn2At1m /\
  (exists s1 c1 mt v r, niirs5 demo_load demo_load no_diag s demo_scen false = (s1, c1, Ok mt) /\ f_niirs mt = Fin v /\ f_rer mt = Fin r) /\
  (exists c1 mt v3 v4, niirs demo_load demo_load no_diag s demo_scen false = (c1, Ok mt) /\ n_niirs mt = Fin v3 /\ n_niirs_4 mt = Fin v4).
Proof. exact rating_demo. Qed.
(* a camera with a sharpening kernel of three rows *)
Example C121_kernel_example : let s := visible sharpen 1 in (1 < length (s_kernel s))%nat /\ good_camera s /\ (false = true <-> emissive_band s) /\
  good_atmosphere s false (atm_rows demo_m) /\ exists c1 mt, niirs demo_load demo_load no_diag s demo_scen false = (c1, Ok mt).
Proof. exact rating_kernel_demo. Qed.

(** ** C79 *)
(* the published equation has 0.344 where the program has 0.334: its ratings are too high by a hundredth
   of the noise gain over the signal-to-noise ratio *)
Theorem C79_published_difference : forall r g e n s a, 0 < r -> 0 < g -> s <> 0 -> 0 < sin a -> let gp := g / sqrt (sin a) in
  exists v, giqe4 (Fin r) (Fin g) (Fin e) (Fin n) (Fin s) (Fin a) = (Fin v, Fin gp) /\ v - rating4 0.344 r gp e n s = n / s / 100.
Proof. exact giqe4_published. Qed.
Print Assumptions C79_published_difference.

Theorem C79_published_refuted : ~ forall r g e n s a, 0 < r -> 0 < g -> s <> 0 -> 0 < sin a ->
  fst (giqe4 (Fin r) (Fin g) (Fin e) (Fin n) (Fin s) (Fin a)) = Fin (rating4 0.344 r (g / sqrt (sin a)) e n s).
Proof. exact giqe4_published_refuted. Qed.
Print Assumptions C79_published_refuted.

(** ** C80 *)
(* an edge response may be negative (a contrast reversal); if only one is, its sign is lost *)
Theorem C80_one_reversed : forall x y g s a, 0 < x -> 0 < y -> 0 < g -> s <> 0 -> 0 < sin a ->
  let gw := g / Rpower (sin a) (1 / 4) in
  exists r, 0 < r /\ r ^ 3 = x * y ^ 2 /\
    giqe5 (Fin x) (Fin (- y)) (Fin g) (Fin s) (Fin a) = (Fin (rating5 r gw s), Fin gw, Fin r) /\
    giqe5 (Fin (- y)) (Fin x) (Fin g) (Fin s) (Fin a) = (Fin (rating5 r gw s), Fin gw, Fin r).
Proof. exact giqe5_reversed. Qed.
Print Assumptions C80_one_reversed.
(* so a reversed edge can be rated above the upright one: mean of 1/4 and -1/2 against 1/4 and 1/2 *)
Theorem C80_reversal_lowers_refuted : ~ forall x y g s a r r', 0 < x -> 0 < y -> 0 < g -> 0 < s -> 0 < sin a ->
  snd (giqe5 (Fin x) (Fin y) (Fin g) (Fin s) (Fin a)) = Fin r ->
  snd (giqe5 (Fin x) (Fin (- y)) (Fin g) (Fin s) (Fin a)) = Fin r' -> r' <= r.
Proof. exact giqe5_reversal. Qed.
Print Assumptions C80_reversal_lowers_refuted.
Theorem C80_both_reversed : forall x y g s a, 0 < x -> 0 < y ->
  exists gw, giqe5 (Fin (- x)) (Fin (- y)) g s a = (NaN, gw, NaN).
Proof. exact giqe5_both_reversed. Qed.
Print Assumptions C80_both_reversed.
Example C80_reversed_example : 0 < 1 / 4 /\ 0 < 1 / 2 /\ 0 < sin (PI / 2) /\ (1 / 2) ^ 3 = 1 / 2 * (1 / 2) ^ 2.
Proof. rewrite sin_PI2. lra. Qed.
