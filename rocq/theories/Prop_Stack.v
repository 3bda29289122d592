(** * Prop_Stack: frame stacking in whole runs *)
From Coq Require Import Reals Lra List.
From Verif Require Import Base_XR Base_Np Model_Noise Model_Db Model_Scenario Model_Sensor Model_Rad Model_Otf Model_Met
  Spec_Rad Spec_Met Spec_Trade Proof_NiirsDemo Proof_TradeDemo Proof_Stack Proof_Rated Proof_StackDemo.
Import ListNotations.
Open Scope R_scope.

(** ** C85: frame stacking *)
(* the same camera with n frames instead of its own number: the same run but for
   the two ratings, both of which see sqrt n times the single-frame ratio *)
Theorem C85_niirs_inputs : forall ni it diag s c itp n c1 m1, niirs ni it diag s c itp = (c1, Ok m1) ->
  exists m2, niirs ni it diag (with_frames s n) c itp = (c1, Ok m2) /\
    n_contrast m2 = n_contrast m1 /\ n_slant m2 = n_slant m1 /\ n_otf m2 = n_otf m1 /\ n_rer m2 = n_rer m1 /\ n_eho m2 = n_eho m1 /\ n_ng m2 = n_ng m1 /\
    n_gsd_gm m2 = n_gsd_gm m1 /\ n_elev m2 = n_elev m1 /\ n_gsd_gp m2 = n_gsd_gp m1 /\ (exists w, noise_gain (concat (s_kernel s)) = Ok w /\ n_ng m1 = w) /\
    forall k m, (k, m) = (s_frames s, m1) \/ (k, m) = (n, m2) -> let snr := xmul (xsqrt (Fin k)) (m_snr (ct_snr (n_contrast m1))) in
       n_niirs m = giqe3 (n_rer m1) (n_gsd_gm m1) (n_eho m1) (n_ng m1) snr /\
       n_niirs_4 m = fst (giqe4 (n_rer m1) (n_gsd_gm m1) (n_eho m1) (n_ng m1) snr (n_elev m1)).
Proof. exact stack_run. Qed.
Print Assumptions C85_niirs_inputs.

Theorem C85_niirs5_inputs : forall ni it diag s c itp n s1 c1 m1, niirs5 ni it diag s c itp = (s1, c1, Ok m1) ->
  exists m2, niirs5 ni it diag (with_frames s n) c itp = (with_frames s1 n, c1, Ok m2) /\
    f_contrast m2 = f_contrast m1 /\ f_slant m2 = f_slant m1 /\ f_otf m2 = f_otf m1 /\ f_rer_0 m2 = f_rer_0 m1 /\ f_rer_90 m2 = f_rer_90 m1 /\
    f_rer m2 = f_rer m1 /\ f_gsd_x m2 = f_gsd_x m1 /\ f_elev m2 = f_elev m1 /\ f_gsd_w m2 = f_gsd_w m1 /\
    forall k m, (k, m) = (s_frames s, m1) \/ (k, m) = (n, m2) ->
      (f_niirs m, f_gsd_w m, f_rer m) = giqe5 (f_rer_0 m1) (f_rer_90 m1) (Fin (f_gsd_x m1)) (xmul (xsqrt (Fin k)) (m_snr (ct_snr (f_contrast m1)))) (f_elev m1).
Proof. exact stack_run5. Qed.
Print Assumptions C85_niirs5_inputs.

(* more frames strictly raise both ratings of a bright target and strictly lower
   those of a target darker than its background *)
Theorem C85_niirs : forall ni it diag s c itp n c1 m1, niirs ni it diag s c itp = (c1, Ok m1) ->
  exists m2, niirs ni it diag (with_frames s n) c itp = (c1, Ok m2) /\
    n_contrast m2 = n_contrast m1 /\ n_slant m2 = n_slant m1 /\ n_otf m2 = n_otf m1 /\ n_rer m2 = n_rer m1 /\ n_eho m2 = n_eho m1 /\ n_ng m2 = n_ng m1 /\
    n_gsd_gm m2 = n_gsd_gm m1 /\ n_elev m2 = n_elev m1 /\ n_gsd_gp m2 = n_gsd_gp m1 /\
    (0 < s_frames s -> s_frames s < n -> forall x, m_snr (ct_snr (n_contrast m1)) = Fin x ->
     forall rating, rating = n_niirs \/ rating = n_niirs_4 -> forall v1, rating m1 = Fin v1 ->
       (0 < x -> exists v2, rating m2 = Fin v2 /\ v1 < v2) /\ (x < 0 -> exists v2, rating m2 = Fin v2 /\ v2 < v1)).
Proof. exact stack_niirs. Qed.
Print Assumptions C85_niirs.

(* the same for GIQE 5, as long as the edge response is at most 1.9 (bright) or 1 (dark) *)
Theorem C85_niirs5 : forall ni it diag s c itp n s1 c1 m1, niirs5 ni it diag s c itp = (s1, c1, Ok m1) ->
  exists m2, niirs5 ni it diag (with_frames s n) c itp = (with_frames s1 n, c1, Ok m2) /\
    f_contrast m2 = f_contrast m1 /\ f_slant m2 = f_slant m1 /\ f_otf m2 = f_otf m1 /\ f_rer_0 m2 = f_rer_0 m1 /\ f_rer_90 m2 = f_rer_90 m1 /\
    f_rer m2 = f_rer m1 /\ f_gsd_x m2 = f_gsd_x m1 /\ f_elev m2 = f_elev m1 /\ f_gsd_w m2 = f_gsd_w m1 /\
    (0 < s_frames s -> s_frames s < n -> forall x, m_snr (ct_snr (f_contrast m1)) = Fin x ->
     forall v1 r, f_niirs m1 = Fin v1 -> f_rer m1 = Fin r ->
       (0 < x -> r <= 1.9 -> exists v2, f_niirs m2 = Fin v2 /\ v1 < v2) /\ (x < 0 -> r <= 1 -> exists v2, f_niirs m2 = Fin v2 /\ v2 < v1)).
Proof. exact stack_niirs5. Qed.
Print Assumptions C85_niirs5.

(* one frame of a thermal camera against four, all ratings numbers; and a dark target at night *)
Example C85_niirs_example : exists c1 m1 x v3 v4, niirs demo_load demo_load no_diag (thermal [[1]] 1) demo_scen false = (c1, Ok m1) /\
  m_snr (ct_snr (n_contrast m1)) = Fin x /\ 0 < x /\ n_niirs m1 = Fin v3 /\ n_niirs_4 m1 = Fin v4 /\
  0 < s_frames (thermal [[1]] 1) < 4.
Proof. destruct (thermal_rated 1 Rlt_0_1) as (c1 & m1 & x & v3 & v4 & A & B & C & D & E). exists c1, m1, x, v3, v4. repeat (split; [assumption|]). cbn. lra. Qed.
Example C85_niirs5_example : exists s1 c1 m1 x v r, niirs5 demo_load demo_load no_diag (thermal [[1]] 1) demo_scen false = (s1, c1, Ok m1) /\
  m_snr (ct_snr (f_contrast m1)) = Fin x /\ 0 < x /\ f_niirs m1 = Fin v /\ f_rer m1 = Fin r /\ r <= 1.
Proof. exact (thermal_rated5 1 Rlt_0_1). Qed.
Example C85_dark_example : exists c1 mt x, niirs night_load night_load no_diag night_cam demo_scen false = (c1, Ok mt) /\
  m_snr (ct_snr (n_contrast mt)) = Fin x /\ x < 0 /\ 0 < s_frames night_cam < 4.
Proof. destruct night_dark as (c1 & mt & x & E & X & H). exists c1, mt, x. split; [exact E|]. split; [exact X|]. split; [exact H|]. cbn. lra. Qed.

(** ** C95: ratings of an oversampled camera *)
(* Six pixels per resolution element and no sharpening: the edge response lies in
   (0, 1], the overshoot is at least one half, and both of niirs's ratings are
   numbers unless target and background look the same. *)
Theorem C95_niirs_rated : forall ni it diag s c itp m em, loaded ni it c itp m -> good_camera s ->
  (em = true <-> emissive_band s) -> good_atmosphere s em (atm_rows m) -> 0 < altitude c -> 0 <= plain c AircraftSpeed ->
  three_octaves s (atm_rows m) -> sampled 6 s (atm_rows m) ->
  (length (s_kernel s) <= 1)%nat -> Rsum (concat (s_kernel s)) = 1 -> 0 < s_frames s ->
  exists c1 m1 x r e, niirs ni it diag s c itp = (c1, Ok m1) /\ m_snr (ct_snr (n_contrast m1)) = Fin x /\
    n_rer m1 = Fin r /\ 0 < r <= 1 /\ n_eho m1 = Fin e /\ 1 / 2 <= e /\
    (x <> 0 -> exists v3 v4, n_niirs m1 = Fin v3 /\ n_niirs_4 m1 = Fin v4).
Proof. exact rated_niirs. Qed.
Print Assumptions C95_niirs_rated.
Example C95_niirs_rated_example : let s := thermal [[1]] 1 in
  loaded demo_load demo_load demo_scen false demo_m /\ good_camera s /\ (true = true <-> emissive_band s) /\
  good_atmosphere s true (atm_rows demo_m) /\ 0 < altitude demo_scen /\ 0 <= plain demo_scen AircraftSpeed /\
  three_octaves s (atm_rows demo_m) /\ sampled 6 s (atm_rows demo_m) /\ (length (s_kernel s) <= 1)%nat /\ Rsum (concat (s_kernel s)) = 1.
Proof. exact (thermal_conditions 1). Qed.
