(** * Prop_Turn: the camera turned by a right angle *)
From Coq Require Import Reals Lra List Lia Sorted.
From Verif Require Import Base_XR Base_Np Model_Db Model_Scenario Model_Sensor Model_Rad Model_Otf Model_Met
  Spec_Rad Spec_System Spec_Met Spec_Turn Proof_NiirsDemo Proof_Turn Proof_TurnDemo.
Import ListNotations.
Open Scope R_scope.

(** ** C111 *)
(* exposure, noise and contrast do not depend on the orientation, whatever the inputs *)
Theorem C111_contrast : forall s wl tgt bkg, photon_detector_SNR (turned s) wl tgt bkg = photon_detector_SNR s wl tgt bkg.
Proof. exact snr_turn. Qed.
Print Assumptions C111_contrast.

(* niirs (no sharpening mask): transfer function mirrored, everything else unchanged *)
Theorem C111_niirs : forall ni it diag s c itp m em, loaded ni it c itp m -> good_camera s -> (em = true <-> emissive_band s) ->
  good_atmosphere s em (atm_rows m) -> 0 < altitude c -> (length (s_kernel s) <= 1)%nat -> Rsum (concat (s_kernel s)) = 1 -> exists m1 m2,
    niirs ni it diag s c itp = (snd (bookkeeping s c), Ok m1) /\
    niirs ni it diag (turned s) c itp = (snd (bookkeeping s c), Ok m2) /\
    n_contrast m2 = n_contrast m1 /\ n_slant m2 = n_slant m1 /\ n_elev m2 = n_elev m1 /\
    mirrored (system_OTF (n_otf m1)) (system_OTF (n_otf m2)) /\
    n_gsd_gm m2 = n_gsd_gm m1 /\ n_rer m2 = n_rer m1 /\ n_eho m2 = n_eho m1 /\ n_ng m2 = n_ng m1 /\
    n_niirs m2 = n_niirs m1 /\ n_niirs_4 m2 = n_niirs_4 m1 /\ n_gsd_gp m2 = n_gsd_gp m1.
Proof. exact turn_niirs. Qed.
Print Assumptions C111_niirs.

(* niirs5: the two edge responses change places; the rating moves by 3.32 log10 of
   the ratio of the pitches, because only gsd_x enters *)
Theorem C111_niirs5 : forall ni it diag s c itp m em, loaded ni it c itp m -> good_camera s -> (em = true <-> emissive_band s) ->
  good_atmosphere s em (atm_rows m) -> 0 < altitude c -> exists m1 m2 e,
    niirs5 ni it diag s c itp = (no_sharpening s, snd (bookkeeping s c), Ok m1) /\
    niirs5 ni it diag (turned s) c itp = (no_sharpening (turned s), snd (bookkeeping s c), Ok m2) /\
    f_contrast m2 = f_contrast m1 /\ f_slant m2 = f_slant m1 /\ f_elev m1 = Fin e /\ f_elev m2 = Fin e /\
    mirrored (system_OTF (f_otf m1)) (system_OTF (f_otf m2)) /\
    f_rer_0 m2 = f_rer_90 m1 /\ f_rer_90 m2 = f_rer_0 m1 /\ f_rer m2 = f_rer m1 /\
    f_gsd_x m2 = f_gsd_x m1 * (s_py s / s_px s) /\
    (s_px s = s_py s -> f_niirs m2 = f_niirs m1 /\ f_gsd_w m2 = f_gsd_w m1) /\
    (forall n, f_niirs m1 = Fin n -> f_niirs m2 = Fin (n + 3.32 * log10 (s_px s / s_py s))).
Proof. exact turn_niirs5. Qed.
Print Assumptions C111_niirs5.

(* so the GIQE 5 rating depends on which way an oblong detector grid is turned *)
Theorem C111_orientation_refuted : ~ forall ni it diag s c itp m em, loaded ni it c itp m -> good_camera s -> (em = true <-> emissive_band s) ->
  good_atmosphere s em (atm_rows m) -> 0 < altitude c -> forall s1 c1 m1 s2 c2 m2,
  niirs5 ni it diag s c itp = (s1, c1, Ok m1) -> niirs5 ni it diag (turned s) c itp = (s2, c2, Ok m2) -> f_niirs m2 = f_niirs m1.
Proof. exact orientation_matters. Qed.
Print Assumptions C111_orientation_refuted.

(* a thermal camera whose rows are twice as far apart as its columns; its rating is a number *)
Example C111_example : loaded demo_load demo_load demo_scen false demo_m /\ good_camera oblong /\ (true = true <-> emissive_band oblong) /\
  good_atmosphere oblong true (atm_rows demo_m) /\ 0 < altitude demo_scen /\ (length (s_kernel oblong) <= 1)%nat /\
  Rsum (concat (s_kernel oblong)) = 1 /\ s_px oblong <> s_py oblong /\
  exists s1 c1 mt n, niirs5 demo_load demo_load no_diag oblong demo_scen false = (s1, c1, Ok mt) /\ f_niirs mt = Fin n.
Proof.
  split; [apply demo_loaded|]. split; [apply oblong_good|]. split; [apply oblong_em|]. split; [apply oblong_atm|].
  split; [cbn; lra|]. split; [cbn; lia|]. split; [cbn; lra|]. split; [cbn; lra|]. exact oblong_rated.
Qed.
