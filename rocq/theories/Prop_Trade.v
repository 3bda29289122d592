(** * Prop_Trade: changes that can only do harm *)
From Coq Require Import Reals Lra List Lia Sorted.
From Verif Require Import Base_XR Base_Np Model_Db Model_Scenario Model_Sensor Model_Rad Model_Otf Model_Met
  Spec_Rad Spec_Met Spec_Trade Proof_NiirsDemo Proof_Trade Proof_TradeDemo.
Import ListNotations.
Open Scope R_scope.

(** ** C108: electronic noise *)
(* The same camera with noisier electronics (read-out, quantisation, other terms):
   nothing but the signal to noise ratio changes, it moves towards zero, and with a
   bright target no rating rises. A target darker than its background is rated
   higher the noisier the electronics. *)
Theorem C108_niirs : forall ni it diag s c itp m read bits other, loaded ni it c itp m -> physical s ->
  sound_rows (atm_rows m) -> StronglySorted Rlt (map a_wl (atm_rows m)) -> 0 < bits ->
  let s' := with_noise s read bits other in electronic_noise s <= electronic_noise s' ->
  forall c1 m1, niirs ni it diag s c itp = (c1, Ok m1) ->
    exists m2 x1 x2, niirs ni it diag s' c itp = (c1, Ok m2) /\
      n_otf m2 = n_otf m1 /\ n_rer m2 = n_rer m1 /\ n_eho m2 = n_eho m1 /\ n_ng m2 = n_ng m1 /\
      n_gsd_gm m2 = n_gsd_gm m1 /\ n_elev m2 = n_elev m1 /\ n_gsd_gp m2 = n_gsd_gp m1 /\
      m_snr (ct_snr (n_contrast m1)) = Fin x1 /\ m_snr (ct_snr (n_contrast m2)) = Fin x2 /\
      (0 < x1 -> 0 < x2 <= x1) /\ (x1 < 0 -> x1 <= x2 < 0) /\ (x1 = 0 -> x2 = 0) /\
      (electronic_noise s < electronic_noise s' -> 0 < x1 -> x2 < x1) /\
      (0 < s_frames s -> forall rating, rating = n_niirs \/ rating = n_niirs_4 -> forall v1, rating m1 = Fin v1 ->
         (0 < x1 -> exists v2, rating m2 = Fin v2 /\ v2 <= v1) /\ (x1 < 0 -> exists v2, rating m2 = Fin v2 /\ v1 <= v2)).
Proof. exact noise_niirs. Qed.
Print Assumptions C108_niirs.

(* GIQE 5 weighs the signal to noise ratio against the edge response: the rating
   cannot rise as long as the edge response stays below 1.9 *)
Theorem C108_niirs5 : forall ni it diag s c itp m read bits other, loaded ni it c itp m -> physical s ->
  sound_rows (atm_rows m) -> StronglySorted Rlt (map a_wl (atm_rows m)) -> 0 < bits ->
  let s' := with_noise s read bits other in electronic_noise s <= electronic_noise s' ->
  forall s1 c1 m1, niirs5 ni it diag s c itp = (s1, c1, Ok m1) ->
    exists m2 x1 x2, niirs5 ni it diag s' c itp = (with_noise s1 read bits other, c1, Ok m2) /\
      f_otf m2 = f_otf m1 /\ f_rer_0 m2 = f_rer_0 m1 /\ f_rer_90 m2 = f_rer_90 m1 /\ f_rer m2 = f_rer m1 /\
      f_gsd_x m2 = f_gsd_x m1 /\ f_elev m2 = f_elev m1 /\ f_gsd_w m2 = f_gsd_w m1 /\
      m_snr (ct_snr (f_contrast m1)) = Fin x1 /\ m_snr (ct_snr (f_contrast m2)) = Fin x2 /\
      (0 < x1 -> 0 < x2 <= x1) /\ (x1 < 0 -> x1 <= x2 < 0) /\ (x1 = 0 -> x2 = 0) /\
      (electronic_noise s < electronic_noise s' -> 0 < x1 -> x2 < x1) /\
      (0 < s_frames s -> forall v1 r, f_niirs m1 = Fin v1 -> f_rer m1 = Fin r ->
         (0 < x1 -> r <= 1.9 -> exists v2, f_niirs m2 = Fin v2 /\ v2 <= v1) /\
         (x1 < 0 -> r <= 1 -> exists v2, f_niirs m2 = Fin v2 /\ v1 <= v2)).
Proof. exact noise_niirs5. Qed.
Print Assumptions C108_niirs5.

(* the standard target is not darker than the standard background for thermal
   cameras and for cameras that see nothing beyond 4 microns *)
Theorem C108_bright_target : forall ni it diag s c itp m, loaded ni it c itp m -> physical s -> sorted_tables s ->
  sound_rows (atm_rows m) -> StronglySorted Rlt (map a_wl (atm_rows m)) ->
  emissive_band s \/ (forall a, In a (atm_rows m) -> in_band s a -> a_wl a <= 4 / 10 ^ 6) ->
  forall ct, (exists c1 mt, niirs ni it diag s c itp = (c1, Ok mt) /\ ct = n_contrast mt) \/
      (exists s1 c1 mt, niirs5 ni it diag s c itp = (s1, c1, Ok mt) /\ ct = f_contrast mt) ->
    exists x, m_snr (ct_snr ct) = Fin x /\ 0 <= x /\ (exposes s -> sees_ground s (atm_rows m) -> 0 < x).
Proof. exact bright_cases. Qed.
Print Assumptions C108_bright_target.

(* for other cameras it can be darker: a detector for 8 to 12 microns behind optics
   that pass 2.8 microns, at night *)
Theorem C108_dark_target_refuted : ~ forall ni it diag s c itp m, loaded ni it c itp m -> good_camera s ->
  good_atmosphere s false (atm_rows m) -> ~ emissive_band s ->
  forall c1 mt x, niirs ni it diag s c itp = (c1, Ok mt) -> m_snr (ct_snr (n_contrast mt)) = Fin x -> 0 <= x.
Proof. exact always_bright_refuted. Qed.
Print Assumptions C108_dark_target_refuted.

(* a bright target in visible light and a dark one at night, both with twice the
   read noise *)
Example C108_example : exists c1 mt x, niirs demo_load demo_load no_diag (visible sharpen 1) demo_scen false = (c1, Ok mt) /\
  m_snr (ct_snr (n_contrast mt)) = Fin x /\ 0 < x /\
  loaded demo_load demo_load demo_scen false demo_m /\ physical (visible sharpen 1) /\
  electronic_noise (visible sharpen 1) < electronic_noise (with_noise (visible sharpen 1) 50 (s_bits (visible sharpen 1)) [0]).
Proof.
  destruct visible_bright as (c1 & mt & x & E & X & H). exists c1, mt, x. split; [exact E|]. split; [exact X|]. split; [exact H|].
  split; [apply demo_loaded|]. split; [apply visible_good|]. apply more_read; reflexivity.
Qed.
Example C108_dark_example : exists c1 mt x, niirs night_load night_load no_diag night_cam demo_scen false = (c1, Ok mt) /\
  m_snr (ct_snr (n_contrast mt)) = Fin x /\ x < 0 /\
  electronic_noise night_cam < electronic_noise (with_noise night_cam 50 (s_bits night_cam) [0]).
Proof.
  destruct night_dark as (c1 & mt & x & E & X & H). exists c1, mt, x. split; [exact E|]. split; [exact X|]. split; [exact H|].
  apply more_read; reflexivity.
Qed.
