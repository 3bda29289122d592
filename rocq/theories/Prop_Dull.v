(** * Prop_Dull: more blur and rougher air *)
From Coq Require Import Reals Lra List Lia Sorted.
From Verif Require Import Base_XR Base_Np Model_Db Model_Scenario Model_Sensor Model_Rad Model_Otf Model_Met
  Spec_Rad Spec_System Spec_Met Spec_Trade Proof_NiirsDemo Proof_TradeDemo Proof_DullRun Proof_DullDemo.
Import ListNotations.
Open Scope R_scope.

(** ** C64: in a band of three octaves the system amplifies no frequency *)
(* beyond the cutoff of some wavelengths too, where the turbulence model alone exceeds one *)
Theorem C64_never_amplifies : forall diag k s c pts ps sl ti o, good_spectrum ps ->
  (forall p q, In p ps -> In q ps -> fst p <= 8 * fst q) -> good_optics s -> good_path c sl ->
  0 < s_px s -> 0 < s_f s -> (length (s_kernel s) <= 1)%nat -> 0 <= plain c AircraftSpeed * (ti * s_ntdi s) ->
  common_OTFs diag k s c pts (map fst ps) (map (fun p => Fin (snd p)) ps) sl ti = Ok o ->
  forall j u v, nth_error pts j = Some (u, v) -> exists a, nth_error (system_OTF o) j = Some (Fin a) /\ Rabs a <= 1.
Proof. exact never_amplifies. Qed.
Print Assumptions C64_never_amplifies.
Example C64_three_octaves_example : let ps := [(0.4 / 10 ^ 6, 1); (0.9 / 10 ^ 6, 2)] in good_spectrum ps /\
  (forall p q, In p ps -> In q ps -> fst p <= 8 * fst q) /\
  good_optics (visible [] 1) /\ good_path demo_scen 61000 /\ 0 <= plain demo_scen AircraftSpeed * (0.01 * s_ntdi (visible [] 1)).
Proof.
  cbv zeta. split; [|split; [|split; [|split]]].
  - split; [|split].
    + cbn. constructor; [|constructor; [intros [] | constructor]]. intros [H|[]]. lra.
    + intros p [<-|[<-|[]]]; cbn; lra.
    + cbn. lra.
  - intros p q [<-|[<-|[]]] [<-|[<-|[]]]; cbn; lra.
  - apply visible_good.
  - right. cbn. lra.
  - cbn. lra.
Qed.

(** ** C109 *)
(* The same camera shaking more, with worse optics, through rougher air: contrast,
   sampling distance and elevation stay, both edge responses fall (pixels no
   larger than a resolution element), and a target brighter than its background is
   not rated higher as long as the edge responses are at most one - which holds for
   two pixels per resolution element. *)
Theorem C109_niirs5 : forall ni it diag s c itp m em sx sy pv cn2 wind, loaded ni it c itp m -> good_camera s ->
  (em = true <-> emissive_band s) -> good_atmosphere s em (atm_rows m) -> 0 < altitude c -> 0 <= plain c AircraftSpeed ->
  three_octaves s (atm_rows m) -> sampled 1 s (atm_rows m) -> blurrier s sx sy pv -> rougher c cn2 wind ->
  exists m1 m2 x y x' y',
    niirs5 ni it diag s c itp = (no_sharpening s, snd (bookkeeping s c), Ok m1) /\
    niirs5 ni it diag (with_blur s sx sy pv) (with_air c cn2 wind) itp
      = (no_sharpening (with_blur s sx sy pv), snd (bookkeeping s (with_air c cn2 wind)), Ok m2) /\
    f_contrast m2 = f_contrast m1 /\ f_gsd_x m2 = f_gsd_x m1 /\ f_elev m2 = f_elev m1 /\
    f_rer_0 m1 = Fin x /\ f_rer_90 m1 = Fin y /\ f_rer_0 m2 = Fin x' /\ f_rer_90 m2 = Fin y' /\
    0 < x' <= x /\ 0 < y' <= y /\ (sampled 2 s (atm_rows m) -> x <= 1 /\ y <= 1) /\
    (0 < s_frames s -> x <= 1 -> y <= 1 -> forall snr, m_snr (ct_snr (f_contrast m1)) = Fin snr -> 0 < snr ->
       exists n1 n2, f_niirs m1 = Fin n1 /\ f_niirs m2 = Fin n2 /\ n2 <= n1).
Proof. exact dull_niirs5. Qed.
Print Assumptions C109_niirs5.
(* the older equations: noise gain stays, the edge response does not rise *)
Theorem C109_niirs : forall ni it diag s c itp m em sx sy pv cn2 wind, loaded ni it c itp m -> good_camera s ->
  (em = true <-> emissive_band s) -> good_atmosphere s em (atm_rows m) -> 0 < altitude c -> 0 <= plain c AircraftSpeed ->
  three_octaves s (atm_rows m) -> sampled 1 s (atm_rows m) -> blurrier s sx sy pv -> rougher c cn2 wind ->
  Rsum (concat (s_kernel s)) = 1 -> exists m1 m2 r r',
    niirs ni it diag s c itp = (snd (bookkeeping s c), Ok m1) /\
    niirs ni it diag (with_blur s sx sy pv) (with_air c cn2 wind) itp = (snd (bookkeeping s (with_air c cn2 wind)), Ok m2) /\
    n_contrast m2 = n_contrast m1 /\ n_gsd_gm m2 = n_gsd_gm m1 /\ n_elev m2 = n_elev m1 /\ n_ng m2 = n_ng m1 /\
    n_rer m1 = Fin r /\ n_rer m2 = Fin r' /\ 0 <= r' <= r.
Proof. exact dull_niirs. Qed.
Print Assumptions C109_niirs.

(* a thermal camera at 9 km that starts to shake, in air ten times as turbulent *)
Example C109_example : let s := thermal sharpen 1 in
  loaded demo_load demo_load demo_scen false demo_m /\ good_camera s /\ (true = true <-> emissive_band s) /\
  good_atmosphere s true (atm_rows demo_m) /\ 0 < altitude demo_scen /\ 0 <= plain demo_scen AircraftSpeed /\
  three_octaves s (atm_rows demo_m) /\ sampled 1 s (atm_rows demo_m) /\ sampled 2 s (atm_rows demo_m) /\
  blurrier s (5 / 10 ^ 6) (- 5 / 10 ^ 6) (1 / 100) /\ rougher demo_scen (1.7 / 10 ^ 13) (- 30) /\
  Rsum (concat (s_kernel s)) = 1 /\ 0 < s_frames s /\
  exists s1 c1 mt snr, niirs5 demo_load demo_load no_diag s demo_scen false = (s1, c1, Ok mt) /\
    m_snr (ct_snr (f_contrast mt)) = Fin snr /\ 0 < snr.
Proof.
  cbv zeta. split; [apply demo_loaded|]. split; [apply thermal_good|]. split; [split; [intros _; apply thermal_band | reflexivity]|].
  split; [apply thermal_atm|]. split; [cbn; lra|]. split; [cbn; lra|]. split; [apply thermal_octaves|].
  split; [apply thermal_sampled; lra|]. split; [apply thermal_sampled; lra|].
  split. { unfold blurrier. cbn [thermal demo_cam s_sx s_sy s_pv]. rewrite Rabs_R0. generalize (Rabs_pos (5 / 10 ^ 6)) (Rabs_pos (- 5 / 10 ^ 6)). lra. }
  split. { unfold rougher. cbn [demo_scen plain]. rewrite (Rabs_right 21), (Rabs_left (-30)) by lra. lra. }
  split; [cbn; lra|]. split; [cbn; lra|]. apply thermal_snr.
Qed.
