(** * Prop_Wide: bands of more than three octaves *)
From Coq Require Import Reals Lra List Lia.
From Verif Require Import Base_XR Base_Np Model_Geo Model_Db Model_Scenario Model_Sensor Model_Otf
  Spec_System Proof_NiirsDemo Proof_Wide.
Import ListNotations.
Open Scope R_scope.

(** ** C64: three octaves is the exact limit of [C64_never_amplifies] *)
(* As soon as two wavelengths of the band are more than three octaves apart, no
   bound on the system transfer function holds for all cameras, whatever the
   (turbulent) air, the path, the other wavelengths and the bound: a camera built
   by the constructor with all defaults - no sharpening, no jitter, no wavefront
   error - exceeds it. *)
Theorem C64_wider_bands_refuted : forall diag k c ps sl ti p q M, good_spectrum ps -> In p ps -> In q ps -> 0 < snd p -> 0 < snd q ->
  8 * fst q < fst p -> good_path c sl -> 0 < plain c Cn2At1m -> 0 <= plain c AircraftSpeed * ti ->
  exists D px s u o a, 0 < D /\ 0 < px /\ sensor_init D 1 px [] 0 None None None default_kw = Ok s /\ good_optics s /\
    common_OTFs diag k s c [(u, 0)] (map fst ps) (map (fun x => Fin (snd x)) ps) sl ti = Ok o /\
    system_OTF o = [Fin a] /\ M < a.
Proof. exact wide_band. Qed.
Print Assumptions C64_wider_bands_refuted.
(* green light together with the long wave infrared window: more than four octaves *)
Example C64_wider_bands_example : let ps := [(0.5 / 10 ^ 6, 1); (12 / 10 ^ 6, 2)] in good_spectrum ps /\
  8 * (0.5 / 10 ^ 6) < 12 / 10 ^ 6 /\ good_path demo_scen 61000 /\ 0 < plain demo_scen Cn2At1m /\
  0 <= plain demo_scen AircraftSpeed * 0.01.
Proof.
  cbv zeta. split; [|split; [|split; [|split]]].
  - split; [|split].
    + cbn. constructor; [|constructor; [intros [] | constructor]]. intros [H|[]]. lra.
    + intros p [<-|[<-|[]]]; cbn; lra.
    + cbn. lra.
  - lra.
  - right. cbn. lra.
  - cbn. lra.
  - cbn. lra.
Qed.
