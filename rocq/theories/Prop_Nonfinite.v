(** * Prop_Nonfinite: the documented infinite and undefined outputs (C130). *)
From Coq Require Import Reals Lra List.
From Verif Require Import Base_XR Base_Np Model_Geo Model_Sensor Model_Otf Spec_Nonfinite Proof_Nonfinite.
Import ListNotations.
Open Scope R_scope.

(** ** C130 *)
(* "output can be NaN if f is 0": always, and in no other case *)
Theorem C130_detector : forall u v wx wy f,
  (f = 0 -> detector_OTF u v wx wy f = NaN) /\ (f <> 0 -> exists h, detector_OTF u v wx wy f = Fin h).
Proof. exact detector_nan. Qed.
Print Assumptions C130_detector.

(* "inf if D is 0": for a short exposure away from zero frequency; without aperture the rest is undefined *)
Theorem C130_turbulence : forall u v l D r a, 0 <= l -> 0 <= D -> 0 < r ->
  (0 < D -> exists h, turbulence_OTF u v l D (Fin r) a = Fin h) /\
  (D = 0 -> 0 < l -> (u <> 0 \/ v <> 0) -> 0 < a -> turbulence_OTF u v l D (Fin r) a = PInf) /\
  (D = 0 -> 0 < l -> (u <> 0 \/ v <> 0) -> a < 0 -> turbulence_OTF u v l D (Fin r) a = Fin 0) /\
  (D = 0 -> l = 0 \/ (u = 0 /\ v = 0) \/ a = 0 -> turbulence_OTF u v l D (Fin r) a = NaN).
Proof. exact turbulence_cases. Qed.
Print Assumptions C130_turbulence.

(* "nan if lambda0 and alpha are 0": with an aperture and a coherence diameter the value is 1, whatever alpha *)
Theorem C130_turbulence_no_wavelength : forall u v D r a, 0 < D -> 0 < r -> turbulence_OTF u v 0 D (Fin r) a = Fin 1.
Proof. exact turb_no_wave. Qed.
Print Assumptions C130_turbulence_no_wavelength.

(* "nan if D is 0": always (the long-exposure share has alpha 0), and finite otherwise *)
Theorem C130_wind : forall k u v l r t vel, 0 <= l -> 0 < r -> wind_speed_turbulence_OTF k u v l 0 (Fin r) t vel = Ok NaN.
Proof. exact wind_no_aperture. Qed.
Print Assumptions C130_wind.
Theorem C130_wind_finite : forall k u v l D r t vel, 0 <= l -> 0 < D -> 0 < r ->
  exists h, wind_speed_turbulence_OTF k u v l D (Fin r) t vel = Ok (Fin h).
Proof. exact wind_finite. Qed.
Print Assumptions C130_wind_finite.

(* "nan if lambda0 is 0": only if a correlation length is 0 as well, or the phase variance infinite *)
Theorem C130_wavefront_no_wavelength : forall u v p Lx Ly,
  (Lx <> 0 -> Ly <> 0 -> wavefront_OTF u v 0 (Fin p) Lx Ly = Fin 1) /\
  (Lx = 0 \/ Ly = 0 -> wavefront_OTF u v 0 (Fin p) Lx Ly = NaN) /\
  (Lx <> 0 -> Ly <> 0 -> wavefront_OTF u v 0 PInf Lx Ly = NaN).
Proof. exact wavefront_no_wave. Qed.
Print Assumptions C130_wavefront_no_wavelength.
Theorem C130_wavefront_finite : forall u v l p Lx Ly, Lx <> 0 -> Ly <> 0 -> exists h, wavefront_OTF u v l (Fin p) Lx Ly = Fin h.
Proof. exact wavefront_finite. Qed.
Print Assumptions C130_wavefront_finite.

(* "nan if all weights are 0": every entry, whatever the function *)
Theorem C130_zero_weights : forall wl w g r, (forall x, In x w -> x = Fin 0) -> weighted_by_wavelength wl w g = Ok r -> nans r.
Proof. exact zero_weights. Qed.
Print Assumptions C130_zero_weights.

(* "infinite if z_path is one element or if cn2 is one element and 0" *)
Theorem C130_one_sample : forall lam z c, lam <> 0 -> coherence_diameter lam [z] [c] = Ok PInf.
Proof. exact one_sample. Qed.
Print Assumptions C130_one_sample.
Theorem C130_no_turbulence : forall lam z c, lam <> 0 -> (forall x, In x z -> 0 <= x) -> (exists x, In x z /\ 0 < x) ->
  c = [Fin 0] \/ c = repeat (Fin 0) (length z) -> coherence_diameter lam (map Fin z) c = Ok PInf.
Proof. exact no_turbulence. Qed.
Print Assumptions C130_no_turbulence.

(* "trapz will FAIL if you give it a two-element path": it gives a sixth less than Fried's value, silently *)
Theorem C130_two_samples : forall lam L c, lam <> 0 -> 0 < L -> 0 < c ->
  coherence_diameter lam [Fin 0; Fin L] [Fin c; Fin c] = Ok (Fin (Rpower (3 / 4) (3 / 5) * uniform_r0 lam c L)).
Proof. exact two_samples. Qed.
Print Assumptions C130_two_samples.
Theorem C130_two_samples_ratio : 0.841 <= Rpower (3 / 4) (3 / 5) <= 0.842.
Proof. exact two_thirds. Qed.
Print Assumptions C130_two_samples_ratio.

(* "nan if eta is 1": everywhere except at zero frequency, where it is +infinity *)
Theorem C130_aperture : forall k u v l D, 0 < l -> 0 < D ->
  circular_aperture_OTF k 0 0 l D 1 = Ok PInf /\ (u <> 0 \/ v <> 0 -> circular_aperture_OTF k u v l D 1 = Ok NaN).
Proof. exact aperture_cases. Qed.
Print Assumptions C130_aperture.

(* tests/otf/test_otf.py:2045 (infinite), 2023 (undefined) *)
Example C130_test_turbulence : turbulence_OTF 1 1 1 0 (Fin 1) 1 = PInf /\ turbulence_OTF 1 1 1 0 (Fin 1) 0 = NaN.
Proof.
  destruct (C130_turbulence 1 1 1 0 1 1 ltac:(lra) ltac:(lra) ltac:(lra)) as (_ & A & _).
  destruct (C130_turbulence 1 1 1 0 1 0 ltac:(lra) ltac:(lra) ltac:(lra)) as (_ & _ & _ & B).
  split; [apply A; lra | apply B; auto].
Qed.
(* a visible band at one frequency, no weights at all: the average is undefined, not an error *)
Example C130_test_weights : exists r, weighted_by_wavelength [0.5; 0.6] [Fin 0; Fin 0] (fun l => Ok [Fin l]) = Ok r /\ nans r /\ r <> [].
Proof.
  assert (S : exists x, weighted_by_wavelength [0.5; 0.6] [Fin 0; Fin 0] (fun l => Ok [Fin l]) = Ok [x]).
  { unfold weighted_by_wavelength. cbn. unfold Reqb. repeat (destruct Req_EM_T; try lra). cbn. eexists; reflexivity. }
  destruct S as (x & E). exists [x]. split; [exact E|]. split; [|discriminate].
  apply (C130_zero_weights _ _ _ _) in E; [exact E|]. intros y [<-|[<-|[]]]; reflexivity.
Qed.
(* a path of three samples without turbulence, one value given for all *)
Example C130_test_no_turbulence : coherence_diameter 1 (map Fin [0; 50; 100]) [Fin 0] = Ok PInf.
Proof.
  apply C130_no_turbulence; [lra | | |auto].
  - intros x [<-|[<-|[<-|[]]]]; lra.
  - exists 50. split; [cbn; auto | lra].
Qed.
(* a kilometre of moderate turbulence in two samples, at one micrometre *)
Example C130_test_two : coherence_diameter (/ 10 ^ 6) [Fin 0; Fin 1000] [Fin (/ 10 ^ 14); Fin (/ 10 ^ 14)]
  = Ok (Fin (Rpower (3 / 4) (3 / 5) * uniform_r0 (/ 10 ^ 6) (/ 10 ^ 14) 1000)).
Proof. apply C130_two_samples; lra. Qed.
Example C130_test_wavefront : wavefront_OTF 100 200 0 (Fin 1) 0.1 0.2 = Fin 1.
Proof. apply (C130_wavefront_no_wavelength 100 200 1 0.1 0.2); lra. Qed.
