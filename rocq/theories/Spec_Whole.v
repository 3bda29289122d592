(** * Spec_Whole: the picture simulate_image blurs with, in closed form.
    Mentions the records of the model, none of its functions. *)
From Coq Require Import Reals List.
From Verif Require Import Base_XR Model_Scenario Model_Sensor Model_Rad Spec_Geo Spec_Rad Spec_Otf Spec_Chain Spec_Reading.
Import ListNotations.
Open Scope R_scope.

(* wavelengths at which a scene of radiance L produces photoelectrons, and how many *)
Definition charge_spectrum (s : sensor) (tr q : R -> R) (L : arow -> R) (rows : list arow) : list (R * R) :=
  filter (fun p => if Rlt_dec 0 (snd p) then true else false)
    (map (fun a => (a_wl a, electrons s (tr (a_wl a)) (q (a_wl a)) (a_wl a) (L a))) rows).

(* refractive index structure at height h (Hufnagel and Valley) *)
Definition hufnagel_valley (h wind ground : R) : R :=
  0.00594 * (wind / 27) ^ 2 * (h / 10 ^ 5) ^ 10 * exp (- (h / 1000))
  + 2.7 / 10 ^ 16 * exp (- (h / 1500)) + ground * exp (- (h / 100)).
(* r1 is the coherence diameter at one micrometre for a path of length L from a point G on the
   (round) ground to the camera: 10000 samples, the integral by the trapezoidal rule *)
Definition seeing (c : scen) (L r1 : R) : Prop := exists G, let S := on_axis earth_radius (altitude c) in
  height earth_radius G = 0 /\ dist G S = L /\ 0 < r1 /\
  Rpower r1 (- (5 / 3)) = 0.423 * (2 * PI * 10 ^ 6) ^ 2
    * trapezoid (map (fun i => hufnagel_valley (height earth_radius (along G S (INR i / 9999))) (plain c HaWindSpeed) (plain c Cn2At1m)
                               * five_thirds (INR i / 9999)) (seq 0 10000))
                (map (fun i => INR i * L / 9999) (seq 0 10000)).

(* the transfer functions of aperture, turbulence, detector, jitter, drift and wavefront error *)
Definition system_mtf (s : sensor) (c : scen) (ps : list (R * R)) (r1 u v : R) : R :=
  let t := s_int_time s * s_ntdi s in
  spectral_mean ps (fun l => aperture_mtf (s_D s) (s_eta s) l u v)
  * (if Rlt_dec 0 (plain c Cn2At1m)
     then spectral_mean ps (fun l => turbulence_mtf (r_at r1 l) l (s_D s) (plain c AircraftSpeed * t) u v)
     else 1)
  * (line_ft (s_wx s / s_f s) u * line_ft (s_wy s / s_f s) v)
  * jitter_mtf_of (s_sx s) (s_sy s) u v
  * (line_ft (s_dax s * t) u * line_ft (s_day s * t) v)
  * spectral_mean ps (fun l => wavefront_mtf (s_pv s) (s_pv_wl s) (s_Lx s) (s_Ly s) l u v).
(* the response of the sharpening kernel; a kernel with a single row is not taken into account *)
Definition sharpening (falling : nat -> nat -> bool) (s : sensor) (u v g : R) : Prop :=
  ((length (s_kernel s) <= 1)%nat -> g = 1) /\
  ((1 < length (s_kernel s))%nat -> reading falling (s_kernel s) (s_px s / s_f s) u v g).

(* standard deviation of rounding to 2^bits levels together with the read noise *)
Definition additive_noise (s : sensor) : R :=
  sqrt ((s_max_n s / (Rpower 2 (s_bits s) - 1)) ^ 2 / 12 + s_read s ^ 2).
