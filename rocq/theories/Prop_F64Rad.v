(** * Prop_F64Rad: the photoelectron rate in double precision (C127). *)
From Coq Require Import Reals Lra List Floats.
From Flocq Require Import IEEE754.BinarySingleNaN IEEE754.PrimFloat.
From Verif Require Import Base_XR Base_Np Model_Rad Model_F64 Model_F64Rad Spec_F64 Spec_F64Rad Proof_F64Rad Proof_F64RadDemo.
Import ListNotations.
Open Scope R_scope.

(** ** C127 *)
Theorem C127_blackbody :
  forall fexp fpow lam T, good_exp fexp -> good_pow fpow -> optical lam -> (exists t, stands_for T t) ->
    6 / 10 ^ 5 <= value lam * value T <= 19 / 10 ^ 3 ->
    exists b, blackbody_radiance1 (value lam) (value T) = Fin b /\ 0 < b /\ close (/ 10 ^ 12) (blackbody_f64 fexp fpow lam T) b.
Proof. exact bb_f64. Qed.
Print Assumptions C127_blackbody.

Theorem C127_overflow :
  forall fexp fpow lam T t, good_pow fpow -> exp_overflows fexp -> pow_of_infinity fpow -> optical lam -> stands_for T t -> / 10 ^ 12 <= t ->
    value lam * t <= 2 / 10 ^ 5 ->
    stands_for (blackbody_f64 fexp fpow lam T) 0 /\ exists b, blackbody_radiance1 (value lam) t = Fin b /\ 0 < b.
Proof. exact cold_f64. Qed.
Print Assumptions C127_overflow.

Theorem C127_total_radiance :
  forall fexp fpow rho T rows, good_exp fexp -> good_pow fpow -> fraction rho -> (exists t, stands_for T t) ->
    Forall (good_row (value T)) rows ->
    Forall2 (fun f x => exists r, x = Fin r /\ close (/ 10 ^ 12) f r) (map (total_radiance_f64 fexp fpow rho T) rows)
      (total_radiance (map row_of rows) (value rho) (value T)).
Proof. exact total_f64. Qed.
Print Assumptions C127_total_radiance.

Theorem C127_signal_rate :
  forall fexp fpow fsum rho T rows opt D f wx wy qe oth dark,
    good_exp fexp -> good_pow fpow -> good_sum fsum -> fraction rho -> (exists t, stands_for T t) ->
    (length rows <= 2000)%nat -> Forall (good_row (value T)) rows -> spaced (map f_wl rows) ->
    length opt = length rows -> length qe = length rows -> length oth = length rows ->
    Forall sized opt -> Forall sized qe -> Forall sized oth -> length_like D -> length_like f -> length_like wx -> length_like wy -> sized dark ->
    exists x s E N,
      signal_rate_f64 fpow fsum (map f_wl rows) (map (total_radiance_f64 fexp fpow rho T) rows) opt D f wx wy qe oth dark = Ok x /\
      signal_rate (map a_wl (map row_of rows)) (total_radiance (map row_of rows) (value rho) (value T)) (map value opt)
        (value D) (value f) (value wx) (value wy) (map value qe) (map Fin (map value oth)) (value dark) = Ok (Fin s, E, N) /\
      close (/ 10 ^ 12) x s.
Proof. exact signal_f64. Qed.
Print Assumptions C127_signal_rate.

Theorem C127_given_radiance :
  forall fpow fsum wl L opt D f wx wy qe oth dark,
    good_pow fpow -> good_sum fsum -> (length wl <= 2000)%nat -> Forall optical wl -> spaced wl ->
    length L = length wl -> length opt = length wl -> length qe = length wl -> length oth = length wl ->
    Forall sized L -> Forall sized opt -> Forall sized qe -> Forall sized oth ->
    length_like D -> length_like f -> length_like wx -> length_like wy -> sized dark ->
    exists x s E N, signal_rate_f64 fpow fsum wl L opt D f wx wy qe oth dark = Ok x /\
      signal_rate (map value wl) (map Fin (map value L)) (map value opt)
        (value D) (value f) (value wx) (value wy) (map value qe) (map Fin (map value oth)) (value dark) = Ok (Fin s, E, N) /\
      close (/ 10 ^ 12) x s.
Proof. exact rate_f64. Qed.
Print Assumptions C127_given_radiance.

Theorem C127_no_aperture :
  forall fpow fsum wl L opt D f wx wy qe oth dark xs, stands_for D 0 ->
    signal_rate_f64 fpow fsum wl L opt D f wx wy qe oth dark = Err ZeroDivisionError /\
    signal_rate (map value wl) xs (map value opt) (value D) (value f) (value wx) (value wy) (map value qe) (map Fin (map value oth)) (value dark)
      = Err ZeroDivisionError.
Proof. exact aperture_f64. Qed.
Print Assumptions C127_no_aperture.

(** correctly rounded functions and a plain loop are of the kind assumed *)
Example C127_libm : good_exp exp_f /\ good_pow pow_f /\ good_sum f_sum /\ exp_overflows exp_f /\ pow_of_infinity pow_f.
Proof. repeat match goal with |- _ /\ _ => split end; [exact exp_f_good|exact pow_f_good|exact left_good|exact exp_f_over|exact pow_f_inf]. Qed.
(** the wavelengths of the database at the temperatures the code uses, and 40 K at 0.3 micrometres *)
Example C127_range : forall l, 0.3 / 10 ^ 6 <= l <= 14 / 10 ^ 6 ->
  / 10 ^ 7 <= l <= / 10 ^ 4 /\ 6 / 10 ^ 5 <= l * 280 /\ l * 300 <= 19 / 10 ^ 3 /\ 0.3 / 10 ^ 6 * 40 <= 2 / 10 ^ 5.
Proof. intros l H. repeat split; lra. Qed.
(** a camera with three samples around 9.6 micrometres *)
Example C127_camera :
  fraction 0.5%float /\ (exists t, stands_for 300%float t) /\ Forall (good_row (value 300)) demo_rows /\ spaced (map f_wl demo_rows) /\
  sized 0.5%float /\ sized 1000000%float /\ sized 0%float /\ length_like 0.5%float /\ length_like 4096%float /\ length_like 0x1p-16%float.
Proof. exact demo_ok. Qed.
Example C127_zero : stands_for 0%float 0 /\ stands_for (-0)%float 0.
Proof. exact zeros_ok. Qed.
