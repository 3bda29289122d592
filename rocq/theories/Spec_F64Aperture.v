(** * Spec_F64Aperture: what is assumed of numpy's arccos, sin, tan and arctan, and the inputs
    considered in the binary64 study of circular_aperture_OTF *)
From Coq Require Import Reals ZArith Floats List.
From Verif Require Import Base_XR Model_Geo Model_Otf Spec_F64 Model_F64Db Model_F64Aperture.
Import ListNotations.
Open Scope R_scope.

(* the value of np.pi, a little below pi *)
Definition pi_below : R := 884279719003555 / 281474976710656.
(* within 2^-40 on the arguments used (the real ones are within 2^-51); arccos is nan outside
   [-1, 1] and never above np.pi *)
Record good_libm (facos fsin ftan fatan : float -> float) : Prop := {
  acos_in : forall x r, stands_for x r -> -1 <= r <= 1 ->
    exists s, stands_for (facos x) s /\ 0 <= s <= pi_below /\ Rabs (s - acos r) <= / 2 ^ 40;
  acos_out : forall x r, stands_for x r -> r < -1 \/ 1 < r -> facos x = nan;
  sin_in : forall x r, stands_for x r -> 0 <= r <= pi_below ->
    exists s, stands_for (fsin x) s /\ Rabs (s - sin r) <= / 2 ^ 40;
  tan_in : forall x r, stands_for x r -> 0 <= r <= pi_below / 2 ->
    exists s, stands_for (ftan x) s /\ Rabs (s - tan r) <= tan r / 2 ^ 40;
  atan_in : forall x r, stands_for x r -> 0 <= r ->
    exists s, stands_for (fatan x) s /\ Rabs (s - atan r) <= / 2 ^ 40 }.

(* wavelength l and diameter D between 2^-200 and 2^200 m, linear obscuration e between 0.1 and 0.9,
   frequency (u, v) up to twice the cutoff D / l *)
Definition usual_aperture (u v l D e : R) : Prop :=
  / 2 ^ 200 <= l <= 2 ^ 200 /\ / 2 ^ 200 <= D <= 2 ^ 200 /\ 0.1 <= e <= 0.9 /\ R_sqrt.sqrt (u * u + v * v) <= 2 * (D / l).
(* frequency over cutoff *)
Definition rel_freq (u v l D : R) : R := R_sqrt.sqrt (u * u + v * v) / (D / l).
(* what is lost or counted twice: twice the obscured share of the pupil *)
Definition jump (e : R) : R := 2 * (e * e) / (1 - e * e).
(* g is the number computed at the binary64 arguments, h the exact value of the formulas there *)
Definition computed_and_exact (facos fsin ftan fatan : float -> float) (u v l D e : float) (g h : R) : Prop :=
  exists out U V L A E, stands_for u U /\ stands_for v V /\ stands_for l L /\ stands_for D A /\ stands_for e E /\
    circular_aperture_f64 facos fsin ftan fatan u v l D e = Ok out /\ stands_for out g /\
    circular_aperture_OTF Np U V L A E = Ok (Fin h).
(* the same in row and column of the n x n grid: column c has the horizontal frequency -1 + 2 c / (n - 1) times the
   cutoff, row r the vertical frequency 1 - 2 r / (n - 1) times the cutoff, both as rounded *)
Definition grid_values (facos fsin ftan fatan : float -> float) (n row col : nat) (l D e : float) (g h : R) : Prop :=
  exists out U V L A E, stands_for (linspace_f64 (-1) 1 n col * (D / l))%float U /\ stands_for (linspace_f64 1 (-1) n row * (D / l))%float V /\
    stands_for l L /\ stands_for D A /\ stands_for e E /\
    grid_aperture_f64 facos fsin ftan fatan n row col l D e = Ok out /\ stands_for out g /\
    circular_aperture_OTF Np U V L A E = Ok (Fin h).
(* aperture and obscuration of examples/config/pybsm_example_config.yaml; its band starts at 0.50 um,
   which is sample 20 of the wavelengths of the database *)
Definition example_D : float := 0.273%float.
Definition example_eta : float := 0.4%float.
Definition example_wavelength : float := wavelength_f64 20.
(* rows and columns where the two tests disagree *)
Definition example_points : list (nat * nat) :=
  [(38, 41); (38, 59); (41, 38); (41, 62); (59, 38); (59, 62); (62, 41); (62, 59)]%nat.
(* the same telescope with a linear obscuration of 0.6 *)
Definition wide_eta : float := 0.6%float.
Definition wide_points : list (nat * nat) :=
  [(40, 50); (44, 58); (50, 40); (50, 60); (56, 58); (58, 44); (58, 56); (60, 50)]%nat.
