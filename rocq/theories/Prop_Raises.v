(** * Prop_Raises: the documented exceptions of the transfer-function builders (C129). *)
From Coq Require Import Reals Lra Lia List.
From Verif Require Import Base_XR Base_Np Model_Geo Model_Scenario Model_Sensor Model_Otf Spec_Raises Proof_Raises.
Import ListNotations.
Open Scope R_scope.

(** ** C129 *)
(* "ZeroDivisionError if slant_range is 0" holds for a Python float and with turbulence on, and only then *)
Theorem C129_zero_range : forall diag k s c pts wl w sl t, (length (s_kernel s) <= 1)%nat -> 0 <= altitude c ->
  length w = length wl -> wl <> [] -> NoDup wl ->
  common_OTFs diag k s c pts wl w sl t = Err ZeroDivisionError <-> k = Py /\ sl = 0 /\ 0 < plain c Cn2At1m.
Proof. exact common_zde_iff. Qed.
Print Assumptions C129_zero_range.

(* IndexError depends on the band lists alone: not on the grid, the range, the sensor or the scenario *)
Theorem C129_index_error : forall diag k s c pts wl w sl t, (length (s_kernel s) <= 1)%nat -> 0 <= altitude c ->
  common_OTFs diag k s c pts wl w sl t = Err IndexError <-> bad_bands wl w.
Proof. exact common_index_iff. Qed.
Print Assumptions C129_index_error.

(* otherwise the call succeeds and every array has one entry per grid point *)
Theorem C129_success : forall diag k s c pts wl w sl t, length w = length wl -> wl <> [] -> NoDup wl ->
  (length (s_kernel s) <= 1)%nat -> 0 <= altitude c -> (0 < plain c Cn2At1m -> k = Np \/ sl <> 0) ->
  exists o, common_OTFs diag k s c pts wl w sl t = Ok o /\ rows (length pts) o
    /\ length (r0_band o) = if Rltb 0 (plain c Cn2At1m) then 1%nat else length pts.
Proof. exact common_good. Qed.
Print Assumptions C129_success.

(* "IndexError if uu or vv are empty" (otf/functional.py:1343-1344) is not what happens: the sensor of the unit
   tests on an empty grid, one wavelength, gives empty arrays *)
Theorem C129_empty_grid_refuted :
  ~ (forall diag k s c wl w sl t, common_OTFs diag k s c [] wl w sl t = Err IndexError).
Proof. exact empty_grid. Qed.
Print Assumptions C129_empty_grid_refuted.

Theorem C129_turbulence : forall k pts wl w alt sl D v c t vel, 0 <= alt ->
  (polychromatic_turbulence_OTF k pts wl w alt sl D v c t vel = Err ZeroDivisionError <-> k = Py /\ sl = 0) /\
  (polychromatic_turbulence_OTF k pts wl w alt sl D v c t vel = Err IndexError <-> (k = Np \/ sl <> 0) /\ bad_bands wl w).
Proof. exact poly_iffs. Qed.
Print Assumptions C129_turbulence.

Theorem C129_coherence_diameter : forall lam z c, length c = length z ->
  (coherence_diameter lam z c = Err ValueError <-> z = []) /\
  (coherence_diameter lam z c = Err ZeroDivisionError <-> z <> [] /\ lam = 0) /\
  (z <> [] -> lam <> 0 -> exists r, coherence_diameter lam z c = Ok r).
Proof. exact coherence_iff. Qed.
Print Assumptions C129_coherence_diameter.

(* the documentation of image_domain_defocus_radii names a slant_range it does not take: it is the focal length *)
Theorem C129_defocus_radii : forall D a b,
  (image_domain_defocus_radii D a b = Err ZeroDivisionError <-> b = 0) /\
  (object_domain_defocus_radii D a b = Err ZeroDivisionError <-> a = 0 \/ b = 0).
Proof. exact radii_iffs. Qed.
Print Assumptions C129_defocus_radii.

(* tests/otf/test_otf.py:1085-1255: polychromatic_turbulence_OTF *)
Example C129_test_turbulence : forall pts,
  polychromatic_turbulence_OTF Py [] [] [] 0 0 0 0 0 0 0 = Err ZeroDivisionError /\
  polychromatic_turbulence_OTF Py [] [] [] 1 0 1 1 1 1 1 = Err ZeroDivisionError /\
  polychromatic_turbulence_OTF Py [] [] [] 1 1 1 1 1 1 1 = Err IndexError /\
  polychromatic_turbulence_OTF Py pts [] [Fin 1] 1 1 1 1 1 1 1 = Err IndexError /\
  polychromatic_turbulence_OTF Py pts [1] [] 1 1 1 1 1 1 1 = Err IndexError /\
  polychromatic_turbulence_OTF Py pts [1; 2] [Fin 1] 1 1 1 1 1 1 1 = Err IndexError.
Proof.
  intros pts. repeat split; (apply C129_turbulence; [lra|]); unfold bad_bands; simpl; split; auto; try (right; lra).
Qed.
(* tests/otf/test_otf.py:1746-1905: common_OTFs *)
Example C129_test_common : exists s, sensor_init 1 1 1 [0; 1] 0 None None None default_kw = Ok s /\
  forall diag pts pl, let c := sc (init 1 1 1 false pl) in
  (pl Cn2At1m = 1.7 / 10 ^ 14 -> common_OTFs diag Py s c [(1, 1)] [1] [Fin 1] 0 0 = Err ZeroDivisionError
                 /\ common_OTFs diag Py s c [(1, 1)] [1] [Fin 1] 0 1 = Err ZeroDivisionError) /\
  common_OTFs diag Py s c pts [] [] 1 1 = Err IndexError /\
  common_OTFs diag Py s c pts [1] [] 1 1 = Err IndexError /\
  common_OTFs diag Py s c pts [] [Fin 1] 1 1 = Err IndexError /\
  (* the empty grid with a valid band list is not among the tests, and does not raise *)
  exists o, common_OTFs diag Py s c [] [1] [Fin 1] 1 1 = Ok o /\ system_OTF o = [].
Proof.
  destruct test_sensor as (s & E & K). exists s. split; auto. intros diag pts pl c.
  assert (A : 0 <= altitude c) by (simpl; lra).
  assert (N : NoDup [1]) by (constructor; [intros [] | constructor]).
  split; [|split; [|split; [|split]]]; try (apply C129_index_error; auto; unfold bad_bands; auto).
  - intros P. split; apply C129_zero_range; auto; try discriminate; (split; [reflexivity | split; [reflexivity|]]);
      (change (0 < pl Cn2At1m); rewrite P; apply Rdiv_lt_0_compat; [lra | apply pow_lt; lra]).
  - destruct (C129_success diag Py s c [] [1] [Fin 1] 1 1) as (o & Eo & R & _); auto; try discriminate; try (intros _; right; lra).
    exists o. split; auto. apply length_zero_iff_nil. apply R.
Qed.
