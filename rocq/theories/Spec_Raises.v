(** * Spec_Raises: the inputs for which an exception is documented (C129). *)
From Coq Require Import Reals List.
From Verif Require Import Base_XR Model_Otf.
Import ListNotations.
Open Scope R_scope.

(* the band lists the documentation of weighted_by_wavelength (otf/functional.py:991-994) rules out, except
   that a single wavelength accepts any positive number of weights (C60) *)
Definition bad_bands (wl : list R) (w : list xr) : Prop :=
  wl = [] \/ w = [] \/ (2 <= length wl /\ length w <> length wl)%nat.

(* the nine arrays, all with one entry per grid point; r0_band is one number when turbulence is on *)
Definition rows (n : nat) (o : otfs) : Prop :=
  length (ap_OTF o) = n /\ length (turb_OTF o) = n /\ length (det_OTF o) = n /\ length (jit_OTF o) = n /\
  length (drft_OTF o) = n /\ length (wav_OTF o) = n /\ length (filt_OTF o) = n /\ length (system_OTF o) = n.

