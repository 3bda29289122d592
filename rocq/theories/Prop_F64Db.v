(** * Prop_F64Db: the atmosphere loaders in double precision (C117) *)
From Coq Require Import Reals ZArith Lia Lra List Floats.
From Verif Require Import Base_XR Model_DbTable Model_Db Model_F64 Model_F64Size Model_F64Db Spec_Db Spec_F64 Spec_F64Db
  Proof_F64Size Proof_Db Proof_F64Db Proof_F64Load Proof_F64Band Proof_F64DbDemo.
Import ListNotations.
Open Scope R_scope.

(** ** load_database_atmosphere_no_interp *)
(* the lookup succeeds exactly for the numbers nearest to the listed values, and returns the file of that row *)
Theorem C117_lookup : forall st alt rng h m, not_tiny rng ->
  (load_no_interp_f64 st alt rng h = Ok m <->
   exists i a g d, In (i, a, g, h) decoder /\ asked alt rng a g /\ st i = Some d /\ m = assemble_f64 d).
Proof. exact f64_ok_iff. Qed.
Print Assumptions C117_lookup.

(* rounding never makes two rows of the table match *)
Theorem C117_lookup_one_row : forall i a g j b f h alt rng, In (i, a, g, h) decoder -> In (j, b, f, h) decoder ->
  asked alt rng a g -> asked alt rng b f -> (i, a, g, h) = (j, b, f, h).
Proof. exact asked_unique. Qed.
Print Assumptions C117_lookup_one_row.

(* whatever the arguments, the only other outcome is IndexError *)
Theorem C117_lookup_else : forall st alt rng h,
  (exists m, load_no_interp_f64 st alt rng h = Ok m) \/ load_no_interp_f64 st alt rng h = Err IndexError.
Proof. exact f64_cases. Qed.
Print Assumptions C117_lookup_else.

(* a range too small to survive the division by 1000 counts as zero *)
Theorem C117_lookup_tiny : exists x r, stands_for x r /\ r <> 0 /\ forall st alt h,
  load_no_interp_f64 st alt x h = load_no_interp_f64 st alt 0 h.
Proof. exact tiny_is_zero. Qed.
Print Assumptions C117_lookup_tiny.

Example C117_lookup_ex : not_tiny 22000 /\ asked 225 22000 2250 22000 /\ (exists i, In (i, 2250, 22000, 1)%Z decoder) /\
  exists m, load_no_interp_f64 full_store 225 22000 1 = Ok m.
Proof. exact lookup_demo. Qed.

(** ** load_database_atmosphere: what it accepts *)
(* at the grid points nothing is interpolated *)
Theorem C117_grid : forall st alt rng h n z, stands_for alt (IZR n) -> stands_for rng (IZR z) ->
  In (IZR n) doc_altitudes -> In (IZR z) doc_ranges -> load_interp_f64 st alt rng h = load_no_interp_f64 st alt rng h.
Proof. exact f64_grid. Qed.
Print Assumptions C117_grid.

Example C117_grid_ex : stands_for 500 (IZR 500) /\ stands_for 22000 (IZR 22000) /\ In (IZR 500) doc_altitudes /\ In (IZR 22000) doc_ranges.
Proof. exact grid_demo. Qed.

(* nan and the infinities are refused, although no comparison with nan says so *)
Theorem C117_not_finite : forall st alt rng h, (~ exists r, stands_for alt r) \/ (~ exists r, stands_for rng r) ->
  load_interp_f64 st alt rng h = Err IndexError.
Proof. exact not_finite_err. Qed.
Print Assumptions C117_not_finite.

Example C117_not_finite_ex : ~ exists r, stands_for nan r.
Proof. exact nan_demo. Qed.

Theorem C117_out_of_range : forall st alt rng h ra rg, stands_for alt ra -> stands_for rng rg ->
  ra < 2 \/ 20000 < ra \/ rg < 0 \/ 300000 < rg -> load_interp_f64 st alt rng h = Err IndexError.
Proof. exact out_of_range. Qed.
Print Assumptions C117_out_of_range.

Theorem C117_gap : forall st alt rng h r, stands_for alt r -> 2 < r < 75 -> load_interp_f64 st alt rng h = Err IndexError.
Proof. exact f64_gap. Qed.
Print Assumptions C117_gap.

(* straight below the camera a complete database always answers *)
Theorem C117_below : forall st alt rng h r, complete_f64 st -> (h = 1 \/ h = 2)%Z -> stands_for alt r -> stands_for rng 0 ->
  r = 2 \/ 75 <= r <= 20000 -> exists m, load_interp_f64 st alt rng h = Ok m.
Proof. exact ground_load. Qed.
Print Assumptions C117_below.

Example C117_below_ex : complete_f64 full_store /\ exists m, load_interp_f64 full_store 609.6 0 1 = Ok m.
Proof. exact below_demo. Qed.

Theorem C117_else : forall st alt rng h,
  (exists m, load_interp_f64 st alt rng h = Ok m) \/ load_interp_f64 st alt rng h = Err IndexError.
Proof. exact load_cases. Qed.
Print Assumptions C117_else.

(** ** load_database_atmosphere: what it returns *)
(* rounding never takes an entry below zero or above a power of two that bounds the files *)
Theorem C117_bounds : forall st alt rng h m i c k, load_interp_f64 st alt rng h = Ok m -> (k <= 799)%nat ->
  entries_within st i c (2 ^ k) -> exists v, stands_for (m i (S c)) v /\ 0 <= v <= 2 ^ k.
Proof. exact within_pow. Qed.
Print Assumptions C117_bounds.

(* so transmissions stay transmissions *)
Theorem C117_transmission : forall st alt rng h m i, load_interp_f64 st alt rng h = Ok m ->
  entries_within st i 0 1 -> exists v, stands_for (m i 1%nat) v /\ 0 <= v <= 1.
Proof. exact transmission_f64. Qed.
Print Assumptions C117_transmission.

(* the loader answers exactly when the loader in exact arithmetic does ... *)
Theorem C117_same_answers : forall st files alt rng h ra rg, same_files st files -> stands_for alt ra -> stands_for rng rg ->
  ((exists m, load_interp_f64 st alt rng h = Ok m) <-> (exists mr, load_interp files ra rg h = Ok mr)).
Proof. exact agrees_iff. Qed.
Print Assumptions C117_same_answers.

(* ... and every entry is within a relative 2^-48 of the largest entry of the files *)
Theorem C117_close : forall st files alt rng h ra rg m, same_files st files -> stands_for alt ra -> stands_for rng rg ->
  load_interp_f64 st alt rng h = Ok m -> exists mr, load_interp files ra rg h = Ok mr /\
  forall i c b, (i < 1371)%nat -> (c < 5)%nat -> entries_within st i c b -> / 2 ^ 900 <= b <= 2 ^ 799 ->
    exists v, stands_for (m i (S c)) v /\ Rabs (v - mr i (S c)) <= b / 2 ^ 48.
Proof. exact agrees_close. Qed.
Print Assumptions C117_close.

Example C117_close_ex : exists files m, same_files two_store files /\ load_interp_f64 two_store 609.6 0 1 = Ok m /\
  entries_within two_store 7 0 1 /\ two_store 1%Z <> two_store 2%Z.
Proof. exact close_demo. Qed.

(** ** the wavelength column *)
(* after a lookup it is the fixed grid *)
Theorem C117_wavelength_lookup : forall st alt rng h m, load_no_interp_f64 st alt rng h = Ok m -> forall i, m i 0%nat = wavelength_f64 i.
Proof. exact f64_wavelength. Qed.
Print Assumptions C117_wavelength_lookup.

(* after an interpolation it is not ... *)
Theorem C117_wavelength_kept_refuted :
  ~ (forall st x h m i, load_interp_f64 st x 0 h = Ok m -> (i < 1371)%nat -> m i 0%nat = wavelength_f64 i).
Proof. exact wavelength_kept_refuted. Qed.
Print Assumptions C117_wavelength_kept_refuted.

(* ... from 1200 m, 456 of the 1371 samples move ... *)
Theorem C117_wavelength_changed : exists l, NoDup l /\ length l = N.to_nat 456 /\
  forall i, In i l -> (i < 1371)%nat /\ forall st h m, load_interp_f64 st (f_of_Z 1200) 0 h = Ok m -> m i 0%nat <> wavelength_f64 i.
Proof. exact wavelength_changed. Qed.
Print Assumptions C117_wavelength_changed.

(* ... by less than a relative 2^-48 *)
Theorem C117_wavelength_close : forall st alt rng h m i, load_interp_f64 st alt rng h = Ok m -> (i < 1371)%nat ->
  exists v, stands_for (m i 0%nat) v /\ Rabs (v - mark i) <= mark i / 2 ^ 48.
Proof. exact wave_interp_close. Qed.
Print Assumptions C117_wavelength_close.

Example C117_wavelength_ex : exists m, load_interp_f64 full_store (f_of_Z 1200) 0 1 = Ok m.
Proof. exact (metre_load full_store 1 1200 full_complete ltac:(auto) ltac:(lia)). Qed.
