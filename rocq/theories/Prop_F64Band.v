(** * Prop_F64Band: spectral bands in double precision (C118) *)
From Coq Require Import Reals ZArith Lia Lra List Floats.
From Verif Require Import Base_XR Model_DbTable Model_Db Model_F64 Model_F64Size Model_F64Db Spec_Db Spec_F64 Spec_F64Db
  Proof_F64Size Proof_F64Db Proof_F64Load Proof_F64Band Proof_F64DbDemo.
Import ListNotations.
Open Scope R_scope.

(** ** the samples of a band *)
(* away from the marks 0.30, 0.31, ... 14.00 micrometres the band is what it looks like *)
Theorem C118_band : forall st alt rng h m lo hi a b i, load_interp_f64 st alt rng h = Ok m -> stands_for lo a -> stands_for hi b ->
  (i < 1371)%nat -> mark i / 2 ^ 48 < Rabs (a - mark i) -> mark i / 2 ^ 48 < Rabs (b - mark i) ->
  (In i (band_f64 lo hi (fun r => m r 0%nat)) <-> a <= mark i <= b).
Proof. exact band_interp. Qed.
Print Assumptions C118_band.

Example C118_band_ex : exists m a b, load_interp_f64 full_store (f_of_Z 1200) 0 1 = Ok m /\ stands_for 0x1p-21 a /\ stands_for 0x1p-20 b /\
  mark 40 / 2 ^ 48 < Rabs (a - mark 40) /\ mark 40 / 2 ^ 48 < Rabs (b - mark 40) /\ a <= mark 40 <= b.
Proof. exact band_demo. Qed.

(* a band that begins at a mark need not hold the sample at that mark ... *)
Theorem C118_first_mark_refuted :
  ~ (forall i, (i < 1371)%nat -> In i (band_f64 (f_decimal (30 + Z.of_nat i) (10 ^ 8)) 1 wavelength_f64)).
Proof. exact ends_refuted. Qed.
Print Assumptions C118_first_mark_refuted.

(* ... for 321 of the 1371 marks it does not ... *)
Theorem C118_first_mark_lost : exists l, NoDup l /\ length l = N.to_nat 321 /\
  forall i, In i l -> (i < 1371)%nat /\ ~ In i (band_f64 (f_decimal (30 + Z.of_nat i) (10 ^ 8)) 1 wavelength_f64).
Proof. exact ends_many. Qed.
Print Assumptions C118_first_mark_lost.

(* ... and for 189 a band that ends there loses its last sample *)
Theorem C118_last_mark_lost : exists l, NoDup l /\ length l = N.to_nat 189 /\
  forall i, In i l -> (i < 1371)%nat /\ ~ In i (band_f64 0 (f_decimal (30 + Z.of_nat i) (10 ^ 8)) wavelength_f64).
Proof. exact ends_many_high. Qed.
Print Assumptions C118_last_mark_lost.

(** ** two cameras *)
(* after a lookup the 380-700 nm camera of ref_image.py has the 32 samples 390, ..., 700 nm: 380 nm is lost *)
Theorem C118_capture_rows : forall st alt rng h m, load_no_interp_f64 st alt rng h = Ok m ->
  band_f64 (fst capture_band_f64) (snd capture_band_f64) (fun r => m r 0%nat) = seq 9 32.
Proof. exact capture_lookup. Qed.
Print Assumptions C118_capture_rows.

(* the 500-660 nm camera of pybsm_example.py has all 17 *)
Theorem C118_example_rows : forall st alt rng h m, load_no_interp_f64 st alt rng h = Ok m ->
  band_f64 (fst example_band_f64) (snd example_band_f64) (fun r => m r 0%nat) = seq 20 17.
Proof. exact example_lookup. Qed.
Print Assumptions C118_example_rows.

Example C118_rows_ex : exists m, load_no_interp_f64 full_store 225 22000 1 = Ok m.
Proof. exact (proj2 (proj2 (proj2 lookup_demo))). Qed.

(** ** interpolation changes the band *)
Theorem C118_band_fixed_refuted : ~ (forall st x y h m m', load_interp_f64 st x 0 h = Ok m -> load_interp_f64 st y 0 h = Ok m' ->
  band_f64 (fst example_band_f64) (snd example_band_f64) (fun r => m r 0%nat)
  = band_f64 (fst example_band_f64) (snd example_band_f64) (fun r => m' r 0%nat)).
Proof. exact band_fixed_refuted. Qed.
Print Assumptions C118_band_fixed_refuted.

(* of the 926 altitudes 75, 76, ..., 1000 m there are 98 from which the example camera loses its last sample ... *)
Theorem C118_example_loses : exists l, NoDup l /\ length l = N.to_nat 98 /\
  forall n, In n l -> (75 <= n <= 1000)%Z /\ forall st h m, load_interp_f64 st (f_of_Z n) 0 h = Ok m ->
    ~ In 36%nat (band_f64 (fst example_band_f64) (snd example_band_f64) (fun r => m r 0%nat)).
Proof. exact example_many. Qed.
Print Assumptions C118_example_loses.

(* ... and 20 from which the other camera has 380 nm after all *)
Theorem C118_capture_gains : exists l, NoDup l /\ length l = N.to_nat 20 /\
  forall n, In n l -> (75 <= n <= 1000)%Z /\ forall st h m, load_interp_f64 st (f_of_Z n) 0 h = Ok m ->
    In 8%nat (band_f64 (fst capture_band_f64) (snd capture_band_f64) (fun r => m r 0%nat)).
Proof. exact capture_many. Qed.
Print Assumptions C118_capture_gains.

(* all these altitudes are answered *)
Theorem C118_answered : forall st h n, complete_f64 st -> (h = 1 \/ h = 2)%Z -> (75 <= n <= 20000)%Z ->
  exists m, load_interp_f64 st (f_of_Z n) 0 h = Ok m.
Proof. exact metre_load. Qed.
Print Assumptions C118_answered.

Example C118_answered_ex : complete_f64 full_store.
Proof. exact full_complete. Qed.

(** ** the emissive threshold *)
(* away from 2.9 micrometres the threshold is what it looks like *)
Theorem C118_emissive : forall lo a, stands_for lo a -> mark 260 / 2 ^ 51 < Rabs (a - mark 260) ->
  (emissive_f64 lo = true <-> mark 260 <= a).
Proof. exact emissive_off. Qed.
Print Assumptions C118_emissive.

Example C118_emissive_ex : exists a, stands_for 0x1p-18 a /\ mark 260 / 2 ^ 51 < Rabs (a - mark 260) /\ mark 260 <= a.
Proof. exact emissive_demo. Qed.

(* a camera from exactly 2.9 micrometres, computed as 1e-6 * 2.9, is taken for a visible one *)
Theorem C118_emissive_refuted :
  ~ (forall i, (260 <= i < 1371)%nat -> emissive_f64 (1e-6 * f_decimal (30 + Z.of_nat i) 100) = true).
Proof. exact emissive_refuted. Qed.
Print Assumptions C118_emissive_refuted.

(* of the samples of the grid itself, those above 2.9 micrometres are emissive *)
Theorem C118_emissive_grid : forall i, (i < 1371)%nat -> (emissive_f64 (wavelength_f64 i) = true <-> (261 <= i)%nat).
Proof. exact emissive_rows. Qed.
Print Assumptions C118_emissive_grid.
