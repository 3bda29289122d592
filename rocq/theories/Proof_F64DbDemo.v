(** * Proof_F64DbDemo: examples for the loaders in binary64 *)
From Coq Require Import Reals ZArith Lia Lra List Floats Bool.
From Flocq Require Import Core IEEE754.BinarySingleNaN IEEE754.PrimFloat.
From Verif Require Import Base_XR Base_Np Model_DbTable Model_Db Model_F64 Model_F64Size Model_F64Db.
From Verif Require Import Spec_Db Spec_F64 Spec_F64Db Proof_Round Proof_Nadir Proof_F64Size Proof_F64Blend Proof_Db Proof_F64Db Proof_F64Load Proof_F64Band.
Import ListNotations.
Open Scope R_scope.

Lemma tiny_is_zero : exists x r, stands_for x r /\ r <> 0 /\ forall st alt h,
  load_no_interp_f64 st alt x h = load_no_interp_f64 st alt 0 h.
Proof.
  exists 0x1p-1074%float, (B2R (Prim2B 0x1p-1074)). split; [split; vm_compute; reflexivity|]. split.
  - replace (Prim2B 0x1p-1074) with (B754_finite false 1 (-1074) (eq_refl : SpecFloat.bounded FloatOps.prec FloatOps.emax 1 (-1074) = true)).
    + simpl B2R. unfold F2R. simpl Fnum. simpl Fexp. generalize (bpow_gt_0 radix2 (-1074)). intros. rewrite Rmult_1_l. lra.
    + apply B2SF_inj. rewrite B2SF_Prim2B. vm_compute. reflexivity.
  - intros st alt h. unfold load_no_interp_f64, select_f64.
    replace (0x1p-1074 / 1000)%float with (0 / 1000)%float by (vm_compute; reflexivity). reflexivity.
Qed.
Lemma lookup_demo : not_tiny 22000 /\ asked 225 22000 2250 22000 /\ (exists i, In (i, 2250, 22000, 1)%Z decoder) /\
  exists m, load_no_interp_f64 full_store 225 22000 1 = Ok m.
Proof.
  assert (S : stands_for 22000 (IZR 22000)) by exact (f_int_lit 22000 ltac:(lia)).
  assert (T : not_tiny 22000) by (now apply range_not_tiny with 22000%Z).
  assert (A : asked 225 22000 2250 22000) by (split; vm_compute; reflexivity).
  assert (D : exists i, In (i, 2250, 22000, 1)%Z decoder).
  { destruct (find (fun r => let '(_, a, g, h) := r in (a =? 2250)%Z && (g =? 22000)%Z && (h =? 1)%Z) decoder) as [[[[i a] g] h]|] eqn:E.
    - apply find_some in E. destruct E as [I E]. repeat rewrite andb_true_iff in E. repeat rewrite Z.eqb_eq in E. destruct E as [[-> ->] ->]. eauto.
    - exfalso. revert E. vm_compute. discriminate. }
  split; [exact T|]. split; [exact A|]. split; [exact D|]. destruct D as [i D].
  eexists. apply f64_ok_iff; [exact T|]. exists i, 2250%Z, 22000%Z. eexists. split; [exact D|]. split; [exact A|]. split; reflexivity.
Qed.
Lemma grid_demo : stands_for 500 (IZR 500) /\ stands_for 22000 (IZR 22000) /\ In (IZR 500) doc_altitudes /\ In (IZR 22000) doc_ranges.
Proof.
  split; [exact (f_int_lit 500 ltac:(lia))|]. split; [exact (f_int_lit 22000 ltac:(lia))|].
  split; [unfold doc_altitudes; simpl; tauto|exact (in_doc_range 22000 (eq_refl true))].
Qed.
Lemma nan_demo : ~ exists r, stands_for nan r.
Proof. intros [r [F _]]. revert F. vm_compute. discriminate. Qed.
Lemma feet_value : exists r, stands_for 609.6 r /\ 75 <= r <= 20000.
Proof.
  assert (L := f_int_lit 75 ltac:(lia)). assert (H := f_int_lit 20000 ltac:(lia)).
  exists (B2R (Prim2B 609.6)). assert (S : stands_for 609.6 (B2R (Prim2B 609.6))) by (split; vm_compute; reflexivity).
  split; [exact S|]. split; [apply (f_le _ _ _ _ L S); vm_compute; reflexivity|apply (f_le _ _ _ _ S H); vm_compute; reflexivity].
Qed.
Lemma feet_load st : complete_f64 st -> exists m, load_interp_f64 st 609.6 0 1 = Ok m.
Proof.
  intros C. destruct feet_value as (r & S & B). apply (ground_load st 609.6 0 1 r C); [now left|exact S|exact (f_int_lit 0 ltac:(lia))|now right].
Qed.
Lemma below_demo : complete_f64 full_store /\ exists m, load_interp_f64 full_store 609.6 0 1 = Ok m.
Proof. split; [exact full_complete|exact (feet_load full_store full_complete)]. Qed.
Lemma transmission_f64 st alt rng h m i : load_interp_f64 st alt rng h = Ok m ->
  entries_within st i 0 1 -> exists v, stands_for (m i 1%nat) v /\ 0 <= v <= 1.
Proof. intros H E. exact (within_pow st alt rng h m i 0 0 H ltac:(lia) E). Qed.
(* odd files hold transmission 1/2, even ones 1/4 *)
Definition two_store : store_f64 := fun n => Some (fun _ c => if Z.odd n then 0.5%float else 0.25%float).
Definition two_files : store := fun n => Some {| file_size := 6855; file_value := fun k =>
  let x := if Z.odd n then / 2 else / 4 in if (k <? 1371)%nat then x else x / 10 ^ 10 |}.
Lemma half_value : stands_for 0.5 (/ 2).
Proof. assert (H := f_int_lit 1 ltac:(lia)). assert (K := f_int_lit 2 ltac:(lia)). split; [vm_compute; reflexivity|].
  replace (Prim2B 0.5) with (B754_finite false 4503599627370496 (-53) (eq_refl : SpecFloat.bounded FloatOps.prec FloatOps.emax 4503599627370496 (-53) = true)).
  - simpl B2R. unfold F2R. simpl. lra.
  - apply B2SF_inj. rewrite B2SF_Prim2B. vm_compute. reflexivity.
Qed.
Lemma quarter_value : stands_for 0.25 (/ 4).
Proof. split; [vm_compute; reflexivity|].
  replace (Prim2B 0.25) with (B754_finite false 4503599627370496 (-54) (eq_refl : SpecFloat.bounded FloatOps.prec FloatOps.emax 4503599627370496 (-54) = true)).
  - simpl B2R. unfold F2R. simpl. lra.
  - apply B2SF_inj. rewrite B2SF_Prim2B. vm_compute. reflexivity.
Qed.
Lemma two_same : same_files two_store two_files.
Proof.
  intros n. right. eexists. eexists. split; [reflexivity|]. split; [reflexivity|]. split; [reflexivity|]. cbn [file_value].
  assert (V : stands_for (if Z.odd n then 0.5%float else 0.25%float) (if Z.odd n then / 2 else / 4))
    by (destruct (Z.odd n); [exact half_value|exact quarter_value]).
  intros i I. split; [destruct (Nat.ltb_spec i 1371); [exact V|lia]|].
  intros c C. destruct (Nat.ltb_spec (c * 1371 + i) 1371); [lia|].
  replace (10 ^ 10 * ((if Z.odd n then / 2 else / 4) / 10 ^ 10)) with (if Z.odd n then / 2 else / 4); [exact V|].
  field.
Qed.
Lemma close_demo : exists files m, same_files two_store files /\ load_interp_f64 two_store 609.6 0 1 = Ok m /\
  entries_within two_store 7 0 1 /\ two_store 1%Z <> two_store 2%Z.
Proof.
  destruct (feet_load two_store) as [m M]; [intros i a g h _; eexists; reflexivity|].
  exists two_files, m. split; [exact two_same|]. split; [exact M|]. split.
  - intros n d H. injection H as <-. destruct (Z.odd n); [exists (/ 2); split; [exact half_value|lra]|exists (/ 4); split; [exact quarter_value|lra]].
  - intros H. assert (E : option_map (fun d : nat -> nat -> PrimFloat.float => d 0%nat 0%nat) (two_store 1%Z) = option_map (fun d => d 0%nat 0%nat) (two_store 2%Z)) by (now rewrite H).
    change (Some 0.5%float = Some 0.25%float) in E. injection E as E.
    assert (F : PrimFloat.eqb 0.5 0.25 = false) by (vm_compute; reflexivity). rewrite E in F.
    assert (G : PrimFloat.eqb 0.25 0.25 = true) by (vm_compute; reflexivity). congruence.
Qed.
Lemma capture_lookup st alt rng h m : load_no_interp_f64 st alt rng h = Ok m ->
  band_f64 (fst capture_band_f64) (snd capture_band_f64) (fun r => m r 0%nat) = seq 9 32.
Proof. intros H. rewrite (lookup_rows st alt rng h m _ _ H). exact capture_rows. Qed.
Lemma example_lookup st alt rng h m : load_no_interp_f64 st alt rng h = Ok m ->
  band_f64 (fst example_band_f64) (snd example_band_f64) (fun r => m r 0%nat) = seq 20 17.
Proof. intros H. rewrite (lookup_rows st alt rng h m _ _ H). exact example_rows. Qed.
Lemma pow21 : stands_for 0x1p-21 (/ 2097152).
Proof. split; [vm_compute; reflexivity|].
  replace (Prim2B 0x1p-21) with (B754_finite false 4503599627370496 (-73) (eq_refl : SpecFloat.bounded FloatOps.prec FloatOps.emax 4503599627370496 (-73) = true)).
  - simpl B2R. unfold F2R. simpl. lra.
  - apply B2SF_inj. rewrite B2SF_Prim2B. vm_compute. reflexivity.
Qed.
Lemma pow20 : stands_for 0x1p-20 (/ 1048576).
Proof. split; [vm_compute; reflexivity|].
  replace (Prim2B 0x1p-20) with (B754_finite false 4503599627370496 (-72) (eq_refl : SpecFloat.bounded FloatOps.prec FloatOps.emax 4503599627370496 (-72) = true)).
  - simpl B2R. unfold F2R. simpl. lra.
  - apply B2SF_inj. rewrite B2SF_Prim2B. vm_compute. reflexivity.
Qed.
Lemma pow18 : stands_for 0x1p-18 (/ 262144).
Proof. split; [vm_compute; reflexivity|].
  replace (Prim2B 0x1p-18) with (B754_finite false 4503599627370496 (-70) (eq_refl : SpecFloat.bounded FloatOps.prec FloatOps.emax 4503599627370496 (-70) = true)).
  - simpl B2R. unfold F2R. simpl. lra.
  - apply B2SF_inj. rewrite B2SF_Prim2B. vm_compute. reflexivity.
Qed.
Lemma band_demo : exists m a b, load_interp_f64 full_store (f_of_Z 1200) 0 1 = Ok m /\ stands_for 0x1p-21 a /\ stands_for 0x1p-20 b /\
  mark 40 / 2 ^ 48 < Rabs (a - mark 40) /\ mark 40 / 2 ^ 48 < Rabs (b - mark 40) /\ a <= mark 40 <= b.
Proof.
  destruct (metre_load full_store 1 1200 full_complete ltac:(auto) ltac:(lia)) as [m M].
  exists m, (/ 2097152), (/ 1048576). split; [exact M|]. split; [exact pow21|]. split; [exact pow20|].
  replace (mark 40) with (70 / 100000000) by (unfold mark; rewrite INR_IZR_INZ; simpl; lra). replace (2 ^ 48) with 281474976710656 by lra.
  split; [rewrite Rabs_left; lra|]. split; [rewrite Rabs_pos_eq; lra|lra].
Qed.
Lemma emissive_demo : exists a, stands_for 0x1p-18 a /\ mark 260 / 2 ^ 51 < Rabs (a - mark 260) /\ mark 260 <= a.
Proof.
  exists (/ 262144). split; [exact pow18|].
  replace (mark 260) with (290 / 100000000) by (unfold mark; rewrite INR_IZR_INZ; simpl; lra). replace (2 ^ 51) with 2251799813685248 by lra.
  split; [rewrite Rabs_pos_eq; lra|lra].
Qed.
Lemma emissive_rows i : (i < 1371)%nat -> (emissive_f64 (wavelength_f64 i) = true <-> (261 <= i)%nat).
Proof.
  intros I. destruct emissive_grid as (_ & H & L). rewrite forallb_forall in H, L. split.
  - intros E. destruct (le_lt_dec 261 i); [assumption|]. specialize (L i ltac:(apply in_seq; lia)). rewrite E in L. discriminate L.
  - intros J. apply H. apply in_seq. lia.
Qed.
