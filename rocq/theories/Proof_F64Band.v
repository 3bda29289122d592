(** * Proof_F64Band: spectral bands in binary64 *)
From Coq Require Import Reals ZArith Lia Lra Psatz Floats List Bool FinFun NArith Nnat.
From Flocq Require Import Core IEEE754.BinarySingleNaN IEEE754.PrimFloat.
From Verif Require Import Base_XR Base_Np Model_DbTable Model_Db Model_F64 Model_F64Size Model_F64Db.
From Verif Require Import Spec_Db Spec_F64 Spec_F64Db Proof_Round Proof_F64Size Proof_F64Blend Proof_Db Proof_F64Db Proof_F64Load.
Import ListNotations.
Open Scope R_scope.

(** ** the wavelength column *)
(* |x - n/d| <= n/d / 2^51, for a positive number x *)
Definition near_ratio (x : PrimFloat.float) (n d : Z) : bool :=
  match Prim2SF x with
  | S754_finite false m e =>
      let a := (sf_num (Zpos m) e * d)%Z in let b := (n * sf_den e)%Z in (Z.abs (a - b) * 2 ^ 51 <=? b)%Z
  | _ => false
  end.
Lemma near_ratio_ok x n d : near_ratio x n d = true -> (0 < n)%Z -> (0 < d)%Z ->
  exists v, stands_for x v /\ Rabs (v - IZR n / IZR d) <= IZR n / IZR d * / 2 ^ 51.
Proof.
  intros H N D. unfold near_ratio in H. rewrite <- B2SF_Prim2B in H. destruct (Prim2B x) as [s| | |s m e B] eqn:E; try discriminate.
  simpl B2SF in H. destruct s; [discriminate|]. apply Z.leb_le in H.
  exists (IZR (sf_num (Zpos m) e) / IZR (sf_den e)). split.
  { split; rewrite E; [reflexivity|]. simpl B2R. apply (sf_value false). }
  assert (P := sf_den_pos e). set (a := sf_num (Zpos m) e) in *. set (q := sf_den e) in *. clearbody a q.
  apply IZR_lt in N, D, P. apply IZR_le in H. rewrite !mult_IZR in H. rewrite abs_IZR, minus_IZR, !mult_IZR in H.
  change (IZR (2 ^ 51)) with 2251799813685248 in H. replace (2 ^ 51) with 2251799813685248 by lra.
  replace (IZR a / IZR q - IZR n / IZR d) with ((IZR a * IZR d - IZR n * IZR q) * / (IZR d * IZR q)) by (field; lra).
  assert (Q : 0 < IZR d * IZR q) by (apply Rmult_lt_0_compat; auto).
  rewrite Rabs_mult, (Rabs_pos_eq (/ (IZR d * IZR q))) by (left; now apply Rinv_0_lt_compat).
  apply Rmult_le_reg_r with (IZR d * IZR q); [exact Q|]. rewrite Rmult_assoc, Rinv_l by lra.
  replace (IZR n / IZR d * / 2251799813685248 * (IZR d * IZR q)) with (IZR n * IZR q * / 2251799813685248) by (field; lra). lra.
Qed.
(* the computations below run over binary indices, which the checker evaluates quickly *)
Fixpoint zrange (n : nat) (z : Z) : list Z := match n with O => [] | S n => z :: zrange n (Z.succ z) end.
Lemma zrange_seq n : forall a, map Z.of_nat (seq a n) = zrange n (Z.of_nat a).
Proof. induction n as [|n IH]; intros a; [reflexivity|]. cbn [seq map zrange]. now rewrite IH, Nat2Z.inj_succ. Qed.
Lemma zrange_rows : zrange 1371 0 = map Z.of_nat (seq 0 1371).
Proof. now rewrite zrange_seq. Qed.
Definition wave_z (z : Z) : PrimFloat.float :=
  (1e-6 * (if Z.eqb z 1370 then 14 else f_of_Z z * ((14 - 0.3) / f_of_Z 1370) + 0.3))%float.
Lemma wave_z_eq i : wavelength_f64 i = wave_z (Z.of_nat i).
Proof.
  unfold wavelength_f64, linspace_f64, wave_z. replace (Nat.eqb i (1371 - 1)) with (Z.eqb (Z.of_nat i) 1370); [reflexivity|].
  apply eq_true_iff_eq. rewrite Z.eqb_eq, Nat.eqb_eq. lia.
Qed.
Lemma filter_of_nat (q : Z -> bool) l : filter q (map Z.of_nat l) = map Z.of_nat (filter (fun i => q (Z.of_nat i)) l).
Proof. induction l as [|a l IH]; [reflexivity|]. cbn [map filter]. rewrite IH. now destruct (q (Z.of_nat a)). Qed.
Lemma count_rows (p : nat -> bool) (q : Z -> bool) k : (forall i, p i = q (Z.of_nat i)) ->
  N.of_nat (length (filter q (zrange 1371 0))) = k -> N.of_nat (length (filter p (seq 0 1371))) = k.
Proof. intros E <-. rewrite zrange_rows, filter_of_nat, map_length. now rewrite (filter_ext p _ E). Qed.
Lemma forall_rows (p : nat -> bool) (q : Z -> bool) n a : (forall i, p i = q (Z.of_nat i)) ->
  forallb q (zrange n (Z.of_nat a)) = true -> forallb p (seq a n) = true.
Proof.
  rewrite <- zrange_seq, !forallb_forall. intros E H x I. rewrite E. apply H. now apply in_map.
Qed.
Lemma marks_near : forallb (fun i => near_ratio (wavelength_f64 i) (30 + Z.of_nat i) (10 ^ 8)) (seq 0 1371) = true.
Proof.
  apply (forall_rows _ (fun z => near_ratio (wave_z z) (30 + z) (10 ^ 8)) 1371 0); [intros i; now rewrite wave_z_eq|vm_compute; reflexivity].
Qed.
Lemma mark_ratio i : mark i = IZR (30 + Z.of_nat i) / IZR (10 ^ 8).
Proof. unfold mark. rewrite plus_IZR, <- INR_IZR_INZ. change (IZR (10 ^ 8)) with 100000000. f_equal. lra. Qed.
Lemma mark_pos i : / 10 ^ 8 <= mark i.
Proof. unfold mark. generalize (pos_INR i). intros. lra. Qed.
Lemma wave_close i : (i < 1371)%nat -> exists v, stands_for (wavelength_f64 i) v /\ Rabs (v - mark i) <= mark i / 2 ^ 51.
Proof.
  intros I. generalize marks_near. rewrite forallb_forall. intros H. specialize (H i ltac:(apply in_seq; lia)).
  destruct (near_ratio_ok _ _ _ H ltac:(lia) ltac:(lia)) as (v & V & C). rewrite <- mark_ratio in C. exists v. auto.
Qed.
Lemma mark_up i : (i < 1371)%nat -> mark i <= 1.
Proof.
  intros I. unfold mark. apply lt_INR in I. replace (INR 1371) with 1371 in I by (rewrite INR_IZR_INZ; reflexivity). lra.
Qed.
Lemma wave_interp_close st alt rng h m i : load_interp_f64 st alt rng h = Ok m -> (i < 1371)%nat ->
  exists v, stands_for (m i 0%nat) v /\ Rabs (v - mark i) <= mark i / 2 ^ 48.
Proof.
  intros H I. destruct (wave_close i I) as (w & W & C). assert (P := mark_pos i). assert (U := mark_up i I).
  replace (2 ^ 51) with 2251799813685248 in C by lra. replace (2 ^ 48) with 281474976710656 by lra.
  assert (C' := C). apply Rabs_le_inv in C'.
  assert (S1 : bpow radix2 (-900) <= w).
  { apply Rle_trans with (bpow radix2 (-40)); [apply bpow_le; lia|]. replace (bpow radix2 (-40)) with (/ 1099511627776) by reflexivity. lra. }
  assert (S2 : w <= bpow radix2 799).
  { apply Rle_trans with (bpow radix2 1); [|apply bpow_le; lia]. simpl. lra. }
  destruct (f64_wave st alt rng h m i w H W S1 S2) as (v & V & D). exists v. split; [exact V|].
  unfold eps in D. replace (bpow radix2 (-53)) with (/ 9007199254740992) in D by reflexivity.
  apply Rabs_le_inv in D. apply Rabs_le. lra.
Qed.
Lemma wave_lookup_close st alt rng h m i : load_no_interp_f64 st alt rng h = Ok m -> (i < 1371)%nat ->
  exists v, stands_for (m i 0%nat) v /\ Rabs (v - mark i) <= mark i / 2 ^ 51.
Proof.
  intros H I. rewrite (f64_wavelength _ _ _ _ _ H). now apply wave_close.
Qed.

(** ** bands *)
Lemma band_row lo hi wl i : In i (band_f64 lo hi wl) <-> (i < 1371)%nat /\ PrimFloat.leb lo (wl i) = true /\ PrimFloat.leb (wl i) hi = true.
Proof. unfold band_f64. rewrite !filter_In, in_seq. intuition lia. Qed.
Lemma band_off_mark lo hi a b wl i v : stands_for lo a -> stands_for hi b -> stands_for (wl i) v -> (i < 1371)%nat ->
  Rabs (v - mark i) <= mark i / 2 ^ 48 -> mark i / 2 ^ 48 < Rabs (a - mark i) -> mark i / 2 ^ 48 < Rabs (b - mark i) ->
  (In i (band_f64 lo hi wl) <-> a <= mark i <= b).
Proof.
  intros A B V I C Da Db. rewrite band_row, (f_le _ _ _ _ A V), (f_le _ _ _ _ V B). apply Rabs_le_inv in C.
  split.
  - intros (_ & H1 & H2). split; [destruct (Rle_lt_dec a (mark i)); [assumption|rewrite Rabs_pos_eq in Da; lra]|].
    destruct (Rle_lt_dec (mark i) b); [assumption|]. rewrite Rabs_left in Db; lra.
  - intros [H1 H2]. split; [exact I|]. rewrite Rabs_left1 in Da by lra. rewrite Rabs_pos_eq in Db by lra. lra.
Qed.
Lemma band_interp st alt rng h m lo hi a b i : load_interp_f64 st alt rng h = Ok m -> stands_for lo a -> stands_for hi b -> (i < 1371)%nat ->
  mark i / 2 ^ 48 < Rabs (a - mark i) -> mark i / 2 ^ 48 < Rabs (b - mark i) ->
  (In i (band_f64 lo hi (fun r => m r 0%nat)) <-> a <= mark i <= b).
Proof.
  intros H A B I Da Db. destruct (wave_interp_close st alt rng h m i H I) as (v & V & C).
  exact (band_off_mark lo hi a b (fun r => m r 0%nat) i v A B V I C Da Db).
Qed.
Definition lost_low (i : nat) : bool := negb (PrimFloat.leb (f_decimal (30 + Z.of_nat i) (10 ^ 8)) (wavelength_f64 i)).
Definition lost_high (i : nat) : bool := negb (PrimFloat.leb (wavelength_f64 i) (f_decimal (30 + Z.of_nat i) (10 ^ 8))).
Lemma many {A} (p : A -> bool) l k (Q : A -> Prop) : NoDup l -> N.of_nat (length (filter p l)) = k ->
  (forall x, In x l -> p x = true -> Q x) -> exists l', NoDup l' /\ length l' = N.to_nat k /\ forall x, In x l' -> Q x.
Proof.
  intros D K H. exists (filter p l). split; [now apply NoDup_filter|]. split; [rewrite <- K; symmetry; apply Nat2N.id|].
  intros x I. apply filter_In in I. destruct I. auto.
Qed.
Definition rows : list nat := seq 0 1371.
Lemma rows_in i : In i rows -> (i < 1371)%nat.
Proof. unfold rows. rewrite in_seq. lia. Qed.
Lemma rows_nodup : NoDup rows.
Proof. apply seq_NoDup. Qed.
Lemma not_low lo hi wl i : PrimFloat.leb lo (wl i) = false -> ~ In i (band_f64 lo hi wl).
Proof. intros L H. destruct (proj1 (band_row lo hi wl i) H) as (_ & X & _). congruence. Qed.
Lemma not_high lo hi wl i : PrimFloat.leb (wl i) hi = false -> ~ In i (band_f64 lo hi wl).
Proof. intros L H. destruct (proj1 (band_row lo hi wl i) H) as (_ & _ & X). congruence. Qed.
Lemma low_8 : PrimFloat.leb (f_decimal (30 + Z.of_nat 8) (10 ^ 8)) (wavelength_f64 8) = false.
Proof. vm_compute. reflexivity. Qed.
Lemma ends_refuted : ~ (forall i, (i < 1371)%nat -> In i (band_f64 (f_decimal (30 + Z.of_nat i) (10 ^ 8)) 1 wavelength_f64)).
Proof. intros H. exact (not_low _ _ _ _ low_8 (H 8%nat ltac:(lia))). Qed.
Lemma lost_low_count : N.of_nat (length (filter lost_low rows)) = 321%N.
Proof.
  apply (count_rows _ (fun z => negb (PrimFloat.leb (f_decimal (30 + z) (10 ^ 8)) (wave_z z))));
    [intros i; unfold lost_low; now rewrite wave_z_eq|vm_compute; reflexivity].
Qed.
Lemma lost_high_count : N.of_nat (length (filter lost_high rows)) = 189%N.
Proof.
  apply (count_rows _ (fun z => negb (PrimFloat.leb (wave_z z) (f_decimal (30 + z) (10 ^ 8)))));
    [intros i; unfold lost_high; now rewrite wave_z_eq|vm_compute; reflexivity].
Qed.
Lemma ends_many : exists l, NoDup l /\ length l = N.to_nat 321 /\
  forall i, In i l -> (i < 1371)%nat /\ ~ In i (band_f64 (f_decimal (30 + Z.of_nat i) (10 ^ 8)) 1 wavelength_f64).
Proof.
  apply (many lost_low rows 321%N (fun i => (i < 1371)%nat /\ ~ In i (band_f64 (f_decimal (30 + Z.of_nat i) (10 ^ 8)) 1 wavelength_f64)) rows_nodup lost_low_count).
  intros i I L. split; [exact (rows_in i I)|]. apply not_low. exact (proj1 (negb_true_iff _) L).
Qed.
Lemma ends_many_high : exists l, NoDup l /\ length l = N.to_nat 189 /\
  forall i, In i l -> (i < 1371)%nat /\ ~ In i (band_f64 0 (f_decimal (30 + Z.of_nat i) (10 ^ 8)) wavelength_f64).
Proof.
  apply (many lost_high rows 189%N (fun i => (i < 1371)%nat /\ ~ In i (band_f64 0 (f_decimal (30 + Z.of_nat i) (10 ^ 8)) wavelength_f64)) rows_nodup lost_high_count).
  intros i I L. split; [exact (rows_in i I)|]. apply not_high. exact (proj1 (negb_true_iff _) L).
Qed.
Lemma band_z lo hi a n : filter (fun z => PrimFloat.leb (wave_z z) hi) (filter (fun z => PrimFloat.leb lo (wave_z z)) (zrange 1371 0))
    = zrange n (Z.of_nat a) -> band_f64 lo hi wavelength_f64 = seq a n.
Proof.
  rewrite zrange_rows, !filter_of_nat, <- zrange_seq. intros H. unfold band_f64.
  rewrite (filter_ext (fun i => PrimFloat.leb lo (wavelength_f64 i)) (fun i => PrimFloat.leb lo (wave_z (Z.of_nat i)))) by (intros; now rewrite wave_z_eq).
  rewrite (filter_ext (fun i => PrimFloat.leb (wavelength_f64 i) hi) (fun i => PrimFloat.leb (wave_z (Z.of_nat i)) hi)) by (intros; now rewrite wave_z_eq).
  revert H. generalize (seq a n). generalize (filter (fun i => PrimFloat.leb (wave_z (Z.of_nat i)) hi)
    (filter (fun i => PrimFloat.leb lo (wave_z (Z.of_nat i))) (seq 0 1371))).
  induction l as [|x l IH]; intros [|y l']; cbn [map]; intros H; try discriminate H; [reflexivity|].
  injection H as H1 H2. apply Nat2Z.inj in H1. now rewrite H1, (IH _ H2).
Qed.
Lemma capture_rows : band_f64 (fst capture_band_f64) (snd capture_band_f64) wavelength_f64 = seq 9 32.
Proof. apply band_z. vm_compute. reflexivity. Qed.
Lemma example_rows : band_f64 (fst example_band_f64) (snd example_band_f64) wavelength_f64 = seq 20 17.
Proof. apply band_z. vm_compute. reflexivity. Qed.
Lemma band_ext lo hi wl wl' : (forall i, wl i = wl' i) -> band_f64 lo hi wl = band_f64 lo hi wl'.
Proof.
  intros E. unfold band_f64. rewrite (filter_ext (fun i => PrimFloat.leb lo (wl i)) (fun i => PrimFloat.leb lo (wl' i))) by (intros; now rewrite E).
  apply filter_ext. intros. now rewrite E.
Qed.
Lemma lookup_rows st alt rng h m lo hi : load_no_interp_f64 st alt rng h = Ok m ->
  band_f64 lo hi (fun r => m r 0%nat) = band_f64 lo hi wavelength_f64.
Proof. intros H. apply band_ext. exact (f64_wavelength _ _ _ _ _ H). Qed.

(** ** the band depends on the altitude *)
Definition metres : list Z := map Z.of_nat (seq 75 (N.to_nat 926)).
Lemma metres_nodup : NoDup metres.
Proof. unfold metres. apply FinFun.Injective_map_NoDup; [intros a b; lia|apply seq_NoDup]. Qed.
Lemma metres_z : metres = zrange 926 75.
Proof. unfold metres. now rewrite zrange_seq. Qed.
Lemma metres_in n : In n metres -> (75 <= n <= 1000)%Z.
Proof. unfold metres. intros H. apply in_map_iff in H. destruct H as [k [<- K]]. apply in_seq in K. lia. Qed.
Notation example_lost := (fun n : Z => negb (PrimFloat.leb (wave_at (f_of_Z n) 36) (snd example_band_f64))).
Notation capture_gained := (fun n : Z =>
  PrimFloat.leb (fst capture_band_f64) (wave_at (f_of_Z n) 8) && PrimFloat.leb (wave_at (f_of_Z n) 8) (snd capture_band_f64)).
Lemma example_count : N.of_nat (length (filter example_lost metres)) = 98%N.
Proof. rewrite metres_z. vm_compute. reflexivity. Qed.
Lemma capture_count : N.of_nat (length (filter capture_gained metres)) = 20%N.
Proof. rewrite metres_z. vm_compute. reflexivity. Qed.
Definition example_loses (n : Z) : Prop := (75 <= n <= 1000)%Z /\ forall st h m, load_interp_f64 st (f_of_Z n) 0 h = Ok m ->
    ~ In 36%nat (band_f64 (fst example_band_f64) (snd example_band_f64) (fun r => m r 0%nat)).
Definition capture_gains (n : Z) : Prop := (75 <= n <= 1000)%Z /\ forall st h m, load_interp_f64 st (f_of_Z n) 0 h = Ok m ->
    In 8%nat (band_f64 (fst capture_band_f64) (snd capture_band_f64) (fun r => m r 0%nat)).
Lemma example_lost_ok n : In n metres -> example_lost n = true -> example_loses n.
Proof.
  cbv beta. intros I L. split; [exact (metres_in n I)|]. intros st h m H. apply not_high. rewrite (load_wave _ _ _ _ _ H). exact (proj1 (negb_true_iff _) L).
Qed.
Lemma capture_gained_ok n : In n metres -> capture_gained n = true -> capture_gains n.
Proof.
  cbv beta. intros I L. split; [exact (metres_in n I)|]. intros st h m H. apply band_row. rewrite (load_wave _ _ _ _ _ H). split; [lia|].
  exact (proj1 (andb_true_iff _ _) L).
Qed.
Lemma example_many : exists l, NoDup l /\ length l = N.to_nat 98 /\
  forall n, In n l -> (75 <= n <= 1000)%Z /\ forall st h m, load_interp_f64 st (f_of_Z n) 0 h = Ok m ->
    ~ In 36%nat (band_f64 (fst example_band_f64) (snd example_band_f64) (fun r => m r 0%nat)).
Proof. exact (many example_lost metres 98%N example_loses metres_nodup example_count example_lost_ok). Qed.
Lemma capture_many : exists l, NoDup l /\ length l = N.to_nat 20 /\
  forall n, In n l -> (75 <= n <= 1000)%Z /\ forall st h m, load_interp_f64 st (f_of_Z n) 0 h = Ok m ->
    In 8%nat (band_f64 (fst capture_band_f64) (snd capture_band_f64) (fun r => m r 0%nat)).
Proof. exact (many capture_gained metres 20%N capture_gains metres_nodup capture_count capture_gained_ok). Qed.
Lemma metre_load st h n : complete_f64 st -> (h = 1 \/ h = 2)%Z -> (75 <= n <= 20000)%Z -> exists m, load_interp_f64 st (f_of_Z n) 0 h = Ok m.
Proof.
  intros C H N. apply (ground_load st (f_of_Z n) 0 h (IZR n) C H); [apply f_int_lit; lia|exact (f_int_lit 0 ltac:(lia))|].
  right. split; apply IZR_le; lia.
Qed.
Definition full_store : store_f64 := fun _ => Some (fun _ _ => 1%float).
Lemma full_complete : complete_f64 full_store.
Proof. intros i a g h _. eexists. reflexivity. Qed.
Lemma band_fixed_refuted : ~ (forall st x y h m m', load_interp_f64 st x 0 h = Ok m -> load_interp_f64 st y 0 h = Ok m' ->
  band_f64 (fst example_band_f64) (snd example_band_f64) (fun r => m r 0%nat)
  = band_f64 (fst example_band_f64) (snd example_band_f64) (fun r => m' r 0%nat)).
Proof.
  intros H. destruct (metre_load full_store 1 75 full_complete ltac:(auto) ltac:(lia)) as [m M].
  destruct (metre_load full_store 1 77 full_complete ltac:(auto) ltac:(lia)) as [m' M'].
  specialize (H _ _ _ _ _ _ M M').
  rewrite (band_ext _ _ _ _ (fun i => load_wave _ _ _ _ i M)), (band_ext _ _ _ _ (fun i => load_wave _ _ _ _ i M')) in H.
  assert (A : existsb (Nat.eqb 36) (band_f64 (fst example_band_f64) (snd example_band_f64) (wave_at (f_of_Z 75))) = true) by (vm_compute; reflexivity).
  assert (B : existsb (Nat.eqb 36) (band_f64 (fst example_band_f64) (snd example_band_f64) (wave_at (f_of_Z 77))) = false) by (vm_compute; reflexivity).
  rewrite H, B in A. discriminate A.
Qed.
Lemma wavelength_kept_refuted : ~ (forall st x h m i, load_interp_f64 st x 0 h = Ok m -> (i < 1371)%nat -> m i 0%nat = wavelength_f64 i).
Proof.
  intros H. destruct (metre_load full_store 1 1200 full_complete ltac:(auto) ltac:(lia)) as [m M].
  specialize (H _ _ _ _ 4%nat M ltac:(lia)). rewrite (load_wave _ _ _ _ _ M) in H.
  assert (E : PrimFloat.eqb (wave_at (f_of_Z 1200) 4) (wavelength_f64 4) = false) by (vm_compute; reflexivity).
  rewrite H in E. destruct (wave_close 4 ltac:(lia)) as (v & V & _). rewrite (eqb_self _ _ V) in E. discriminate E.
Qed.
Definition shifted (i : nat) : bool := negb (PrimFloat.eqb (wave_at (f_of_Z 1200) i) (wavelength_f64 i)).
Lemma at_1200 i : wave_at (f_of_Z 1200) i = mixf 1000%float 2000%float 1200%float (wavelength_f64 i) (wavelength_f64 i).
Proof.
  unfold wave_at.
  replace (last_f64 (filter (fun x => PrimFloat.leb x (f_of_Z 1200)) altitude_array_f64)) with (@Ok PrimFloat.float 1000%float) by (vm_compute; reflexivity).
  replace (first_f64 (filter (fun x => PrimFloat.leb (f_of_Z 1200) x) altitude_array_f64)) with (@Ok PrimFloat.float 2000%float) by (vm_compute; reflexivity).
  reflexivity.
Qed.
Lemma shifted_count : N.of_nat (length (filter shifted rows)) = 456%N.
Proof.
  apply (count_rows _ (fun z => negb (PrimFloat.eqb (mixf 1000%float 2000%float 1200%float (wave_z z) (wave_z z)) (wave_z z))));
    [intros i; unfold shifted; now rewrite at_1200, wave_z_eq|vm_compute; reflexivity].
Qed.
Lemma wavelength_changed : exists l, NoDup l /\ length l = N.to_nat 456 /\
  forall i, In i l -> (i < 1371)%nat /\ forall st h m, load_interp_f64 st (f_of_Z 1200) 0 h = Ok m -> m i 0%nat <> wavelength_f64 i.
Proof.
  apply (many shifted rows 456%N (fun i => (i < 1371)%nat /\ forall st h m, load_interp_f64 st (f_of_Z 1200) 0 h = Ok m -> m i 0%nat <> wavelength_f64 i)
    rows_nodup shifted_count).
  intros i I L. assert (J := rows_in i I). split; [exact J|]. intros st h m H. rewrite (load_wave _ _ _ _ _ H). intros E.
  unfold shifted in L. rewrite E in L. destruct (wave_close i J) as (v & V & _). rewrite (eqb_self _ _ V) in L. discriminate L.
Qed.

(** ** the emissive threshold *)
Lemma threshold : exists v, stands_for 2.9e-6 v /\ Rabs (v - mark 260) <= mark 260 / 2 ^ 51.
Proof.
  assert (H : near_ratio 2.9e-6 290 (10 ^ 8) = true) by (vm_compute; reflexivity).
  destruct (near_ratio_ok _ _ _ H ltac:(lia) ltac:(lia)) as (v & V & C). exists v. split; [exact V|]. rewrite mark_ratio. exact C.
Qed.
Lemma emissive_off lo a : stands_for lo a -> mark 260 / 2 ^ 51 < Rabs (a - mark 260) -> (emissive_f64 lo = true <-> mark 260 <= a).
Proof.
  intros A D. destruct threshold as (v & V & C). unfold emissive_f64. rewrite (f_le _ _ _ _ V A). apply Rabs_le_inv in C.
  destruct (Rle_lt_dec (mark 260) a); [rewrite Rabs_pos_eq in D by lra|rewrite Rabs_left in D by lra]; lra.
Qed.
Lemma emissive_260 : emissive_f64 (1e-6 * f_decimal (30 + Z.of_nat 260) 100) = false.
Proof. vm_compute. reflexivity. Qed.
Lemma emissive_refuted : ~ (forall i, (260 <= i < 1371)%nat -> emissive_f64 (1e-6 * f_decimal (30 + Z.of_nat i) 100) = true).
Proof. intros H. specialize (H 260%nat ltac:(lia)). rewrite emissive_260 in H. discriminate H. Qed.
Lemma emissive_grid : emissive_f64 (wavelength_f64 260) = false /\ forallb (fun i => emissive_f64 (wavelength_f64 i)) (seq 261 1110) = true
  /\ forallb (fun i => negb (emissive_f64 (wavelength_f64 i))) (seq 0 261) = true.
Proof.
  split; [vm_compute; reflexivity|]. split.
  - apply (forall_rows _ (fun z => emissive_f64 (wave_z z)) 1110 261); [intros i; now rewrite wave_z_eq|vm_compute; reflexivity].
  - apply (forall_rows _ (fun z => negb (emissive_f64 (wave_z z))) 261 0); [intros i; now rewrite wave_z_eq|vm_compute; reflexivity].
Qed.

(** ** statements with powers of two *)
Lemma pow_pos_bpow n : 2 ^ n = bpow radix2 (Z.of_nat n).
Proof. symmetry. rewrite bpow_powerRZ. simpl (IZR radix2). now rewrite <- pow_powerRZ. Qed.
Lemma pow_neg_bpow n : / 2 ^ n = bpow radix2 (- Z.of_nat n).
Proof. rewrite bpow_opp. now rewrite <- pow_pos_bpow. Qed.
Lemma within_pow st alt rng h m i c k : load_interp_f64 st alt rng h = Ok m -> (k <= 799)%nat ->
  entries_within st i c (2 ^ k) -> exists v, stands_for (m i (S c)) v /\ 0 <= v <= 2 ^ k.
Proof.
  intros H K. rewrite pow_pos_bpow. intros E. apply (f64_range st alt rng h m i c (Z.of_nat k) H); [lia|exact E].
Qed.
Lemma agrees_close st files alt rng h ra rg m : same_files st files -> stands_for alt ra -> stands_for rng rg ->
  load_interp_f64 st alt rng h = Ok m -> exists mr, load_interp files ra rg h = Ok mr /\
  forall i c b, (i < 1371)%nat -> (c < 5)%nat -> entries_within st i c b -> / 2 ^ 900 <= b <= 2 ^ 799 ->
    exists v, stands_for (m i (S c)) v /\ Rabs (v - mr i (S c)) <= b / 2 ^ 48.
Proof.
  intros SF A G H. destruct (agrees_ok st files alt rng h ra rg m SF A G H) as (mr & M & C). exists mr. split; [exact M|].
  intros i c b I J E [B1 B2]. rewrite pow_neg_bpow in B1. rewrite pow_pos_bpow in B2.
  destruct (C i c b I J E B1 B2) as (v & V & D). exists v. split; [exact V|].
  assert (P : 0 < b) by (apply Rlt_le_trans with (2 := B1); apply bpow_gt_0).
  unfold eps in D. replace (bpow radix2 (-53)) with (/ 9007199254740992) in D by reflexivity.
  replace (2 ^ 48) with 281474976710656 by lra. lra.
Qed.
Lemma agrees_iff st files alt rng h ra rg : same_files st files -> stands_for alt ra -> stands_for rng rg ->
  ((exists m, load_interp_f64 st alt rng h = Ok m) <-> (exists mr, load_interp files ra rg h = Ok mr)).
Proof.
  intros SF A G. split.
  - intros [m H]. destruct (agrees_ok st files alt rng h ra rg m SF A G H) as (mr & M & _). exists mr. exact M.
  - intros [mr H]. exact (agrees_back st files alt rng h ra rg mr SF A G H).
Qed.
