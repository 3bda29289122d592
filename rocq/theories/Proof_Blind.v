(** * Proof_Blind: lemmas for C135 *)
From Coq Require Import Reals Lra Lia List ZArith.
From Verif Require Import Base_XR Base_Np Base_Interp Model_Geo Model_Db Model_Scenario Model_Sensor Model_Rad Model_Otf Model_Met Model_Img Model_Sim
  Spec_Rad Spec_Met Spec_Blind Proof_Pe Proof_RadP.
Import ListNotations.
Open Scope R_scope.

Lemma no_table_band s atm : s_owl s = [] -> band s atm = Err IndexError.
Proof. intros E. unfold band. rewrite E. reflexivity. Qed.
Lemma no_table ni it diag s c itp m : s_owl s = [] -> loaded ni it c itp m ->
  niirs ni it diag s c itp = (c, Err IndexError) /\ niirs5 ni it diag s c itp = (s, c, Err IndexError).
Proof.
  intros E H. assert (L : load_band ni it s c itp = Err IndexError) by (unfold load_band; rewrite H; cbn [bind]; now apply no_table_band).
  unfold niirs, niirs5. rewrite L. split; reflexivity.
Qed.
Lemma no_table_simulation diag d s c r m atm t T : s_owl s = [] ->
  reflectance_to_photoelectrons atm s t T = Err IndexError /\ simulate_rest diag d s c r m = Err IndexError.
Proof.
  intros E. assert (A : forall atm t T, reflectance_to_photoelectrons atm s t T = Err IndexError)
    by (intros; unfold reflectance_to_photoelectrons; rewrite no_table_band by exact E; reflexivity).
  split; [apply A|]. unfold simulate_rest. rewrite A. reflexivity.
Qed.

Lemma contrast_nothing s em : has_tables s -> s_D s <> 0 -> contrast_part s [] em = Err ValueError.
Proof.
  intros (H1 & H2 & H3 & H4) HD. unfold contrast_part, giqe_radiance.
  destruct (negb (Z.eqb em 0));
  unfold photon_detector_SNR, sensor_opt_trans, sensor_qe, sensor_other_irradiance, cold_shield_self_emission, optics_self_emission,
    cold_stop_self_emission, resample_by_wavelength, signal_rate, at_focal_plane_irradiance;
  rewrite !interp_table_ok, !pydiv_ok by assumption; reflexivity.
Qed.
Lemma nothing_rows s m : sees_nothing s m -> forall a, In a (atm_rows m) -> ~ in_band s a.
Proof.
  intros (lo & hi & E1 & E2 & H) a Ha (lo' & hi' & F1 & F2 & B). apply in_map_iff in Ha. destruct Ha as (i & <- & Hi). apply in_seq in Hi. cbn [a_wl] in B.
  rewrite E1 in F1. rewrite E2 in F2. assert (X : lo' = lo) by congruence. assert (Y : hi' = hi) by congruence. subst lo' hi'.
  change n_wave with 1371%nat in Hi. destruct (H i (proj2 Hi)); lra.
Qed.
Lemma nothing_band s m : s_owl s <> [] -> sees_nothing s m -> band s (atm_rows m) = Ok [].
Proof.
  intros Hn H. destruct (band_ok s (atm_rows m) Hn) as (b & E & B). rewrite E. destruct b as [|a b]; [reflexivity|].
  destruct (proj1 (B a) (or_introl eq_refl)) as [I J]. exfalso. exact (nothing_rows s m H a I J).
Qed.
Lemma nothing_seen ni it diag s c itp m : loaded ni it c itp m -> has_tables s -> s_D s <> 0 -> sees_nothing s m ->
  let c' := snd (bookkeeping s c) in
  niirs ni it diag s c itp = (c', Err ValueError) /\ niirs5 ni it diag s c itp = (s, c', Err ValueError).
Proof.
  intros H Ht HD Hs c'. assert (L : load_band ni it s c itp = Ok []) by (unfold load_band; rewrite H; cbn [bind]; apply nothing_band; [apply Ht | exact Hs]).
  unfold niirs, niirs5, c'. rewrite L. destruct (bookkeeping s c) as [em c1]. cbn [snd]. rewrite contrast_nothing by assumption. split; reflexivity.
Qed.
Lemma nothing_seen_visible ni it diag s c itp m lo : loaded ni it c itp m -> has_tables s -> s_D s <> 0 -> sees_nothing s m ->
  nth_error (s_owl s) 0 = Some lo ->
  exists c', niirs ni it diag s c itp = (c', Err ValueError) /\ niirs5 ni it diag s c itp = (s, c', Err ValueError) /\
    (lo < 2.9 / 10 ^ 6 -> plain c' TargetReflectance = 0.15 /\ plain c' BackgroundReflectance = 0.07) /\
    (2.9 / 10 ^ 6 <= lo -> plain c' TargetReflectance = 0 /\ plain c' BackgroundReflectance = 0 /\ plain c' TargetTemperature = 280).
Proof.
  intros H Ht HD Hs El. destruct (nothing_seen ni it diag s c itp m H Ht HD Hs) as [A B]. eexists. split; [exact A|]. split; [exact B|].
  unfold bookkeeping. replace (nth 0 (s_owl s) 0) with lo by (symmetry; apply nth_error_nth; exact El).
  split; intros C.
  - assert (E : Rleb (2.9 / 10 ^ 6) lo = false) by (apply Rleb_false; exact C). rewrite E. cbn. split; reflexivity.
  - assert (E : Rleb (2.9 / 10 ^ 6) lo = true) by (apply Rleb_true; exact C). rewrite E. cbn. repeat split; reflexivity.
Qed.
Lemma nothing_simulated diag d s c r m : has_tables s -> s_D s <> 0 -> 0 < s_max_n s -> sees_nothing s m ->
  simulate_rest diag d s c r m = Err ValueError.
Proof. intros Ht HD Hn Hs. unfold simulate_rest. rewrite r2p_empty; auto. exact (nothing_rows s m Hs). Qed.

(* a switch between two neighbours *)
Lemma switch (P Q : nat -> Prop) n : (forall i, (i < S n)%nat -> P i \/ Q i) ->
  Q 0%nat \/ P n \/ exists k, (k < n)%nat /\ P k /\ Q (S k).
Proof.
  induction n as [|n IH]; intros H.
  - destruct (H 0%nat) as [A|A]; [lia | right; left; exact A | left; exact A].
  - destruct IH as [A|[A|(k & K & A)]]; [intros i Hi; apply H; lia | left; exact A | | right; right; exists k; split; [lia | exact A]].
    destruct (H (S n)) as [B|B]; [lia | right; left; exact B | right; right; exists n; split; [lia | split; assumption]].
Qed.
Lemma stored_mono i j : (i <= j)%nat -> stored_wavelength i <= stored_wavelength j.
Proof.
  intros H. apply le_INR in H. unfold stored_wavelength, Rdiv.
  apply Rmult_le_compat_r; [left; apply Rinv_0_lt_compat; lra | lra].
Qed.
Lemma stored_first : stored_wavelength 0 = 0.3 / 10 ^ 6.
Proof. unfold stored_wavelength. cbn [INR]. f_equal. lra. Qed.
Lemma stored_last : stored_wavelength 1370 = 14 / 10 ^ 6.
Proof. unfold stored_wavelength. rewrite INR_IZR_INZ. change (IZR (Z.of_nat 1370)) with 1370. f_equal. lra. Qed.
Lemma blind_iff s m lo hi : database_wavelengths m -> nth_error (s_owl s) 0 = Some lo -> nth_error (s_owl s) (length (s_owl s) - 1) = Some hi ->
  (sees_nothing s m <-> hi < 0.3 / 10 ^ 6 \/ 14 / 10 ^ 6 < lo \/ exists k, (k < 1370)%nat /\ stored_wavelength k < lo /\ hi < stored_wavelength (S k)).
Proof.
  intros Hm E1 E2. rewrite <- stored_first, <- stored_last. split.
  - intros (lo' & hi' & F1 & F2 & H). rewrite E1 in F1. rewrite E2 in F2. assert (X : lo' = lo) by congruence. assert (Y : hi' = hi) by congruence. subst lo' hi'.
    apply (switch (fun i => stored_wavelength i < lo) (fun i => hi < stored_wavelength i) 1370). intros i Hi. rewrite <- (Hm i Hi). exact (H i Hi).
  - intros H. exists lo, hi. split; [exact E1|]. split; [exact E2|]. intros i Hi. rewrite (Hm i Hi).
    destruct H as [A|[A|(k & K & A & B)]].
    + right. assert (C := stored_mono 0 i (Nat.le_0_l i)). lra.
    + left. assert (C := stored_mono i 1370 ltac:(lia)). lra.
    + destruct (Nat.le_gt_cases i k) as [D|D]; [left; assert (C := stored_mono i k D); lra | right; assert (C := stored_mono (S k) i D); lra].
Qed.
