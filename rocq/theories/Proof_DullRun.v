(** * Proof_DullRun: more blur or turbulence against the ratings *)
From Coq Require Import Reals Lra List Lia ZArith Psatz Bool Sorted.
From Verif Require Import Base_XR Base_Np Base_NpFacts Base_Interp Model_Geo Model_Noise Model_Db Model_Scenario Model_Sensor Model_Rad Model_Otf Model_Img Model_Met
  Spec_Geo Spec_Noise Spec_Rad Spec_Filter Spec_System Spec_Chain Spec_Met Spec_Quality Spec_Trade Proof_Geo Proof_Noise Proof_Rad Proof_Snr Proof_Pe Proof_RadP
  Proof_Turb Proof_Filter Proof_Weight Proof_System Proof_SystemX Proof_Slice Proof_Edge Proof_Giqe Proof_Contrast Proof_Niirs Proof_MetX Proof_Trade Proof_Dull.
Import ListNotations.
Open Scope R_scope.

Lemma same_blur s : with_blur s (s_sx s) (s_sy s) (s_pv s) = s.
Proof. destruct s. reflexivity. Qed.
(* narrow bands: the system passes no frequency better than the zero frequency *)
Lemma never_amplifies diag k s c pts ps sl ti o : good_spectrum ps -> comparable ps -> good_optics s -> good_path c sl ->
  0 < s_px s -> 0 < s_f s -> (length (s_kernel s) <= 1)%nat -> 0 <= plain c AircraftSpeed * (ti * s_ntdi s) ->
  common_OTFs diag k s c pts (map fst ps) (map (fun p => Fin (snd p)) ps) sl ti = Ok o ->
  forall j u v, nth_error pts j = Some (u, v) -> exists a, nth_error (system_OTF o) j = Some (Fin a) /\ Rabs a <= 1.
Proof.
  intros GS CM GO GP Hp Hf K Sp E j u v Ej.
  assert (E' := E). rewrite <- (same_blur s) in E' at 1.
  destruct (system_compare diag k s (s_sx s) (s_sy s) (s_pv s) c c pts ps sl ti o o GS GO GP GP CM Sp (Rle_refl _) (Rle_refl _) (Rle_refl _)
     eq_refl eq_refl (Rle_refl _) (Rle_refl _) E E' Hp Hf j u v Ej) as (a & b & H1 & _ & _ & H2).
  exists a. split; [exact H1 | exact (H2 K)].
Qed.

(** ** The edge response *)
Lemma freq_sasc df n k : 0 < df -> sascending (map (freq_of df) (seq k n)).
Proof.
  intros H. revert k. induction n as [|n IH]; intros k; simpl; auto. destruct n as [|n]; simpl; auto. split.
  - unfold freq_of. rewrite (S_INR k). nra.
  - apply (IH (S k)).
Qed.
Lemma trapezoid_of mtf df ifov : slope mtf df ifov
  = 2 * trapezoid (map (fun i => nth i mtf 0 * sin (PI * (freq_of df i * ifov)) / (PI * freq_of df i)) (seq 0 (length mtf)))
                  (map (freq_of df) (seq 0 (length mtf))).
Proof.
  unfold slope, edge_at.
  rewrite (map_ext (fun i => nth i mtf 0 * sin (2 * PI * freq_of df i * (ifov * (1 / 2))) / (PI * freq_of df i))
     (fun i => nth i mtf 0 * sin (PI * (freq_of df i * ifov)) / (PI * freq_of df i))).
  - set (T := trapezoid _ _). lra.
  - intros i. do 3 f_equal. field.
Qed.
Lemma slope_mono m m' df ifov : 0 < df -> 0 < ifov -> length m' = length m ->
  (forall i, (i < length m)%nat -> 0 <= nth i m' 0 <= nth i m 0 /\ freq_of df i * ifov <= 1) ->
  0 <= slope m' df ifov <= slope m df ifov /\
  ((2 <= length m)%nat -> 0 < nth 0 m' 0 -> freq_of df 0 * ifov < 1 -> 0 < slope m' df ifov).
Proof.
  intros Hd Hi L H. rewrite !trapezoid_of, L. set (n := length m) in *. pose proof PI_RGT_0 as HP.
  assert (S : forall i, (i < n)%nat -> 0 <= sin (PI * (freq_of df i * ifov)) / (PI * freq_of df i)).
  { intros i Hn. destruct (H i Hn) as [_ F]. pose proof (freq_pos df i ltac:(lra)) as Q.
    assert (0 < freq_of df i * ifov) by (apply Rmult_lt_0_compat; auto).
    apply div_ge0.
    - apply sin_ge_0; [left; apply Rmult_lt_0_compat; auto|]. rewrite <- (Rmult_1_r PI) at 2. apply Rmult_le_compat_l; lra.
    - apply Rmult_lt_0_compat; auto. }
  assert (A : forall i, In i (seq 0 n) -> 0 <= nth i m' 0 * sin (PI * (freq_of df i * ifov)) / (PI * freq_of df i)
              <= nth i m 0 * sin (PI * (freq_of df i * ifov)) / (PI * freq_of df i)).
  { intros i Hin. apply in_seq in Hin. destruct (H i ltac:(lia)) as [F _]. specialize (S i ltac:(lia)).
    unfold Rdiv in *. rewrite !(Rmult_assoc (nth _ _ _)). split; [apply Rmult_le_pos; lra | apply Rmult_le_compat_r; lra]. }
  split; [split|].
  - assert (0 <= trapezoid (map (fun i => nth i m' 0 * sin (PI * (freq_of df i * ifov)) / (PI * freq_of df i)) (seq 0 n)) (map (freq_of df) (seq 0 n))); [|lra].
    apply trapezoid_nonneg; [apply A|]. apply freq_asc. lra.
  - apply Rmult_le_compat_l; [lra|]. apply trapezoid_mono; [apply A|]. apply freq_asc. lra.
  - intros N2 M0 F0. apply Rmult_lt_0_compat; [lra|].
    apply (trapezoid_pos _ _ _ 0%nat).
    + rewrite seq_length. exact N2.
    + apply A.
    + apply freq_sasc, Hd.
    + apply in_seq. lia.
    + pose proof (freq_pos df 0 ltac:(lra)) as Q. assert (0 < freq_of df 0 * ifov) by (apply Rmult_lt_0_compat; auto).
      apply Rdiv_lt_0_compat; [|apply Rmult_lt_0_compat; auto]. apply Rmult_lt_0_compat; [exact M0|].
      apply sin_gt_0; [apply Rmult_lt_0_compat; auto|]. rewrite <- (Rmult_1_r PI) at 2. apply Rmult_lt_compat_l; lra.
Qed.
Lemma trap_ones df n : (0 < n)%nat -> trapezoid (map (fun _ => 1) (seq 0 n)) (map (freq_of df) (seq 0 n)) = df * INR (n - 1).
Proof.
  intros Hn. destruct n as [|n]; [lia|]. clear Hn. replace (S n - 1)%nat with n by lia.
  enough (G : forall n k, trapezoid (map (fun _ => 1) (seq k (S n))) (map (freq_of df) (seq k (S n))) = df * INR n) by apply G.
  clear n. intros n. induction n as [|n IH]; intros k.
  - cbn. ring.
  - change (seq k (S (S n))) with (k :: seq (S k) (S n)). change (seq (S k) (S n)) with (S k :: seq (S (S k)) n) at 1 2.
    cbn [map]. specialize (IH (S k)). change (seq (S k) (S n)) with (S k :: seq (S (S k)) n) in IH. cbn [map] in IH.
    change (trapezoid (1 :: 1 :: map (fun _ => 1) (seq (S (S k)) n)) (freq_of df k :: freq_of df (S k) :: map (freq_of df) (seq (S (S k)) n)))
      with ((freq_of df (S k) - freq_of df k) * (1 + 1) / 2
            + trapezoid (1 :: map (fun _ => 1) (seq (S (S k)) n)) (freq_of df (S k) :: map (freq_of df) (seq (S (S k)) n))).
    rewrite IH. unfold freq_of. rewrite !S_INR. field.
Qed.
Lemma slope_le1 m df ifov : 0 < df -> 0 < ifov -> (0 < length m)%nat ->
  (forall i, (i < length m)%nat -> 0 <= nth i m 0 <= 1 /\ freq_of df i * ifov <= 1) ->
  2 * ifov * (df * INR (length m - 1)) <= 1 -> slope m df ifov <= 1.
Proof.
  intros Hd Hi Hl H B.
  assert (N : all_nonneg m).
  { intros x Hx. destruct (In_nth _ _ 0 Hx) as (i & L & <-). apply (H i L). }
  destruct (rer_bounds m df ifov ltac:(lra) ltac:(lra) N) as (r & E & R0).
  { intros i L. apply (H i L). }
  rewrite rer_value in E by lra. apply ok_inj in E. injection E as <-. fold (slope m df ifov) in R0.
  assert (T : trapezoid m (map (freq_of df) (seq 0 (length m))) <= df * INR (length m - 1)).
  { rewrite <- trap_ones by exact Hl. rewrite (list_as_map m 0) at 1. apply trapezoid_mono.
    - intros i Hin. apply in_seq in Hin. apply (H i ltac:(lia)).
    - apply freq_asc. lra. }
  assert (2 * ifov * trapezoid m (map (freq_of df) (seq 0 (length m))) <= 2 * ifov * (df * INR (length m - 1))) by (apply Rmult_le_compat_l; lra).
  lra.
Qed.

(** ** Two runs *)
Lemma good_blur s sx sy pv : good_camera s -> s_pv s <= pv -> good_camera (with_blur s sx sy pv).
Proof.
  intros (P & So & (G1 & G2 & G3 & G4 & G5 & G6) & Hf & Hx & Hy) Hp. destruct P.
  split; [constructor; assumption|]. split; [exact So|]. split; [|auto]. repeat split; auto. cbn. lra.
Qed.
Lemma book_air s c cn2 wind : fst (bookkeeping s (with_air c cn2 wind)) = fst (bookkeeping s c) /\
  plain (snd (bookkeeping s (with_air c cn2 wind))) Cn2At1m = cn2 /\
  plain (snd (bookkeeping s (with_air c cn2 wind))) HaWindSpeed = wind /\
  plain (snd (bookkeeping s (with_air c cn2 wind))) AircraftSpeed = plain c AircraftSpeed.
Proof. unfold bookkeeping. destruct (Rleb _ _); repeat split; reflexivity. Qed.
Lemma book_plain s c : plain (snd (bookkeeping s c)) Cn2At1m = plain c Cn2At1m /\
  plain (snd (bookkeeping s c)) HaWindSpeed = plain c HaWindSpeed /\ plain (snd (bookkeeping s c)) AircraftSpeed = plain c AircraftSpeed.
Proof. unfold bookkeeping. destruct (Rleb _ _); repeat split; reflexivity. Qed.

Section Runs.
  Variables (ni it : loader) (diag : nat -> nat -> bool) (s : sensor) (c : scen) (itp : bool) (m : atm) (em : bool) (sx sy pv cn2 wind : R).
  Hypothesis Hload : loaded ni it c itp m.
  Hypothesis Hcam : good_camera s.
  Hypothesis Hem : em = true <-> emissive_band s.
  Hypothesis Hatm : good_atmosphere s em (atm_rows m).
  Hypothesis Halt : 0 < altitude c.
  Hypothesis Hsp : 0 <= plain c AircraftSpeed.
  Hypothesis H3 : three_octaves s (atm_rows m).
  Hypothesis H1 : sampled 1 s (atm_rows m).
  Hypothesis Hbl : blurrier s sx sy pv.
  Hypothesis Hro : rougher c cn2 wind.

  (* the two transfer functions point by point; S is the camera with or without its kernel *)
  Lemma tables_compare S rows ct sl t o o' v v' : S = s \/ S = no_sharpening s ->
    seen_rows s (atm_rows m) rows -> contrast_part s rows (fst (bookkeeping s c)) = Ok ct ->
    curved_earth_slant_range 0 (altitude c) (ground_range c) = Fin sl -> m_int_time (ct_snr ct) = Fin t ->
    common_OTFs diag Np S (snd (bookkeeping s c)) (ct_pts ct) (ct_wl ct) (ct_w ct) sl t = Ok o ->
    common_OTFs diag Np (with_blur S sx sy pv) (snd (bookkeeping s (with_air c cn2 wind))) (ct_pts ct) (ct_wl ct) (ct_w ct) sl t = Ok o' ->
    system_OTF o = map Fin v -> system_OTF o' = map Fin v' ->
    (forall j, (j < 101 * 101)%nat -> Rabs (nth j v' 0) <= Rabs (nth j v 0) /\ ((length (s_kernel S) <= 1)%nat -> Rabs (nth j v 0) <= 1)) /\
    ((length (s_kernel S) <= 1)%nat -> nth (50 * 101 + 50) v' 0 = 1).
  Proof.
    intros HS V E Esl Et Eo Eo' Ev Ev'.
    destruct Hcam as (P & So & GO & Hf & Hpx & Hpy). destruct Hatm as (Sr & Ss & a & x & y & Ia & Ba & R1 & R2 & Pos).
    assert (Sr' : sound_rows rows) by (intros b Hb; apply Sr, V, Hb).
    destruct (contrast_shape s c m em P Hem Sr rows ct V E) as (_ & B & W).
    destruct (grid_shape s rows _ ct P Sr' E) as (lmin & _ & _ & L0 & Ecut & Edf & Lp & Gr).
    assert (EX : exists a, In a rows /\ 0 < dN_at s (a_wl a) (giqe_target (isem (fst (bookkeeping s c))) a)).
    { exists a. split; [apply V; split; assumption|]. rewrite bookkeeping_em, <- (emissive_iff s em Hem).
      rewrite <- (electrons_at s x y); [exact Pos | apply (ph_tables _ P) | assumption..|]. apply (Sr a Ia). }
    destruct (spectrum_good s rows (fst (bookkeeping s c)) P Sr' (proj2 V Ss) EX) as [GS _].
    destruct (niirs_path _ _ _ Halt Esl) as (P1 & P2 & P3). rewrite B, W in Eo, Eo'.
    assert (CM : comparable (spectrum s rows (fst (bookkeeping s c)))).
    { intros p q Hp Hq. unfold spectrum in Hp, Hq. apply in_map_iff in Hp, Hq. destruct Hp as (b & <- & Hb). destruct Hq as (d & <- & Hd).
      apply filter_In in Hb, Hd. cbn [fst]. destruct Hb as [Hb _]. destruct Hd as [Hd _]. apply V in Hb, Hd. apply H3; tauto. }
    assert (GO' : good_optics S) by (destruct HS as [-> | ->]; exact GO).
    assert (Hpx' : 0 < s_px S) by (destruct HS as [-> | ->]; exact Hpx).
    assert (Hf' : 0 < s_f S) by (destruct HS as [-> | ->]; exact Hf).
    destruct Hbl as (Jx & Jy & Jp). destruct Hro as (Cn & Wi).
    destruct (book_air s c cn2 wind) as (_ & A1 & A2 & A3). destruct (book_plain s c) as (Q1 & Q2 & Q3).
    assert (Alt1 : altitude (snd (bookkeeping s c)) = altitude c) by exact (proj1 (bookkeeping_same _ _)).
    assert (Alt2 : altitude (snd (bookkeeping s (with_air c cn2 wind))) = altitude c) by exact (proj1 (bookkeeping_same _ _)).
    destruct (contrast_ok s rows (fst (bookkeeping s c)) P Sr' (proj2 V Ss) EX) as (ct' & t' & Ec & _ & _ & Et' & T0 & _).
    rewrite E in Ec. apply ok_inj in Ec. subst ct'. rewrite Et in Et'. injection Et' as <-.
    assert (N0 : 0 <= s_ntdi S) by (destruct HS as [-> | ->]; apply (ph_ntdi _ P)).
    set (c1 := snd (bookkeeping s c)) in *. set (c2 := snd (bookkeeping s (with_air c cn2 wind))) in *.
    assert (GP : good_path c1 sl) by (right; rewrite Alt1; auto).
    assert (GP' : good_path c2 sl) by (right; rewrite Alt2; auto).
    set (ps := spectrum s rows (fst (bookkeeping s c))) in *.
    assert (K := system_compare diag Np S sx sy pv c1 c2 (ct_pts ct) ps sl t o o' GS GO' GP GP' CM).
    assert (K' : forall j u w, nth_error (ct_pts ct) j = Some (u, w) -> exists a b,
      nth_error (system_OTF o) j = Some (Fin a) /\ nth_error (system_OTF o') j = Some (Fin b) /\ Rabs b <= Rabs a /\
      ((length (s_kernel S) <= 1)%nat -> Rabs a <= 1)).
    { apply K; auto; try (destruct HS as [-> | ->]; assumption).
      - rewrite Q3. apply Rmult_le_pos; [exact Hsp | apply Rmult_le_pos; assumption].
      - rewrite Alt1. exact Alt2.
      - rewrite A3, Q3. reflexivity.
      - rewrite A1, Q1. exact Cn.
      - rewrite A2, Q2. exact Wi. }
    clear K. split.
    - intros j Hj. destruct (nth_error (ct_pts ct) j) as [[u w]|] eqn:Ej.
      + destruct (K' j u w Ej) as (p & q & E1 & E2 & L & L1). rewrite Ev, nth_error_map in E1. rewrite Ev', nth_error_map in E2.
        destruct (nth_error v j) as [p'|] eqn:F1; [|discriminate]. destruct (nth_error v' j) as [q'|] eqn:F2; [|discriminate].
        cbn in E1, E2. injection E1 as <-. injection E2 as <-. rewrite (nth_error_nth _ _ 0 F1), (nth_error_nth _ _ 0 F2). split; assumption.
      + apply nth_error_None in Ej. rewrite Lp in Ej. lia.
    - intros L. assert (G2 : good_optics (with_blur S sx sy pv)).
      { destruct GO' as (? & ? & ? & ? & ? & ?). repeat split; auto. cbn. assert (s_pv S = s_pv s) by (destruct HS as [-> | ->]; reflexivity). lra. }
      destruct (common_good diag Np (with_blur S sx sy pv) c2 (ct_pts ct) ps sl t GS G2 GP' L) as (o2 & Eo2 & _ & J).
      rewrite Eo' in Eo2. apply ok_inj in Eo2. subst o2.
      assert (C : nth_error (ct_pts ct) (50 * 101 + 50) = Some (0, 0)).
      { assert (nth (50 * 101 + 50) (ct_pts ct) (0, 0) = (0, 0)).
        { rewrite Gr by lia. replace (INR 50) with 50 by (simpl; ring). f_equal; ring. }
        rewrite (nth_error_nth' (ct_pts ct) (0, 0)) by (rewrite Lp; lia). f_equal. exact H. }
      destruct (J _ _ _ C) as (b1 & b2 & b3 & b4 & b5 & b6 & _ & _ & _ & _ & _ & _ & _ & E1 & E2 & _).
      rewrite E2 in E1 by reflexivity. rewrite Ev', nth_error_map in E1. destruct (nth_error v' (50 * 101 + 50)) as [q|] eqn:F; [|discriminate].
      cbn in E1. injection E1 as ->. apply (nth_error_nth _ _ 0 F).
  Qed.

  Lemma cutoff_bounds n rows ct : sampled n s (atm_rows m) -> 0 < n -> seen_rows s (atm_rows m) rows -> contrast_part s rows (fst (bookkeeping s c)) = Ok ct ->
    0 < ct_df ct /\ n * (s_px s / s_f s * (50 * ct_df ct + 1 / 10 ^ 6)) <= 1 /\ n * (s_py s / s_f s * (50 * ct_df ct + 1 / 10 ^ 6)) <= 1.
  Proof.
    intros Hs Hn V E.
    destruct Hcam as (P & So & GO & Hf & Hpx & Hpy). destruct Hatm as (Sr & Ss & _).
    assert (Sr' : sound_rows rows) by (intros b Hb; apply Sr, V, Hb).
    destruct (contrast_shape s c m em P Hem Sr rows ct V E) as (_ & B & W).
    destruct (grid_shape s rows _ ct P Sr' E) as (lmin & In1 & _ & L0 & Ecut & Edf & Lp & Gr).
    assert (D0 : 0 < s_D s) by apply GO.
    assert (C0 : 0 < s_D s / lmin) by (apply Rdiv_lt_0_compat; assumption).
    rewrite Edf, Ecut. split; [apply Rdiv_lt_0_compat; lra|].
    rewrite B in In1. unfold spectrum in In1. rewrite map_map in In1. apply in_map_iff in In1. destruct In1 as (a & <- & Ha).
    apply filter_In in Ha. destruct Ha as [Ha _]. apply V in Ha. cbn [fst] in *.
    replace (50 * (s_D s / a_wl a / 50)) with (s_D s / a_wl a) by (field; lra). apply Hs; tauto.
  Qed.
  Lemma freq_cut df ifov n i : 0 < df -> 0 < ifov -> n * (ifov * (50 * df + 1 / 10 ^ 6)) <= 1 -> 0 < n -> (i < 50)%nat -> n * (freq_of df i * ifov) <= 1.
  Proof.
    intros Hd Hi H Hn L. unfold freq_of.
    assert (INR i <= 50) by (replace 50 with (INR 50) by (simpl; ring); apply le_INR; lia).
    assert (df * INR i <= 50 * df) by nra.
    assert (ifov * (df * INR i + / 10 ^ 6) <= ifov * (50 * df + 1 / 10 ^ 6)) by (apply Rmult_le_compat_l; lra).
    assert (n * (ifov * (df * INR i + / 10 ^ 6)) <= n * (ifov * (50 * df + 1 / 10 ^ 6))) by (apply Rmult_le_compat_l; lra).
    lra.
  Qed.

  Lemma lines_len v : length (rightwards v) = 50%nat /\ length (upwards v) = 50%nat.
  Proof. unfold rightwards, upwards. rewrite !map_length, !seq_length. auto. Qed.
  Lemma line_nth v i : (i < 50)%nat -> nth i (rightwards v) 0 = Rabs (nth (50 * 101 + (50 + i)) v 0) /\ nth i (upwards v) 0 = Rabs (nth ((50 - i) * 101 + 50) v 0).
  Proof.
    intros L. unfold rightwards, upwards.
    split.
    - rewrite (nth_indep _ 0 (Rabs (nth (50 * 101 + (50 + 0)) v 0))) by (rewrite map_length, seq_length; exact L).
      rewrite (map_nth (fun i => Rabs (nth (50 * 101 + (50 + i)) v 0)) (seq 0 50) 0%nat i). rewrite seq_nth by exact L. reflexivity.
    - rewrite (nth_indep _ 0 (Rabs (nth ((50 - 0) * 101 + 50) v 0))) by (rewrite map_length, seq_length; exact L).
      rewrite (map_nth (fun i => Rabs (nth ((50 - i) * 101 + 50) v 0)) (seq 0 50) 0%nat i). rewrite seq_nth by exact L. reflexivity.
  Qed.
  Lemma slopes_compare v v' df : 0 < df -> (forall j, (j < 101 * 101)%nat -> Rabs (nth j v' 0) <= Rabs (nth j v 0)) ->
    forall ifov, 0 < ifov -> 1 * (ifov * (50 * df + 1 / 10 ^ 6)) <= 1 ->
    (0 <= slope (rightwards v') df ifov <= slope (rightwards v) df ifov /\ 0 <= slope (upwards v') df ifov <= slope (upwards v) df ifov) /\
    (nth (50 * 101 + 50) v' 0 = 1 -> 0 < slope (rightwards v') df ifov /\ 0 < slope (upwards v') df ifov).
  Proof.
    intros Hd H ifov Hi Hc. destruct (lines_len v) as [L1 L2]. destruct (lines_len v') as [L1' L2'].
    assert (F : forall i, (i < 50)%nat -> freq_of df i * ifov <= 1).
    { intros i L. assert (Q := freq_cut df ifov 1 i Hd Hi Hc Rlt_0_1 L). lra. }
    assert (F0 : freq_of df 0 * ifov < 1).
    { assert (Q := F 1%nat ltac:(lia)). unfold freq_of in *. simpl INR in *. nra. }
    destruct (slope_mono (rightwards v) (rightwards v') df ifov Hd Hi) as [A1 A2]; [lia| |].
    { intros i L. rewrite L1 in L. destruct (line_nth v i L) as [-> _]. destruct (line_nth v' i L) as [-> _].
      split; [split; [apply Rabs_pos | apply H; lia] | apply F, L]. }
    destruct (slope_mono (upwards v) (upwards v') df ifov Hd Hi) as [B1 B2]; [lia| |].
    { intros i L. rewrite L2 in L. destruct (line_nth v i L) as [_ ->]. destruct (line_nth v' i L) as [_ ->].
      split; [split; [apply Rabs_pos | apply H; lia] | apply F, L]. }
    split; [split; assumption|]. intros C.
    split; [apply A2 | apply B2]; try (rewrite ?L1, ?L2; lia); try exact F0.
    - destruct (line_nth v' 0 ltac:(lia)) as [-> _]. replace (50 + 0)%nat with 50%nat by lia. rewrite C, Rabs_R1. lra.
    - destruct (line_nth v' 0 ltac:(lia)) as [_ ->]. replace (50 - 0)%nat with 50%nat by lia. rewrite C, Rabs_R1. lra.
  Qed.
  Lemma slopes_le1 v df ifov : 0 < df -> 0 < ifov -> (forall j, (j < 101 * 101)%nat -> Rabs (nth j v 0) <= 1) ->
    2 * (ifov * (50 * df + 1 / 10 ^ 6)) <= 1 -> slope (rightwards v) df ifov <= 1 /\ slope (upwards v) df ifov <= 1.
  Proof.
    intros Hd Hi H Hc. destruct (lines_len v) as [L1 L2].
    assert (F : forall i, (i < 50)%nat -> freq_of df i * ifov <= 1).
    { intros i L. assert (Q := freq_cut df ifov 2 i Hd Hi Hc ltac:(lra) L).
      assert (0 < freq_of df i * ifov) by (apply Rmult_lt_0_compat; [apply freq_pos; lra | exact Hi]). lra. }
    assert (B : 2 * ifov * (df * 49) <= 1).
    { assert (0 < ifov * df) by (apply Rmult_lt_0_compat; auto). assert (0 < ifov * (1 / 10 ^ 6)) by (apply Rmult_lt_0_compat; lra). lra. }
    split; apply slope_le1; auto; rewrite ?L1, ?L2; try lia; try (replace (INR (50 - 1)) with 49 by (simpl; ring); exact B);
      intros i L; (split; [|apply F, L]).
    - destruct (line_nth v i L) as [-> _]. split; [apply Rabs_pos | apply H; lia].
    - destruct (line_nth v i L) as [_ ->]. split; [apply Rabs_pos | apply H; lia].
  Qed.

  Lemma load5_air : loaded ni it (with_air c cn2 wind) itp m.
  Proof. exact Hload. Qed.
  Lemma atm_blur : good_atmosphere (with_blur s sx sy pv) em (atm_rows m).
  Proof. exact Hatm. Qed.

  Lemma dull_niirs5 : exists m1 m2 x y x' y',
    niirs5 ni it diag s c itp = (no_sharpening s, snd (bookkeeping s c), Ok m1) /\
    niirs5 ni it diag (with_blur s sx sy pv) (with_air c cn2 wind) itp
      = (no_sharpening (with_blur s sx sy pv), snd (bookkeeping s (with_air c cn2 wind)), Ok m2) /\
    f_contrast m2 = f_contrast m1 /\ f_gsd_x m2 = f_gsd_x m1 /\ f_elev m2 = f_elev m1 /\
    f_rer_0 m1 = Fin x /\ f_rer_90 m1 = Fin y /\ f_rer_0 m2 = Fin x' /\ f_rer_90 m2 = Fin y' /\
    0 < x' <= x /\ 0 < y' <= y /\ (sampled 2 s (atm_rows m) -> x <= 1 /\ y <= 1) /\
    (0 < s_frames s -> x <= 1 -> y <= 1 -> forall snr, m_snr (ct_snr (f_contrast m1)) = Fin snr -> 0 < snr ->
       exists n1 n2, f_niirs m1 = Fin n1 /\ f_niirs m2 = Fin n2 /\ n2 <= n1).
  Proof.
    assert (Hcam' := good_blur s sx sy pv Hcam (proj2 (proj2 Hbl))).
    destruct (niirs5_succeeds ni it diag s c itp m em Hload Hcam Hem Hatm Halt) as (m1 & snr1 & r0 & r9 & e & E & Es & Ps & Eg & En & Er0 & Er9 & Ee & Se & Eq).
    destruct (niirs5_succeeds ni it diag (with_blur s sx sy pv) (with_air c cn2 wind) itp m em load5_air Hcam' Hem atm_blur Halt)
      as (m2 & snr2 & r0' & r9' & e' & E' & Es' & Ps' & Eg' & En' & Er0' & Er9' & Ee' & Se' & Eq').
    change (bookkeeping (with_blur s sx sy pv)) with (bookkeeping s) in E'.
    cbn [with_air altitude ground_range] in Es'. rewrite Es in Es'. apply fin_inj in Es'.
    destruct (niirs5_renoise ni it diag s c itp 0 0 [] _ _ _ E) as (_ & _ & _ & _ & _ & _ & _ & _ & _ & _ & _ & _ & _ & _ & _ & rows & El & Ec & _).
    destruct (niirs5_renoise ni it diag _ _ itp 0 0 [] _ _ _ E') as (_ & _ & _ & _ & _ & _ & _ & _ & _ & _ & _ & _ & _ & _ & _ & rows' & El' & Ec' & _).
    change (load_band ni it (with_blur s sx sy pv) (with_air c cn2 wind) itp) with (load_band ni it s c itp) in El'. rewrite El in El'. apply ok_inj in El'. subst rows'.
    change (bookkeeping (with_blur s sx sy pv)) with (bookkeeping s) in Ec'. rewrite (proj1 (book_air s c cn2 wind)) in Ec'.
    change (contrast_part (with_blur s sx sy pv)) with (contrast_part s) in Ec'. rewrite Ec in Ec'. apply ok_inj in Ec'.
    assert (V : seen_rows s (atm_rows m) rows) by (unfold load_band in El; rewrite Hload in El; cbn [bind] in El; apply seen_band, El).
    destruct (niirs5_steps ni it diag s c itp m em Hload Hcam Hem Hatm Halt _ _ _ E) as (t & v & Et & Eo & Ev & Lv & S0 & S9 & Eel).
    destruct (niirs5_steps ni it diag (with_blur s sx sy pv) (with_air c cn2 wind) itp m em load5_air Hcam' Hem atm_blur Halt _ _ _ E') as (t' & v' & Et' & Eo' & Ev' & Lv' & S0' & S9' & Eel').
    cbn [with_blur s_px s_py s_f s_frames with_air altitude] in *. rewrite <- Ec' in *. rewrite Et in Et'. apply fin_inj in Et'. subst t'.
    rewrite <- Es' in *. rewrite Eel in Eel'. apply ok_inj in Eel'.
    change (no_sharpening (with_blur s sx sy pv)) with (with_blur (no_sharpening s) sx sy pv) in Eo'.
    destruct (tables_compare (no_sharpening s) rows _ _ _ _ _ _ _ (or_intror eq_refl) V Ec Es Et Eo Eo' Ev Ev') as (T & T0).
    specialize (T0 ltac:(cbn; lia)).
    destruct (cutoff_bounds 1 rows _ H1 Rlt_0_1 V Ec) as (D0 & CX & CY).
    destruct Hcam as (P & So & GO & Hf & Hpx & Hpy).
    assert (IX : 0 < s_px s / s_f s) by (apply Rdiv_lt_0_compat; assumption). assert (IY : 0 < s_py s / s_f s) by (apply Rdiv_lt_0_compat; assumption).
    destruct (slopes_compare v v' _ D0 (fun j Hj => proj1 (T j Hj)) _ IX CX) as ((A1 & _) & A2).
    destruct (slopes_compare v v' _ D0 (fun j Hj => proj1 (T j Hj)) _ IY CY) as ((_ & B1) & B2).
    specialize (A2 T0). specialize (B2 T0).
    exists m1, m2. do 4 eexists. split; [exact E|]. split; [exact E'|]. split; [symmetry; exact Ec'|].
    split; [rewrite Eg, Eg'; reflexivity|]. split; [symmetry; exact Eel'|].
    split; [exact S0|]. split; [exact S9|]. split; [exact S0'|]. split; [exact S9'|].
    split; [lra|]. split; [lra|]. split.
    - intros H2. destruct (cutoff_bounds 2 rows _ H2 ltac:(lra) V Ec) as (_ & CX2 & CY2).
      assert (U : forall j, (j < 101 * 101)%nat -> Rabs (nth j v 0) <= 1) by (intros j Hj; apply T; [exact Hj | cbn; lia]).
      split; [apply (slopes_le1 v _ _ D0 IX U CX2) | apply (slopes_le1 v _ _ D0 IY U CY2)].
    - intros Fr X1 Y1 snr Esnr Psnr.
      rewrite S0 in Er0. rewrite S9 in Er9. rewrite S0' in Er0'. rewrite S9' in Er9'.
      apply fin_inj in Er0, Er9, Er0', Er9'. subst r0 r9 r0' r9'.
      rewrite Ee in Eel'. rewrite Ee' in Eel'. apply fin_inj in Eel'. subst e'.
      rewrite Esnr in En, En'. apply fin_inj in En, En'. subst snr1 snr2.
      assert (Sq : 0 < sqrt (s_frames s) * snr) by (apply Rmult_lt_0_compat; [apply sqrt_lt_R0|]; assumption).
      rewrite xsqrt_fin, xmul_fin in Eq, Eq' by lra.
      destruct (elev_positive _ _ _ Halt Es) as (e2 & Ee2 & _ & Eb). rewrite Eel, Ee in Ee2. apply ok_inj, fin_inj in Ee2. subst e2.
      assert (E0 : 0 < e).
      { destruct (Rle_dec e 0) as [N|N]; [|lra]. exfalso. assert (sin e <= 0); [|lra].
        replace e with (- (- e)) by ring. rewrite sin_neg. assert (0 <= sin (- e)) by (apply sin_ge_0; generalize PI_RGT_0; lra). lra. }
      assert (G0 : 0 < f_gsd_x m1) by (rewrite Eg; apply Rmult_lt_0_compat; assumption).
      assert (Eg2 : f_gsd_x m2 = f_gsd_x m1) by (rewrite Eg, Eg'; reflexivity). rewrite Eg2 in Eq'.
      match type of Eq with _ = giqe5 (Fin ?x) (Fin ?y) (Fin ?g) (Fin ?q) _ =>
        match type of Eq' with _ = giqe5 (Fin ?x') (Fin ?y') _ _ _ =>
          destruct (giqe5_mono x' y' x y g g q q e e) as (n2 & w2 & q2 & n1 & w1 & q1 & M2 & M1 & M & _); try lra end end.
      rewrite M1 in Eq. rewrite M2 in Eq'. exists n1, n2.
      split; [exact (f_equal (fun z => fst (fst z)) Eq)|]. split; [exact (f_equal (fun z => fst (fst z)) Eq') | exact M].
  Qed.

  (* niirs keeps the sharpening kernel; its edge response does not rise either *)
  Lemma dull_niirs : Rsum (concat (s_kernel s)) = 1 -> exists m1 m2 r r',
    niirs ni it diag s c itp = (snd (bookkeeping s c), Ok m1) /\
    niirs ni it diag (with_blur s sx sy pv) (with_air c cn2 wind) itp = (snd (bookkeeping s (with_air c cn2 wind)), Ok m2) /\
    n_contrast m2 = n_contrast m1 /\ n_gsd_gm m2 = n_gsd_gm m1 /\ n_elev m2 = n_elev m1 /\ n_ng m2 = n_ng m1 /\
    n_rer m1 = Fin r /\ n_rer m2 = Fin r' /\ 0 <= r' <= r.
  Proof.
    intros Hk. assert (Hcam' := good_blur s sx sy pv Hcam (proj2 (proj2 Hbl))).
    destruct (niirs_succeeds ni it diag s c itp m em Hload Hcam Hem Hatm Halt Hk) as (m1 & snr1 & ng & E & Es & Ps & En & Eg & Eng & N0 & Nq & _).
    destruct (niirs_succeeds ni it diag (with_blur s sx sy pv) (with_air c cn2 wind) itp m em load5_air Hcam' Hem atm_blur Halt Hk)
      as (m2 & snr2 & ng' & E' & Es' & Ps' & En' & Eg' & Eng' & N0' & Nq' & _).
    change (bookkeeping (with_blur s sx sy pv)) with (bookkeeping s) in E'.
    cbn [with_air altitude ground_range] in Es'. rewrite Es in Es'. apply fin_inj in Es'.
    destruct (niirs_renoise ni it diag s c itp 0 0 [] _ _ E) as (_ & _ & _ & _ & _ & _ & _ & _ & _ & _ & _ & _ & _ & _ & _ & _ & rows & El & Ec & _).
    destruct (niirs_renoise ni it diag _ _ itp 0 0 [] _ _ E') as (_ & _ & _ & _ & _ & _ & _ & _ & _ & _ & _ & _ & _ & _ & _ & _ & rows' & El' & Ec' & _).
    change (load_band ni it (with_blur s sx sy pv) (with_air c cn2 wind) itp) with (load_band ni it s c itp) in El'. rewrite El in El'. apply ok_inj in El'. subst rows'.
    change (bookkeeping (with_blur s sx sy pv)) with (bookkeeping s) in Ec'. rewrite (proj1 (book_air s c cn2 wind)) in Ec'.
    change (contrast_part (with_blur s sx sy pv)) with (contrast_part s) in Ec'. rewrite Ec in Ec'. apply ok_inj in Ec'.
    assert (V : seen_rows s (atm_rows m) rows) by (unfold load_band in El; rewrite Hload in El; cbn [bind] in El; apply seen_band, El).
    destruct (niirs_steps ni it diag s c itp m em Hload Hcam Hem Hatm Halt _ _ E) as (t & v & eu & ev & Et & Eo & Ev & Lv & S0 & _ & _ & _ & Eel).
    destruct (niirs_steps ni it diag (with_blur s sx sy pv) (with_air c cn2 wind) itp m em load5_air Hcam' Hem atm_blur Halt _ _ E') as (t' & v' & eu' & ev' & Et' & Eo' & Ev' & Lv' & S0' & _ & _ & _ & Eel').
    cbn [with_blur s_px s_py s_f s_kernel with_air altitude] in *. rewrite <- Ec' in *. rewrite Et in Et'. apply fin_inj in Et'. subst t'.
    rewrite <- Es' in *. rewrite Eel in Eel'. apply ok_inj in Eel'.
    destruct (tables_compare s rows _ _ _ _ _ _ _ (or_introl eq_refl) V Ec Es Et Eo Eo' Ev Ev') as (T & _).
    destruct (cutoff_bounds 1 rows _ H1 Rlt_0_1 V Ec) as (D0 & CX & CY).
    destruct Hcam as (P & So & GO & Hf & Hpx & Hpy).
    assert (IX : 0 < s_px s / s_f s) by (apply Rdiv_lt_0_compat; assumption). assert (IY : 0 < s_py s / s_f s) by (apply Rdiv_lt_0_compat; assumption).
    destruct (slopes_compare v v' _ D0 (fun j Hj => proj1 (T j Hj)) _ IX CX) as ((A1 & _) & _).
    destruct (slopes_compare v v' _ D0 (fun j Hj => proj1 (T j Hj)) _ IY CY) as ((_ & B1) & _).
    set (x := slope (rightwards v) _ _) in *. set (y := slope (upwards v) _ _) in *.
    set (x' := slope (rightwards v') _ _) in *. set (y' := slope (upwards v') _ _) in *.
    assert (Q' : 0 <= x' * y') by (apply Rmult_le_pos; lra).
    assert (Q : x' * y' <= x * y) by (apply Rmult_le_compat; lra).
    rewrite xsqrt_fin in S0, S0' by lra.
    exists m1, m2, (sqrt (x * y)), (sqrt (x' * y')). split; [exact E|]. split; [exact E'|]. split; [symmetry; exact Ec'|].
    split; [rewrite Eg, Eg'; reflexivity|]. split; [symmetry; exact Eel'|].
    split. { rewrite Eng, Eng'. f_equal. nra. }
    split; [exact S0|]. split; [exact S0'|]. split; [apply sqrt_pos | apply sqrt_le_1_alt; lra].
  Qed.
End Runs.
