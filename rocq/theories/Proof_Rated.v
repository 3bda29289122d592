(** * Proof_Rated: the older equations give numbers for oversampled cameras *)
From Coq Require Import Reals Lra List Lia ZArith Psatz Bool FunctionalExtensionality.
From Verif Require Import Base_XR Base_Np Base_NpFacts Base_Interp Model_Geo Model_Noise Model_Db Model_Scenario Model_Sensor Model_Rad Model_Otf Model_Img Model_Met
  Spec_Geo Spec_Noise Spec_Rad Spec_Filter Spec_System Spec_Chain Spec_Met Spec_Quality Spec_Trade Proof_Geo Proof_Noise Proof_Rad Proof_Snr Proof_Pe Proof_RadP
  Proof_Turb Proof_Filter Proof_Weight Proof_System Proof_SystemX Proof_Slice Proof_Edge Proof_Giqe Proof_Contrast Proof_Niirs Proof_MetX Proof_Trade Proof_Dull Proof_DullRun Proof_Stack.
Import ListNotations.
Open Scope R_scope.

Lemma edge_half m df ifov x : 0 < df -> 0 < ifov -> 0 <= x ->
  (forall i, (i < length m)%nat -> 0 <= nth i m 0 /\ 2 * (freq_of df i * (ifov * x)) <= 1) -> 1 / 2 <= edge_at m df ifov x.
Proof.
  intros Hd Hi Hx H. unfold edge_at. pose proof PI_RGT_0 as HP.
  enough (0 <= trapezoid (map (fun i => nth i m 0 * sin (2 * PI * freq_of df i * (ifov * x)) / (PI * freq_of df i)) (seq 0 (length m)))
     (map (freq_of df) (seq 0 (length m)))) by lra.
  apply trapezoid_nonneg; [|apply freq_asc; lra].
  intros i Hin. apply in_seq in Hin. destruct (H i ltac:(lia)) as [A B]. pose proof (freq_pos df i ltac:(lra)) as Q.
  assert (0 <= ifov * x) by (apply Rmult_le_pos; lra). assert (0 <= freq_of df i * (ifov * x)) by (apply Rmult_le_pos; lra).
  apply div_ge0; [|apply Rmult_lt_0_compat; auto]. apply Rmult_le_pos; [exact A|].
  replace (2 * PI * freq_of df i * (ifov * x)) with (PI * (2 * (freq_of df i * (ifov * x)))) by ring.
  apply sin_ge_0; [apply Rmult_le_pos; lra|]. rewrite <- (Rmult_1_r PI) at 2. apply Rmult_le_compat_l; lra.
Qed.

Lemma same_air c : with_air c (plain c Cn2At1m) (plain c HaWindSpeed) = c.
Proof.
  destruct c as [a b d e p q]. unfold with_air. cbn [ihaze altitude ground_range interp plain cache]. f_equal.
  apply functional_extensionality. intros []; reflexivity.
Qed.
Lemma line_edges v df ifov : 0 < df -> 0 < ifov -> 6 * (ifov * (50 * df + 1 / 10 ^ 6)) <= 1 ->
  (forall e, overshoot (rightwards v) df ifov e -> 1 / 2 <= e) /\ (forall e, overshoot (upwards v) df ifov e -> 1 / 2 <= e).
Proof.
  intros Hd Hi Hc. destruct (lines_len v) as [L1 L2].
  assert (F : forall i k, (i < 50)%nat -> (k < 9)%nat -> 2 * (freq_of df i * (ifov * overshoot_place k)) <= 1).
  { intros i k L K. assert (Q := freq_cut df ifov 6 i Hd Hi Hc ltac:(lra) L). unfold overshoot_place.
    assert (KI : INR k <= 8) by (replace 8 with (INR 8) by (simpl; lra); apply le_INR; lia). pose proof (freq_pos df i ltac:(lra)) as P.
    assert (0 < freq_of df i * ifov) by (apply Rmult_lt_0_compat; assumption). rewrite <- Rmult_assoc. nra. }
  assert (G : forall k, 0 <= overshoot_place k) by (intros k; unfold overshoot_place; generalize (pos_INR k); lra).
  split; intros e ((k & K & ->) & _); apply edge_half; auto; intros i L; rewrite ?L1, ?L2 in L; (split; [|apply F; assumption]).
  - destruct (line_nth v i L) as [-> _]. apply Rabs_pos.
  - destruct (line_nth v i L) as [_ ->]. apply Rabs_pos.
Qed.

Section Rated.
  Variables (ni it : loader) (diag : nat -> nat -> bool) (s : sensor) (c : scen) (itp : bool) (m : atm) (em : bool).
  Hypothesis Hload : loaded ni it c itp m.
  Hypothesis Hcam : good_camera s.
  Hypothesis Hem : em = true <-> emissive_band s.
  Hypothesis Hatm : good_atmosphere s em (atm_rows m).
  Hypothesis Halt : 0 < altitude c.
  Hypothesis Hspeed : 0 <= plain c AircraftSpeed.
  Hypothesis Hoct : three_octaves s (atm_rows m).
  Hypothesis H6 : sampled 6 s (atm_rows m).
  Lemma rated_niirs : (length (s_kernel s) <= 1)%nat -> Rsum (concat (s_kernel s)) = 1 -> 0 < s_frames s ->
    exists c1 m1 x r e, niirs ni it diag s c itp = (c1, Ok m1) /\ m_snr (ct_snr (n_contrast m1)) = Fin x /\
      n_rer m1 = Fin r /\ 0 < r <= 1 /\ n_eho m1 = Fin e /\ 1 / 2 <= e /\
      (x <> 0 -> exists v3 v4, n_niirs m1 = Fin v3 /\ n_niirs_4 m1 = Fin v4).
  Proof.
    intros Hl Hk Hf0.
    destruct (niirs_succeeds ni it diag s c itp m em Hload Hcam Hem Hatm Halt Hk) as (m1 & snr1 & ng & E & Es & Ps & En & Eg & Eng & N0 & Nq & (el & Eel & Pel) & Q3 & Q4).
    destruct (niirs_renoise ni it diag s c itp 0 0 [] _ _ E) as (_ & _ & _ & _ & _ & _ & _ & _ & _ & _ & _ & _ & _ & _ & _ & _ & rows & El & Ec & _).
    assert (V : seen_rows s (atm_rows m) rows) by (unfold load_band in El; rewrite Hload in El; cbn [bind] in El; apply seen_band, El).
    destruct (niirs_steps ni it diag s c itp m em Hload Hcam Hem Hatm Halt _ _ E) as (t & v & eu & ev & Et & Eo & Ev & Lv & S0 & Ou & Ow & Eho & _).
    assert (B1 : blurrier s (s_sx s) (s_sy s) (s_pv s)) by (repeat split; apply Rle_refl).
    assert (B2 : rougher c (plain c Cn2At1m) (plain c HaWindSpeed)) by (split; apply Rle_refl).
    destruct (tables_compare diag s c m em (s_sx s) (s_sy s) (s_pv s) (plain c Cn2At1m) (plain c HaWindSpeed) Hcam Hem Hatm Halt Hspeed Hoct B1 B2
       s rows (n_contrast m1) (n_slant m1) t (n_otf m1) (n_otf m1) v v (or_introl eq_refl) V Ec Es Et Eo) as (T & T0).
    { rewrite same_blur, same_air. exact Eo. } { exact Ev. } { exact Ev. }
    specialize (T0 Hl).
    destruct (cutoff_bounds s c m em Hcam Hem Hatm 6 rows _ H6 ltac:(lra) V Ec) as (D0 & CX & CY).
    destruct Hcam as (P & So & GO & Hf & Hpx & Hpy).
    assert (IX : 0 < s_px s / s_f s) by (apply Rdiv_lt_0_compat; assumption). assert (IY : 0 < s_py s / s_f s) by (apply Rdiv_lt_0_compat; assumption).
    assert (CX' : 0 < s_px s / s_f s * (50 * ct_df (n_contrast m1) + 1 / 10 ^ 6)) by (apply Rmult_lt_0_compat; lra).
    assert (CY' : 0 < s_py s / s_f s * (50 * ct_df (n_contrast m1) + 1 / 10 ^ 6)) by (apply Rmult_lt_0_compat; lra).
    assert (U : forall j, (j < 101 * 101)%nat -> Rabs (nth j v 0) <= 1) by (intros j Hj; apply T; [exact Hj | exact Hl]).
    destruct (slopes_compare v v _ D0 (fun j Hj => proj1 (T j Hj)) _ IX ltac:(lra)) as (_ & A2).
    destruct (slopes_compare v v _ D0 (fun j Hj => proj1 (T j Hj)) _ IY ltac:(lra)) as (_ & B3).
    destruct (slopes_le1 v _ _ D0 IX U ltac:(lra)) as [X1 _]. destruct (slopes_le1 v _ _ D0 IY U ltac:(lra)) as [_ Y1].
    destruct (A2 T0) as [X0 _]. destruct (B3 T0) as [_ Y0].
    destruct (line_edges v _ _ D0 IX CX) as [EU _]. destruct (line_edges v _ _ D0 IY CY) as [_ EV].
    specialize (EU _ Ou). specialize (EV _ Ow).
    set (x := slope (rightwards v) _ _) in *. set (y := slope (upwards v) _ _) in *.
    assert (XY : 0 < x * y) by (apply Rmult_lt_0_compat; assumption).
    assert (R0 : 0 < sqrt (x * y)) by (apply sqrt_lt_R0; exact XY).
    assert (R1 : sqrt (x * y) <= 1) by (rewrite <- sqrt_1; apply sqrt_le_1_alt; nra).
    assert (EE : (1 / 2) * (1 / 2) <= eu * ev) by (apply Rmult_le_compat; lra).
    rewrite xsqrt_fin in S0, Eho by lra.
    exists (snd (bookkeeping s c)), m1, snr1, (sqrt (x * y)), (sqrt (eu * ev)).
    split; [exact E|]. split; [exact En|]. split; [exact S0|]. split; [lra|]. split; [exact Eho|]. split.
    { replace (1 / 2) with (sqrt ((1 / 2) * (1 / 2))) by (apply sqrt_square; lra). apply sqrt_le_1_alt, EE. }
    intros Z. assert (G0 : 0 < sqrt (s_px s / s_f s * n_slant m1 * (s_py s / s_f s * n_slant m1))).
    { apply sqrt_lt_R0. apply Rmult_lt_0_compat; apply Rmult_lt_0_compat; assumption. }
    assert (Z' : sqrt (s_frames s) * snr1 <> 0).
    { assert (0 < sqrt (s_frames s)) by (apply sqrt_lt_R0; exact Hf0). intros C. apply Rmult_integral in C. lra. }
    rewrite Eg, S0, Eho, Eng, xsqrt_fin, xmul_fin in Q3, Q4 by lra. rewrite giqe3_value in Q3 by assumption.
    rewrite Eel, giqe4_value in Q4 by assumption. apply pair_equal_spec in Q4. destruct Q4 as [Q4 _].
    eexists. eexists. split; [exact Q3 | exact Q4].
  Qed.
End Rated.
