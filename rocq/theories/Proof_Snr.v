(** * Proof_Snr: photon_detector_SNR *)
From Coq Require Import Reals Lra List Lia ZArith Psatz.
From Verif Require Import Base_XR Base_Np Base_NpFacts Base_Interp Model_Noise Model_Sensor Model_Rad Spec_Rad Proof_Rad.
Import ListNotations.
Open Scope R_scope.

(** ** check_well_fill *)
Lemma well_fill_py n m : 0 <= m ->
  exists s, check_well_fill_py n m = Ok s /\ 0 <= s <= 1 /\ s * n <= m /\
    (n <= m -> s = 1) /\ (m < n -> s * n = m) /\ (0 < m -> 0 < s).
Proof.
  intros Hm. unfold check_well_fill_py. rcase.
  - rewrite pydiv_ok by lra. exists (m / n).
    assert (E : m / n * n = m) by (field; lra).
    split; [reflexivity|]. split; [split|].
    + apply Rmult_le_pos; [lra|]. left; apply Rinv_0_lt_compat; lra.
    + apply Rmult_le_reg_r with n; lra.
    + repeat split; try lra. intros. apply Rdiv_lt_0_compat; lra.
  - exists 1. repeat split; try lra.
Qed.

Definition fill (top m : R) : R := if Rltb m top then m / top else 1.
Lemma well_fill_fin top m : 0 <= m -> check_well_fill (Fin top) m = Fin (fill top m).
Proof.
  intros Hm. unfold check_well_fill, fill. rewrite xlt_fin. rcase; auto. now rewrite xdiv_fin by lra.
Qed.
Lemma fill_bounds top m : 0 <= m -> 0 <= fill top m <= 1 /\ fill top m * top <= m.
Proof.
  intros Hm. unfold fill. rcase; [|lra].
  assert (E : m / top * top = m) by (field; lra). split; [|lra]. split.
  - apply Rmult_le_pos; [lra|]. left; apply Rinv_0_lt_compat; lra.
  - apply Rmult_le_reg_r with top; lra.
Qed.

(** ** The result in closed form *)
Definition rate_of {I} (s : sensor) (x rad : I -> R) (l : list I) : R :=
  trapezoid (map (fun i => dN_at s (x i) (rad i)) l) (map x l) + s_dark s.
Definition self_of {I} (s : sensor) (x : I -> R) (l : list I) : R :=
  trapezoid (map (fun i => self_at s (x i)) l) (map x l).

Lemma Rmax_scale k a b : 0 <= k -> Rmax (k * a) (k * b) = k * Rmax a b.
Proof. intros H. rewrite RmaxRmult by auto. reflexivity. Qed.

Section Fin.
  Context {I : Type}.
  Variables (s : sensor) (x rt rb : I -> R) (l : list I).
  Hypothesis Ht : has_tables s.
  Hypothesis HD : s_D s <> 0.
  Hypothesis Hx : forall i, In i l -> x i <> 0.
  Hypothesis Hn : 0 < s_max_n s.
  Hypothesis Hf : 0 <= s_max_fill s.

  Let r1 := rate_of s x rt l.
  Let r2 := rate_of s x rb l.
  Let g0 := s_int_time s * s_ntdi s.
  Let m := s_max_fill s * s_max_n s.
  Let sc := fill (Rmax (r1 * g0) (r2 * g0)) m.
  Let top := sc * Rmax (r1 * g0) (r2 * g0).
  Let c := Rsum (map (fun x => x * x) (s_other_noise s)).

  Lemma snr_closed_form : exists M,
    photon_detector_SNR s (map x l) (map (fun i => Fin (rt i)) l) (map (fun i => Fin (rb i)) l) = Ok M /\
    m_tgt_rate M = Fin r1 /\ m_bkg_rate M = Fin r2 /\
    m_tgt_n M = Fin (sc * (r1 * g0)) /\ m_bkg_n M = Fin (sc * (r2 * g0)) /\
    m_int_time M = Fin (sc * s_int_time s) /\ m_well_fraction M = Fin (top / s_max_n s) /\
    m_contrast M = Fin (sc * (r1 * g0) - sc * (r2 * g0)) /\
    m_signal_noise M = xsqrt (Fin top) /\
    m_dark_noise M = xsqrt (Fin (s_ntdi s * s_dark s * (sc * s_int_time s))) /\
    m_self_noise M = xsqrt (Fin (self_of s x l * (sc * s_int_time s) * s_ntdi s)) /\
    m_quant_noise M = quantization_noise (s_max_n s) (s_bits s) /\
    m_total_noise M = xsqrt (xadd (xadd (xadd (xsq (m_signal_noise M)) (xsq (m_quant_noise M))) (Fin (s_read s * s_read s))) (Fin c)) /\
    m_snr M = xdiv (m_contrast M) (m_total_noise M) /\
    m_weights M = map (fun i => Fin (dN_at s (x i) (rt i))) l.
  Proof.
    assert (Hx' : forall y, In y (map x l) -> y <> 0).
    { intros y Hy. apply in_map_iff in Hy. destruct Hy as [i [<- Hi]]. auto. }
    unfold photon_detector_SNR.
    rewrite sensor_trans_fin, sensor_qe_fin, sensor_other_fin by auto. cbn [bind].
    rewrite !sensor_rate by auto. cbn [bind]. fold (rate_of s x rt l). fold (rate_of s x rb l). fold r1 r2.
    rewrite (map_map x), (map_map x). rewrite pdr_maps. cbn [bind]. rewrite trapz_maps. cbn [bind].
    rewrite !xmul_fin, xmax_fin.
    assert (Hm : 0 <= m) by (unfold m; apply Rmult_le_pos; lra).
    rewrite well_fill_fin by auto.
    replace (r1 * s_int_time s * s_ntdi s) with (r1 * g0) by (unfold g0; ring).
    replace (r2 * s_int_time s * s_ntdi s) with (r2 * g0) by (unfold g0; ring).
    fold m. fold sc.
    destruct (fill_bounds (Rmax (r1 * g0) (r2 * g0)) m Hm) as [[F0 _] _]. fold sc in F0.
    rewrite !xmul_fin. rewrite xmax_fin. rewrite Rmax_scale by auto. fold top.
    rewrite xdiv_fin by lra. rewrite xsub_fin.
    eexists. split; [reflexivity|]. cbn. repeat split; reflexivity.
  Qed.
End Fin.

(* the general inputs as functions of the sample number *)
Lemma as_maps (wl rt rb : list R) : length rt = length wl -> length rb = length wl ->
  let l := seq 0 (length wl) in
  wl = map (fun i => nth i wl 0) l /\ map Fin rt = map (fun i => Fin (nth i rt 0)) l /\
  map Fin rb = map (fun i => Fin (nth i rb 0)) l.
Proof.
  intros H1 H2 l. split; [apply list_as_map|]. split.
  - rewrite (list_as_map rt 0) at 1. rewrite map_map. unfold l. now rewrite H1.
  - rewrite (list_as_map rb 0) at 1. rewrite map_map. unfold l. now rewrite H2.
Qed.
Lemma nth_in_seq {A} (P : A -> Prop) (wl : list A) d : (forall y, In y wl -> P y) -> forall i, In i (seq 0 (length wl)) -> P (nth i wl d).
Proof. intros H i Hi. apply in_seq in Hi. apply H. apply nth_In. lia. Qed.

(** ** C33 *)
Lemma snr_no_overfill s wl rt rb :
  has_tables s -> s_D s <> 0 -> 0 < s_max_n s -> 0 <= s_max_fill s -> 0 <= s_int_time s ->
  (forall y, In y wl -> y <> 0) -> length rt = length wl -> length rb = length wl ->
  exists M wf t, photon_detector_SNR s wl (map Fin rt) (map Fin rb) = Ok M /\
    m_well_fraction M = Fin wf /\ wf <= s_max_fill s /\
    m_int_time M = Fin t /\ 0 <= t <= s_int_time s.
Proof.
  intros Ht HD Hn Hf Hti Hw L1 L2. destruct (as_maps wl rt rb L1 L2) as [E1 [E2 E3]].
  set (l := seq 0 (length wl)) in *.
  destruct (snr_closed_form s (fun i => nth i wl 0) (fun i => nth i rt 0) (fun i => nth i rb 0) l Ht HD) as [M HM]; auto.
  { unfold l. now apply (nth_in_seq (fun y => y <> 0)). }
  destruct HM as [HM [_ [_ [_ [_ [HT [HW _]]]]]]].
  rewrite <- E1, <- E2, <- E3 in HM.
  set (sc := fill _ _) in *. exists M. do 2 eexists. split; [exact HM|]. split; [exact HW|].
  destruct (fill_bounds (Rmax (rate_of s (fun i => nth i wl 0) (fun i => nth i rt 0) l * (s_int_time s * s_ntdi s)) (rate_of s (fun i => nth i wl 0) (fun i => nth i rb 0) l * (s_int_time s * s_ntdi s))) (s_max_fill s * s_max_n s)) as [[F0 F1] F2].
  { apply Rmult_le_pos; lra. }
  fold sc in F0, F1, F2. split.
  - apply Rmult_le_reg_r with (s_max_n s); auto. unfold Rdiv. rewrite Rmult_assoc, Rinv_l by lra. lra.
  - split; [exact HT|]. split; [now apply Rmult_le_pos|]. rewrite <- (Rmult_1_l (s_int_time s)) at 2.
    apply Rmult_le_compat_r; auto.
Qed.

(** ** C34 *)
Lemma xmax_comm a b : xmax a b = xmax b a.
Proof.
  destruct a, b; try reflexivity. rewrite !xmax_fin. f_equal. apply Rmax_comm.
Qed.
Lemma xsub_swap a b : xsub b a = xopp (xsub a b).
Proof. destruct a, b; simpl; try reflexivity. f_equal. ring. Qed.
Lemma inf_sgn_opp r : inf_sgn (- r) = xopp (inf_sgn r).
Proof. unfold inf_sgn. repeat rcase; try reflexivity; lra. Qed.
Lemma xdiv_opp a b : xdiv (xopp a) b = xopp (xdiv a b).
Proof.
  destruct a, b; simpl; try reflexivity.
  - rcase; [apply inf_sgn_opp|]. simpl. f_equal. field. auto.
  - f_equal; ring.
  - f_equal; ring.
  - now rcase.
  - now rcase.
Qed.

Lemma snr_swap s wl a b M :
  photon_detector_SNR s wl a b = Ok M ->
  exists M', photon_detector_SNR s wl b a = Ok M' /\
    m_snr M' = xopp (m_snr M) /\ m_total_noise M' = m_total_noise M /\
    m_well_fraction M' = m_well_fraction M /\ m_int_time M' = m_int_time M /\
    m_tgt_n M' = m_bkg_n M /\ m_bkg_n M' = m_tgt_n M.
Proof.
  unfold photon_detector_SNR.
  destruct (sensor_opt_trans s wl) as [ot|]; [|discriminate].
  destruct (sensor_qe s wl) as [qe|]; [|discriminate].
  destruct (sensor_other_irradiance s wl) as [oi|]; [|discriminate]. cbn [bind].
  destruct (signal_rate wl a ot _ _ _ _ qe oi _) as [[[ra ia] wa]|]; [|discriminate].
  destruct (signal_rate wl b ot _ _ _ _ qe oi _) as [[[rb ib] wb]|]; [|discriminate].
  cbn [bind].
  destruct (photon_detection_rate oi _ _ wl qe) as [dn|]; [|discriminate]. cbn [bind].
  destruct (trapz dn _) as [sf|]; [|discriminate]. cbn [bind]. intros H. injection H as <-.
  eexists. split; [reflexivity|]. cbn.
  set (ta := xmul (xmul ra (Fin (s_int_time s))) (Fin (s_ntdi s))).
  set (tb := xmul (xmul rb (Fin (s_int_time s))) (Fin (s_ntdi s))).
  rewrite (xmax_comm tb ta). set (sc := check_well_fill _ _).
  rewrite (xmax_comm (xmul sc tb) (xmul sc ta)).
  repeat split; try reflexivity.
  rewrite xsub_swap. apply xdiv_opp.
Qed.

(** ** Physical sensors *)
Lemma interp_nonneg wl v x : wl <> [] -> length wl = length v -> all_nonneg v -> 0 <= interp_tab x (combine wl v) 0 0.
Proof.
  intros H E N. apply interp_bounds with (P := fun y => 0 <= y); try lra.
  - now apply combine_nonempty.
  - intros; nra.
  - intros [a b] Hab. apply in_combine_r in Hab. simpl. auto.
Qed.
Lemma trans_nonneg s l : physical s -> 0 <= trans_at s l.
Proof.
  intros P. destruct (ph_tables _ P) as [H1 [H2 _]]. unfold trans_at.
  apply Rmult_le_pos; [|apply interp_nonneg; auto; apply (ph_otr _ P)].
  apply Rmult_le_pos; [apply (ph_tf _ P)|]. pose proof (ph_eta _ P). nra.
Qed.
Lemma qe_nonneg s l : physical s -> 0 <= qe_at s l.
Proof.
  intros P. destruct (ph_tables _ P) as [_ [_ [H1 H2]]]. apply interp_nonneg; auto. apply (ph_qe _ P).
Qed.
Lemma other_nonneg s l : physical s -> 0 < l -> 0 <= other_at s l.
Proof.
  intros P Hl. unfold other_at. pose proof (cone_pos (s_D s) (s_f s)). pose proof (cone_le_pi (s_D s) (s_f s)).
  pose proof (planck_nonneg l (s_T_shield s) Hl (ph_Ts _ P)).
  pose proof (planck_nonneg l (s_T_opt s) Hl (ph_To _ P)).
  pose proof (planck_nonneg l (s_T_filt s) Hl (ph_Tf _ P)).
  pose proof (ph_eo _ P). pose proof (ph_tf _ P). pose proof (ph_ef _ P).
  assert (0 <= (PI - cone (s_D s) (s_f s)) * planck l (s_T_shield s)) by (apply Rmult_le_pos; lra).
  assert (0 <= cone (s_D s) (s_f s) * (s_t_filt s * s_e_opt s * planck l (s_T_opt s))).
  { apply Rmult_le_pos; [lra|]. apply Rmult_le_pos; [|lra]. apply Rmult_le_pos; lra. }
  assert (0 <= cone (s_D s) (s_f s) * (s_e_filt s * planck l (s_T_filt s))).
  { apply Rmult_le_pos; [lra|]. apply Rmult_le_pos; lra. }
  lra.
Qed.
Lemma dN_at_mono s lam r r' : physical s -> 0 < lam -> 0 <= r <= r' -> 0 <= dN_at s lam r <= dN_at s lam r'.
Proof.
  intros P Hl Hr. unfold dN_at. apply dN1_mono; try lra; try apply (ph_wx _ P); try apply (ph_wy _ P).
  - pose proof (trans_nonneg s lam P). lra.
  - pose proof (qe_nonneg s lam P). lra.
  - pose proof (other_nonneg s lam P Hl). lra.
Qed.
Lemma self_le_dN s lam r : physical s -> 0 < lam -> 0 <= r -> 0 <= self_at s lam <= dN_at s lam r.
Proof.
  intros P Hl Hr. pose proof (dN_at_mono s lam 0 r P Hl ltac:(lra)) as H.
  replace (self_at s lam) with (dN_at s lam 0); auto. unfold self_at, dN_at, dN1. ring.
Qed.

Section Phys.
  Context {I : Type}.
  Variables (s : sensor) (x : I -> R) (l : list I).
  Hypothesis P : physical s.
  Hypothesis Hx : forall i, In i l -> 0 < x i.
  Hypothesis Hs : ascending (map x l).

  Lemma self_of_bounds r : (forall i, In i l -> 0 <= r i) -> 0 <= self_of s x l /\ self_of s x l + s_dark s <= rate_of s x r l.
  Proof.
    intros Hr. unfold self_of, rate_of. split.
    - apply trapezoid_nonneg; auto. intros i Hi. apply (self_le_dN s (x i) (r i)); auto.
    - apply Rplus_le_compat_r. apply trapezoid_mono; auto. intros i Hi. now apply self_le_dN; auto.
  Qed.
End Phys.

Lemma quant_pos s : 0 < s_max_n s -> 0 < s_bits s ->
  exists q, quantization_noise (s_max_n s) (s_bits s) = Fin q /\ 0 < q.
Proof.
  intros Hn Hb. unfold quantization_noise.
  assert (1 < Rpower 2 (s_bits s)).
  { rewrite <- (Rpower_O 2) by lra. apply Rpower_lt; lra. }
  assert (0 < sqrt 12) by (apply sqrt_lt_R0; lra).
  assert (0 < sqrt 12 * (Rpower 2 (s_bits s) - 1)) by (apply Rmult_lt_0_compat; lra).
  rewrite xdiv_fin by lra. eexists; split; [reflexivity|]. now apply Rdiv_lt_0_compat.
Qed.

Lemma Rsum_sq_nonneg l : 0 <= Rsum (map (fun x => x * x) l).
Proof. induction l as [|y l IH]; simpl; [lra|]. pose proof (Rle_0_sqr y). unfold Rsqr in *. lra. Qed.

Section Main.
  Variables (s : sensor) (wl rt rb : list R).
  Hypothesis P : physical s.
  Hypothesis Hw : positive_wavelengths wl.
  Hypothesis Ha : ascending wl.
  Hypothesis L1 : length rt = length wl.
  Hypothesis L2 : length rb = length wl.
  Hypothesis N1 : all_nonneg rt.
  Hypothesis N2 : all_nonneg rb.
  Let l := seq 0 (length wl).
  Let x i := nth i wl 0.
  Let r1 := rate_of s x (fun i => nth i rt 0) l.
  Let r2 := rate_of s x (fun i => nth i rb 0) l.
  Let g0 := s_int_time s * s_ntdi s.
  Let m := s_max_fill s * s_max_n s.
  Let rm := Rmax r1 r2.
  (* effective exposure *)
  Let g := fill (rm * g0) m * g0.

  Lemma g0_nonneg : 0 <= g0.
  Proof. apply Rmult_le_pos; [apply (ph_time _ P)|apply (ph_ntdi _ P)]. Qed.
  Lemma m_nonneg : 0 <= m.
  Proof. apply Rmult_le_pos; [apply (ph_max_fill _ P)|]. pose proof (ph_max_n _ P). lra. Qed.
  Lemma rates_nonneg : 0 <= r1 /\ 0 <= r2 /\ 0 <= rm.
  Proof.
    assert (X : forall i, In i l -> 0 < x i) by (apply (nth_in_seq (fun y => 0 < y)); exact Hw).
    assert (S : ascending (map x l)) by (unfold l, x; rewrite <- list_as_map; exact Ha).
    assert (A1 : forall i, In i l -> 0 <= nth i rt 0).
    { unfold l. rewrite <- L1. apply (nth_in_seq (fun y => 0 <= y)). exact N1. }
    assert (A2 : forall i, In i l -> 0 <= nth i rb 0).
    { unfold l. rewrite <- L2. apply (nth_in_seq (fun y => 0 <= y)). exact N2. }
    destruct (self_of_bounds s x l P X S _ A1) as [B1 B2]. destruct (self_of_bounds s x l P X S _ A2) as [B3 B4].
    pose proof (ph_dark _ P). fold r1 in B2. fold r2 in B4. repeat split; try lra.
    unfold rm. apply Rle_trans with r1; [lra|apply Rmax_l].
  Qed.
  Lemma g_nonneg : 0 <= g.
  Proof. apply Rmult_le_pos; [apply fill_bounds, m_nonneg|apply g0_nonneg]. Qed.

  Lemma snr_value : exists M q,
    photon_detector_SNR s wl (map Fin rt) (map Fin rb) = Ok M /\
    quantization_noise (s_max_n s) (s_bits s) = Fin q /\ 0 < q /\
    let v := rm * g + q * q + s_read s * s_read s + Rsum (map (fun x => x * x) (s_other_noise s)) in
    0 < v /\
    m_signal_noise M = Fin (sqrt (rm * g)) /\ m_quant_noise M = Fin q /\
    m_dark_noise M = Fin (sqrt (s_dark s * g)) /\ m_self_noise M = Fin (sqrt (self_of s x l * g)) /\
    m_total_noise M = Fin (sqrt v) /\
    m_snr M = Fin ((r1 - r2) * g / sqrt v) /\
    m_well_fraction M = Fin (rm * g / s_max_n s) /\
    m_contrast M = Fin ((r1 - r2) * g).
  Proof.
    destruct (as_maps wl rt rb L1 L2) as [E1 [E2 E3]]. fold l in E1, E2, E3.
    assert (X : forall i, In i l -> 0 < x i) by (apply (nth_in_seq (fun y => 0 < y)); exact Hw).
    assert (S : ascending (map x l)) by (unfold l, x; rewrite <- list_as_map; exact Ha).
    destruct (snr_closed_form s x (fun i => nth i rt 0) (fun i => nth i rb 0) l (ph_tables _ P) (ph_D _ P)) as [M HM];
      [intros i Hi; specialize (X i Hi); lra|apply (ph_max_n _ P)|apply (ph_max_fill _ P)|].
    unfold x in HM at 1. rewrite <- E1, <- E2, <- E3 in HM.
    fold r1 r2 g0 m in HM.
    destruct (quant_pos s (ph_max_n _ P) (ph_bits _ P)) as [q [Q1 Q2]].
    destruct HM as (HM & _ & _ & _ & _ & HT & HW & HC & HS & HD & HF & HQ & HTot & HSnr & _).
    pose proof g0_nonneg as G0. pose proof m_nonneg as M0. destruct rates_nonneg as [R1 [R2 R3]].
    assert (Etop : Rmax (r1 * g0) (r2 * g0) = rm * g0).
    { unfold rm. rewrite !(Rmult_comm _ g0). now apply Rmax_scale. }
    rewrite Etop in *. set (sc := fill (rm * g0) m) in *.
    assert (Eg : sc * (rm * g0) = rm * g) by (unfold g; fold sc; ring).
    pose proof g_nonneg as G.
    exists M, q. split; [exact HM|]. split; [exact Q1|]. split; [exact Q2|].
    set (v := rm * g + q * q + s_read s * s_read s + Rsum (map (fun x => x * x) (s_other_noise s))).
    assert (RG : 0 <= rm * g) by now apply Rmult_le_pos.
    assert (V : 0 < v).
    { pose proof (Rsum_sq_nonneg (s_other_noise s)). pose proof (Rle_0_sqr (s_read s)).
      assert (0 < q * q) by now apply Rmult_lt_0_compat. unfold Rsqr, v in *. lra. }
    cbv zeta. split; [exact V|].
    rewrite Eg in HS, HW. rewrite xsqrt_fin in HS by auto.
    assert (HT2 : m_total_noise M = Fin (sqrt v)).
    { rewrite HTot, HS, HQ, Q1. rewrite !xsq_fin, !xadd_fin, sqrt_sqrt by auto. apply xsqrt_fin. fold v. lra. }
    split; [exact HS|]. split; [now rewrite HQ|]. split; [|split; [|split; [exact HT2|split; [|split; [exact HW|]]]]].
    - rewrite HD. pose proof (ph_dark _ P).
      replace (s_ntdi s * s_dark s * (sc * s_int_time s)) with (s_dark s * g) by (unfold g, g0; fold sc; ring).
      apply xsqrt_fin. now apply Rmult_le_pos.
    - rewrite HF.
      replace (self_of s x l * (sc * s_int_time s) * s_ntdi s) with (self_of s x l * g) by (unfold g, g0; fold sc; ring).
      apply xsqrt_fin. apply Rmult_le_pos; auto.
      apply (self_of_bounds s x l P X S (fun _ => 0)). intros; lra.
    - rewrite HSnr, HC, HT2. rewrite xdiv_fin by (apply Rgt_not_eq, sqrt_lt_R0; auto). f_equal. f_equal.
      unfold g. fold sc. ring.
    - rewrite HC. f_equal. unfold g. fold sc. ring.
  Qed.

  Lemma noise_budget : exists M sig quant dark self tot,
    photon_detector_SNR s wl (map Fin rt) (map Fin rb) = Ok M /\
    m_signal_noise M = Fin sig /\ m_quant_noise M = Fin quant /\ m_dark_noise M = Fin dark /\
    m_self_noise M = Fin self /\ m_total_noise M = Fin tot /\
    tot ^ 2 = sig ^ 2 + quant ^ 2 + s_read s ^ 2 + Rsum (map (fun x => x * x) (s_other_noise s)) /\
    0 <= sig <= tot /\ 0 < quant <= tot /\ Rabs (s_read s) <= tot /\
    dark ^ 2 + self ^ 2 <= sig ^ 2.
  Proof.
    destruct snr_value as (M & q & HM & Q1 & Q2 & V & HS & HQ & HD & HF & HT & _).
    set (v := rm * g + q * q + s_read s * s_read s + Rsum (map (fun x => x * x) (s_other_noise s))) in *.
    destruct rates_nonneg as [R1 [R2 R3]]. pose proof g_nonneg as G.
    assert (RG : 0 <= rm * g) by now apply Rmult_le_pos.
    pose proof (Rsum_sq_nonneg (s_other_noise s)) as O. pose proof (Rle_0_sqr (s_read s)) as RR. unfold Rsqr in RR.
    assert (X : forall i, In i l -> 0 < x i) by (apply (nth_in_seq (fun y => 0 < y)); exact Hw).
    assert (S : ascending (map x l)) by (unfold l, x; rewrite <- list_as_map; exact Ha).
    exists M, (sqrt (rm * g)), q, (sqrt (s_dark s * g)), (sqrt (self_of s x l * g)), (sqrt v).
    do 6 (split; [assumption|]).
    assert (A1 : forall i, In i l -> 0 <= nth i rt 0).
    { unfold l. rewrite <- L1. apply (nth_in_seq (fun y => 0 <= y)). exact N1. }
    destruct (self_of_bounds s x l P X S _ A1) as [B1 B2]. fold r1 in B2.
    pose proof (ph_dark _ P) as Dk.
    split; [|split; [|split; [|split]]].
    - rewrite !pow2_sqrt by lra. unfold v. ring.
    - split; [apply sqrt_pos|]. apply sqrt_le_1_alt. unfold v. pose proof (Rle_0_sqr q). unfold Rsqr in *. lra.
    - split; auto. rewrite <- (sqrt_square q) by lra. apply sqrt_le_1_alt. unfold v. lra.
    - rewrite <- sqrt_Rsqr_abs. apply sqrt_le_1_alt. unfold Rsqr, v. pose proof (Rle_0_sqr q). unfold Rsqr in *. lra.
    - assert (0 <= s_dark s * g) by now apply Rmult_le_pos.
      assert (0 <= self_of s x l * g) by now apply Rmult_le_pos.
      rewrite !pow2_sqrt by auto. rewrite <- Rmult_plus_distr_r. apply Rmult_le_compat_r; auto.
      apply Rle_trans with r1; [lra|apply Rmax_l].
  Qed.
End Main.

(** ** C36 *)
Lemma gain_mono rm c g1 g2 : 0 <= rm -> 0 < c -> 0 <= g1 -> g1 <= g2 ->
  g1 / sqrt (rm * g1 + c) <= g2 / sqrt (rm * g2 + c).
Proof.
  intros Hr Hc H1 H2.
  assert (V1 : 0 < rm * g1 + c) by (assert (0 <= rm * g1) by (apply Rmult_le_pos; lra); lra).
  assert (V2 : 0 < rm * g2 + c) by (assert (0 <= rm * g2) by (apply Rmult_le_pos; lra); lra).
  pose proof (sqrt_lt_R0 _ V1) as S1. pose proof (sqrt_lt_R0 _ V2) as S2.
  apply Rmult_le_reg_r with (sqrt (rm * g1 + c)); auto. apply Rmult_le_reg_r with (sqrt (rm * g2 + c)); auto.
  replace (g1 / sqrt (rm * g1 + c) * sqrt (rm * g1 + c) * sqrt (rm * g2 + c)) with (g1 * sqrt (rm * g2 + c)) by (field; lra).
  replace (g2 / sqrt (rm * g2 + c) * sqrt (rm * g1 + c) * sqrt (rm * g2 + c)) with (g2 * sqrt (rm * g1 + c)) by (field; lra).
  apply Rsqr_incr_0_var; [|apply Rmult_le_pos; lra]. unfold Rsqr.
  replace (g1 * sqrt (rm * g2 + c) * (g1 * sqrt (rm * g2 + c))) with (g1 * g1 * (sqrt (rm * g2 + c) * sqrt (rm * g2 + c))) by ring.
  replace (g2 * sqrt (rm * g1 + c) * (g2 * sqrt (rm * g1 + c))) with (g2 * g2 * (sqrt (rm * g1 + c) * sqrt (rm * g1 + c))) by ring.
  rewrite !sqrt_sqrt by lra.
  assert (g1 * g1 <= g2 * g2) by (apply Rmult_le_compat; lra).
  assert (g1 * g1 * c <= g2 * g2 * c) by (apply Rmult_le_compat_r; lra).
  assert (A : 0 <= rm * g1 * g2) by (apply Rmult_le_pos; [apply Rmult_le_pos|]; lra).
  assert (rm * g1 * g2 * g1 <= rm * g1 * g2 * g2) by (apply Rmult_le_compat_l; lra). lra.
Qed.

Lemma fill_mono rm m t1 t2 : 0 <= rm -> 0 <= m -> 0 <= t1 -> t1 <= t2 ->
  fill (rm * t1) m * t1 <= fill (rm * t2) m * t2.
Proof.
  intros Hr Hm H1 H2. unfold fill. repeat rcase.
  - assert (0 < rm) by (destruct Hr as [|<-]; [auto|lra]). assert (0 < t1) by (destruct H1 as [|<-]; [auto|lra]).
    right. field. split; [|split]; lra.
  - assert (rm * t1 <= rm * t2) by (apply Rmult_le_compat_l; lra). lra.
  - assert (0 < rm) by (destruct Hr as [|<-]; [auto|lra]). 
    assert (E : m / (rm * t2) * t2 = m / rm). { field. split; [lra|]. intros ->. lra. }
    rewrite E, Rmult_1_l. apply Rmult_le_reg_r with rm; auto. unfold Rdiv. rewrite Rmult_assoc, Rinv_l by lra. lra.
  - lra.
Qed.
Lemma fill_sat rm m t1 t2 : 0 <= rm -> 0 <= m -> 0 <= t1 -> t1 <= t2 -> m <= rm * t1 -> 0 < m ->
  fill (rm * t1) m * t1 = fill (rm * t2) m * t2.
Proof.
  intros Hr Hm H1 H2 Hs H0.
  assert (Hr' : 0 < rm) by (destruct Hr as [|<-]; [auto|lra]).
  assert (0 < t1) by (destruct H1 as [|<-]; [auto|lra]).
  assert (E : forall t, 0 < t -> m <= rm * t -> fill (rm * t) m * t = m / rm).
  { intros t Ht Hle. unfold fill. rcase; [field; lra|]. assert (E : m = rm * t) by lra. rewrite E. field. lra. }
  rewrite !E; auto; [lra|]. apply Rle_trans with (rm * t1); auto. apply Rmult_le_compat_l; lra.
Qed.

Lemma abs_snr a g r v : 0 <= g -> 0 < v -> Rabs ((a * g) / sqrt (r * g + v)) = Rabs a * (g / sqrt (r * g + v)) \/ r < 0.
Proof.
  intros Hg Hv. destruct (Rlt_dec r 0) as [|N]; [now right|left].
  assert (0 < r * g + v) by (assert (0 <= r * g) by (apply Rmult_le_pos; lra); lra).
  pose proof (sqrt_lt_R0 _ H) as S. unfold Rdiv. rewrite !Rabs_mult, Rabs_inv.
  rewrite (Rabs_pos_eq g) by auto. rewrite (Rabs_pos_eq (sqrt _)) by lra. ring.
Qed.

Lemma snr_exposure s wl rt rb t1 n1 t2 n2 :
  physical s -> positive_wavelengths wl -> ascending wl ->
  length rt = length wl -> length rb = length wl -> all_nonneg rt -> all_nonneg rb ->
  0 <= t1 -> 0 <= n1 -> 0 <= t2 -> 0 <= n2 -> t1 * n1 <= t2 * n2 ->
  exists M1 M2 v1 v2,
    photon_detector_SNR (with_ntdi (with_int_time s t1) n1) wl (map Fin rt) (map Fin rb) = Ok M1 /\
    photon_detector_SNR (with_ntdi (with_int_time s t2) n2) wl (map Fin rt) (map Fin rb) = Ok M2 /\
    m_snr M1 = Fin v1 /\ m_snr M2 = Fin v2 /\ Rabs v1 <= Rabs v2 /\
    (* a full well stays full, and the SNR stays the same *)
    (0 < s_max_fill s -> forall wf, m_well_fraction M1 = Fin wf -> s_max_fill s <= wf -> v1 = v2 /\ m_well_fraction M2 = Fin wf).
Proof.
  intros P Hw Ha L1 L2 N1 N2 T1 K1 T2 K2 Hle.
  assert (P1 : physical (with_ntdi (with_int_time s t1) n1)) by (destruct P; constructor; auto).
  assert (P2 : physical (with_ntdi (with_int_time s t2) n2)) by (destruct P; constructor; auto).
  destruct (snr_value _ wl rt rb P1 Hw Ha L1 L2 N1 N2) as (M1 & q1 & HM1 & Q1 & Q1p & V1 & _ & _ & _ & _ & _ & S1 & F1 & _).
  destruct (snr_value _ wl rt rb P2 Hw Ha L1 L2 N1 N2) as (M2 & q2 & HM2 & Q2 & Q2p & V2 & _ & _ & _ & _ & _ & S2 & F2 & _).
  destruct (rates_nonneg _ wl rt rb P1 Hw Ha L1 L2 N1 N2) as [R1 [R2 R3]].
  pose proof (g_nonneg _ wl rt rb P1) as G1. pose proof (g_nonneg _ wl rt rb P2) as G2.
  cbn in Q1, Q2. rewrite Q1 in Q2. injection Q2 as <-. cbn in S1, S2, F1, F2, R1, R2, R3, V1, V2, G1, G2.
  fold (rate_of (I := nat)) in *.
  exists M1, M2. do 2 eexists. do 4 (split; [eassumption|]).
  change (rate_of (with_ntdi (with_int_time s t1) n1) (fun i => nth i wl 0) (fun i => nth i rt 0) (seq 0 (length wl)))
    with (rate_of s (fun i => nth i wl 0) (fun i => nth i rt 0) (seq 0 (length wl))) in *.
  change (rate_of (with_ntdi (with_int_time s t1) n1) (fun i => nth i wl 0) (fun i => nth i rb 0) (seq 0 (length wl)))
    with (rate_of s (fun i => nth i wl 0) (fun i => nth i rb 0) (seq 0 (length wl))) in *.
  change (rate_of (with_ntdi (with_int_time s t2) n2) (fun i => nth i wl 0) (fun i => nth i rt 0) (seq 0 (length wl)))
    with (rate_of s (fun i => nth i wl 0) (fun i => nth i rt 0) (seq 0 (length wl))) in *.
  change (rate_of (with_ntdi (with_int_time s t2) n2) (fun i => nth i wl 0) (fun i => nth i rb 0) (seq 0 (length wl)))
    with (rate_of s (fun i => nth i wl 0) (fun i => nth i rb 0) (seq 0 (length wl))) in *.
  set (a := rate_of s (fun i => nth i wl 0) (fun i => nth i rt 0) (seq 0 (length wl))) in *.
  set (b := rate_of s (fun i => nth i wl 0) (fun i => nth i rb 0) (seq 0 (length wl))) in *.
  set (m := s_max_fill s * s_max_n s) in *.
  set (c := q1 * q1 + s_read s * s_read s + Rsum (map (fun x => x * x) (s_other_noise s))).
  assert (Hc : 0 < c).
  { pose proof (Rsum_sq_nonneg (s_other_noise s)). pose proof (Rle_0_sqr (s_read s)).
    assert (0 < q1 * q1) by now apply Rmult_lt_0_compat. unfold Rsqr, c in *. lra. }
  assert (Hm : 0 <= m). { apply Rmult_le_pos; [apply (ph_max_fill _ P)|]. pose proof (ph_max_n _ P). lra. }
  assert (Ev : forall g, Rmax a b * g + q1 * q1 + s_read s * s_read s + Rsum (map (fun x => x * x) (s_other_noise s)) = Rmax a b * g + c).
  { intros; unfold c; ring. }
  rewrite !Ev.
  set (g1 := fill (Rmax a b * (t1 * n1)) m * (t1 * n1)) in *.
  set (g2 := fill (Rmax a b * (t2 * n2)) m * (t2 * n2)) in *.
  assert (Hg : g1 <= g2) by (apply fill_mono; auto; apply Rmult_le_pos; auto).
  split.
  - destruct (abs_snr (a - b) g1 (Rmax a b) c G1 Hc) as [->|]; [|lra].
    destruct (abs_snr (a - b) g2 (Rmax a b) c G2 Hc) as [->|]; [|lra].
    apply Rmult_le_compat_l; [apply Rabs_pos|]. apply gain_mono; auto.
  - intros Hfp wf Hwf Hle2. rewrite F1 in Hwf. injection Hwf as <-.
    pose proof (ph_max_n _ P) as Mn.
    assert (B : m <= Rmax a b * g1).
    { unfold m. apply Rmult_le_reg_r with (/ s_max_n s); [now apply Rinv_0_lt_compat|].
      replace (s_max_fill s * s_max_n s * / s_max_n s) with (s_max_fill s) by (field; lra). exact Hle2. }
    assert (C : m <= Rmax a b * (t1 * n1)).
    { eapply Rle_trans; [exact B|]. apply Rmult_le_compat_l; auto. unfold g1.
      destruct (fill_bounds (Rmax a b * (t1 * n1)) m Hm) as [[_ F] _].
      apply Rle_trans with (1 * (t1 * n1)); [|lra]. apply Rmult_le_compat_r; auto. now apply Rmult_le_pos. }
    assert (E : g1 = g2).
    { apply fill_sat; auto; [now apply Rmult_le_pos|]. unfold m. apply Rmult_lt_0_compat; auto. }
    rewrite E in *. split; [reflexivity|]. exact F2.
Qed.
