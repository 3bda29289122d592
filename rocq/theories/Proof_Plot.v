(** * Proof_Plot: noise chart and MTF chart *)
From Coq Require Import Reals Lra List Lia ZArith Psatz Bool Sorted String.
From Flocq Require Import Core.
From Verif Require Import Base_XR Base_Np Base_NpFacts Base_Interp Model_Geo Model_Noise Model_Db Model_Scenario Model_Sensor Model_Rad Model_Otf Model_Img Model_Met Model_Plot
  Spec_Noise Spec_Rad Spec_System Spec_Met Spec_Quality Spec_Plot Proof_Weight Proof_Rad Proof_Snr Proof_RadP Proof_Edge Proof_Giqe Proof_Contrast Proof_Slice Proof_System Proof_Niirs Proof_NiirsDemo Proof_MetX.
Import ListNotations.
Open Scope R_scope.

(** ** The noise budget *)
Lemma rate_parts s (rad : arow -> R) l : rate_of s a_wl rad l = phot s l rad + self_of s a_wl l + s_dark s.
Proof.
  unfold rate_of, phot, self_of. f_equal.
  rewrite (trapezoid_lin 1 1 (fun a => dN1 (s_D s) (s_f s) (s_wx s) (s_wy s) (a_wl a) (rad a) (trans_at s (a_wl a)) (qe_at s (a_wl a)) 0)
     (fun a => self_at s (a_wl a))); [ring|].
  intros a _. unfold dN_at, dN1, self_at. ring.
Qed.
Lemma Rmax_shift a b c : Rmax (a + c) (b + c) = Rmax a b + c.
Proof. unfold Rmax. destruct (Rle_dec a b), (Rle_dec (a + c) (b + c)); lra. Qed.

Lemma quadrature_of tot sc pa se da qu rd other : 0 < tot ->
  tot * tot = sc * sc + pa * pa + se * se + da * da + qu * qu + rd * rd + Rsum (map (fun x => x * x) other) ->
  quadrature tot ([sc; pa; se; da; qu; rd] ++ other).
Proof.
  intros H E. split; [lra|]. cbn [app fold_right].
  assert (F : fold_right (fun x acc => x ^ 2 + acc) 0 other = Rsum (map (fun x => x * x) other)).
  { clear. induction other as [|x l IH]; [reflexivity|]. cbn [fold_right map]. rewrite Rsum_cons, IH. ring. }
  rewrite F. replace (tot ^ 2) with (tot * tot) by ring. rewrite E. ring.
Qed.
Lemma whole_int x : whole x (py_int x).
Proof.
  unfold py_int, whole. destruct (Rle_dec 0 x) as [H|H].
  - rewrite Ztrunc_floor by exact H. pose proof (Zfloor_lb x). pose proof (Zfloor_ub x).
    assert (0 <= IZR (Zfloor x)) by (apply IZR_le, Zfloor_lub; exact H). rewrite !Rabs_pos_eq by assumption. split; [lra|]. apply Rmult_le_pos; assumption.
  - rewrite Ztrunc_ceil by lra. pose proof (Zceil_ub x). pose proof (Zceil_lb x).
    assert (IZR (Zceil x) <= 0) by (apply IZR_le, Zceil_glb; lra). rewrite !Rabs_left1 by lra. split; [lra|]. nra.
Qed.
Section Budget.
  Variables (s : sensor) (l : list arow) (em : Z) (ct : contrast).
  Hypothesis P : physical s.
  Hypothesis Sr : sound_rows l.
  Hypothesis A : ascending (map a_wl l).
  Hypothesis E : contrast_part s l em = Ok ct.
  Let y := phot s l (giqe_target (isem em)).
  Let z := phot s l (giqe_background (isem em)).
  Let x := phot s l haze_radiance.

  Lemma budget_raw : exists t qu, let g := t * s_ntdi s in 0 <= t /\ 0 < qu /\ m_int_time (ct_snr ct) = Fin t /\
      m_tgt_n (ct_snr ct) = Fin ((y + self_of s a_wl l + s_dark s) * g) /\
      m_bkg_n (ct_snr ct) = Fin ((z + self_of s a_wl l + s_dark s) * g) /\
      m_well_fraction (ct_snr ct) = Fin ((Rmax y z + self_of s a_wl l + s_dark s) * g / s_max_n s) /\
      (Rmax y z + self_of s a_wl l + s_dark s) * g <= s_max_fill s * s_max_n s /\
      m_total_noise (ct_snr ct) = Fin (sqrt ((Rmax y z + self_of s a_wl l + s_dark s) * g + qu * qu + s_read s * s_read s + Rsum (map (fun x => x * x) (s_other_noise s)))) /\
      ct_path_noise ct = Fin (sqrt (x * g)) /\ ct_scene_noise ct = Fin (sqrt ((Rmax y z - x) * g)) /\
      m_self_noise (ct_snr ct) = Fin (sqrt (self_of s a_wl l * g)) /\ m_dark_noise (ct_snr ct) = Fin (sqrt (s_dark s * g)) /\
      m_quant_noise (ct_snr ct) = Fin qu /\ 0 <= x /\ x <= Rmax y z /\ 0 <= self_of s a_wl l.
  Proof.
    assert (Hw : forall a, In a l -> 0 < a_wl a) by (intros a Ha; apply (Sr a Ha)).
    assert (Hx : forall a, In a l -> a_wl a <> 0) by (intros a Ha; specialize (Hw a Ha); lra).
    destruct (snr_closed_form s a_wl (giqe_target (isem em)) (giqe_background (isem em)) l (ph_tables _ P) (ph_D _ P) Hx (ph_max_n _ P) (ph_max_fill _ P)) as (M & HM & C).
    destruct (contrast_form s l em P Sr) as (M' & t & HM' & HT & HB & _ & F). rewrite HM in HM'. apply ok_inj in HM'. subst M'.
    rewrite F in E. cbv zeta in E. destruct (py_min _) as [lmin|]; [|discriminate]. cbn [bind] in E.
    destruct (finite _) as [cut|]; [|discriminate]. cbn [bind] in E. apply ok_inj in E. subst ct.
    cbn [ct_snr ct_path_noise ct_scene_noise]. fold x y z.
    destruct C as (_ & _ & CN & CB & CT & CW & _ & CS & CD & CF & CQ & CTot & _).
    destruct (quant_pos s (ph_max_n _ P) (ph_bits _ P)) as (q & Q1 & Q2).
    set (sc := fill _ _) in *. assert (HT' := HT). rewrite HT in CT. injection CT as ->.
    pose proof (ph_ntdi _ P) as Hn. pose proof (ph_time _ P) as Hti.
    destruct HB as [HB0 HB1].
    assert (K1 : 0 <= x <= y).
    { apply phot_mono; auto. intros a Ha. split; [auto|]. apply target_sound. apply (Sr a Ha). }
    assert (K2 : 0 <= x <= z).
    { apply phot_mono; auto. intros a Ha. split; [auto|]. apply background_sound. apply (Sr a Ha). }
    assert (SB : 0 <= self_of s a_wl l).
    { apply (self_of_bounds s a_wl l P Hw A (giqe_target (isem em))). intros a Ha. pose proof (target_sound (isem em) a (Sr a Ha)). lra. }
    pose proof (ph_dark _ P) as Dk.
    assert (RA : rate_of s a_wl (giqe_target (isem em)) l = y + self_of s a_wl l + s_dark s) by apply rate_parts.
    assert (RB : rate_of s a_wl (giqe_background (isem em)) l = z + self_of s a_wl l + s_dark s) by apply rate_parts.
    assert (RM : forall k, 0 <= k -> Rmax (rate_of s a_wl (giqe_target (isem em)) l * k) (rate_of s a_wl (giqe_background (isem em)) l * k)
       = (Rmax y z + self_of s a_wl l + s_dark s) * k).
    { intros k Hk. rewrite RA, RB, !(Rmult_comm _ k), Rmax_scale by exact Hk. f_equal. rewrite !Rplus_assoc, Rmax_shift. reflexivity. }
    pose proof (Rmax_l y z) as ML.
    set (g := sc * s_int_time s * s_ntdi s).
    assert (G : 0 <= g) by (apply Rmult_le_pos; assumption).
    assert (GP : 0 <= s_int_time s * s_ntdi s) by (apply Rmult_le_pos; assumption).
    assert (TOP : sc * Rmax (rate_of s a_wl (giqe_target (isem em)) l * (s_int_time s * s_ntdi s)) (rate_of s a_wl (giqe_background (isem em)) l * (s_int_time s * s_ntdi s))
       = (Rmax y z + self_of s a_wl l + s_dark s) * g).
    { rewrite RM by exact GP. unfold g. ring. }
    exists (sc * s_int_time s), q. cbv zeta. fold g.
    split; [exact HB0|]. split; [exact Q2|]. split; [exact HT'|].
    split. { rewrite CN, RA. f_equal. unfold g. ring. }
    split. { rewrite CB, RB. f_equal. unfold g. ring. }
    split. { rewrite CW, TOP. reflexivity. }
    split. { rewrite <- TOP. apply fill_bounds. apply Rmult_le_pos; [apply (ph_max_fill _ P)|]. pose proof (ph_max_n _ P). lra. }
    assert (N : 0 <= (Rmax y z + self_of s a_wl l + s_dark s) * g) by (apply Rmult_le_pos; lra).
    split.
    { rewrite CTot, CS, CQ, Q1, TOP. rewrite xsqrt_fin by exact N. rewrite !xsq_fin, !xadd_fin, sqrt_sqrt by exact N.
      rewrite xsqrt_fin; [reflexivity|]. pose proof (Rsum_sq_nonneg (s_other_noise s)). pose proof (Rle_0_sqr (s_read s)). unfold Rsqr in *. nra. }
    assert (XG : forall w, w * (sc * s_int_time s) * s_ntdi s = w * g) by (intros; unfold g; ring). rewrite !XG.
    rewrite xmax_sqrt by (apply Rmult_le_pos; lra). rewrite (xsqrt_fin (x * g)) by (apply Rmult_le_pos; lra). rewrite !xsq_fin, xsub_fin.
    split; [reflexivity|]. rewrite !(Rmult_comm _ g), Rmax_scale by exact G. rewrite !(Rmult_comm g).
    assert (X2 : 0 <= x * g) by (apply Rmult_le_pos; lra). assert (M2 : 0 <= Rmax y z * g) by (apply Rmult_le_pos; lra).
    split.
    { rewrite !sqrt_sqrt by assumption. replace (Rmax y z * g - x * g) with ((Rmax y z - x) * g) by ring. apply xsqrt_fin. apply Rmult_le_pos; lra. }
    split. { rewrite CF, XG. apply xsqrt_fin. apply Rmult_le_pos; lra. }
    split. { rewrite CD. replace (s_ntdi s * s_dark s * (sc * s_int_time s)) with (s_dark s * g) by (unfold g; ring). apply xsqrt_fin. apply Rmult_le_pos; lra. }
    split; [rewrite CQ; exact Q1|]. lra.
  Qed.

  Lemma chart_ok mv : exists ch, plot_noise_terms s ct mv = Ok ch /\ budget_chart s ct mv ch.
  Proof.
    destruct budget_raw as (t & qu & T0 & Q0 & TI & N1 & N2 & W & WF & TOT & PA & SC & SE & DA & QU & X0 & XM & S0).
    set (g := t * s_ntdi s) in *.
    assert (G : 0 <= g) by (apply Rmult_le_pos; [exact T0 | apply (ph_ntdi _ P)]).
    pose proof (ph_dark _ P) as Dk. pose proof (ph_max_n _ P) as Mx.
    set (v := (Rmax y z + self_of s a_wl l + s_dark s) * g) in *.
    assert (V : 0 <= v) by (apply Rmult_le_pos; lra).
    pose proof (Rsum_sq_nonneg (s_other_noise s)) as O. pose proof (Rle_0_sqr (s_read s)) as RR. unfold Rsqr in RR.
    assert (QQ : 0 < qu * qu) by (apply Rmult_lt_0_compat; exact Q0).
    assert (MG : forall w, 0 <= w -> 0 <= w * g) by (intros; apply Rmult_le_pos; assumption).
    unfold plot_noise_terms. rewrite N1, N2, W. rewrite xsub_fin, xmul_fin. cbn [xint bind].
    eexists. split; [reflexivity|]. unfold budget_chart. cbn [bars percent_full tgt_electrons contrast_electrons top_of_axis].
    rewrite TI, N1, N2, W, TOT, PA, SC, SE, DA, QU.
    do 10 eexists. do 7 (split; [reflexivity|]). split.
    { apply quadrature_of; [apply sqrt_lt_R0; lra|]. rewrite !sqrt_sqrt; try (apply MG; lra); try lra. unfold v. ring. }
    split; [reflexivity|]. split. { split; [apply sqrt_pos|]. cbn [fold_right]. unfold g. ring. }
    do 3 (split; [reflexivity|]). split; [apply whole_int|]. split; [apply whole_int|].
    split. { rewrite Rmult_comm. apply whole_int. }
    split; [split|].
    - apply Rmult_le_pos; [exact V|]. left. apply Rinv_0_lt_compat, Mx.
    - apply Rmult_le_reg_r with (s_max_n s); [exact Mx|]. replace (v / s_max_n s * s_max_n s) with v by (field; lra). exact WF.
    - destruct (Z.ltb_spec 0 mv), (Z_lt_dec 0 mv); try lia; reflexivity.
  Qed.
End Budget.

Section Charts.
  Variables (ni it : loader) (diag : nat -> nat -> bool) (s : sensor) (c : scen) (itp : bool) (m : atm).
  Hypothesis Hload : loaded ni it c itp m.
  Hypothesis P : physical s.
  Hypothesis Sr : sound_rows (atm_rows m).
  Hypothesis Ss : StronglySorted Rlt (map a_wl (atm_rows m)).
  Lemma chart_of rows ct z mv : seen_rows s (atm_rows m) rows -> contrast_part s rows z = Ok ct ->
    exists ch, plot_noise_terms s ct mv = Ok ch /\ budget_chart s ct mv ch.
  Proof.
    intros V E. apply (chart_ok s rows z ct P) with (mv := mv).
    - intros a Ha. apply Sr, V, Ha.
    - apply strict_ascending, V, Ss.
    - exact E.
  Qed.
  Lemma niirs_chart c1 mt mv : niirs ni it diag s c itp = (c1, Ok mt) ->
    exists ch, plot_noise_terms s (n_contrast mt) mv = Ok ch /\ budget_chart s (n_contrast mt) mv ch.
  Proof. intros H. destruct (niirs_contrast _ _ _ _ _ _ _ _ _ Hload H) as (rows & V & E). apply (chart_of rows _ _ mv V E). Qed.
  Lemma niirs5_chart s1 c1 mt mv : niirs5 ni it diag s c itp = (s1, c1, Ok mt) ->
    exists ch, plot_noise_terms s1 (f_contrast mt) mv = Ok ch /\ budget_chart s (f_contrast mt) mv ch.
  Proof.
    intros H. destruct (niirs5_contrast _ _ _ _ _ _ _ _ _ _ Hload H) as (rows & V & E).
    assert (E1 : s1 = no_sharpening s).
    { unfold niirs5, load_band in H. rewrite Hload in H. cbn [bind] in H. destruct (band _ _); [|discriminate].
      destruct (bookkeeping s c). destruct (contrast_part _ _ _); [|discriminate]. cbv zeta in H. congruence. }
    subst s1. exact (chart_of rows _ _ mv V E).
  Qed.
End Charts.

(** ** The MTF chart *)
Lemma bmap2_same {A B C} (f : A -> B -> C) a b l : bmap2 f a b = Ok l -> (2 <= List.length a)%nat -> (2 <= List.length b)%nat ->
  List.length a = List.length b /\ List.length l = List.length a.
Proof.
  unfold bmap2. destruct (Nat.eqb (List.length a) (List.length b)) eqn:E.
  - apply Nat.eqb_eq in E. intros H _ _. apply ok_inj in H. subst l. split; [exact E|]. rewrite map2_length. lia.
  - destruct a as [|x [|y a]]; destruct b as [|x' [|y' b]]; cbn; intros; try lia; discriminate.
Qed.
Lemma all_fin_n (l : list xr) n : List.length l = n -> (forall j, (j < n)%nat -> exists r, nth_error l j = Some (Fin r)) -> exists v, l = map Fin v /\ List.length v = n.
Proof. intros L H. destruct (all_fin l) as (v & E); [rewrite L; exact H|]. exists v. split; [exact E|]. rewrite E, map_length in L. exact L. Qed.
Lemma nth_error_long {A} (l : list A) j x : nth_error l j = Some x -> (j < List.length l)%nat.
Proof. intros H. apply nth_error_Some. congruence. Qed.
Lemma fin_nth (v : list R) j r : nth_error (map Fin v) j = Some (Fin r) -> nth j v 0 = r.
Proof. revert j. induction v as [|x v IH]; intros [|j] H; cbn in H; try discriminate; [injection H as <-; reflexivity|]. apply IH, H. Qed.

Record parts := { p_ap : list R; p_turb : list R; p_det : list R; p_jit : list R; p_drft : list R; p_wav : list R; p_filt : list R; p_sys : list R }.
Definition parts_of (o : otfs) (n : nat) (p : parts) : Prop :=
  (ap_OTF o = map Fin (p_ap p) /\ turb_OTF o = map Fin (p_turb p) /\ det_OTF o = map Fin (p_det p) /\ jit_OTF o = map Fin (p_jit p) /\
   drft_OTF o = map Fin (p_drft p) /\ wav_OTF o = map Fin (p_wav p) /\ filt_OTF o = map Fin (p_filt p) /\ system_OTF o = map Fin (p_sys p)) /\
  (List.length (p_ap p) = n /\ List.length (p_turb p) = n /\ List.length (p_det p) = n /\ List.length (p_jit p) = n /\
   List.length (p_drft p) = n /\ List.length (p_wav p) = n /\ List.length (p_filt p) = n /\ List.length (p_sys p) = n) /\
  forall i, (i < n)%nat -> nth i (p_sys p) 0 = nth i (p_ap p) 0 * nth i (p_turb p) 0 * nth i (p_det p) 0 * nth i (p_jit p) 0
    * nth i (p_drft p) 0 * nth i (p_wav p) 0 * nth i (p_filt p) 0.

Lemma common_parts diag k s c pts ps sl ti o : good_spectrum ps -> good_optics s -> good_path c sl -> 0 < s_px s -> 0 < s_f s ->
  (2 <= List.length pts)%nat -> common_OTFs diag k s c pts (map fst ps) (map (fun p => Fin (snd p)) ps) sl ti = Ok o ->
  exists p, parts_of o (List.length pts) p.
Proof.
  intros GS GO GP Hp Hf L2 Eo.
  destruct (common_good diag k (no_sharpening s) c pts ps sl ti GS GO GP) as (o0 & E0 & L & J); [cbn; lia|].
  assert (E0' := E0).
  destruct (filt_ok diag s pts Hp Hf) as (h & Ef & _).
  rewrite (common_filter _ _ _ _ _ _ _ _ _ _ _ E0 L Ef) in Eo by apply map_length.
  apply ok_inj in Eo. subst o.
  destruct (ex_intro (fun n => List.length pts = n) _ eq_refl) as (n & En). rewrite En in *.
  assert (K : forall j, (j < n)%nat -> exists a t d ji dr w, nth_error (ap_OTF o0) j = Some (Fin a) /\ nth_error (turb_OTF o0) j = Some (Fin t)
         /\ nth_error (det_OTF o0) j = Some (Fin d) /\ nth_error (jit_OTF o0) j = Some (Fin ji)
         /\ nth_error (drft_OTF o0) j = Some (Fin dr) /\ nth_error (wav_OTF o0) j = Some (Fin w)
         /\ nth_error (system_OTF o0) j = Some (Fin (a * t * d * ji * dr * w))).
  { intros j Hj. destruct (nth_error pts j) as [[u v]|] eqn:Ej; [|apply nth_error_None in Ej; lia].
    destruct (J j u v Ej) as (a & t & d & ji & dr & w & H1 & H2 & H3 & H4 & H5 & H6 & _ & H8 & _).
    exists a, t, d, ji, dr, w. auto 10. }
  destruct (K 1%nat L2) as (a1 & t1 & d1 & j1 & r1 & w1 & A1 & A2 & A3 & A4 & A5 & A6 & _).
  apply nth_error_long in A1, A2, A3, A4, A5, A6.
  (* every component has one entry per grid point *)
  assert (LL : List.length (ap_OTF o0) = n /\ List.length (turb_OTF o0) = n /\ List.length (det_OTF o0) = n /\ List.length (jit_OTF o0) = n /\
               List.length (drft_OTF o0) = n /\ List.length (wav_OTF o0) = n).
  { unfold common_OTFs in E0'.
    repeat match type of E0' with
      | (let* x := ?b in _) = _ => let Q := fresh "Q" in destruct b as [?|] eqn:Q; [cbn [bind] in E0'|discriminate E0']
      | (let (_, _) := ?g in _) = _ => destruct g as [? ?] end.
    apply ok_inj in E0'. subst o0. cbn [ap_OTF turb_OTF det_OTF jit_OTF drft_OTF wav_OTF] in *.
    unfold on_grid in *. rewrite ?map_length, ?En in *.
    repeat match goal with
      | H : bmap2 _ ?a ?b = Ok ?l |- _ => apply bmap2_same in H; [destruct H as [? ?]; rewrite ?map_length, ?En in * | rewrite ?map_length; lia | rewrite ?map_length; lia]
      end. repeat split; lia. }
  destruct LL as (N1 & N2 & N3 & N4 & N5 & N6).
  destruct (all_fin_n _ n N1) as (pa & Pa & La). { intros j Hj. destruct (K j Hj) as (x & _ & _ & _ & _ & _ & H & _). eauto. }
  destruct (all_fin_n _ n N2) as (pt & Pt & Lt). { intros j Hj. destruct (K j Hj) as (_ & x & _ & _ & _ & _ & _ & H & _). eauto. }
  destruct (all_fin_n _ n N3) as (pd & Pd & Ld). { intros j Hj. destruct (K j Hj) as (_ & _ & x & _ & _ & _ & _ & _ & H & _). eauto. }
  destruct (all_fin_n _ n N4) as (pj & Pj & Lj). { intros j Hj. destruct (K j Hj) as (_ & _ & _ & x & _ & _ & _ & _ & _ & H & _). eauto. }
  destruct (all_fin_n _ n N5) as (pr & Pr & Lr). { intros j Hj. destruct (K j Hj) as (_ & _ & _ & _ & x & _ & _ & _ & _ & _ & H & _). eauto. }
  destruct (all_fin_n _ n N6) as (pw & Pw & Lw). { intros j Hj. destruct (K j Hj) as (_ & _ & _ & _ & _ & x & _ & _ & _ & _ & _ & H & _). eauto. }
  destruct (all_fin_n _ n L) as (pv & Pv & Lv). { intros j Hj. destruct (K j Hj) as (? & ? & ? & ? & ? & ? & _ & _ & _ & _ & _ & _ & H). eauto. }
  exists {| p_ap := pa; p_turb := pt; p_det := pd; p_jit := pj; p_drft := pr; p_wav := pw; p_filt := map h pts; p_sys := map2 Rmult pv (map h pts) |}.
  split; [|split]; cbn [ap_OTF turb_OTF det_OTF jit_OTF drft_OTF wav_OTF filt_OTF system_OTF p_ap p_turb p_det p_jit p_drft p_wav p_filt p_sys].
  - repeat (split; [assumption|]). split; [symmetry; apply map_map|].
    rewrite Pv. clear -Lv En. subst n. revert pts Lv. induction pv as [|x v IH]; intros [|q pts] H; cbn in *; try lia; [reflexivity|]. f_equal. apply IH. lia.
  - repeat (split; [assumption|]). split; [rewrite map_length; exact En | rewrite map2_length, map_length; lia].
  - intros j Hj. destruct (K j Hj) as (a & t & d & ji & dr & w & H1 & H2 & H3 & H4 & H5 & H6 & H8).
    rewrite Pa in H1. rewrite Pt in H2. rewrite Pd in H3. rewrite Pj in H4. rewrite Pr in H5. rewrite Pw in H6. rewrite Pv in H8.
    apply fin_nth in H1, H2, H3, H4, H5, H6, H8. rewrite H1, H2, H3, H4, H5, H6, <- H8.
    assert (LH : List.length (map h pts) = n) by (rewrite map_length; exact En). clear -Lv LH Hj. revert pv j LH Lv Hj. generalize (map h pts). generalize n. clear.
    intros n f. revert n. induction f as [|y f IH]; intros n [|x v] j LH Lv Hj; cbn in *; try lia. destruct j as [|j]; [reflexivity|].
    apply (IH (Nat.pred n)); lia.
Qed.
Lemma finite_all v : mapM finite (map Fin v) = Ok v.
Proof. induction v as [|x v IH]; [reflexivity|]. cbn in *. rewrite IH. reflexivity. Qed.
Definition along (up : bool) (v : list R) (i : nat) : R := nth (place up i) v 0.
Lemma slice_square (up : bool) v : 
  (let* a := square 101 (map Fin v) in slice_otf a (if up then PI / 2 else 0)) = Ok (map (along up v) (seq 0 50)).
Proof.
  unfold square. rewrite finite_all. cbn [bind].
  destruct up; [rewrite (slice_v _ 50) | rewrite (slice_u _ 50)]; try reflexivity; lia.
Qed.
Lemma mtf_along (up : bool) v : mtf_slice (if up then PI / 2 else 0) (map Fin v) = Ok (map (fun i => Rabs (along up v i)) (seq 0 50)).
Proof.
  unfold mtf_slice. pose proof (slice_square up v) as H. destruct (square 101 (map Fin v)); [cbn [bind] in *|discriminate].
  rewrite H. cbn [bind]. rewrite map_map. reflexivity.
Qed.

Lemma place_lt up i : (i < 50)%nat -> (place up i < 101 * 101)%nat.
Proof. unfold place. destruct up; lia. Qed.
Lemma shows_along up v : List.length v = (101 * 101)%nat -> shows up (map Fin v) (map (fun i => Rabs (along up v i)) (seq 0 50)).
Proof.
  intros L. split; [rewrite map_length, seq_length; reflexivity|]. intros i Hi. exists (along up v i). split.
  - rewrite nth_error_map. unfold along. rewrite (nth_error_nth' v 0) by (rewrite L; apply place_lt, Hi). reflexivity.
  - rewrite (nth_indep _ 0 (Rabs (along up v 0))) by (rewrite map_length, seq_length; exact Hi).
    rewrite (map_nth (fun i => Rabs (along up v i))), seq_nth by exact Hi. reflexivity.
Qed.
Lemma fold_max l : forall x : R, largest (x :: l) (fold_left Rmax l x).
Proof.
  induction l as [|y l IH]; intros x; cbn [fold_left].
  - split; [left; reflexivity|]. intros z [<-|[]]. lra.
  - destruct (IH (Rmax x y)) as [I U]. split.
    + destruct I as [E|I]; [|right; right; exact I]. rewrite <- E. unfold Rmax. destruct (Rle_dec x y); [right; left | left]; reflexivity.
    + assert (T := U (Rmax x y) (or_introl eq_refl)). assert (A := Rmax_l x y). assert (B := Rmax_r x y).
      intros z [<-|[<-|H]]; [lra | lra | apply U; right; exact H].
Qed.
Lemma r_max_map (f : nat -> R) : exists m, r_max (map f (seq 0 50)) = Ok m /\ largest (map f (seq 0 50)) m.
Proof. change (seq 0 50) with (0%nat :: seq 1 49). cbn [map r_max]. eexists. split; [reflexivity | apply fold_max]. Qed.
Lemma nth_curve (f : nat -> R) i : (i < 50)%nat -> nth i (map f (seq 0 50)) 0 = f i.
Proof.
  intros Hi. rewrite (nth_indep _ 0 (f 0%nat)) by (rewrite map_length, seq_length; exact Hi).
  rewrite map_nth, seq_nth by exact Hi. reflexivity.
Qed.

Section Chart.
  Variables (s : sensor) (ct : contrast) (o : otfs) (p : parts).
  Hypothesis Hf : 0 < s_f s.
  Hypothesis Hpx : 0 < s_px s.
  Hypothesis Lp : List.length (ct_pts ct) = (101 * 101)%nat.
  Hypothesis Grid : forall i j, (i <= 100)%nat -> (j <= 100)%nat ->
      nth (i * 101 + j) (ct_pts ct) (0, 0) = ((INR j - 50) * ct_df ct, (50 - INR i) * ct_df ct).
  Hypothesis HP : parts_of o (101 * 101) p.
  Lemma chart_parts (up : bool) :
    exists ch, plot_common_MTFs s ct o (s_px s / s_f s) (if up then PI / 2 else 0) = (Some ch, Err AttributeError) /\
      chart_shows (s_f s) (s_px s) (ct_df ct) o up ch.
  Proof.
    destruct HP as ((E1 & E2 & E3 & E4 & E5 & E6 & E7 & E8) & (K1 & K2 & K3 & K4 & K5 & K6 & K7 & K8) & Pr).
    unfold plot_common_MTFs, common_MTFs_chart. rewrite pydiv_ok by lra. cbn [bind].
    set (g := fun q : R * R => 0.001 * (1 / s_f s) * sqrt (fst q * fst q + snd q * snd q)).
    assert (Eg : map (fun q : R * R => xmul (Fin (0.001 * (1 / s_f s))) (radial (fst q) (snd q))) (ct_pts ct) = map Fin (map g (ct_pts ct))).
    { rewrite map_map. apply map_ext. intros [u v]. unfold radial. cbn [fst snd]. rewrite xsqrt_fin by nra. reflexivity. }
    rewrite Eg, slice_square, E1, E2, E3, E4, E5, E6, E7, E8, !mtf_along. cbn [bind].
    destruct (r_max_map (along up (map g (ct_pts ct)))) as (mx & -> & Tx). cbn [bind].
    destruct (r_max_map (fun i => Rabs (along up (p_filt p) i))) as (my & -> & Ty). cbn [bind].
    replace (s_px s / s_f s * s_f s) with (s_px s) by (field; lra). rewrite pydiv_ok by lra. cbn [bind].
    eexists. split; [reflexivity|]. unfold chart_shows. cbn [axis_freq arrow_at curves x_top y_top]. split; [|split; [replace 0.5 with (1 / 2) by lra; replace 0.001 with (1 / 1000) by lra; field; lra|split; [exact Tx|]]].
    - apply map_ext_in. intros i Hi. apply in_seq in Hi.
      assert (Hb : (place up i < 101 * 101)%nat) by (apply place_lt; lia).
      unfold along. rewrite (nth_indep _ 0 (g (0, 0))) by (rewrite map_length, Lp; exact Hb). rewrite map_nth.
      unfold place, per_mm. assert (I : INR 50 = 50) by (rewrite INR_IZR_INZ; reflexivity).
      destruct up; cbv beta iota.
      + rewrite Grid by lia. unfold g. cbn [fst snd]. rewrite minus_INR by lia. rewrite I.
        match goal with |- _ * sqrt ?x = sqrt ?y / _ => replace x with y by ring end. replace 0.001 with (1 / 1000) by lra. field. lra.
      + rewrite Grid by lia. unfold g. cbn [fst snd]. rewrite plus_INR. rewrite I.
        match goal with |- _ * sqrt ?x = sqrt ?y / _ => replace x with y by ring end. replace 0.001 with (1 / 1000) by lra. field. lra.
    - rewrite E1, E2, E3, E4, E5, E6, E7, E8. do 8 eexists. split; [reflexivity|]. do 8 (split; [apply shows_along; assumption|]). split; [exact Ty|].
      intros i Hi. rewrite !nth_curve by exact Hi. unfold along. rewrite Pr by (apply place_lt, Hi). rewrite !Rabs_mult. reflexivity.
  Qed.
End Chart.
Lemma plot_never s ct o ifov ang : exists e, snd (plot_common_MTFs s ct o ifov ang) = Err e.
Proof. unfold plot_common_MTFs. destruct (common_MTFs_chart _ _ _ _ _); eexists; reflexivity. Qed.

Section Drawn.
  Variables (ni it : loader) (diag : nat -> nat -> bool) (s : sensor) (c : scen) (itp : bool) (m : atm) (em : bool).
  Hypothesis Hload : loaded ni it c itp m.
  Hypothesis Hcam : good_camera s.
  Hypothesis Hem : em = true <-> emissive_band s.
  Hypothesis Hatm : good_atmosphere s em (atm_rows m).
  Hypothesis Halt : 0 < altitude c.
  Lemma otf_parts s' c' ct sl t o rows : s' = s \/ s' = no_sharpening s -> altitude c' = altitude c ->
    seen_rows s (atm_rows m) rows -> contrast_part s rows (fst (bookkeeping s c)) = Ok ct ->
    curved_earth_slant_range 0 (altitude c) (ground_range c) = Fin sl ->
    common_OTFs diag Np s' c' (ct_pts ct) (ct_wl ct) (ct_w ct) sl t = Ok o ->
    exists p, parts_of o (101 * 101) p.
  Proof.
    intros Hs' Hc' V E Esl Eo.
    destruct Hcam as (P & So & GO & Hf & Hpx & Hpy). destruct Hatm as (Sr & Ss & a & x & y & Ia & Ba & R1 & R2 & Pos).
    assert (Sr' : sound_rows rows) by (intros b Hb; apply Sr, V, Hb).
    destruct (contrast_shape s c m em P Hem Sr rows ct V E) as (_ & B & W).
    destruct (grid_shape s rows _ ct P Sr' E) as (lmin & _ & _ & L0 & Ecut & Edf & Lp & _).
    assert (EX : exists a, In a rows /\ 0 < dN_at s (a_wl a) (giqe_target (isem (fst (bookkeeping s c))) a)).
    { exists a. split; [apply V; split; assumption|]. rewrite bookkeeping_em, <- (emissive_iff s em Hem).
      rewrite <- (electrons_at s x y); [exact Pos | apply (ph_tables _ P) | assumption..|]. apply (Sr a Ia). }
    destruct (spectrum_good s rows (fst (bookkeeping s c)) P Sr' (proj2 V Ss) EX) as [GS _].
    destruct (niirs_path _ _ _ Halt Esl) as (P1 & P2 & P3). rewrite B, W in Eo.
    assert (GO' : good_optics s') by (destruct Hs' as [-> | ->]; exact GO).
    assert (Hpx' : 0 < s_px s') by (destruct Hs' as [-> | ->]; exact Hpx).
    assert (Hf' : 0 < s_f s') by (destruct Hs' as [-> | ->]; exact Hf).
    rewrite <- Lp. apply (common_parts diag Np s' c' (ct_pts ct) _ sl t o GS GO'); auto.
    - right. rewrite Hc'. auto.
    - rewrite Lp. lia.
  Qed.

  Definition chart_shown (s' : sensor) (ct : contrast) (o : otfs) (ifov : R) (up : bool) : Prop :=
    exists ch, plot_common_MTFs s' ct o ifov (if up then PI / 2 else 0) = (Some ch, Err AttributeError) /\
      chart_shows (s_f s) (s_px s) (ct_df ct) o up ch.
  Lemma shown s' c' ct sl t o rows up : s' = s \/ s' = no_sharpening s -> altitude c' = altitude c ->
    seen_rows s (atm_rows m) rows -> contrast_part s rows (fst (bookkeeping s c)) = Ok ct ->
    curved_earth_slant_range 0 (altitude c) (ground_range c) = Fin sl ->
    common_OTFs diag Np s' c' (ct_pts ct) (ct_wl ct) (ct_w ct) sl t = Ok o -> chart_shown s' ct o (s_px s / s_f s) up.
  Proof.
    intros Hs' Hc' V E Esl Eo. destruct (otf_parts s' c' ct sl t o rows Hs' Hc' V E Esl Eo) as (p & Hp).
    destruct Hcam as (P & So & GO & Hf & Hpx & Hpy). destruct Hatm as (Sr & _).
    assert (Sr' : sound_rows rows) by (intros b Hb; apply Sr, V, Hb).
    destruct (grid_shape s rows _ ct P Sr' E) as (lmin & _ & _ & L0 & Ecut & Edf & Lp & G).
    destruct Hs' as [-> | ->]; [exact (chart_parts s ct o p Hf Hpx Lp G Hp up) | exact (chart_parts (no_sharpening s) ct o p Hf Hpx Lp G Hp up)].
  Qed.
  Lemma niirs_drawn c1 mt up : niirs ni it diag s c itp = (c1, Ok mt) -> chart_shown s (n_contrast mt) (n_otf mt) (n_ifov_x mt) up.
  Proof.
    intros H. destruct (niirs_contrast _ _ _ _ _ _ _ _ _ Hload H) as (rows & V & E).
    unfold niirs, load_band in H. rewrite Hload in H. cbn [bind] in H.
    destruct (band s (atm_rows m)) as [rows'|] eqn:Eb; [|discriminate].
    assert (Bs := bookkeeping_same s c).
    destruct (bookkeeping s c) as [z c'] eqn:Ek. cbn [fst snd] in *. destruct Bs as (B1 & B2 & _). injection H as <- H.
    destruct (contrast_part s rows' z) as [ct|]; [|discriminate]. cbn [bind] in H. unfold niirs_rest in H.
    rewrite B1, B2 in H.
    destruct (finite _) as [sl|] eqn:Esl; [cbn [bind] in H|discriminate H]. apply finite_inv in Esl.
    destruct (finite _) as [t|] eqn:Et in H; [cbn [bind] in H|discriminate H].
    destruct (common_OTFs _ _ _ _ _ _ _ _ _) as [o|] eqn:Eo in H; [cbn [bind] in H|discriminate H].
    assert (Hcam' := Hcam). destruct Hcam' as (_ & _ & _ & Hf & _ & _).
    rewrite !pydiv_ok in H by lra. cbn [bind] in H. cbv zeta in H.
    repeat match type of H with
      | (let* x := ?b in _) = _ => destruct b as [?|]; [cbn [bind] in H|discriminate H]
      | (let (_, _) := ?g in _) = _ => destruct g as [? ?] end.
    apply ok_inj in H. subst mt. cbn [n_contrast n_otf n_ifov_x] in *.
    apply (shown s c' ct sl t o rows up); auto. rewrite Ek. exact E.
  Qed.
  Lemma niirs5_drawn s1 c1 mt up : niirs5 ni it diag s c itp = (s1, c1, Ok mt) -> chart_shown s1 (f_contrast mt) (f_otf mt) (f_ifov_x mt) up.
  Proof.
    intros H. destruct (niirs5_contrast _ _ _ _ _ _ _ _ _ _ Hload H) as (rows & V & E).
    unfold niirs5, load_band in H. rewrite Hload in H. cbn [bind] in H.
    destruct (band s (atm_rows m)) as [rows'|] eqn:Eb; [|discriminate].
    assert (Bs := bookkeeping_same s c).
    destruct (bookkeeping s c) as [z c'] eqn:Ek. cbn [fst snd] in *. destruct Bs as (B1 & B2 & _).
    destruct (contrast_part s rows' z) as [ct|]; [|discriminate]. cbv zeta in H. injection H as <- <- H. unfold niirs5_rest in H.
    rewrite B1, B2 in H.
    destruct (finite _) as [sl|] eqn:Esl; [cbn [bind] in H|discriminate H]. apply finite_inv in Esl.
    destruct (finite _) as [t|] eqn:Et in H; [cbn [bind] in H|discriminate H].
    destruct (common_OTFs _ _ _ _ _ _ _ _ _) as [o|] eqn:Eo in H; [cbn [bind] in H|discriminate H].
    assert (Hcam' := Hcam). destruct Hcam' as (_ & _ & _ & Hf & _ & _). cbn [no_sharpening s_px s_py s_f s_frames] in H.
    rewrite !pydiv_ok in H by lra. cbn [bind] in H. cbv zeta in H.
    repeat match type of H with
      | (let* x := ?b in _) = _ => destruct b as [?|]; [cbn [bind] in H|discriminate H]
      | (let (_, _) := ?g in _) = _ => destruct g as [? ?] end.
    apply ok_inj in H. subst mt. cbn [f_contrast f_otf f_ifov_x] in *.
    apply (shown (no_sharpening s) c' ct sl t o rows up); auto. rewrite Ek. exact E.
  Qed.
End Drawn.

Lemma squares_zero l : fold_right (fun x acc => x ^ 2 + acc) 0 l = 0 <-> (forall x, In x l -> x = 0).
Proof.
  assert (P : forall l, 0 <= fold_right (fun x acc => x ^ 2 + acc) 0 l). { clear. induction l as [|x l IH]; cbn [fold_right]; [lra|]. pose proof (pow2_ge_0 x). lra. }
  induction l as [|x l IH]; cbn [fold_right]; [split; [intros _ y [] | reflexivity]|].
  pose proof (pow2_ge_0 x). specialize (P l). split.
  - intros E y [<-|Hy]; [|apply IH; [lra | exact Hy]]. assert (x ^ 2 = 0) by lra. nra.
  - intros H1. rewrite (H1 x) by (left; reflexivity). rewrite (proj2 IH); [ring|]. intros y Hy. apply H1. right. exact Hy.
Qed.
Lemma quadrature_rest tot a b : quadrature tot (a ++ b) -> (quadrature tot a <-> forall x, In x b -> x = 0).
Proof.
  intros [H0 E]. rewrite <- squares_zero. unfold quadrature.
  assert (A : fold_right (fun x acc => x ^ 2 + acc) 0 (a ++ b) = fold_right (fun x acc => x ^ 2 + acc) 0 a + fold_right (fun x acc => x ^ 2 + acc) 0 b).
  { clear. induction a as [|x a IH]; cbn [app fold_right]; [ring|]. rewrite IH. ring. }
  split; intros H; [destruct H as [_ H]|split; [exact H0|]]; lra.
Qed.
Lemma never_returns : ~ (forall ni it diag s c itp c1 mt, niirs ni it diag s c itp = (c1, Ok mt) ->
  snd (plot_common_MTFs s (n_contrast mt) (n_otf mt) (n_ifov_x mt) 0) = Ok 0%Z).
Proof.
  intros F. destruct order_matters as (mt & c1 & m5 & m1 & E & _). specialize (F _ _ _ _ _ _ _ _ E).
  destruct (plot_never (visible sharpen 1) (n_contrast mt) (n_otf mt) (n_ifov_x mt) 0) as (e & H). congruence.
Qed.
