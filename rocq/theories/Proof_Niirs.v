(** * Proof_Niirs: niirs and niirs5 *)
From Coq Require Import Reals Lra List Lia ZArith Psatz Bool Sorted FunctionalExtensionality.
From Verif Require Import Base_XR Base_Np Base_NpFacts Base_Interp Model_Geo Model_Noise Model_Db Model_Scenario Model_Sensor Model_Rad Model_Otf Model_Img Model_Met
  Spec_Geo Spec_Noise Spec_Rad Spec_Filter Spec_System Spec_Met Proof_Geo Proof_Noise Proof_Rad Proof_Snr Proof_Pe Proof_RadP Proof_Filter Proof_Weight Proof_System Proof_Slice
  Proof_Edge Proof_Giqe Proof_Contrast.
Import ListNotations.
Open Scope R_scope.

(** ** The sharpening kernel is one more factor *)
Definition filt_of (diag : nat -> nat -> bool) (s : sensor) (pts : list (R * R)) : res (list xr) :=
  if Nat.ltb 1 (length (s_kernel s))
  then let* ifov := pydiv (s_px s) (s_f s) in on_grid_res pts (fun u v => filter_OTF diag u v (s_kernel s) ifov)
  else Ok (map (fun _ => Fin 1) pts).
Lemma xmul_1_r x : xmul x (Fin 1) = x.
Proof. destruct x; cbn; try reflexivity; [f_equal; ring | |]; unfold inf_sgn; repeat rcase; try reflexivity; lra. Qed.
Lemma map2_ones (m : list xr) (pts : list (R * R)) : length m = length pts -> map2 xmul m (map (fun _ => Fin 1) pts) = m.
Proof.
  revert pts. induction m as [|x m IH]; intros [|p pts] H; cbn in *; try lia; [reflexivity|].
  rewrite xmul_1_r. f_equal. apply IH. lia.
Qed.
Lemma bmap2_ones m (pts : list (R * R)) filt mm : length filt = length pts -> length mm = length pts ->
  bmap2 xmul m (map (fun _ => Fin 1) pts) = Ok mm -> bmap2 xmul m filt = Ok (map2 xmul mm filt).
Proof.
  intros Lf Lm. unfold bmap2. rewrite map_length. rewrite Lf. destruct (Nat.eqb (length m) (length pts)) eqn:E.
  - apply Nat.eqb_eq in E. rewrite map2_ones by exact E. intros H. apply ok_inj in H. subst mm. reflexivity.
  - apply Nat.eqb_neq in E. destruct m as [|x [|y m]].
    + destruct pts as [|p [|p' pts]]; cbn; intros H; try discriminate.
      apply ok_inj in H. subst mm. cbn in Lm. lia.
    + intros H. apply ok_inj in H. subst mm. f_equal. clear E Lm. revert pts Lf.
      induction filt as [|z f IH]; intros [|p pts] L; cbn in *; try lia; [reflexivity|]. rewrite xmul_1_r. f_equal. apply IH. lia.
    + destruct pts as [|p [|p' pts]]; cbn; intros H; try discriminate.
      apply ok_inj in H. subst mm. cbn in Lm. rewrite map_length in Lm. lia.
Qed.

Lemma common_filter diag k s c pts wl w sl ti o filt :
  common_OTFs diag k (no_sharpening s) c pts wl w sl ti = Ok o -> length (system_OTF o) = length pts ->
  filt_of diag s pts = Ok filt -> length filt = length pts ->
  common_OTFs diag k s c pts wl w sl ti
  = Ok {| ap_OTF := ap_OTF o; turb_OTF := turb_OTF o; r0_band := r0_band o; det_OTF := det_OTF o; jit_OTF := jit_OTF o;
          drft_OTF := drft_OTF o; wav_OTF := wav_OTF o; filt_OTF := filt; system_OTF := map2 xmul (system_OTF o) filt |}.
Proof.
  intros H L F Lf. unfold common_OTFs in *.
  cbn [no_sharpening s_D s_eta s_ntdi s_wx s_wy s_f s_sx s_sy s_dax s_day s_pv s_pv_wl s_Lx s_Ly s_kernel s_px length Nat.ltb Nat.leb] in H.
  destruct (weighted_by_wavelength wl w _) as [ap|]; [|discriminate]. cbn [bind] in *.
  destruct (if Rltb 0 (plain c Cn2At1m) then _ else _) as [[turb r0b]|]; [|discriminate]. cbn [bind] in *.
  destruct (weighted_by_wavelength wl w _) as [wav|]; [|discriminate]. cbn [bind] in *.
  fold (filt_of diag s pts). rewrite F. cbn [bind].
  set (ones := map (fun _ => Fin 1) pts) in H.
  do 5 (match goal with H : (let* m := ?b in _) = _ |- _ => destruct b as [?|]; [cbn [bind] in *|discriminate H] end).
  destruct (bmap2 xmul _ ones) as [mm|] eqn:E; [|discriminate]. cbn [bind] in H. apply ok_inj in H. subst o.
  cbn [system_OTF] in L. rewrite (bmap2_ones _ _ _ _ Lf L E). reflexivity.
Qed.
Lemma filt_ok diag s pts : 0 < s_px s -> 0 < s_f s -> exists h, filt_of diag s pts = Ok (map (fun p => Fin (h p)) pts) /\
  (forall p, 0 <= h p) /\ ((length (s_kernel s) <= 1)%nat -> forall p, h p = 1).
Proof.
  intros Hp Hf. unfold filt_of. destruct (Nat.ltb 1 (length (s_kernel s))) eqn:E.
  - apply Nat.ltb_lt in E. rewrite pydiv_ok by lra. cbn [bind].
    assert (Hi : 0 < s_px s / s_f s) by (apply Rdiv_lt_0_compat; lra).
    exists (fun p => getv (filter_OTF diag (fst p) (snd p) (s_kernel s) (s_px s / s_f s))).
    assert (K : forall p, exists h, filter_OTF diag (fst p) (snd p) (s_kernel s) (s_px s / s_f s) = Ok (Fin h) /\ 0 <= h).
    { intros p. destruct (filter_bounds diag (fst p) (snd p) (s_kernel s) _ Hi) as (h & E1 & B & _). exists h. split; [exact E1 | lra]. }
    split; [|split].
    + unfold on_grid_res. apply traverse_ok. intros p _. destruct (K p) as (h & -> & _). reflexivity.
    + intros p. destruct (K p) as (h & -> & B). exact B.
    + intros; lia.
  - exists (fun _ => 1). split; [reflexivity|]. split; intros; lra.
Qed.

Lemma all_fin (l : list xr) : (forall j, (j < length l)%nat -> exists r, nth_error l j = Some (Fin r)) -> exists v, l = map Fin v.
Proof.
  induction l as [|x l IH]; intros H; [exists []; reflexivity|].
  destruct (H 0%nat) as (r & E); [cbn; lia|]. cbn in E. injection E as ->.
  destruct IH as (v & ->). { intros j Hj. destruct (H (S j)) as (r' & E); [cbn; lia|]. exists r'. exact E. }
  exists (r :: v). reflexivity.
Qed.
Lemma common_any diag k s c pts ps sl ti :
  good_spectrum ps -> good_optics s -> good_path c sl -> 0 < s_px s -> 0 < s_f s ->
  exists o v, common_OTFs diag k s c pts (map fst ps) (map (fun p => Fin (snd p)) ps) sl ti = Ok o
    /\ system_OTF o = map Fin v /\ length v = length pts.
Proof.
  intros GS GO GP Hp Hf.
  destruct (common_good diag k (no_sharpening s) c pts ps sl ti GS GO GP) as (o & E & L & J); [cbn; lia|].
  destruct (all_fin (system_OTF o)) as (v & Ev).
  { intros j Hj. rewrite L in Hj. destruct (nth_error pts j) as [[u w]|] eqn:Ej.
    - destruct (J j u w Ej) as (a & t & d & ji & dr & wv & _ & _ & _ & _ & _ & _ & _ & S & _). eexists. exact S.
    - apply nth_error_None in Ej. lia. }
  destruct (filt_ok diag s pts Hp Hf) as (h & Ef & _).
  rewrite (common_filter _ _ _ _ _ _ _ _ _ _ _ E L Ef) by apply map_length.
  eexists. exists (map2 Rmult v (map h pts)). split; [reflexivity|]. cbn [system_OTF]. rewrite Ev in L |- *. rewrite map_length in L.
  split.
  - clear -L. revert pts L. induction v as [|x v IH]; intros [|p pts] L; cbn in *; try lia; [reflexivity|]. f_equal. apply IH. lia.
  - rewrite map2_length, map_length. lia.
Qed.

(** ** The slant range of niirs reaches the ground *)
Lemma niirs_path al g sl : 0 < al -> curved_earth_slant_range 0 al g = Fin sl ->
  0 < sl /\ 0 <= al <= sl /\ sl <= 2 * 6378164 + al.
Proof.
  intros Ha Hs. pose proof r_earth_pos as Hr.
  assert (T : Rabs (r_earth + al - sl) <= r_earth <= r_earth + al + sl).
  { rewrite slant_is_distance in Hs. apply fin_inj in Hs. rewrite sensor_above in Hs.
    pose proof (triangle_sides (above r_earth 0 (g / r_earth)) (sensor_pt al)) as H.
    rewrite norm_sensor, norm_above, Hs in H by lra. rewrite Rplus_0_r in H. exact H. }
  destruct T as [T _]. unfold Rabs in T. destruct (Rcase_abs _) in T; unfold r_earth in *; lra.
Qed.

(** ** Contrast succeeds *)
Lemma electrons_at s x y lam L : has_tables s -> sorted_tables s -> reads (s_owl s) (s_otr s) lam x -> reads (s_qwl s) (s_qe s) lam y -> 0 < lam ->
  electrons s x y lam L = dN_at s lam L.
Proof.
  intros [T1 [T2 [T3 T4]]] [S1 S2] R1 R2 Hl. unfold electrons, dN_at, dN1, trans_at, qe_at, photon_energy.
  rewrite (reads_interp _ _ _ _ T1 T2 S1 R1). rewrite (reads_interp _ _ _ _ T3 T4 S2 R2).
  rewrite self_eq, hc_spec, cc_spec. pose proof hc_pos. pose proof cc_pos. field. repeat split; lra.
Qed.
Lemma nodup_sorted l : StronglySorted Rlt l -> NoDup l.
Proof.
  induction 1 as [|x l H IH F]; constructor; auto. intros C. rewrite Forall_forall in F. specialize (F x C). lra.
Qed.
Lemma spectrum_good s l em : physical s -> sound_rows l -> StronglySorted Rlt (map a_wl l) ->
  (exists a, In a l /\ 0 < dN_at s (a_wl a) (giqe_target (isem em) a)) -> good_spectrum (spectrum s l em) /\ spectrum s l em <> [].
Proof.
  intros P Sr So (a & Ia & Pa). unfold spectrum. set (g := fun a => dN_at s (a_wl a) (giqe_target (isem em) a)) in *.
  assert (If : In a (filter (fun a => Rltb 0 (g a)) l)) by (apply filter_In; split; [exact Ia | apply Rltb_true; exact Pa]).
  assert (Al : forall b, In b (filter (fun a => Rltb 0 (g a)) l) -> 0 < a_wl b /\ 0 < g b).
  { intros b Hb. apply filter_In in Hb. destruct Hb as [H1 H2]. apply Rltb_true in H2. split; [apply (Sr b H1) | exact H2]. }
  split.
  - split; [|split].
    + rewrite map_map. cbn [fst]. apply nodup_sorted.
      assert (F : forall (Q : arow -> bool) l, StronglySorted Rlt (map a_wl l) -> StronglySorted Rlt (map a_wl (filter Q l))).
      { clear. intros Q l H. induction l as [|x l IH]; cbn; [constructor|]. cbn in H. inversion H as [|y m H1 H2]; subst.
        destruct (Q x); [|auto]. cbn. constructor; [auto|]. rewrite Forall_forall in *. intros z Hz. apply H2.
        apply in_map_iff in Hz. destruct Hz as (b & <- & Hb). apply filter_In in Hb. apply in_map. tauto. }
      apply F, So.
    + intros p Hp. apply in_map_iff in Hp. destruct Hp as (b & <- & Hb). cbn [fst snd]. destruct (Al b Hb) as [B1 B2]. change (0 < a_wl b /\ 0 <= g b). lra.
    + rewrite map_map. cbn [snd]. change (0 < Rsum (map g (filter (fun a => Rltb 0 (g a)) l))). clear -If Al. induction (filter (fun a => Rltb 0 (g a)) l) as [|x m IH]; [destruct If|].
      cbn [map]. rewrite Rsum_cons. destruct (Al x (or_introl eq_refl)) as [_ X].
      assert (0 <= Rsum (map g m)). { apply Rsum_nonneg. intros y Hy. apply in_map_iff in Hy. destruct Hy as (b & <- & Hb). left. apply Al. now right. }
      change (0 < g x + Rsum (map g m)). lra.
  - intros C. apply (in_map (fun a => (a_wl a, g a))) in If. change (map (fun a0 => (a_wl a0, g a0)) (filter (fun a0 => Rltb 0 (g a0)) l) = []) in C. rewrite C in If. destruct If.
Qed.
Lemma contrast_ok s l em : physical s -> sound_rows l -> StronglySorted Rlt (map a_wl l) ->
  (exists a, In a l /\ 0 < dN_at s (a_wl a) (giqe_target (isem em) a)) ->
  exists ct t, contrast_part s l em = Ok ct /\ ct_wl ct = map fst (spectrum s l em) /\
    ct_w ct = map (fun p => Fin (snd p)) (spectrum s l em) /\ m_int_time (ct_snr ct) = Fin t /\ 0 <= t /\
    exists snr, m_snr (ct_snr ct) = Fin snr.
Proof.
  intros P Sr So Ex. destruct (spectrum_good s l em P Sr So Ex) as [GS NE].
  destruct (contrast_form s l em P Sr) as (M & t & HM & HT & HB & _ & F). rewrite F. cbv zeta.
  assert (SN : exists snr, m_snr M = Fin snr).
  { rewrite <- (map_map (giqe_target (isem em)) Fin), <- (map_map (giqe_background (isem em)) Fin) in HM.
    destruct (snr_value s (map a_wl l) (map (giqe_target (isem em)) l) (map (giqe_background (isem em)) l) P) as (M' & q & HM' & _ & _ & K).
    - intros x Hx. apply in_map_iff in Hx. destruct Hx as (a & <- & Ha). apply (Sr a Ha).
    - apply strict_ascending, So.
    - rewrite !map_length; reflexivity.
    - rewrite !map_length; reflexivity.
    - intros x Hx. apply in_map_iff in Hx. destruct Hx as (a & <- & Ha). pose proof (target_sound (isem em) a (Sr a Ha)). lra.
    - intros x Hx. apply in_map_iff in Hx. destruct Hx as (a & <- & Ha). pose proof (background_sound (isem em) a (Sr a Ha)). lra.
    - rewrite HM in HM'. apply ok_inj in HM'. subst M'. cbv zeta in K. eexists. apply K. }
  destruct (py_min (map fst (spectrum s l em))) as [lmin|] eqn:EM.
  - cbn [bind]. apply py_min_spec in EM. destruct EM as [I1 _].
    assert (0 < lmin). { apply in_map_iff in I1. destruct I1 as (p & <- & Hp). apply GS. exact Hp. }
    rewrite xdiv_fin by lra. cbn [finite bind]. do 2 eexists. split; [reflexivity|]. cbn [ct_wl ct_w ct_snr]. split; [reflexivity|]. split; [reflexivity|]. split; [exact HT|]. split; [apply HB | exact SN].
  - exfalso. destruct (spectrum s l em); [apply NE; reflexivity | discriminate EM].
Qed.

(** ** The whole computation *)
Definition emissive (s : sensor) : bool := Rleb (2.9 / 10 ^ 6) (nth 0 (s_owl s) 0).
Lemma bookkeeping_em s c : isem (fst (bookkeeping s c)) = emissive s.
Proof. unfold bookkeeping, emissive. destruct (Rleb _ _); reflexivity. Qed.
Lemma emissive_iff s em : (em = true <-> emissive_band s) -> em = emissive s.
Proof.
  intros H. unfold emissive, emissive_band in *. destruct (Rleb _ _) eqn:E.
  - apply Rleb_true in E. tauto.
  - apply Rleb_false in E. destruct em; [|reflexivity]. assert (K := proj1 H eq_refl). lra.
Qed.
Lemma bookkeeping_same s c : altitude (snd (bookkeeping s c)) = altitude c /\ ground_range (snd (bookkeeping s c)) = ground_range c
  /\ ihaze (snd (bookkeeping s c)) = ihaze c /\ interp (snd (bookkeeping s c)) = interp c /\ cache (snd (bookkeeping s c)) = cache c.
Proof. unfold bookkeeping. destruct (Rleb _ _); repeat split; reflexivity. Qed.

Definition u_line (m : img) : list R := map (fun i => px m 50 (50 + i)) (seq 0 50).
Definition v_line (m : img) : list R := map (fun i => px m (50 - i) 50) (seq 0 50).
Lemma lines_ok m : rows m = 101%nat -> cols m = 101%nat -> slice_otf m 0 = Ok (u_line m) /\ slice_otf m (PI / 2) = Ok (v_line m).
Proof.
  intros Hr Hc. split; [apply (slice_u m 50) | apply (slice_v m 50)]; try lia; assumption.
Qed.
Lemma rer5_ok m df x y : rows m = 101%nat -> cols m = 101%nat -> 0 <= df ->
  giqe5_RER m df x y = Ok (Fin (2 * edge_at (u_line m) df x (1 / 2) - 1), Fin (2 * edge_at (v_line m) df y (1 / 2) - 1)).
Proof.
  intros Hr Hc Hd. destruct (lines_ok m Hr Hc) as [E1 E2]. unfold giqe5_RER. rewrite E1, E2. cbn [bind].
  rewrite !rer_value by exact Hd. reflexivity.
Qed.
Lemma edges_ok m df x y : rows m = 101%nat -> cols m = 101%nat -> 0 <= df -> exists eu ev,
  giqe_edge_terms m df x y = Ok (xsqrt (Fin ((2 * edge_at (u_line m) df x (1 / 2) - 1) * (2 * edge_at (v_line m) df y (1 / 2) - 1))), xsqrt (Fin (eu * ev))).
Proof.
  intros Hr Hc Hd. destruct (lines_ok m Hr Hc) as [E1 E2]. unfold giqe_edge_terms. rewrite E1, E2. cbn [bind].
  rewrite !rer_value by exact Hd. cbn [bind].
  destruct (eho_spec (u_line m) df x Hd) as (eu & -> & _). destruct (eho_spec (v_line m) df y Hd) as (ev & -> & _). cbn [bind].
  exists eu, ev. reflexivity.
Qed.
Lemma mtf_image_ok o v : system_OTF o = map Fin v ->
  mtf_image o = Ok {| rows := 101; cols := 101; px := fun i j => nth (i * 101 + j) (map Rabs v) 0 |}.
Proof.
  intros E. unfold mtf_image. rewrite E.
  assert (H : mapM (fun x => finite (xabs x)) (map Fin v) = Ok (map Rabs v)).
  { clear. induction v as [|x v IH]; cbn [map mapM]; [reflexivity|]. cbn [xabs finite bind]. rewrite IH. reflexivity. }
  rewrite H. reflexivity.
Qed.

Section Run.
  Variables (ni it : loader) (diag : nat -> nat -> bool) (s : sensor) (c : scen) (itp : bool) (m : atm) (em : bool).
  Hypothesis Hload : loaded ni it c itp m.
  Hypothesis Hcam : good_camera s.
  Hypothesis Hem : em = true <-> emissive_band s.
  Hypothesis Hatm : good_atmosphere s em (atm_rows m).
  Hypothesis Halt : 0 < altitude c.
  Let c' := snd (bookkeeping s c).

  Lemma stages : exists rows ct sl t snr e,
    load_band ni it s c itp = Ok rows /\ contrast_part s rows (fst (bookkeeping s c)) = Ok ct /\
    curved_earth_slant_range 0 (altitude c) (ground_range c) = Fin sl /\ 0 < sl /\
    m_int_time (ct_snr ct) = Fin t /\ m_snr (ct_snr ct) = Fin snr /\ 0 < ct_df ct /\
    elev_angle (altitude c) sl = Ok (Fin e) /\ 0 < sin e /\
    forall s', good_optics s' -> 0 < s_px s' -> 0 < s_f s' ->
      exists o v, common_OTFs diag Np s' c' (ct_pts ct) (ct_wl ct) (ct_w ct) sl t = Ok o /\ system_OTF o = map Fin v.
  Proof.
    destruct Hcam as (P & So & GO & Hf & Hpx & Hpy). destruct Hatm as (Sr & Ss & a & x & y & Ia & Ba & R1 & R2 & Pos).
    assert (Ht := ph_tables _ P).
    destruct (band_ok s (atm_rows m)) as (rows & Eb & _); [apply Ht|].
    destruct (seen_band _ _ _ Eb) as [Bi Bs]. specialize (Bs Ss).
    assert (Sr' : sound_rows rows) by (intros b Hb; apply Sr; apply Bi; exact Hb).
    rewrite (emissive_iff s em Hem), <- (bookkeeping_em s c) in Pos.
    destruct (contrast_ok s rows (fst (bookkeeping s c)) P Sr' Bs) as (ct & t & Ec & Ew & Eww & Et & _ & snr & Es).
    { exists a. split; [apply Bi; split; assumption|]. rewrite <- (electrons_at s x y) by (auto; apply (Sr a Ia)). exact Pos. }
    destruct (spectrum_good s rows (fst (bookkeeping s c)) P Sr' Bs) as [GS _].
    { exists a. split; [apply Bi; split; assumption|]. rewrite <- (electrons_at s x y) by (auto; apply (Sr a Ia)). exact Pos. }
    assert (Esl := slant_val 0 (altitude c) (ground_range c)).
    match type of Esl with _ = Fin ?q => set (sl := q) in * end. clearbody sl.
    destruct (niirs_path _ _ _ Halt Esl) as (P1 & P2 & P3).
    destruct (elev_positive _ _ _ Halt Esl) as (e & Ee & Se & _).
    destruct (grid_shape s rows _ ct P Sr' Ec) as (lmin & _ & _ & L0 & Ecut & Edf & Lp & _).
    exists rows, ct, sl, t, snr, e. split; [unfold load_band; rewrite Hload; exact Eb|].
    split; [exact Ec|]. split; [exact Esl|]. split; [exact P1|]. split; [exact Et|]. split; [exact Es|].
    split. { rewrite Edf, Ecut. destruct GO as [D0 _]. apply Rdiv_lt_0_compat; [apply Rdiv_lt_0_compat; assumption | lra]. }
    split; [exact Ee|]. split; [exact Se|]. intros s' GO' Hpx' Hf'. rewrite Ew, Eww.
    destruct (common_any diag Np s' c' (ct_pts ct) _ sl t GS GO') as (o & v & Eo & Ev & _); auto.
    { right. unfold c'. destruct (bookkeeping_same s c) as (-> & _). auto. }
    exists o, v. split; assumption.
  Qed.

  Lemma niirs_succeeds : Rsum (concat (s_kernel s)) = 1 ->
    exists mt snr ng, niirs ni it diag s c itp = (c', Ok mt) /\
      curved_earth_slant_range 0 (altitude c) (ground_range c) = Fin (n_slant mt) /\ 0 < n_slant mt /\
      m_snr (ct_snr (n_contrast mt)) = Fin snr /\
      n_gsd_gm mt = Fin (sqrt ((s_px s / s_f s * n_slant mt) * (s_py s / s_f s * n_slant mt))) /\
      n_ng mt = Fin ng /\ 0 <= ng /\ ng * ng = Rsum (map (fun w => w * w) (concat (s_kernel s))) /\
      (exists e, n_elev mt = Fin e /\ 0 < sin e) /\
      n_niirs mt = giqe3 (n_rer mt) (n_gsd_gm mt) (n_eho mt) (n_ng mt) (xmul (xsqrt (Fin (s_frames s))) (Fin snr)) /\
      (n_niirs_4 mt, n_gsd_gp mt) = giqe4 (n_rer mt) (n_gsd_gm mt) (n_eho mt) (n_ng mt) (xmul (xsqrt (Fin (s_frames s))) (Fin snr)) (n_elev mt).
  Proof.
    intros Hk. destruct Hcam as (P & So & GO & Hf & Hpx & Hpy).
    destruct stages as (rows & ct & sl & t & snr & e & E1 & E2 & E3 & E4 & E5 & E6 & E7 & E8 & E9 & J).
    destruct (J s GO Hpx Hf) as (o & v & Eo & Ev).
    unfold niirs. rewrite E1. unfold c' in *. destruct (bookkeeping s c) as [z c2] eqn:B. cbn [fst snd] in *.
    assert (Bs := bookkeeping_same s c). rewrite B in Bs. cbn [snd] in Bs. destruct Bs as (B1 & B2 & _).
    rewrite E2. cbn [bind]. unfold niirs_rest. rewrite B1, B2, E3. cbn [finite bind]. rewrite E5. cbn [finite bind].
    rewrite Eo. cbn [bind]. rewrite !pydiv_ok by lra. cbn [bind]. rewrite (mtf_image_ok o v Ev). cbn [bind].
    match goal with |- context [giqe_edge_terms ?mm ?d ?x ?y] => destruct (edges_ok mm d x y eq_refl eq_refl (Rlt_le _ _ E7)) as (eu & ev & EE) end.
    rewrite EE. cbn [bind]. rewrite noise_gain_ok by exact Hk. cbn [bind]. rewrite E8. cbn [bind]. rewrite E6.
    match goal with |- context [giqe4 ?a ?b ?d ?f ?g ?h] => destruct (giqe4 a b d f g h) as [n4 gp] eqn:G4 end.
    eexists. exists snr, (sqrt (sumsq (concat (s_kernel s)))). split; [reflexivity|].
    cbn [n_slant n_contrast n_gsd_gm n_ng n_elev n_niirs n_niirs_4 n_gsd_gp n_rer n_eho].
    split; [reflexivity|]. split; [exact E4|]. split; [exact E6|].
    split. { apply xsqrt_fin. apply Rmult_le_pos; (apply Rmult_le_pos; [apply Rmult_le_pos; [lra | left; apply Rinv_0_lt_compat; lra] | lra]). }
    split; [reflexivity|]. split; [apply sqrt_pos|]. split; [apply sqrt_sqrt, sumsq_nonneg|].
    split; [exists e; split; [reflexivity | exact E9]|]. split; [reflexivity|]. symmetry. exact G4.
  Qed.

  Lemma niirs_kernel_error : Rsum (concat (s_kernel s)) <> 1 -> niirs ni it diag s c itp = (c', Err ValueError).
  Proof.
    intros Hk. destruct Hcam as (P & So & GO & Hf & Hpx & Hpy).
    destruct stages as (rows & ct & sl & t & snr & e & E1 & E2 & E3 & E4 & E5 & E6 & E7 & E8 & E9 & J).
    destruct (J s GO Hpx Hf) as (o & v & Eo & Ev).
    unfold niirs. rewrite E1. unfold c' in *. destruct (bookkeeping s c) as [z c2] eqn:B. cbn [fst snd] in *.
    assert (Bs := bookkeeping_same s c). rewrite B in Bs. cbn [snd] in Bs. destruct Bs as (B1 & B2 & _).
    rewrite E2. cbn [bind]. unfold niirs_rest. rewrite B1, B2, E3. cbn [finite bind]. rewrite E5. cbn [finite bind].
    rewrite Eo. cbn [bind]. rewrite !pydiv_ok by lra. cbn [bind]. rewrite (mtf_image_ok o v Ev). cbn [bind].
    match goal with |- context [giqe_edge_terms ?mm ?d ?x ?y] => destruct (edges_ok mm d x y eq_refl eq_refl (Rlt_le _ _ E7)) as (eu & ev & EE) end.
    rewrite EE. cbn [bind]. rewrite (proj2 (noise_gain_raises_iff _) Hk). reflexivity.
  Qed.

  Lemma niirs5_succeeds : exists mt snr r0 r90 e, niirs5 ni it diag s c itp = (no_sharpening s, c', Ok mt) /\
      curved_earth_slant_range 0 (altitude c) (ground_range c) = Fin (f_slant mt) /\ 0 < f_slant mt /\
      f_gsd_x mt = s_px s / s_f s * f_slant mt /\ m_snr (ct_snr (f_contrast mt)) = Fin snr /\
      f_rer_0 mt = Fin r0 /\ f_rer_90 mt = Fin r90 /\ f_elev mt = Fin e /\ 0 < sin e /\
      (f_niirs mt, f_gsd_w mt, f_rer mt) = giqe5 (Fin r0) (Fin r90) (Fin (f_gsd_x mt)) (xmul (xsqrt (Fin (s_frames s))) (Fin snr)) (Fin e).
  Proof.
    destruct Hcam as (P & So & GO & Hf & Hpx & Hpy).
    destruct stages as (rows & ct & sl & t & snr & e & E1 & E2 & E3 & E4 & E5 & E6 & E7 & E8 & E9 & J).
    destruct (J (no_sharpening s) GO Hpx Hf) as (o & v & Eo & Ev).
    unfold niirs5. rewrite E1. unfold c' in *. destruct (bookkeeping s c) as [z c2] eqn:B. cbn [fst snd] in *.
    assert (Bs := bookkeeping_same s c). rewrite B in Bs. cbn [snd] in Bs. destruct Bs as (B1 & B2 & _).
    rewrite E2. unfold niirs5_rest. rewrite B1, B2, E3. cbn [finite bind]. rewrite E5. cbn [finite bind].
    rewrite Eo. cbn [bind]. cbn [no_sharpening s_px s_py s_f s_frames]. rewrite !pydiv_ok by lra. cbn [bind]. rewrite (mtf_image_ok o v Ev). cbn [bind].
    match goal with |- context [giqe5_RER ?mm ?d ?x ?y] => rewrite (rer5_ok mm d x y eq_refl eq_refl (Rlt_le _ _ E7)) end. cbn [bind]. rewrite E8. cbn [bind]. rewrite E6.
    match goal with |- context [giqe5 ?a ?b ?d ?f ?g] => destruct (giqe5 a b d f g) as [[n5 gw] rr] eqn:G5 end.
    do 5 eexists. split; [reflexivity|]. cbn [f_slant f_gsd_x f_contrast f_rer_0 f_rer_90 f_elev f_niirs f_gsd_w f_rer].
    split; [reflexivity|]. split; [exact E4|]. split; [reflexivity|]. split; [exact E6|]. split; [reflexivity|]. split; [reflexivity|].
    split; [reflexivity|]. split; [exact E9|]. symmetry. exact G5.
  Qed.
End Run.

(** ** C81: what happens to the scenario *)
Lemma set_plain_same a r c b : plain (set_plain a r c) b = if attr_eqb a b then r else plain c b.
Proof. reflexivity. Qed.
Lemma niirs_state ni it diag s c itp : fst (niirs ni it diag s c itp) =
  match load_band ni it s c itp with Ok _ => snd (bookkeeping s c) | Err _ => c end.
Proof. unfold niirs. destruct (load_band _ _ _ _ _); [|reflexivity]. destruct (bookkeeping s c). reflexivity. Qed.
Lemma niirs5_state ni it diag s c itp : snd (fst (niirs5 ni it diag s c itp)) =
  match load_band ni it s c itp with Ok _ => snd (bookkeeping s c) | Err _ => c end.
Proof.
  unfold niirs5. destruct (load_band _ _ _ _ _); [|reflexivity]. destruct (bookkeeping s c) as [z c']. cbn [snd].
  destruct (contrast_part s a z); reflexivity.
Qed.
Lemma load_band_ok ni it s c itp m : loaded ni it c itp m -> s_owl s <> [] -> exists rows, load_band ni it s c itp = Ok rows.
Proof.
  intros H N. unfold load_band. rewrite H. cbn [bind]. destruct (band_ok s (atm_rows m) N) as (b & E & _). exists b. exact E.
Qed.
Lemma load_band_err ni it s c itp : (s_owl s = [] \/ forall m, ~ loaded ni it c itp m) -> exists e, load_band ni it s c itp = Err e.
Proof.
  intros H. unfold load_band. destruct ((if itp then it else ni) _ _ _) as [m|e] eqn:E; cbn [bind]; [|exists e; reflexivity].
  destruct H as [H|H]; [|exfalso; apply (H m); exact E]. unfold band. rewrite H. eexists. reflexivity.
Qed.
Lemma bookkeeping_reflective s c : ~ emissive_band s -> let c' := snd (bookkeeping s c) in
  plain c' TargetReflectance = 0.15 /\ plain c' BackgroundReflectance = 0.07 /\
  forall a, a <> TargetReflectance -> a <> BackgroundReflectance -> plain c' a = plain c a.
Proof.
  intros H. unfold bookkeeping. destruct (Rleb _ _) eqn:E; [exfalso; apply H, Rleb_true, E|]. cbn [snd]. cbv zeta.
  split; [reflexivity|]. split; [reflexivity|]. intros a A B. destruct a; try reflexivity; contradiction.
Qed.
Lemma bookkeeping_emissive s c : emissive_band s -> let c' := snd (bookkeeping s c) in
  plain c' TargetReflectance = 0 /\ plain c' BackgroundReflectance = 0 /\ plain c' TargetTemperature = 280 /\
  forall a, a <> TargetReflectance -> a <> BackgroundReflectance -> a <> TargetTemperature -> plain c' a = plain c a.
Proof.
  intros H. unfold bookkeeping. rewrite (proj2 (Rleb_true _ _) H). cbn [snd]. cbv zeta.
  split; [reflexivity|]. split; [reflexivity|]. split; [reflexivity|]. intros a A B C. destruct a; try reflexivity; contradiction.
Qed.

(** ** C83 *)
Lemma set_plain_idem a r c : plain c a = r -> set_plain a r c = c.
Proof.
  intros H. destruct c as [ih al gr ip pl ca]. unfold set_plain. cbn in *. f_equal.
  apply functional_extensionality. intros b. destruct (attr_eqb a b) eqn:E; [|reflexivity].
  destruct a, b; try discriminate E; rewrite <- H; reflexivity.
Qed.
Lemma set_plain_twice a r r' c : set_plain a r (set_plain a r' c) = set_plain a r c.
Proof.
  unfold set_plain. cbn. f_equal. apply functional_extensionality. intros b. destruct (attr_eqb a b); reflexivity.
Qed.
Lemma bookkeeping_idem s c : bookkeeping s (snd (bookkeeping s c)) = bookkeeping s c.
Proof.
  unfold bookkeeping at 1 3. destruct (Rleb _ _) eqn:E; unfold bookkeeping; rewrite E; cbn [snd]; f_equal.
  - rewrite !(set_plain_twice TargetTemperature). rewrite (set_plain_idem TargetReflectance 0) by reflexivity.
    rewrite (set_plain_idem BackgroundReflectance 0) by reflexivity. apply set_plain_twice.
  - rewrite (set_plain_idem TargetReflectance 0.15) by reflexivity. apply set_plain_idem. reflexivity.
Qed.
Lemma load_after ni it s c itp : load_band ni it s (snd (bookkeeping s c)) itp = load_band ni it s c itp.
Proof. unfold load_band. destruct (bookkeeping_same s c) as (-> & -> & -> & _). reflexivity. Qed.
Lemma niirs_idem ni it diag s c itp c1 r : niirs ni it diag s c itp = (c1, r) -> niirs ni it diag s c1 itp = (c1, r).
Proof.
  intros H. assert (H' := H). unfold niirs in H. destruct (load_band ni it s c itp) as [rows|e] eqn:L.
  - destruct (bookkeeping s c) as [z c'] eqn:B. injection H as <- <-.
    unfold niirs. assert (LA := load_after ni it s c itp). rewrite B in LA. cbn [snd] in LA. rewrite LA, L.
    assert (BI := bookkeeping_idem s c). rewrite B in BI. cbn [snd] in BI. rewrite BI. reflexivity.
  - injection H as <- <-. exact H'.
Qed.
Lemma no_sharpening_twice s : no_sharpening (no_sharpening s) = no_sharpening s. Proof. reflexivity. Qed.
Lemma contrast_no_sharpening s rows z : contrast_part (no_sharpening s) rows z = contrast_part s rows z. Proof. reflexivity. Qed.
Lemma niirs5_idem ni it diag s c itp s1 c1 r : niirs5 ni it diag s c itp = (s1, c1, r) -> niirs5 ni it diag s1 c1 itp = (s1, c1, r).
Proof.
  intros H. assert (H' := H). unfold niirs5 in H. destruct (load_band ni it s c itp) as [rows|e] eqn:L.
  - destruct (bookkeeping s c) as [z c'] eqn:B.
    assert (LA := load_after ni it s c itp). rewrite B in LA. cbn [snd] in LA.
    assert (BI := bookkeeping_idem s c). rewrite B in BI. cbn [snd] in BI.
    destruct (contrast_part s rows z) as [ct|e] eqn:C; injection H as <- <- <-; unfold niirs5.
    + change (load_band ni it (no_sharpening s) c' itp) with (load_band ni it s c' itp). rewrite LA, L.
      change (bookkeeping (no_sharpening s) c') with (bookkeeping s c'). rewrite BI.
      rewrite contrast_no_sharpening, C. reflexivity.
    + rewrite LA, L, BI, C. reflexivity.
  - injection H as <- <- <-. exact H'.
Qed.

(** ** C85 *)
Lemma common_frames diag k s n c pts wl w sl ti : common_OTFs diag k (with_frames s n) c pts wl w sl ti = common_OTFs diag k s c pts wl w sl ti.
Proof. reflexivity. Qed.
Lemma contrast_frames s n rows z : contrast_part (with_frames s n) rows z = contrast_part s rows z. Proof. reflexivity. Qed.
Lemma niirs_frames ni it diag s c itp n c1 m1 : niirs ni it diag s c itp = (c1, Ok m1) ->
  exists m2, niirs ni it diag (with_frames s n) c itp = (c1, Ok m2) /\
    n_contrast m2 = n_contrast m1 /\ n_otf m2 = n_otf m1 /\ n_rer m2 = n_rer m1 /\ n_eho m2 = n_eho m1 /\ n_ng m2 = n_ng m1 /\
    n_gsd_gm m2 = n_gsd_gm m1 /\ n_elev m2 = n_elev m1 /\ n_gsd_gp m2 = n_gsd_gp m1 /\
    n_niirs m1 = giqe3 (n_rer m1) (n_gsd_gm m1) (n_eho m1) (n_ng m1) (xmul (xsqrt (Fin (s_frames s))) (m_snr (ct_snr (n_contrast m1)))) /\
    n_niirs m2 = giqe3 (n_rer m1) (n_gsd_gm m1) (n_eho m1) (n_ng m1) (xmul (xsqrt (Fin n)) (m_snr (ct_snr (n_contrast m1)))).
Proof.
  intros H. unfold niirs in *. change (load_band ni it (with_frames s n) c itp) with (load_band ni it s c itp).
  destruct (load_band ni it s c itp) as [rows|]; [|discriminate].
  change (bookkeeping (with_frames s n) c) with (bookkeeping s c). destruct (bookkeeping s c) as [z c'].
  rewrite contrast_frames. injection H as <- H. destruct (contrast_part s rows z) as [ct|]; [|discriminate]. cbn [bind] in *.
  unfold niirs_rest in *. cbn [with_frames s_px s_py s_f s_kernel s_frames].
  destruct (finite (curved_earth_slant_range _ _ _)) as [sl|]; [|discriminate]. cbn [bind] in *.
  destruct (finite (m_int_time _)) as [t|]; [|discriminate]. cbn [bind] in *. rewrite common_frames.
  destruct (common_OTFs _ _ _ _ _ _ _ _ _) as [o|]; [|discriminate]. cbn [bind] in *.
  destruct (pydiv (s_px s) (s_f s)) as [ix|]; [|discriminate]. cbn [bind] in *.
  destruct (pydiv (s_py s) (s_f s)) as [iy|]; [|discriminate]. cbn [bind] in *.
  destruct (mtf_image o) as [im|]; [|discriminate]. cbn [bind] in *.
  destruct (giqe_edge_terms _ _ _ _) as [[rer eho]|]; [|discriminate]. cbn [bind] in *.
  destruct (noise_gain _) as [ng|]; [|discriminate]. cbn [bind] in *.
  destruct (elev_angle _ _) as [el|]; [|discriminate]. cbn [bind] in *.
  unfold giqe4 in *. destruct (if xle (Fin 0.9) rer then _ else _) as [c1 c2]. apply ok_inj in H. subst m1.
  eexists. split; [reflexivity|]. cbn. repeat split; reflexivity.
Qed.
Lemma giqe3_frames r g e ng x n1 n2 : 0 < r -> 0 < g -> 0 <= ng -> 0 < n1 -> n1 < n2 -> x <> 0 ->
  exists v1 v2, giqe3 (Fin r) (Fin g) (Fin e) (Fin ng) (xmul (xsqrt (Fin n1)) (Fin x)) = Fin v1 /\
    giqe3 (Fin r) (Fin g) (Fin e) (Fin ng) (xmul (xsqrt (Fin n2)) (Fin x)) = Fin v2 /\
    (0 < x -> v1 <= v2) /\ (0 < x -> 0 < ng -> v1 < v2) /\ (x < 0 -> 0 < ng -> v2 < v1).
Proof.
  intros Hr Hg Hn H1 H2 Hx. rewrite !xsqrt_fin, !xmul_fin by lra.
  assert (S1 : 0 < sqrt n1) by (apply sqrt_lt_R0; lra). assert (S2 : sqrt n1 < sqrt n2) by (apply sqrt_lt_1_alt; lra).
  assert (N : forall y, 0 < y -> y * x <> 0) by (intros y Hy C; apply Rmult_integral in C; lra).
  rewrite !giqe3_value by (auto; apply N; lra). do 2 eexists. split; [reflexivity|]. split; [reflexivity|].
  assert (K : forall y, 0 < y -> 0 < ng -> ng / (sqrt n2 * y) < ng / (sqrt n1 * y)).
  { intros y Hy Hp. apply ratio_lt; [lra | lra | nra | nra | right; split; nra]. }
  split; [|split].
  - intros X. assert (ng / (sqrt n2 * x) <= ng / (sqrt n1 * x)) by (apply ratio_le; nra). lra.
  - intros X Hp. specialize (K x X Hp). lra.
  - intros X Hp. specialize (K (- x) ltac:(lra) Hp).
    replace (ng / (sqrt n2 * - x)) with (- (ng / (sqrt n2 * x))) in K by (field; lra).
    replace (ng / (sqrt n1 * - x)) with (- (ng / (sqrt n1 * x))) in K by (field; lra). lra.
Qed.

(** ** C84, C86 for niirs *)
Lemma niirs_contrast ni it diag s c itp m c1 mt : loaded ni it c itp m -> niirs ni it diag s c itp = (c1, Ok mt) ->
  exists rows, seen_rows s (atm_rows m) rows /\ contrast_part s rows (fst (bookkeeping s c)) = Ok (n_contrast mt).
Proof.
  intros L H. unfold niirs in H. unfold load_band in H. rewrite L in H. cbn [bind] in H.
  destruct (band s (atm_rows m)) as [rows|] eqn:B; [|discriminate]. exists rows. split; [apply seen_band, B|].
  destruct (bookkeeping s c) as [z c']. cbn [fst]. injection H as <- H.
  destruct (contrast_part s rows z) as [ct|]; [|discriminate]. cbn [bind] in H. f_equal.
  unfold niirs_rest in H.
  repeat match type of H with
    | (let* x := ?b in _) = _ => destruct b as [?|]; [cbn [bind] in H|discriminate H]
    | (let (_, _) := ?g in _) = _ => destruct g as [? ?] end.
  apply ok_inj in H. subst mt. reflexivity.
Qed.

Lemma niirs5_contrast ni it diag s c itp m s1 c1 mt : loaded ni it c itp m -> niirs5 ni it diag s c itp = (s1, c1, Ok mt) ->
  exists rows, seen_rows s (atm_rows m) rows /\ contrast_part s rows (fst (bookkeeping s c)) = Ok (f_contrast mt).
Proof.
  intros L H. unfold niirs5 in H. unfold load_band in H. rewrite L in H. cbn [bind] in H.
  destruct (band s (atm_rows m)) as [rows|] eqn:B; [|discriminate]. exists rows. split; [apply seen_band, B|].
  destruct (bookkeeping s c) as [z c']. cbn [fst].
  destruct (contrast_part s rows z) as [ct|]; [|discriminate]. cbv zeta in H. injection H as _ _ H. f_equal.
  unfold niirs5_rest in H.
  repeat match type of H with
    | (let* x := ?b in _) = _ => destruct b as [?|]; [cbn [bind] in H|discriminate H]
    | (let (_, _) := ?g in _) = _ => destruct g as [? ?] end.
  apply ok_inj in H. subst mt. reflexivity.
Qed.
Section Split.
  Variables (ni it : loader) (diag : nat -> nat -> bool) (s : sensor) (c : scen) (itp : bool) (m : atm) (em : bool).
  Hypothesis Hload : loaded ni it c itp m.
  Hypothesis P : physical s.
  Hypothesis So : sorted_tables s.
  Hypothesis Hem : em = true <-> emissive_band s.
  Hypothesis Sr : sound_rows (atm_rows m).
  Hypothesis Ss : StronglySorted Rlt (map a_wl (atm_rows m)).
  Lemma split_of rows ct : seen_rows s (atm_rows m) rows -> contrast_part s rows (fst (bookkeeping s c)) = Ok ct ->
    split_noise s (atm_rows m) em ct.
  Proof.
    intros V E. exists rows. split; [exact V|]. intros tr q RC. rewrite (emissive_iff s em Hem), <- (bookkeeping_em s c).
    destruct V as [Bi Bs]. apply noise_split; auto.
    - intros a Ha. apply Sr. apply Bi. exact Ha.
    - apply strict_ascending. auto.
  Qed.
  Lemma niirs_split c1 mt : niirs ni it diag s c itp = (c1, Ok mt) -> split_noise s (atm_rows m) em (n_contrast mt).
  Proof. intros H. destruct (niirs_contrast _ _ _ _ _ _ _ _ _ Hload H) as (rows & V & E). apply (split_of rows); assumption. Qed.
  Lemma niirs5_split s1 c1 mt : niirs5 ni it diag s c itp = (s1, c1, Ok mt) -> split_noise s (atm_rows m) em (f_contrast mt).
  Proof. intros H. destruct (niirs5_contrast _ _ _ _ _ _ _ _ _ _ Hload H) as (rows & V & E). apply (split_of rows); assumption. Qed.
  Lemma niirs_grid c1 mt : niirs ni it diag s c itp = (c1, Ok mt) -> let ct := n_contrast mt in
    exists lmin, In lmin (ct_wl ct) /\ (forall x, In x (ct_wl ct) -> lmin <= x) /\ 0 < lmin /\
    ct_cutoff ct = s_D s / lmin /\ ct_df ct = ct_cutoff ct / 50 /\ length (ct_pts ct) = (101 * 101)%nat /\
    forall i j, (i <= 100)%nat -> (j <= 100)%nat ->
      nth (i * 101 + j) (ct_pts ct) (0, 0) = ((INR j - 50) * ct_df ct, (50 - INR i) * ct_df ct).
  Proof.
    intros H ct. destruct (niirs_contrast _ _ _ _ _ _ _ _ _ Hload H) as (rows & V & E).
    apply (grid_shape s rows (fst (bookkeeping s c))); auto. intros a Ha. apply Sr. apply V. exact Ha.
  Qed.
End Split.
