(** * Proof_Rating: niirs and niirs5 in closed form (C121) *)
From Coq Require Import Reals Lra List Lia ZArith Psatz Bool Sorted FunctionalExtensionality.
From Verif Require Import Base_XR Base_Np Base_NpFacts Base_Interp Model_Geo Model_Noise Model_Db Model_Scenario Model_Sensor Model_Rad Model_Otf Model_Img Model_Met
  Spec_Geo Spec_Noise Spec_Rad Spec_Otf Spec_System Spec_Chain Spec_Met Spec_Quality Spec_Trade Spec_Reading Spec_Whole Spec_Rating
  Proof_Geo Proof_Noise Proof_Rad Proof_Pe Proof_RadP Proof_RadX Proof_Weight Proof_System Proof_Slice Proof_Edge Proof_Giqe Proof_Contrast Proof_Niirs
  Proof_MetX Proof_NiirsDemo Proof_StackDemo Proof_Reading Proof_Whole.
Import ListNotations.
Open Scope R_scope.
Opaque linspace.

(** ** Signal to noise *)
Lemma combine_maps {A} (f : A -> R) (g : A -> R) l : combine (map f l) (map g l) = map (fun a => (f a, g a)) l.
Proof. induction l as [|a l IH]; [reflexivity|]. cbn. rewrite IH. reflexivity. Qed.
Lemma share_of s n k : physical s -> (n <= s_max_fill s * s_max_n s -> k = 1) ->
  (s_max_fill s * s_max_n s <= n -> k * n = s_max_fill s * s_max_n s) -> k = share s n.
Proof.
  intros P H1 H2. unfold share. destruct (Rlt_dec _ n) as [L | L]; [|apply H1; lra].
  assert (C : 0 <= s_max_fill s * s_max_n s) by (apply Rmult_le_pos; [apply (ph_max_fill _ P) | left; apply (ph_max_n _ P)]).
  rewrite <- H2 by lra. field. lra.
Qed.
Lemma snr_form s tr q em rows M : physical s -> sorted_tables s -> response_curves s tr q -> sound_rows rows ->
  StronglySorted Rlt (map a_wl rows) ->
  photon_detector_SNR s (map a_wl rows) (map (fun a => Fin (giqe_target em a)) rows) (map (fun a => Fin (giqe_background em a)) rows) = Ok M ->
  let nt := charge s tr q (giqe_target em) rows in let nb := charge s tr q (giqe_background em) rows in
  m_int_time M = Fin (share s (Rmax nt nb) * s_int_time s) /\ m_snr M = Fin (frame_snr s nt nb).
Proof.
  intros P So RC Sr St HM nt nb.
  rewrite <- (map_map (giqe_target em) Fin), <- (map_map (giqe_background em) Fin) in HM.
  assert (PW : positive_wavelengths (map a_wl rows)) by (intros x Hx; apply in_map_iff in Hx; destruct Hx as (a & <- & Ha); apply (Sr a Ha)).
  destruct (snr_counts s (map a_wl rows) (map (giqe_target em) rows) (map (giqe_background em) rows) tr q (ph_tables _ P) So RC (ph_D _ P)
    (ph_max_n _ P) (ph_max_fill _ P) PW) as (M1 & k & HM1 & _ & _ & Ht & Hb & Hi & _ & _ & _ & K1 & K2); [now rewrite !map_length..|].
  rewrite HM in HM1. apply ok_inj in HM1. subst M1.
  rewrite !combine_maps, !map_map in *. cbn [fst snd] in *.
  change ((trapezoid (map (fun a => electrons s (tr (a_wl a)) (q (a_wl a)) (a_wl a) (giqe_target em a)) rows) (map a_wl rows) + s_dark s)
          * (s_int_time s * s_ntdi s)) with nt in *.
  change ((trapezoid (map (fun a => electrons s (tr (a_wl a)) (q (a_wl a)) (a_wl a) (giqe_background em a)) rows) (map a_wl rows) + s_dark s)
          * (s_int_time s * s_ntdi s)) with nb in *.
  assert (K := share_of s (Rmax nt nb) k P K1 K2).
  destruct (noise_terms s (map a_wl rows) (map (giqe_target em) rows) (map (giqe_background em) rows) tr q P So RC PW (strict_ascending _ St))
    as (M2 & tn & bn & t & sig & quant & dark & self & tot & snr & HM2 & Tn & Bn & _ & _ & _ & _ & _ & _ & Sn & _ & _ & _ & T0 & Esig & Eq & _ & _ & Etot & Esnr);
    [now rewrite !map_length|now rewrite !map_length| | |].
  { intros x Hx. apply in_map_iff in Hx. destruct Hx as (a & <- & Ha). pose proof (target_sound em a (Sr a Ha)). lra. }
  { intros x Hx. apply in_map_iff in Hx. destruct Hx as (a & <- & Ha). pose proof (background_sound em a (Sr a Ha)). lra. }
  rewrite !map_map in HM2. rewrite HM in HM2. apply ok_inj in HM2. subst M2.
  rewrite Tn in Ht. rewrite Bn in Hb. apply fin_inj in Ht, Hb. subst tn bn.
  split; [rewrite Hi, K; reflexivity|]. rewrite Sn. f_equal. unfold frame_snr. cbv zeta. rewrite <- K.
  assert (K0 : 0 <= k).
  { rewrite K. unfold share. destruct (Rlt_dec _ _) as [L | L]; [|lra].
    assert (C : 0 <= s_max_fill s * s_max_n s) by (apply Rmult_le_pos; [apply (ph_max_fill _ P) | left; apply (ph_max_n _ P)]).
    apply Rmult_le_pos; [exact C|]. left. apply Rinv_0_lt_compat. lra. }
  rewrite RmaxRmult in Esig by exact K0.
  assert (B : 0 < Rpower 2 (s_bits s) - 1).
  { assert (1 < Rpower 2 (s_bits s)); [|lra]. rewrite <- (Rpower_O 2) by lra. apply Rpower_lt; [lra | apply (ph_bits _ P)]. }
  assert (S12 : sqrt 12 * sqrt 12 = 12) by (apply sqrt_sqrt; lra). assert (P12 : 0 < sqrt 12) by (apply sqrt_lt_R0; lra).
  assert (Q2 : quant ^ 2 = (s_max_n s / (Rpower 2 (s_bits s) - 1)) ^ 2 / 12).
  { rewrite <- Eq. replace (quant * (sqrt 12 * (Rpower 2 (s_bits s) - 1)) / (Rpower 2 (s_bits s) - 1)) with (quant * sqrt 12) by (field; lra).
    replace ((quant * sqrt 12) ^ 2) with (quant ^ 2 * (sqrt 12 * sqrt 12)) by ring. rewrite S12. field. }
  assert (E : tot = sqrt (k * Rmax nt nb + electronic_noise s)).
  { rewrite <- (sqrt_square tot) by lra. f_equal. replace (tot * tot) with (tot ^ 2) by ring. rewrite Etot, Esig, Q2. unfold electronic_noise. ring. }
  rewrite <- E. replace (k * (nt - nb)) with (snr * tot) by lra. field. lra.
Qed.

(** ** Spectrum *)
Lemma spectrum_charge s tr q em rows z : has_tables s -> sorted_tables s -> response_curves s tr q -> sound_rows rows -> isem z = em ->
  spectrum s rows z = charge_spectrum s tr q (giqe_target em) rows.
Proof.
  intros TB St [R1 R2] Sr <-. unfold spectrum, charge_spectrum.
  induction rows as [|x l IH]; [reflexivity|]. assert (Sl : sound_rows l) by (intros a Ha; apply Sr; now right).
  cbn [map filter snd]. rewrite (electrons_at s (tr (a_wl x)) (q (a_wl x))) by (auto; apply (Sr x); now left).
  destruct (Rlt_dec 0 _) as [L | L].
  - rewrite (proj2 (Rltb_true _ _) L). cbn [map]. rewrite (IH Sl). reflexivity.
  - rewrite (proj2 (Rltb_false _ _)) by lra. apply (IH Sl).
Qed.

(** ** Scenario *)
Lemma plain_same s c a : a <> TargetReflectance -> a <> BackgroundReflectance -> a <> TargetTemperature -> plain (snd (bookkeeping s c)) a = plain c a.
Proof. intros A B C. unfold bookkeeping. destruct (Rleb _ _); cbn [snd]; destruct a; try reflexivity; contradiction. Qed.
Lemma seeing_same s c L r : seeing (snd (bookkeeping s c)) L r -> seeing c L r.
Proof.
  unfold seeing. cbv zeta. rewrite !plain_same by discriminate. destruct (bookkeeping_same s c) as (-> & _). auto.
Qed.
Lemma mtf_same s c ps r1 u w s0 : system_mtf s (snd (bookkeeping s0 c)) ps r1 u w = system_mtf s c ps r1 u w.
Proof. unfold system_mtf. rewrite !plain_same by discriminate. reflexivity. Qed.

(** ** Lines through the system's transfer function *)
Definition line_u (mtf : R -> R -> R) (df : R) : list R := map (fun i => Rabs (mtf (INR i * df) 0)) (seq 0 50).
Definition line_v (mtf : R -> R -> R) (df : R) : list R := map (fun i => Rabs (mtf 0 (INR i * df))) (seq 0 50).
Section Core.
  Variables (ni it : loader) (diag : nat -> nat -> bool) (s : sensor) (c : scen) (itp : bool) (m : atm) (em : bool) (tr q : R -> R).
  Hypothesis Hload : loaded ni it c itp m.
  Hypothesis Hcam : good_camera s.
  Hypothesis Hem : em = true <-> emissive_band s.
  Hypothesis Hatm : good_atmosphere s em (atm_rows m).
  Hypothesis Halt : 0 < altitude c.
  Hypothesis Hrc : response_curves s tr q.
  Let G := above earth_radius 0 (ground_range c / earth_radius).
  Let S := above earth_radius (altitude c) 0.
  Let L := dist G S.

  Lemma core s' ct t o v rows : s' = s \/ s' = no_sharpening s ->
    seen_rows s (atm_rows m) rows -> contrast_part s rows (fst (bookkeeping s c)) = Ok ct ->
    common_OTFs diag Np s' (snd (bookkeeping s c)) (ct_pts ct) (ct_wl ct) (ct_w ct) L t = Ok o -> system_OTF o = map Fin v ->
    m_int_time (ct_snr ct) = Fin t ->
    let ps := charge_spectrum s tr q (giqe_target em) rows in
    let nt := charge s tr q (giqe_target em) rows in let nb := charge s tr q (giqe_background em) rows in
    exists lmin r1 g, (0 < plain c Cn2At1m -> seeing c L r1) /\ (forall u w, sharpening diag s' u w (g u w)) /\
      In lmin (map fst ps) /\ (forall p, In p ps -> lmin <= fst p) /\ ct_df ct = s_D s / lmin / 50 /\
      m_snr (ct_snr ct) = Fin (frame_snr s nt nb) /\
      let mtf u w := system_mtf (with_int_time s (share s (Rmax nt nb) * s_int_time s)) c ps r1 u w * g u w in
      rightwards v = line_u mtf (s_D s / lmin / 50) /\ upwards v = line_v mtf (s_D s / lmin / 50).
  Proof.
    intros Hs' V E Eo Ev Et ps nt nb.
    destruct Hcam as (P & So & GO & Hf & Hpx & Hpy). destruct Hatm as (Sr & Ss & a & x & y & Ia & Ba & R1 & R2 & Pos).
    assert (Sr' : sound_rows rows) by (intros b Hb; apply Sr, V, Hb).
    destruct (contrast_shape s c m em P Hem Sr rows ct V E) as (HM & B & W).
    assert (Esl : curved_earth_slant_range 0 (altitude c) (ground_range c) = Fin L) by (unfold L, G, S; apply slant_is_distance).
    destruct (grid_shape s rows _ ct P Sr' E) as (lmin & I1 & I2 & L0 & Ecut & Edf & Lp & Gr).
    assert (EX : exists a, In a rows /\ 0 < dN_at s (a_wl a) (giqe_target (isem (fst (bookkeeping s c))) a)).
    { exists a. split; [apply V; split; assumption|]. rewrite bookkeeping_em, <- (emissive_iff s em Hem).
      rewrite <- (electrons_at s x y); [exact Pos | apply (ph_tables _ P) | assumption..|]. apply (Sr a Ia). }
    destruct (spectrum_good s rows (fst (bookkeeping s c)) P Sr' (proj2 V Ss) EX) as [GS _].
    assert (EP : spectrum s rows (fst (bookkeeping s c)) = ps).
    { apply spectrum_charge; auto; [apply (ph_tables _ P)|]. rewrite bookkeeping_em. symmetry. apply (emissive_iff s em Hem). }
    rewrite EP in *. rewrite B, W in Eo. rewrite B in I1, I2.
    destruct (niirs_path _ _ _ Halt Esl) as (P1 & P2 & P3).
    assert (GO' : good_optics s') by (destruct Hs' as [-> | ->]; exact GO).
    assert (Hpx' : 0 < s_px s') by (destruct Hs' as [-> | ->]; exact Hpx).
    assert (Hf' : 0 < s_f s') by (destruct Hs' as [-> | ->]; exact Hf).
    destruct (bookkeeping_same s c) as (Ba' & _).
    destruct (system_value diag Np s' (snd (bookkeeping s c)) (ct_pts ct) ps L t o v GS GO' Hpx' Hf') as (r1 & g & SE & SH & VA); auto.
    { rewrite Ba'. exact Halt. } { rewrite Ba'. unfold r_earth. lra. }
    { intros C. rewrite C in Lp. discriminate. }
    destruct (snr_form s tr q em rows _ P So Hrc Sr' (proj2 V Ss) HM) as [Ti Sn]. fold nt nb in Ti, Sn.
    rewrite Et in Ti. apply fin_inj in Ti.
    exists lmin, r1, g. rewrite plain_same in SE by discriminate.
    split; [intros C; apply (seeing_same s), SE, C|]. split; [exact SH|]. split; [exact I1|].
    split. { intros p Hp. apply I2. now apply in_map. }
    split; [rewrite Edf, Ecut; reflexivity|]. split; [exact Sn|]. cbv zeta.
    assert (V' : forall i j, (i <= 100)%nat -> (j <= 100)%nat -> nth (i * 101 + j) v 0 =
      system_mtf (with_int_time s (share s (Rmax nt nb) * s_int_time s)) c ps r1 ((INR j - 50) * (s_D s / lmin / 50)) ((50 - INR i) * (s_D s / lmin / 50))
      * g ((INR j - 50) * (s_D s / lmin / 50)) ((50 - INR i) * (s_D s / lmin / 50))).
    { intros i j Hi Hj. rewrite <- Ti, <- Ecut, <- Edf.
      rewrite (VA (i * 101 + j)%nat ((INR j - 50) * ct_df ct) ((50 - INR i) * ct_df ct)).
      - rewrite mtf_same. destruct Hs' as [-> | ->]; reflexivity.
      - rewrite (nth_error_nth' _ (0, 0)) by (rewrite Lp; lia). rewrite Gr by assumption. reflexivity. }
    unfold rightwards, upwards, line_u, line_v.
    assert (F50 : INR 50 = 50) by (rewrite INR_IZR_INZ; reflexivity).
    split; apply map_ext_in; intros i Hi; apply in_seq in Hi; rewrite V' by lia; f_equal.
    - rewrite plus_INR, F50. replace (50 + INR i - 50) with (INR i) by ring. replace ((50 - 50) * (s_D s / lmin / 50)) with 0 by ring. reflexivity.
    - rewrite minus_INR, F50 by lia. replace (50 - (50 - INR i)) with (INR i) by ring. replace ((50 - 50) * (s_D s / lmin / 50)) with 0 by ring. reflexivity.
  Qed.

  (* elevation *)
  Lemma angle_form : 0 < L /\ exists phi, is_angle phi (vsub origin S) (vsub G S) /\ elev_angle (altitude c) L = Ok (Fin (PI / 2 - phi)) /\
    sin (PI / 2 - phi) = cos phi /\ 0 < cos phi.
  Proof.
    assert (Esl : curved_earth_slant_range 0 (altitude c) (ground_range c) = Fin L) by (unfold L, G, S; apply slant_is_distance).
    destruct (niirs_path _ _ _ Halt Esl) as (P1 & _). split; [exact P1|].
    assert (HR := r_earth_pos).
    destruct (nadir_of_slant Np 0 (altitude c) (ground_range c) L) as (phi & En & An); [lra | lra | exact Esl | lra|].
    destruct (elev_positive _ _ _ Halt Esl) as (e & Ee & Se & _).
    exists phi. split; [exact An|].
    assert (X : elev_angle (altitude c) L = Ok (Fin (PI / 2 - phi))) by (unfold elev_angle; rewrite En; reflexivity).
    split; [exact X|]. rewrite Ee in X. apply ok_inj in X. apply fin_inj in X. subst e.
    assert (T : sin (PI / 2 - phi) = cos phi) by apply sin_shift. rewrite T in *. split; [reflexivity | exact Se].
  Qed.
End Core.

(** ** Ratings *)
Lemma giqe3_rating r g e n s : 0 < r -> 0 < g -> s <> 0 -> giqe3 (Fin r) (Fin g) (Fin e) (Fin n) (Fin s) = Fin (rating3 r g e n s).
Proof.
  intros Hr Hg Hs. rewrite giqe3_value by assumption. unfold rating3. rewrite (log10_div r (g / inch)) by (auto; apply in_inches; exact Hg). reflexivity.
Qed.
Lemma giqe4_rating r g e n s a : 0 < r -> 0 < g -> s <> 0 -> 0 < sin a ->
  giqe4 (Fin r) (Fin g) (Fin e) (Fin n) (Fin s) (Fin a) = (Fin (rating4 0.334 r (g / sqrt (sin a)) e n s), Fin (g / sqrt (sin a))).
Proof. intros. rewrite giqe4_formula by assumption. reflexivity. Qed.
(* one negative edge response is squared away *)
Lemma giqe5_signed x y g s a r : 0 < Rmax x y -> Rmin x y <> 0 -> 0 < g -> s <> 0 -> 0 < sin a -> 0 < r ->
  r ^ 3 = Rmax x y * (Rmin x y) ^ 2 ->
  giqe5 (Fin x) (Fin y) (Fin g) (Fin s) (Fin a) =
  (Fin (rating5 r (g / Rpower (sin a) (1 / 4)) s), Fin (g / Rpower (sin a) (1 / 4)), Fin r).
Proof.
  intros M2 M1 Hg Hs Ha Hr E. unfold giqe5.
  assert (0 < Rpower (sin a) (1 / 4)) by apply exp_pos. pose proof inch_pos.
  assert (G : 0 < g / Rpower (sin a) (1 / 4)) by now apply Rdiv_lt_0_compat.
  assert (E1 : xdiv (Fin g) (xpow (xsin (Fin a)) 0.25) = Fin (g / Rpower (sin a) (1 / 4))).
  { cbn [xsin]. rewrite xpow_fin by auto. replace 0.25 with (1 / 4) by lra. now rewrite xdiv_fin by lra. }
  rewrite E1. rewrite xmax_fin, xmin_fin, xsq_fin, xmul_fin.
  assert (Q : Rmax x y * (Rmin x y * Rmin x y) = r * (r * r)).
  { replace (Rmax x y * (Rmin x y * Rmin x y)) with (Rmax x y * (Rmin x y) ^ 2) by ring. rewrite <- E. ring. }
  rewrite Q. rewrite xpow_fin by (apply Rmult_lt_0_compat; auto; now apply Rmult_lt_0_compat).
  rewrite cube_root by exact Hr. rewrite (xdiv_fin _ 0.0254) by lra. fold inch.
  rewrite !xlog10_fin by (try exact Hr; now apply in_inches).
  fold (log10 (g / Rpower (sin a) (1 / 4) / inch)). fold (log10 r).
  rewrite !(xdiv_fin _ s) by auto. rewrite xexp_fin, xpown_fin. reflexivity.
Qed.
Lemma giqe5_nan x y g s a : Rmax x y < 0 ->
  exists gw, giqe5 (Fin x) (Fin y) g s a = (NaN, gw, NaN).
Proof.
  intros M. eexists. unfold giqe5. rewrite xmax_fin, xmin_fin, xsq_fin, xmul_fin.
  assert (N : Rmin x y < 0) by (pose proof (Rmin_l x y); pose proof (Rmax_l x y); lra).
  assert (N2 : 0 < Rmin x y * Rmin x y) by (replace (Rmin x y * Rmin x y) with (- Rmin x y * - Rmin x y) by ring; apply Rmult_lt_0_compat; lra).
  assert (Q : Rmax x y * (Rmin x y * Rmin x y) < 0).
  { rewrite <- (Ropp_involutive (Rmax x y)), Ropp_mult_distr_l_reverse. apply Ropp_lt_gt_0_contravar. apply Rmult_lt_0_compat; lra. }
  assert (Z : xpow (Fin (Rmax x y * (Rmin x y * Rmin x y))) (1 / 3) = NaN).
  { unfold xpow. rewrite (proj2 (Rltb_false _ _)) by lra. destruct (Reqb _ 0) eqn:R; [apply Reqb_true in R; lra | reflexivity]. }
  rewrite Z. cbn [xlog10]. f_equal. f_equal.
  destruct (xsub (Fin 9.57) _); destruct (xmul (Fin 3.32) _); reflexivity.
Qed.
Lemma cube_exists z : 0 < z -> exists r, 0 < r /\ r ^ 3 = z.
Proof.
  intros H. exists (Rpower z (1 / 3)). split; [apply exp_pos|]. rewrite <- Rpower_pow by apply exp_pos. rewrite Rpower_mult.
  replace (1 / 3 * INR 3) with 1 by (simpl; field). apply Rpower_1, H.
Qed.

Section Forms.
  Variables (ni it : loader) (diag : nat -> nat -> bool) (s : sensor) (c : scen) (itp : bool) (m : atm) (em : bool) (tr q : R -> R).
  Hypothesis Hload : loaded ni it c itp m.
  Hypothesis Hcam : good_camera s.
  Hypothesis Hem : em = true <-> emissive_band s.
  Hypothesis Hatm : good_atmosphere s em (atm_rows m).
  Hypothesis Halt : 0 < altitude c.
  Hypothesis Hrc : response_curves s tr q.
  Let G := above earth_radius 0 (ground_range c / earth_radius).
  Let S := above earth_radius (altitude c) 0.
  Let L := dist G S.

  Lemma niirs5_form s1 c1 mt : niirs5 ni it diag s c itp = (s1, c1, Ok mt) ->
    exists rows lmin r1 phi, seen_rows s (atm_rows m) rows /\ (0 < plain c Cn2At1m -> seeing c L r1) /\
      is_angle phi (vsub origin S) (vsub G S) /\ 0 < cos phi /\
      let ps := charge_spectrum s tr q (giqe_target em) rows in
      In lmin (map fst ps) /\ (forall p, In p ps -> lmin <= fst p) /\
      let nt := charge s tr q (giqe_target em) rows in let nb := charge s tr q (giqe_background em) rows in
      let t := share s (Rmax nt nb) * s_int_time s in
      let df := s_D s / lmin / 50 in
      let mtf := system_mtf (with_int_time s t) c ps r1 in
      let r0 := slope (map (fun i => Rabs (mtf (INR i * df) 0)) (seq 0 50)) df (s_px s / s_f s) in
      let r90 := slope (map (fun i => Rabs (mtf 0 (INR i * df))) (seq 0 50)) df (s_py s / s_f s) in
      let gsd := s_px s / s_f s * L in let gw := gsd / Rpower (cos phi) (1 / 4) in
      let snr := frame_snr s nt nb in
      f_slant mt = L /\ f_gsd_x mt = gsd /\ f_elev mt = Fin (PI / 2 - phi) /\ f_rer_0 mt = Fin r0 /\ f_rer_90 mt = Fin r90 /\
      m_snr (ct_snr (f_contrast mt)) = Fin snr /\
      (0 < Rmax r0 r90 -> Rmin r0 r90 <> 0 -> 0 < s_frames s -> snr <> 0 -> exists r, 0 < r /\ r ^ 3 = Rmax r0 r90 * Rmin r0 r90 ^ 2 /\
         f_rer mt = Fin r /\ f_gsd_w mt = Fin gw /\ f_niirs mt = Fin (rating5 r gw (sqrt (s_frames s) * snr))) /\
      (Rmax r0 r90 < 0 -> f_rer mt = NaN /\ f_niirs mt = NaN).
  Proof.
    intros H. destruct (niirs5_contrast _ _ _ _ _ _ _ _ _ _ Hload H) as (rows & V & E).
    destruct (niirs5_steps ni it diag s c itp m em Hload Hcam Hem Hatm Halt _ _ _ H) as (t & v & Et & Eo & Ev & _ & S0 & S9 & Eel). cbv zeta in *.
    destruct (niirs5_succeeds ni it diag s c itp m em Hload Hcam Hem Hatm Halt) as (mt' & snr & x & y & e & H' & Esl & _ & Eg & En & E0 & E9 & Ee & Pe & Q).
    rewrite H in H'. injection H' as -> -> <-.
    assert (EL : f_slant mt = L) by (unfold L, G, S; apply fin_inj; rewrite <- Esl; apply slant_is_distance).
    rewrite EL in *.
    destruct (core diag s c m em tr q Hcam Hem Hatm Halt Hrc (no_sharpening s) (f_contrast mt) t (f_otf mt) v rows (or_intror eq_refl) V E Eo Ev Et)
      as (lmin & r1 & g & SE & SH & I1 & I2 & Edf & Sn & Lu & Lw).
    destruct (angle_form c Halt) as (L0 & phi & An & Eph & Sph & Cph). fold G S in An. fold G S L in L0, Eph.
    rewrite Eel in Eph. apply ok_inj in Eph.
    assert (G1 : forall u w, g u w = 1) by (intros u w; apply (SH u w); cbn; lia).
    set (nt := charge s tr q (giqe_target em) rows) in *. set (nb := charge s tr q (giqe_background em) rows) in *.
    set (ps := charge_spectrum s tr q (giqe_target em) rows) in *.
    rewrite Edf in S0, S9.
    assert (Lu' : rightwards v = map (fun i => Rabs (system_mtf (with_int_time s (share s (Rmax nt nb) * s_int_time s)) c ps r1 (INR i * (s_D s / lmin / 50)) 0)) (seq 0 50)).
    { rewrite Lu. unfold line_u. apply map_ext. intros i. rewrite G1, Rmult_1_r. reflexivity. }
    assert (Lw' : upwards v = map (fun i => Rabs (system_mtf (with_int_time s (share s (Rmax nt nb) * s_int_time s)) c ps r1 0 (INR i * (s_D s / lmin / 50)))) (seq 0 50)).
    { rewrite Lw. unfold line_v. apply map_ext. intros i. rewrite G1, Rmult_1_r. reflexivity. }
    rewrite Lu' in S0. rewrite Lw' in S9.
    exists rows, lmin, r1, phi. split; [exact V|]. split; [exact SE|]. split; [exact An|]. split; [exact Cph|].
    split; [exact I1|]. split; [exact I2|].
    split; [reflexivity|]. split; [exact Eg|]. split; [exact Eph|]. split; [exact S0|]. split; [exact S9|]. split; [exact Sn|].
    cbv zeta. fold nt nb ps. rewrite E0 in S0. rewrite E9 in S9. apply fin_inj in S0, S9. rewrite <- S0, <- S9.
    rewrite En in Sn. apply fin_inj in Sn. rewrite Sn in Q. rewrite Ee in Eph. apply fin_inj in Eph. rewrite Eph, Eg in Q.
    destruct Hcam as (_ & _ & _ & Hf & Hpx & _).
    assert (GP : 0 < s_px s / s_f s * L) by (apply Rmult_lt_0_compat; [apply Rdiv_lt_0_compat; assumption | exact L0]).
    split.
    - intros A B Fr Z. assert (SF : 0 < sqrt (s_frames s)) by (apply sqrt_lt_R0; exact Fr).
      assert (Z' : sqrt (s_frames s) * frame_snr s nt nb <> 0) by (apply Rmult_integral_contrapositive; split; [lra | exact Z]).
      destruct (cube_exists (Rmax x y * Rmin x y ^ 2)) as (r & R0 & R3); [apply Rmult_lt_0_compat; [exact A | replace (Rmin x y ^ 2) with (Rsqr (Rmin x y)) by (unfold Rsqr; ring); apply Rsqr_pos_lt, B]|].
      rewrite xsqrt_fin, xmul_fin in Q by lra.
      rewrite (giqe5_signed x y _ _ _ r) in Q by (auto; rewrite Sph; exact Cph). rewrite Sph in Q. injection Q as Q1 Q2 Q3.
      exists r. split; [exact R0|]. split; [exact R3|]. split; [exact Q3|]. split; [exact Q2 | exact Q1].
    - intros A. destruct (giqe5_nan x y (Fin (s_px s / s_f s * L)) (xmul (xsqrt (Fin (s_frames s))) (Fin (frame_snr s nt nb))) (Fin (PI / 2 - phi)) A) as (gw & Z).
      rewrite Z in Q. injection Q as Q1 _ Q3. split; assumption.
  Qed.

  Lemma niirs_form c1 mt : niirs ni it diag s c itp = (c1, Ok mt) ->
    exists rows lmin r1 g phi eu ev, seen_rows s (atm_rows m) rows /\ (0 < plain c Cn2At1m -> seeing c L r1) /\
      (forall u w, sharpening diag s u w (g u w)) /\ is_angle phi (vsub origin S) (vsub G S) /\ 0 < cos phi /\
      let ps := charge_spectrum s tr q (giqe_target em) rows in
      In lmin (map fst ps) /\ (forall p, In p ps -> lmin <= fst p) /\
      let nt := charge s tr q (giqe_target em) rows in let nb := charge s tr q (giqe_background em) rows in
      let t := share s (Rmax nt nb) * s_int_time s in
      let df := s_D s / lmin / 50 in
      let mtf u w := system_mtf (with_int_time s t) c ps r1 u w * g u w in
      let lu := map (fun i => Rabs (mtf (INR i * df) 0)) (seq 0 50) in
      let lv := map (fun i => Rabs (mtf 0 (INR i * df))) (seq 0 50) in
      let r0 := slope lu df (s_px s / s_f s) in let r90 := slope lv df (s_py s / s_f s) in
      overshoot lu df (s_px s / s_f s) eu /\ overshoot lv df (s_py s / s_f s) ev /\
      let gsd := sqrt ((s_px s / s_f s * L) * (s_py s / s_f s * L)) in let gp := gsd / sqrt (cos phi) in
      let ng := sqrt (Rsum (map (fun w => w * w) (concat (s_kernel s)))) in
      let snr := frame_snr s nt nb in let rer := sqrt (r0 * r90) in let eho := sqrt (eu * ev) in
      n_slant mt = L /\ n_gsd_gm mt = Fin gsd /\ n_elev mt = Fin (PI / 2 - phi) /\ n_ng mt = Fin ng /\
      m_snr (ct_snr (n_contrast mt)) = Fin snr /\
      (0 <= r0 * r90 -> n_rer mt = Fin rer) /\ (r0 * r90 < 0 -> n_rer mt = NaN) /\
      (0 <= eu * ev -> n_eho mt = Fin eho) /\ (eu * ev < 0 -> n_eho mt = NaN) /\
      (0 < r0 * r90 -> 0 <= eu * ev -> 0 < s_frames s -> snr <> 0 ->
         n_gsd_gp mt = Fin gp /\ n_niirs mt = Fin (rating3 rer gsd eho ng (sqrt (s_frames s) * snr)) /\
         n_niirs_4 mt = Fin (rating4 0.334 rer gp eho ng (sqrt (s_frames s) * snr))).
  Proof.
    intros H. destruct (niirs_contrast _ _ _ _ _ _ _ _ _ Hload H) as (rows & V & E).
    destruct (niirs_steps ni it diag s c itp m em Hload Hcam Hem Hatm Halt _ _ H) as (t & v & eu & ev & Et & Eo & Ev & _ & S0 & Ou & Ow & Eho & Eel). cbv zeta in *.
    assert (Hk : Rsum (concat (s_kernel s)) = 1).
    { destruct (Req_dec (Rsum (concat (s_kernel s))) 1) as [K | K]; [exact K|]. exfalso.
      rewrite (niirs_kernel_error ni it diag s c itp m em Hload Hcam Hem Hatm Halt K) in H. discriminate. }
    destruct (niirs_succeeds ni it diag s c itp m em Hload Hcam Hem Hatm Halt Hk) as (mt' & snr & ng & H' & Esl & _ & En & Eg & Eng & N0 & Nq & (e & Ee & Pe) & Q3 & Q4).
    rewrite H in H'. injection H' as -> <-.
    assert (EL : n_slant mt = L) by (unfold L, G, S; apply fin_inj; rewrite <- Esl; apply slant_is_distance).
    rewrite EL in *.
    destruct (core diag s c m em tr q Hcam Hem Hatm Halt Hrc s (n_contrast mt) t (n_otf mt) v rows (or_introl eq_refl) V E Eo Ev Et)
      as (lmin & r1 & g & SE & SH & I1 & I2 & Edf & Sn & Lu & Lw).
    destruct (angle_form c Halt) as (L0 & phi & An & Eph & Sph & Cph). fold G S in An. fold G S L in L0, Eph.
    rewrite Eel in Eph. apply ok_inj in Eph.
    rewrite Edf in S0, Ou, Ow. rewrite Lu in S0, Ou. rewrite Lw in S0, Ow. unfold line_u, line_v in *.
    assert (NG : ng = sqrt (Rsum (map (fun w => w * w) (concat (s_kernel s))))) by (rewrite <- Nq, sqrt_square by exact N0; reflexivity).
    exists rows, lmin, r1, g, phi, eu, ev. split; [exact V|]. split; [exact SE|]. split; [exact SH|]. split; [exact An|]. split; [exact Cph|].
    split; [exact I1|]. split; [exact I2|]. split; [exact Ou|]. split; [exact Ow|].
    split; [reflexivity|]. split; [exact Eg|]. split; [exact Eph|]. split; [rewrite Eng, NG; reflexivity|]. split; [exact Sn|].
    set (nt := charge s tr q (giqe_target em) rows) in *. set (nb := charge s tr q (giqe_background em) rows) in *.
    match type of S0 with n_rer mt = xsqrt (Fin ?z) => set (rr := z) in * end.
    split; [intros A; rewrite S0; apply xsqrt_fin; exact A|].
    split; [intros A; rewrite S0; unfold xsqrt; rewrite (proj2 (Rltb_true _ _) A); reflexivity|].
    split; [intros A; rewrite Eho; apply xsqrt_fin; exact A|].
    split; [intros A; rewrite Eho; unfold xsqrt; rewrite (proj2 (Rltb_true _ _) A); reflexivity|].
    intros A B Fr Z. assert (SF : 0 < sqrt (s_frames s)) by (apply sqrt_lt_R0; exact Fr).
    rewrite En in Sn. apply fin_inj in Sn. rewrite Sn in *.
    assert (Z' : sqrt (s_frames s) * frame_snr s nt nb <> 0) by (apply Rmult_integral_contrapositive; split; [lra | exact Z]).
    destruct Hcam as (_ & _ & _ & Hf & Hpx & Hpy).
    assert (GP : 0 < sqrt ((s_px s / s_f s * L) * (s_py s / s_f s * L))).
    { apply sqrt_lt_R0. apply Rmult_lt_0_compat; (apply Rmult_lt_0_compat; [apply Rdiv_lt_0_compat; assumption | exact L0]). }
    assert (R0 : 0 < sqrt rr) by (apply sqrt_lt_R0; exact A).
    rewrite S0, Eho, Eg, Eng, !xsqrt_fin, xmul_fin in Q3 by lra. rewrite giqe3_rating in Q3 by assumption.
    rewrite S0, Eho, Eg, Eng, Eph, !xsqrt_fin, xmul_fin in Q4 by lra.
    rewrite giqe4_rating in Q4 by (auto; rewrite Sph; exact Cph). rewrite Sph in Q4. injection Q4 as Q5 Q6.
    rewrite <- NG. split; [exact Q6|]. split; [exact Q3 | exact Q5].
  Qed.
End Forms.

(** ** The published version 4; reversed edges *)
Lemma giqe4_published r g e n s a : 0 < r -> 0 < g -> s <> 0 -> 0 < sin a -> let gp := g / sqrt (sin a) in
  exists v, giqe4 (Fin r) (Fin g) (Fin e) (Fin n) (Fin s) (Fin a) = (Fin v, Fin gp) /\ v - rating4 0.344 r gp e n s = n / s / 100.
Proof.
  intros Hr Hg Hs Ha gp. exists (rating4 0.334 r gp e n s). split; [apply giqe4_rating; assumption|]. unfold rating4. unfold Rdiv at 2 4. lra.
Qed.
Lemma giqe4_published_refuted : ~ forall r g e n s a, 0 < r -> 0 < g -> s <> 0 -> 0 < sin a ->
  fst (giqe4 (Fin r) (Fin g) (Fin e) (Fin n) (Fin s) (Fin a)) = Fin (rating4 0.344 r (g / sqrt (sin a)) e n s).
Proof.
  intros F. assert (S1 : 0 < sin (PI / 2)) by (rewrite sin_PI2; lra).
  specialize (F 1 1 1 1 1 (PI / 2) ltac:(lra) ltac:(lra) ltac:(lra) S1).
  destruct (giqe4_published 1 1 1 1 1 (PI / 2) ltac:(lra) ltac:(lra) ltac:(lra) S1) as (v & E & D). rewrite E in F. cbn [fst] in F.
  apply fin_inj in F. rewrite F in D. lra.
Qed.
Lemma giqe5_reversed x y g s a : 0 < x -> 0 < y -> 0 < g -> s <> 0 -> 0 < sin a ->
  let gw := g / Rpower (sin a) (1 / 4) in
  exists r, 0 < r /\ r ^ 3 = x * y ^ 2 /\
    giqe5 (Fin x) (Fin (- y)) (Fin g) (Fin s) (Fin a) = (Fin (rating5 r gw s), Fin gw, Fin r) /\
    giqe5 (Fin (- y)) (Fin x) (Fin g) (Fin s) (Fin a) = (Fin (rating5 r gw s), Fin gw, Fin r).
Proof.
  intros Hx Hy Hg Hs Ha gw. destruct (cube_exists (x * y ^ 2)) as (r & R0 & R3); [apply Rmult_lt_0_compat; [exact Hx | apply pow_lt, Hy]|].
  exists r. split; [exact R0|]. split; [exact R3|].
  assert (Q : r ^ 3 = x * (- y) ^ 2) by (rewrite R3; ring).
  split; apply giqe5_signed; auto.
  - rewrite Rmax_left; lra.
  - rewrite Rmin_right; lra.
  - rewrite Rmax_left, Rmin_right by lra. exact Q.
  - rewrite Rmax_right; lra.
  - rewrite Rmin_left; lra.
  - rewrite Rmax_right, Rmin_left by lra. exact Q.
Qed.
Lemma cube_lt a b : 0 < a -> 0 < b -> a <= b -> a ^ 3 <= b ^ 3.
Proof. intros A B L. apply pow_incr. lra. Qed.
Lemma giqe5_reversal : ~ forall x y g s a r r', 0 < x -> 0 < y -> 0 < g -> 0 < s -> 0 < sin a ->
  snd (giqe5 (Fin x) (Fin y) (Fin g) (Fin s) (Fin a)) = Fin r ->
  snd (giqe5 (Fin x) (Fin (- y)) (Fin g) (Fin s) (Fin a)) = Fin r' -> r' <= r.
Proof.
  intros F. assert (S1 : 0 < sin (PI / 2)) by (rewrite sin_PI2; lra).
  destruct (giqe5_reversed (1 / 4) (1 / 2) 1 1 (PI / 2) ltac:(lra) ltac:(lra) ltac:(lra) ltac:(lra) S1) as (r' & R' & C' & E' & _).
  destruct (cube_exists (1 / 2 * (1 / 4) ^ 2)) as (r & R & C); [lra|].
  assert (E : giqe5 (Fin (1 / 4)) (Fin (1 / 2)) (Fin 1) (Fin 1) (Fin (PI / 2)) =
    (Fin (rating5 r (1 / Rpower (sin (PI / 2)) (1 / 4)) 1), Fin (1 / Rpower (sin (PI / 2)) (1 / 4)), Fin r)).
  { apply giqe5_signed; try lra; rewrite ?Rmax_right, ?Rmin_left by lra; lra. }
  specialize (F (1 / 4) (1 / 2) 1 1 (PI / 2) r r' ltac:(lra) ltac:(lra) ltac:(lra) ltac:(lra) S1).
  rewrite E, E' in F. specialize (F eq_refl eq_refl). apply cube_lt in F; lra.
Qed.
Lemma giqe5_both_reversed x y g s a : 0 < x -> 0 < y -> exists gw, giqe5 (Fin (- x)) (Fin (- y)) g s a = (NaN, gw, NaN).
Proof. intros Hx Hy. apply giqe5_nan. apply Rmax_lub_lt; lra. Qed.

(** ** Examples *)
Lemma rating_demo : let s := thermal [[1]] 1 in
  loaded demo_load demo_load demo_scen false demo_m /\ good_camera s /\ (true = true <-> emissive_band s) /\
  good_atmosphere s true (atm_rows demo_m) /\ 0 < altitude demo_scen /\ (exists tr q, response_curves s tr q) /\ 0 < plain demo_scen Cn2At1m /\
  (exists s1 c1 mt v r, niirs5 demo_load demo_load no_diag s demo_scen false = (s1, c1, Ok mt) /\ f_niirs mt = Fin v /\ f_rer mt = Fin r) /\
  (exists c1 mt v3 v4, niirs demo_load demo_load no_diag s demo_scen false = (c1, Ok mt) /\ n_niirs mt = Fin v3 /\ n_niirs_4 mt = Fin v4).
Proof.
  cbv zeta. destruct (thermal_conditions 1) as (A & B & C & D & E & _).
  split; [exact A|]. split; [exact B|]. split; [exact C|]. split; [exact D|]. split; [exact E|].
  split. { do 2 eexists. apply curves_exist; [apply ph_tables; apply B | apply B]. }
  split; [cbn; lra|]. split.
  - destruct (thermal_rated5 1 Rlt_0_1) as (s1 & c1 & mt & x & v & r & X & _ & _ & Y & Z & _). exists s1, c1, mt, v, r. auto.
  - destruct (thermal_rated 1 Rlt_0_1) as (c1 & mt & x & v3 & v4 & X & _ & _ & Y & Z). exists c1, mt, v3, v4. auto.
Qed.
Lemma rating_kernel_demo : let s := visible sharpen 1 in (1 < length (s_kernel s))%nat /\ good_camera s /\ (false = true <-> emissive_band s) /\
  good_atmosphere s false (atm_rows demo_m) /\ exists c1 mt, niirs demo_load demo_load no_diag s demo_scen false = (c1, Ok mt).
Proof.
  cbv zeta. split; [cbn; lia|]. split; [apply visible_good|]. split; [apply visible_em|]. split; [apply visible_atm|].
  destruct (niirs_total demo_load demo_load no_diag (visible sharpen 1) demo_scen false demo_m false) as (c1 & mt & _ & _ & E & _).
  - apply demo_loaded.
  - apply visible_good.
  - apply visible_em.
  - apply visible_atm.
  - cbn. lra.
  - cbn. lra.
  - exists c1, mt. exact E.
Qed.
