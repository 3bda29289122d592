(** * Proof_GainSim: the simulated image of a negative *)
From Coq Require Import Reals Lra List Lia ZArith Psatz Bool Sorted Permutation.
From Verif Require Import Base_XR Base_Np Base_Percentile Model_Geo Model_Noise Model_Db Model_Scenario Model_Sensor Model_Rad Model_Otf Model_Img Model_Met Model_Sim
  Spec_Rad Spec_Img Spec_System Spec_Met Spec_Sim Spec_Gain Proof_Rad Proof_Pe Proof_RadP Proof_Weight Proof_Image Proof_Refl Proof_Sim Proof_SimT Proof_SimX Proof_Gain.
Import ListNotations.
Open Scope R_scope.
Opaque linspace.

Lemma seen_unique s all b b' : StronglySorted Rlt (map a_wl all) -> seen_rows s all b -> seen_rows s all b' -> b = b'.
Proof.
  intros So [M S] [M' S']. specialize (S So). specialize (S' So).
  assert (E : forall a, In a b <-> In a b') by (intros a; now rewrite M, M'). clear M M' So.
  revert b' E S'. induction b as [|x b IH]; intros b' E S'.
  - destruct b' as [|y b']; [reflexivity|]. destruct (proj2 (E y)). now left.
  - destruct b' as [|y b']; [destruct (proj1 (E x)); now left|].
    cbn in S, S'. inversion S as [|? ? S1 F1]; inversion S' as [|? ? S2 F2]; subst.
    assert (B1 : forall z, In z b -> a_wl x < a_wl z) by (intros z Hz; rewrite Forall_forall in F1; apply F1, in_map, Hz).
    assert (B2 : forall z, In z b' -> a_wl y < a_wl z) by (intros z Hz; rewrite Forall_forall in F2; apply F2, in_map, Hz).
    assert (x = y).
    { destruct (proj1 (E x) (or_introl eq_refl)) as [->|H1]; [reflexivity|]. destruct (proj2 (E y) (or_introl eq_refl)) as [->|H2]; [reflexivity|].
      specialize (B1 y H2). specialize (B2 x H1). lra. }
    subst y. f_equal. apply IH; [exact S1| |exact S2]. intros z. split; intros Hz.
    + destruct (proj1 (E z) (or_intror Hz)) as [->|H]; [specialize (B1 z Hz); lra | exact H].
    + destruct (proj2 (E z) (or_intror Hz)) as [->|H]; [specialize (B2 z Hz); lra | exact H].
Qed.
Lemma default_calibrated p gsd r : reference_init p gsd None None = Ok r -> nth 0 (sr_pix r) 0 < nth 1 (sr_pix r) 0 ->
  good_calibration (sr_pix r) (sr_refl r) /\ sr_img r = p /\ sr_gsd r = gsd.
Proof.
  unfold reference_init, ref_image_init. destruct (percentile (ravel p) 0.2) as [lo|]; [|discriminate]. destruct (percentile (ravel p) 99.8) as [hi|]; [|discriminate].
  cbn [bind ri_gsd ri_pix ri_refl]. intros H. apply ok_inj in H. subst r. cbn [sr_pix sr_refl sr_img sr_gsd nth]. intros L. split; [|auto].
  split; [reflexivity|]. split; [cbn; lia|]. constructor; [|repeat constructor; auto]. intros [C|[]]. lra.
Qed.
Lemma negative_levels a b p gsd r r' : a < 0 -> reference_init p gsd None None = Ok r -> nth 0 (sr_pix r) 0 < nth 1 (sr_pix r) 0 ->
  reference_init (remapped a b p) gsd None None = Ok r' -> nth 0 (sr_pix r') 0 < nth 1 (sr_pix r') 0.
Proof.
  intros Ha. unfold reference_init, ref_image_init. rewrite ravel_remapped.
  destruct (percentile (ravel p) 0.2) as [lo|] eqn:E1; [|discriminate]. destruct (percentile (ravel p) 99.8) as [hi|] eqn:E2; [|discriminate].
  cbn [bind ri_gsd ri_pix ri_refl]. intros H. apply ok_inj in H. subst r. cbn [sr_pix nth]. intros L.
  rewrite (percentile_negative a b _ 0.2 hi Ha) by (try lra; replace (100 - 0.2) with 99.8 by lra; exact E2).
  rewrite (percentile_negative a b _ 99.8 lo Ha) by (try lra; replace (100 - 99.8) with 0.2 by lra; exact E1).
  cbn [bind]. intros H. apply ok_inj in H. subst r'. cbn. nra.
Qed.
Lemma rest_inv diag d s c r m b X pe T t bl n : good_camera s ->
  reflectance_to_photoelectrons (atm_rows m) s (s_int_time s) 300 = Ok (linspace 0 1 100, map Fin pe, (map a_wl b, wts s b)) ->
  img_to_reflectance (sr_img r) (sr_pix r) (sr_refl r) = Ok X -> to_photoelectrons (linspace 0 1 100) pe X = Ok T ->
  simulate_rest diag d s c r m = Ok (t, bl, n) -> t = T /\ exists otf df sp, simulate_otf diag s c (map a_wl b) (wts s b) = Ok (otf, df) /\
    apply_otf_to_image T (sr_gsd r) Np (slant_flat c) otf Np df Py ((s_px s + s_py s) / 2 / s_f s) = Ok (bl, sp).
Proof.
  intros (_ & _ & _ & Hf & _) E EX ET. unfold simulate_rest. rewrite E. cbn [bind].
  destruct (simulate_otf _ _ _ _ _) as [[otf df]|]; [|discriminate]. cbn [bind].
  rewrite pydiv_ok by lra. cbn [bind]. rewrite EX. cbn [bind]. rewrite mapM_finite. cbn [bind]. rewrite ET. cbn [bind].
  destruct (apply_otf_to_image _ _ _ _ _ _ _ _ _) as [[bl' sp]|] eqn:EA; [|discriminate]. cbn [bind].
  destruct (add_noise _ _ _) as [n'|]; [|discriminate]. cbn [bind]. intros H. apply ok_inj in H.
  assert (H1 : T = t) by congruence. assert (H2 : bl' = bl) by congruence. subst. split; [reflexivity|]. exists otf, df, sp. auto.
Qed.
Lemma negative_rest diag d d' s c a b p gsd r r' m tr q t bl n t' bl' n' :
  good_camera s -> good_geometry c -> good_scene s (atm_rows m) -> response_curves s tr q -> a < 0 ->
  reference_init p gsd None None = Ok r -> nth 0 (sr_pix r) 0 < nth 1 (sr_pix r) 0 -> reference_init (remapped a b p) gsd None None = Ok r' ->
  simulate_rest diag d s c r m = Ok (t, bl, n) -> simulate_rest diag d' s c r' m = Ok (t', bl', n') ->
  exists l, seen_rows s (atm_rows m) l /\ forall k, k = collected s tr q l (exposure s tr q l) 300 0 + collected s tr q l (exposure s tr q l) 300 1 ->
    rows t' = rows t /\ cols t' = cols t /\ rows bl' = rows bl /\ cols bl' = cols bl /\
    (forall i j, px t' i j = k - px t i j) /\
    forall i j, (i < rows bl)%nat -> (j < cols bl)%nat -> px bl' i j = k - px bl i j.
Proof.
  intros GC GG GS Rc Ha E L E' S S'.
  destruct (default_calibrated _ _ _ E L) as (GK & Ri & Rg). destruct (default_calibrated _ _ _ E' (negative_levels _ _ _ _ _ _ Ha E L E')) as (GK' & Ri' & Rg').
  destruct (true_image s (atm_rows m) _ _ (sr_img r) tr q GC GS GK Rc) as (l & X & pe & T & Sn & _ & _ & P1 & EX & ET & Tr & Tc & TV).
  destruct (true_image s (atm_rows m) _ _ (sr_img r') tr q GC GS GK' Rc) as (l' & X' & pe' & T' & Sn' & _ & _ & P1' & EX' & ET' & Tr' & Tc' & TV').
  assert (l' = l) by (apply (seen_unique s (atm_rows m)); [apply GS | exact Sn' | exact Sn]). subst l'.
  destruct (rest_inv _ _ _ _ _ _ _ _ _ _ _ _ _ GC P1 EX ET S) as (-> & otf & df & sp & O & A).
  destruct (rest_inv _ _ _ _ _ _ _ _ _ _ _ _ _ GC P1' EX' ET' S') as (-> & otf' & df' & sp' & O' & A').
  rewrite O in O'. apply ok_inj in O'. assert (otf' = otf) by congruence. assert (df' = df) by congruence. subst otf' df'.
  exists l. split; [exact Sn|]. intros k Hk.
  assert (V : forall i j, px T' i j = k - px T i j).
  { intros i j. destruct (negative_reflectance a b p gsd r Ha E L) as (r'' & x & y & F & Fx & Fy & _ & _ & N). rewrite E' in F. apply ok_inj in F. subst r''.
    rewrite EX in Fx. apply ok_inj in Fx. subst x. rewrite EX' in Fy. apply ok_inj in Fy. subst y.
    destruct (N i j) as (z & Nx & Bz & Ny).
    destruct (TV i j) as (_ & u & Cu & ->). destruct (TV' i j) as (_ & v & Cv & ->).
    destruct GK as (K1 & K2 & K3). destruct GK' as (K1' & K2' & K3').
    destruct (reflectance_value (sr_img r) _ _ K1 K2 K3) as (x & Q & _ & _ & W). rewrite EX in Q. apply ok_inj in Q. subst x.
    destruct (reflectance_value (sr_img r') _ _ K1' K2' K3') as (y & Q & _ & _ & W'). rewrite EX' in Q. apply ok_inj in Q. subst y.
    destruct (W i j) as (u' & Wu & Cu'). destruct (W' i j) as (v' & Wv & Cv').
    assert (u' = u) by (eapply calibrated_unique; [|exact Cu'|exact Cu]; apply nodup_functional; rewrite combine_fst; auto).
    assert (v' = v) by (eapply calibrated_unique; [|exact Cv'|exact Cv]; apply nodup_functional; rewrite combine_fst; auto). subst u' v'.
    rewrite Nx in Wu. rewrite Ny in Wv. apply fin_inj in Wu. apply fin_inj in Wv. rewrite <- Wu, <- Wv, Hk.
    rewrite (collected_affine s tr q l _ _ (1 - z)), (collected_affine s tr q l _ _ z). ring. }
  assert (D1 : rows T' = rows T) by (rewrite Tr, Tr', Ri, Ri'; reflexivity).
  assert (D2 : cols T' = cols T) by (rewrite Tc, Tc', Ri, Ri'; reflexivity).
  split; [exact D1|]. split; [exact D2|].
  assert (Hr : slant_flat c <> 0).
  { destruct GG as [G1 _]. unfold slant_flat. apply Rgt_not_eq, sqrt_lt_R0. nra. }
  assert (Hi : (s_px s + s_py s) / 2 / s_f s <> 0).
  { destruct GC as (_ & _ & _ & Hf & Hx & Hy). apply Rgt_not_eq. apply Rdiv_lt_0_compat; lra. }
  rewrite Rg in A. rewrite Rg' in A'.
  assert (sp' = sp).
  { destruct (apply_inv _ _ _ _ _ _ _ _ _ _ _ Hr Hi A) as (f & g & F1 & _ & _ & F2).
    destruct (apply_inv _ _ _ _ _ _ _ _ _ _ _ Hr Hi A') as (f' & g' & F1' & _ & _ & F2'). rewrite F1 in F1'. apply ok_inj in F1'. subst f'.
    rewrite F2 in F2'. now apply ok_inj in F2'. }
  subst sp'. destruct (apply_linear T T' _ _ _ _ _ _ _ _ _ _ _ 1 1 Hr Hi D1 D2 A A') as (sc & AC & R1 & R2 & PC).
  destruct (apply_linear T' T _ _ _ _ _ _ _ _ _ _ _ 1 0 Hr Hi (eq_sym D1) (eq_sym D2) A' A) as (sc2 & AC2 & R3 & R4 & _).
  assert (Dims : rows bl' = rows bl /\ cols bl' = cols bl).
  { destruct (apply_inv _ _ _ _ _ _ _ _ _ _ _ Hr Hi A) as (f & g & F1 & F2 & F3 & _).
    destruct (apply_inv _ _ _ _ _ _ _ _ _ _ _ Hr Hi A') as (f' & g' & F1' & F2' & F3' & _).
    destruct (filter_inv _ _ _ F2) as (_ & _ & Ra & Ca & _). destruct (filter_inv _ _ _ F2') as (_ & _ & Rb & Cb & _).
    rewrite resample_val in F3, F3' by exact Hi. rewrite Ra, Ca in F3. rewrite Rb, Cb, D1, D2 in F3'. unfold cv_resize in F3, F3'.
    destruct (_ || _ || _ || _)%bool; [discriminate|]. destruct (_ || _ || _ || _)%bool in F3'; [discriminate|].
    apply ok_inj in F3. apply ok_inj in F3'. subst bl bl'. split; reflexivity. }
  destruct Dims as [Y1 Y2]. split; [exact Y1|]. split; [exact Y2|]. split; [exact V|].
  intros i j Hi' Hj'. assert (U := apply_uniform _ _ _ _ _ _ _ _ _ _ _ k Hr Hi AC).
  specialize (U ltac:(intros u v _ _; cbn [lincomb px]; rewrite V; ring) i j ltac:(lia) ltac:(lia)). rewrite PC in U. lra.
Qed.
Lemma negative_simulated ni it diag d d' s w a b p gsd r r' m tr q w1 t bl n w2 t' bl' n' :
  observe ni it w = Ok m -> good_camera s -> good_geometry (sc w) -> good_scene s (atm_rows m) -> response_curves s tr q -> a < 0 ->
  reference_init p gsd None None = Ok r -> nth 0 (sr_pix r) 0 < nth 1 (sr_pix r) 0 -> reference_init (remapped a b p) gsd None None = Ok r' ->
  simulate_image ni it diag d r s w = (w1, Ok (t, bl, n)) -> simulate_image ni it diag d' r' s w = (w2, Ok (t', bl', n')) ->
  exists l, seen_rows s (atm_rows m) l /\ forall k, k = collected s tr q l (exposure s tr q l) 300 0 + collected s tr q l (exposure s tr q l) 300 1 ->
    rows t' = rows t /\ cols t' = cols t /\ rows bl' = rows bl /\ cols bl' = cols bl /\
    (forall i j, px t' i j = k - px t i j) /\
    forall i j, (i < rows bl)%nat -> (j < cols bl)%nat -> px bl' i j = k - px bl i j.
Proof.
  intros O GC GG GS Rc Ha E L E' S S'.
  destruct (sim_current ni it diag d r s w m O) as (v1 & S1 & A1 & A2 & _). destruct (sim_current ni it diag d' r' s w m O) as (v2 & S2 & _).
  assert (v2 = v1).
  { assert (Q : fst (simulate_image ni it diag d' r' s w) = fst (simulate_image ni it diag d r s w)).
    { unfold simulate_image. destruct (step ni it w ReadAtm) as [w' [[|z]|]]; reflexivity. }
    rewrite S1, S2 in Q. exact Q. }
  subst v2. rewrite S1 in S. rewrite S2 in S'. assert (B1 := f_equal snd S). assert (B2 := f_equal snd S'). cbn [snd] in B1, B2.
  assert (GG' : good_geometry (sc v1)) by (unfold good_geometry in *; rewrite A1, A2; exact GG).
  exact (negative_rest diag d d' s (sc v1) a b p gsd r r' m tr q t bl n t' bl' n' GC GG' GS Rc Ha E L E' B1 B2).
Qed.
