(** * Proof_TurnSim: turning camera and scene together turns the pictures *)
From Coq Require Import Reals Lra List Lia ZArith Psatz Bool Sorted Permutation FunctionalExtensionality.
From Verif Require Import Base_XR Base_Np Base_NpFacts Base_Interp Base_Percentile Model_Geo Model_Noise Model_Scenario Model_Sensor Model_Rad Model_Db Model_Otf Model_Img Model_Met Model_Sim
  Spec_Rad Spec_Img Spec_System Spec_Met Spec_Sim Spec_Turn Spec_TurnSim Proof_Noise Proof_Rad Proof_Pe Proof_RadP Proof_Psf Proof_Image Proof_ImgX Proof_Filter Proof_Weight Proof_System Proof_Contrast Proof_Niirs
  Proof_Even Proof_Refl Proof_Sim Proof_SimT Proof_SimP Proof_SimX Proof_Gain Proof_Turn.
Import ListNotations.
Open Scope R_scope.
Opaque linspace.

Definition rmap {A B} (f : A -> B) (r : res A) : res B := match r with Ok x => Ok (f x) | Err e => Err e end.

(** ** Array operations *)
Lemma flip_flip a : flip (flip a) = a. Proof. destruct a. reflexivity. Qed.
Lemma flip_isum a : isum (flip a) = isum a.
Proof. rewrite !isum_over. cbn [flip rows cols px]. symmetry. apply Rsum_swap. Qed.
Lemma flip_scale c a : iscale c (flip a) = flip (iscale c a). Proof. reflexivity. Qed.
Lemma flip_resize a w h : cv_resize (flip a) h w = rmap flip (cv_resize a w h).
Proof.
  unfold cv_resize. cbn [flip rows cols px].
  replace (Z.leb h 0 || Z.leb w 0 || Nat.eqb (cols a) 0 || Nat.eqb (rows a) 0)
    with (Z.leb w 0 || Z.leb h 0 || Nat.eqb (rows a) 0 || Nat.eqb (cols a) 0)
    by (destruct (Z.leb w 0), (Z.leb h 0), (Nat.eqb (rows a) 0), (Nat.eqb (cols a) 0); reflexivity).
  destruct (_ || _); [reflexivity|]. cbn [rmap]. f_equal. unfold flip. cbn [rows cols px]. f_equal.
  apply functional_extensionality. intros i. apply functional_extensionality. intros j.
  destruct (rs_pos (cols a) (Z.to_nat w) i) as [y t]. destruct (rs_pos (rows a) (Z.to_nat h) j) as [x s]. ring.
Qed.
Lemma flip_middle a k : get_middle (flip a) k = flip (get_middle a k).
Proof.
  unfold get_middle. cbn [flip rows cols px].
  destruct (mid_slice (Z.of_nat (cols a)) (Z.of_nat k)). destruct (mid_slice (Z.of_nat (rows a)) (Z.of_nat k)). reflexivity.
Qed.
Lemma flip_crop a l : forall out, crop_loop (flip a) l (option_map flip out) = option_map flip (crop_loop a l out).
Proof.
  induction l as [|k l IH]; intros out; [reflexivity|]. cbn [crop_loop]. rewrite flip_middle, flip_isum.
  destruct (Rltb 0.95 _); [reflexivity|]. apply (IH (Some (get_middle a k))).
Qed.
Lemma flip_filter a k : filter2D (flip a) (flip k) = rmap flip (filter2D a k).
Proof.
  unfold filter2D. cbn [flip rows cols px].
  replace (Nat.eqb (cols a) 0 || Nat.eqb (rows a) 0 || Nat.eqb (cols k) 0 || Nat.eqb (rows k) 0)
    with (Nat.eqb (rows a) 0 || Nat.eqb (cols a) 0 || Nat.eqb (rows k) 0 || Nat.eqb (cols k) 0)
    by (destruct (Nat.eqb (rows a) 0), (Nat.eqb (cols a) 0), (Nat.eqb (rows k) 0), (Nat.eqb (cols k) 0); reflexivity).
  destruct (_ || _); [reflexivity|]. cbn [rmap]. f_equal. unfold flip. cbn [rows cols px]. f_equal.
  apply functional_extensionality. intros i. apply functional_extensionality. intros j.
  apply (Rsum_swap (cols k) (rows k) (fun p q => px k q p *
     px a (reflect101 (rows a) (Z.of_nat j + Z.of_nat q - Z.of_nat (rows k / 2)))
          (reflect101 (cols a) (Z.of_nat i + Z.of_nat p - Z.of_nat (cols k / 2))))).
Qed.
Lemma flip_resample k a dx dy b : resample_2D k a dx dy = Ok b -> resample_2D k (flip a) dx dy = Ok (flip b).
Proof.
  unfold resample_2D. cbn [flip rows cols]. intros H.
  destruct (qdiv k (xmul (Fin (INR (cols a))) dx) dy) as [qx|]; [|discriminate H]. cbn [bind] in H.
  destruct (xint_round qx) as [x|] eqn:X; [|discriminate H]. cbn [bind] in H.
  destruct (qdiv k (xmul (Fin (INR (rows a))) dx) dy) as [qy|]; [|discriminate H]. cbn [bind] in H |- *.
  destruct (xint_round qy) as [y|]; [|discriminate H]. cbn [bind] in H |- *. rewrite X. cbn [bind].
  rewrite flip_resize, H. reflexivity.
Qed.

(** ** The point spread function *)
Lemma flip_psf n o o' : (0 < n)%nat -> crows o = n -> ccols o = n -> crows o' = n -> ccols o' = n ->
  (forall i j, im o i j = 0) -> (forall i j, im o' i j = 0) ->
  (forall i j, (i < n)%nat -> (j < n)%nat -> re o' i j = re o j i) -> psf_raw o' = flip (psf_raw o).
Proof.
  intros Hn H1 H2 H3 H4 I I' Re. unfold psf_raw. rewrite H1, H2, H3, H4. unfold flip. cbn [rows cols px]. f_equal.
  apply functional_extensionality. intros i. apply functional_extensionality. intros j.
  assert (Fs : forall p, (fsh n p < n)%nat) by (intros p; unfold fsh; apply Nat.mod_upper_bound; lia).
  unfold ifft_re. generalize (fsh n i) (fsh n j). intros a b.
  etransitivity; [|symmetry; apply (Rsum_swap n n (fun p q =>
     (re o (fsh n p) (fsh n q) * cos (2 * PI * (INR p * INR b / INR n + INR q * INR a / INR n))
      - im o (fsh n p) (fsh n q) * sin (2 * PI * (INR p * INR b / INR n + INR q * INR a / INR n))) / (INR n * INR n)))].
  unfold sum_over. apply Rsum_map_ext. intros p _. apply Rsum_map_ext. intros q _. cbv zeta.
  rewrite (Re (fsh n p) (fsh n q) (Fs p) (Fs q)), I, I'. rewrite (Rplus_comm (INR q * INR b / INR n)). reflexivity.
Qed.
Lemma flip_otf_psf n o o' kd df dx : (0 < n)%nat -> crows o = n -> ccols o = n -> crows o' = n -> ccols o' = n ->
  psf_raw o' = flip (psf_raw o) -> otf_to_psf o' kd df dx = rmap flip (otf_to_psf o kd df dx).
Proof.
  intros Hn H1 H2 H3 H4 E. rewrite !otf_to_psf_eq. cbv zeta. rewrite E. cbn [flip rows cols].
  assert (A : rows (psf_raw o) = n) by exact H1. assert (B : cols (psf_raw o) = n) by exact H2.
  rewrite A, B, H1, H2, H3, H4. destruct (_ || _); [reflexivity|].
  destruct (qdiv _ _ _) as [di|]; [|reflexivity]. cbn [bind].
  destruct (xint _) as [x|]; [|reflexivity]. cbn [bind].
  rewrite flip_resize. destruct (cv_resize _ _ _) as [p|]; [|reflexivity]. cbn [bind rmap].
  rewrite flip_isum. destruct (crop_sizes _) as [|z l]; [reflexivity|]. destruct (Reqb (isum p) 0); [reflexivity|].
  rewrite flip_scale. assert (C := flip_crop (iscale (isum p) p) (z :: l) None). cbn [option_map] in C. rewrite C. clear C.
  destruct (crop_loop (iscale (isum p) p) (z :: l) None) as [c|]; [|reflexivity]. cbn [option_map]. rewrite flip_isum.
  destruct (Reqb (isum c) 0); reflexivity.
Qed.
Lemma flip_apply n o o' a g kr rg kd df ki ifov x y : (0 < n)%nat -> crows o = n -> ccols o = n -> crows o' = n -> ccols o' = n ->
  psf_raw o' = flip (psf_raw o) -> apply_otf_to_image a g kr rg o kd df ki ifov = Ok (x, y) ->
  apply_otf_to_image (flip a) g kr rg o' kd df ki ifov = Ok (flip x, flip y).
Proof.
  intros Hn H1 H2 H3 H4 E H. unfold apply_otf_to_image in *.
  destruct (qdiv kr (Fin (g / 2)) (Fin rg)) as [h|]; [|discriminate H]. cbn [bind] in H |- *.
  rewrite (flip_otf_psf n o o') by assumption.
  destruct (otf_to_psf o kd df _) as [p|]; [|discriminate H]. cbn [bind rmap] in H |- *.
  rewrite flip_filter. destruct (filter2D a p) as [b|]; [|discriminate H]. cbn [bind rmap] in H |- *.
  destruct (qdiv kr (Fin g) (Fin rg)) as [d|]; [|discriminate H]. cbn [bind] in H |- *.
  destruct (resample_2D _ b _ _) as [s|] eqn:Es; [|discriminate H]. cbn [bind] in H.
  destruct (resample_2D _ p _ _) as [t|] eqn:Et; [|discriminate H]. cbn [bind] in H.
  rewrite (flip_resample _ _ _ _ _ Es). cbn [bind]. rewrite (flip_resample _ _ _ _ _ Et). cbn [bind].
  apply ok_inj in H. apply pair_equal_spec in H. destruct H as [-> ->]. reflexivity.
Qed.

(** ** Reflectances, photoelectrons, noise *)
Lemma forallb2_swap (P : nat -> nat -> bool) n m :
  forallb (fun i => forallb (fun j => P i j) (seq 0 m)) (seq 0 n) = forallb (fun j => forallb (fun i => P i j) (seq 0 n)) (seq 0 m).
Proof. apply eq_true_iff_eq. rewrite !forallb_forall. setoid_rewrite forallb_forall. firstorder. Qed.
Lemma flip_all P a : xall P (xflip a) = xall P a.
Proof. unfold xall. cbn [xflip xrows xcols xpx]. apply (forallb2_swap (fun i j => P (xpx a j i))). Qed.
Lemma flip_reflectance a p r : img_to_reflectance (flip a) p r = rmap xflip (img_to_reflectance a p r).
Proof. unfold img_to_reflectance. destruct (interp1d_table p r); reflexivity. Qed.
Lemma flip_electrons ref pe a : to_photoelectrons ref pe (xflip a) = rmap flip (to_photoelectrons ref pe a).
Proof.
  unfold to_photoelectrons. rewrite !flip_all. destruct (xall _ a); [|reflexivity]. destruct (xall _ a); [|reflexivity].
  destruct (interp_table ref pe); reflexivity.
Qed.
Lemma flip_noise d g a : add_noise (flip_draws d) g (flip a) = rmap xflip (add_noise d g a).
Proof.
  unfold add_noise. replace (rates_ok (flip a)) with (rates_ok a); [destruct (rates_ok a); reflexivity|].
  unfold rates_ok. cbn [flip rows cols px]. apply (forallb2_swap (fun i j => Rleb 0 (px a i j) && Rleb (px a i j) lam_max)).
Qed.

(** ** The camera *)
Lemma pe_turn s b t r : pe_at (turned s) b t r = pe_at s b t r.
Proof.
  unfold pe_at. change (sensor_opt_trans (turned s)) with (sensor_opt_trans s). change (sensor_qe (turned s)) with (sensor_qe s).
  change (sensor_other_irradiance (turned s)) with (sensor_other_irradiance s). cbn [turned s_D s_f s_wx s_wy s_dark s_ntdi].
  steps. rewrite (signal_turn _ _ _ _ _ (s_wy s)). reflexivity.
Qed.
Lemma mapM_ext {A B} (f g : A -> res B) l : (forall x, f x = g x) -> mapM f l = mapM g l.
Proof. intros H. induction l as [|x l IH]; [reflexivity|]. cbn [mapM]. rewrite H, IH. reflexivity. Qed.
Lemma table_turn all s t T : reflectance_to_photoelectrons all (turned s) t T = reflectance_to_photoelectrons all s t T.
Proof.
  unfold reflectance_to_photoelectrons. change (band (turned s)) with (band s). cbv zeta. steps.
  rewrite (mapM_ext _ _ _ (pe_turn s _ t)). reflexivity.
Qed.
(* the transfer function is even: mirrored about either diagonal it is the same *)
Lemma system_even diag s c pts ps sl ti o F : (length (s_kernel s) <= 1)%nat -> good_optics s ->
  (forall pts, exists o, common_OTFs diag Np s c pts (map fst ps) (map (fun p => Fin (snd p)) ps) sl ti = Ok o
     /\ system_OTF o = map (fun p => Fin (F p)) pts) ->
  common_OTFs diag Np s c pts (map fst ps) (map (fun p => Fin (snd p)) ps) sl ti = Ok o ->
  system_OTF o = map (fun p => Fin (F p)) pts /\ forall p, F (neg p) = F p.
Proof.
  intros K (_ & _ & _ & Hx & Hy & _) H E. split.
  - destruct (H pts) as (o' & E' & G). rewrite E in E'. apply ok_inj in E'. subst o'. exact G.
  - intros p. destruct (H [p]) as (o1 & E1 & G1). destruct (H [neg p]) as (o2 & E2 & G2).
    change [neg p] with (map neg [p]) in E2. rewrite common_even in E2 by assumption.
    rewrite E1 in E2. apply ok_inj in E2. subst o2. rewrite G1 in G2. cbn in G2. congruence.
Qed.

Lemma grid_nth c i j : (i < n_sim)%nat -> (j < n_sim)%nat ->
  nth_error (sim_pts c) (i * n_sim + j) = Some ((INR j - 750) / 750 * c, (750 - INR i) / 750 * c).
Proof.
  intros Hi Hj. rewrite <- (sim_pts_nth c i j Hi Hj). apply nth_error_nth'. rewrite sim_pts_len. nia.
Qed.
Lemma fin_nth l k : nth_error (map Fin l) k = None \/ nth_error (map Fin l) k = Some (Fin (nth k l 0)).
Proof.
  rewrite nth_error_map. destruct (nth_error l k) eqn:E; [right; cbn; now rewrite (nth_error_nth _ _ 0 E) | now left].
Qed.
Lemma spec_turn s : spec_rate (turned s) = spec_rate s.
Proof.
  apply functional_extensionality. intros r. apply functional_extensionality. intros a. unfold spec_rate, dN_at.
  change (trans_at (turned s)) with (trans_at s). change (qe_at (turned s)) with (qe_at s). change (other_at (turned s)) with (other_at s).
  cbn [turned s_wx s_wy s_D s_f]. unfold dN1. cbv zeta. ring.
Qed.
Lemma wts_turn s b : wts (turned s) b = wts s b.
Proof. unfold wts. rewrite spec_turn. reflexivity. Qed.
Lemma ps_turn s b : ps_of (turned s) b = ps_of s b.
Proof. unfold ps_of, g_of. rewrite spec_turn. reflexivity. Qed.

Lemma otf_turn diag s c b : good_camera s -> (length (s_kernel s) <= 1)%nat -> good_path c (slant_flat c) -> sound_rows b -> StronglySorted Rlt (map a_wl b) ->
  (exists a, In a b /\ 0 < spec_rate s 1 a) ->
  exists v v' df, simulate_otf diag s c (map a_wl b) (wts s b) = Ok (otf_image n_sim v, df) /\
    simulate_otf diag (turned s) c (map a_wl b) (wts s b) = Ok (otf_image n_sim v', df) /\
    forall i j, (i < n_sim)%nat -> (j < n_sim)%nat -> nth (i * n_sim + j) v' 0 = nth (j * n_sim + i) v 0.
Proof.
  intros GC K GP Sr So Ex. assert (GO := proj1 (proj2 (proj2 GC))). destruct (ps_good s b Sr So Ex) as (_ & GS & _).
  destruct (otf_part diag s c b GC GP Sr So Ex) as (l & v & o & Im & Lm & Pm & Eo & Ev & Lv & EO).
  assert (Ex' : exists a, In a b /\ 0 < spec_rate (turned s) 1 a) by (rewrite spec_turn; exact Ex).
  destruct (otf_part diag (turned s) c b (camera_turn s GC) GP Sr So Ex') as (l' & v' & o' & Im' & Lm' & Pm' & Eo' & Ev' & Lv' & EO').
  rewrite ps_turn in *. rewrite wts_turn in EO'. cbn [turned s_D s_int_time] in Eo', EO'.
  assert (l' = l) as ->.
  { apply in_map_iff in Im. destruct Im as (p & <- & Hp). apply in_map_iff in Im'. destruct Im' as (p' & <- & Hp').
    apply Rle_antisym; [apply Lm', Hp | apply Lm, Hp']. }
  destruct (common_pointwise diag Np s c (ps_of s b) (slant_flat c) (s_int_time s) GS GO GP K) as (F & HF).
  destruct (system_even diag s c _ _ _ _ o F K GO HF Eo) as (EF & Ne).
  exists v, v', (s_D s / l / 750). split; [exact EO|]. split; [exact EO'|]. intros i j Hi Hj.
  assert (Hi' : (1500 - i < n_sim)%nat) by (unfold n_sim; lia). assert (Hj' : (1500 - j < n_sim)%nat) by (unfold n_sim; lia).
  set (C := s_D s / l) in *.
  assert (Im1500 : INR 1500 = 1500) by (rewrite INR_IZR_INZ; reflexivity).
  assert (Ti : INR (1500 - i) = 1500 - INR i) by (rewrite minus_INR by (unfold n_sim in Hi; lia); rewrite Im1500; reflexivity).
  assert (Tj : INR (1500 - j) = 1500 - INR j) by (rewrite minus_INR by (unfold n_sim in Hj; lia); rewrite Im1500; reflexivity).
  assert (A : nth_error (system_OTF o') (i * n_sim + j) = nth_error (system_OTF o) ((1500 - j) * n_sim + (1500 - i))).
  { apply (system_turn diag Np s c (sim_pts C) (ps_of s b) (slant_flat c) (s_int_time s) o o' GS GO GP K Eo Eo' _ _
      ((INR j - 750) / 750 * C) ((750 - INR i) / 750 * C)).
    - apply grid_nth; assumption.
    - rewrite (grid_nth C _ _ Hj' Hi'), Ti, Tj. do 2 f_equal; field. }
  assert (B : nth_error (system_OTF o) ((1500 - j) * n_sim + (1500 - i)) = nth_error (system_OTF o) (j * n_sim + i)).
  { rewrite EF, !nth_error_map, (grid_nth C _ _ Hj' Hi'), (grid_nth C _ _ Hj Hi). cbn [option_map]. do 2 f_equal.
    rewrite <- Ne. f_equal. unfold neg. cbn [fst snd]. rewrite Ti, Tj. f_equal; field. }
  rewrite B, Ev, Ev' in A. rewrite !nth_error_map in A.
  destruct (nth_error v' (i * n_sim + j)) as [x'|] eqn:X'; destruct (nth_error v (j * n_sim + i)) as [x|] eqn:X; cbn [option_map] in A; try discriminate A.
  - rewrite (nth_error_nth _ _ 0 X), (nth_error_nth _ _ 0 X'). congruence.
  - apply nth_error_None in X, X'. rewrite !nth_overflow by assumption. reflexivity.
Qed.

(** ** The whole run *)
Definition turned_pictures (p : img * img * ximg) : img * img * ximg := let '(t, b, n) := p in (flip t, flip b, xflip n).
Lemma rest_turn diag d s c r m p : good_camera s -> (length (s_kernel s) <= 1)%nat -> good_geometry c -> good_scene s (atm_rows m) ->
  simulate_rest diag d s c r m = Ok p ->
  simulate_rest diag (flip_draws d) (turned s) c (flip_reference r) m = Ok (turned_pictures p).
Proof.
  intros GC K (G1 & G2) (Sr & So & (a0 & x & y & Ia & Ba & Rx & Ry & Pos)) H. assert (GP := flat_good_path c G1 G2).
  assert (P := proj1 GC). assert (TB := ph_tables _ P). assert (St := proj1 (proj2 GC)).
  assert (GR : good_rows s (atm_rows m)). { split; [exists a0; auto|]. intros a' I _. specialize (Sr a' I). lra. }
  destruct (good_band s (atm_rows m) TB GR) as (b & Hb & Hne & Hw & B).
  assert (Sb : sound_rows b) by (intros a' I; apply Sr, B, I).
  destruct (table_facts s (atm_rows m) (s_int_time s) 300 b P (ph_time _ P) GR (sorted_ascending _ So) Sr Hb) as (E & Lc & Rg & It).
  assert (Sob : StronglySorted Rlt (map a_wl b)) by (apply (band_seen s _ b B Hb), So).
  assert (Ex : exists a, In a b /\ 0 < spec_rate s 1 a).
  { exists a0. split; [apply B; auto|]. unfold spec_rate. rewrite <- scene_eq. rewrite <- (electrons_at s x y) by (auto; apply (Sr a0 Ia)). exact Pos. }
  destruct (otf_turn diag s c b GC K GP Sb Sob Ex) as (v & v' & df & EO & EO' & V).
  unfold simulate_rest in *. cbn [flip_reference sr_img sr_gsd sr_pix sr_refl].
  change (s_int_time (turned s)) with (s_int_time s). rewrite table_turn. rewrite E in H |- *. cbn [bind] in H |- *.
  rewrite EO in H. rewrite EO'. cbn [bind] in H |- *. cbn [turned s_px s_py s_f]. rewrite (Rplus_comm (s_py s) (s_px s)).
  destruct (pydiv _ _) as [ifov|]; [|discriminate H]. cbn [bind] in H |- *.
  rewrite flip_reflectance. destruct (img_to_reflectance _ _ _) as [X|]; [|discriminate H]. cbn [bind rmap] in H |- *.
  destruct (mapM finite _) as [pe|]; [|discriminate H]. cbn [bind] in H |- *.
  rewrite flip_electrons. destruct (to_photoelectrons _ pe X) as [T|]; [|discriminate H]. cbn [bind rmap] in H |- *.
  destruct (apply_otf_to_image T _ _ _ _ _ _ _ _) as [[bl ps]|] eqn:EA; [|discriminate H]. cbn [bind] in H.
  assert (PS : psf_raw (otf_image n_sim v') = flip (psf_raw (otf_image n_sim v))).
  { apply (flip_psf n_sim); try reflexivity; [unfold n_sim; lia|]. intros i j Hi Hj. cbn [otf_image re]. apply V; assumption. }
  rewrite (flip_apply n_sim (otf_image n_sim v) (otf_image n_sim v') T (sr_gsd r) Np (slant_flat c) Np df Py ifov bl ps ltac:(unfold n_sim; lia) eq_refl eq_refl eq_refl eq_refl PS EA).
  cbn [bind]. change (g_noise_of (turned s)) with (g_noise_of s). rewrite flip_noise.
  destruct (add_noise d _ bl) as [n|]; [|discriminate H]. cbn [bind rmap] in H |- *. apply ok_inj in H. subst p. reflexivity.
Qed.

Lemma turned_turned s : turned (turned s) = s. Proof. destruct s. reflexivity. Qed.
Lemma flip_reference_twice r : flip_reference (flip_reference r) = r. Proof. destruct r as [[? ? ?] ? ? ?]. reflexivity. Qed.
Lemma flip_draws_twice d : flip_draws (flip_draws d) = d. Proof. destruct d. reflexivity. Qed.
Lemma scene_turn s all : good_scene s all -> good_scene (turned s) all.
Proof.
  intros (Sr & So & (a0 & x & y & Ia & Ba & Rx & Ry & Pos)). split; [exact Sr|]. split; [exact So|].
  exists a0, x, y. repeat split; try assumption; try apply Ba.
  replace (electrons (turned s) x y (a_wl a0) (scene_radiance 1 300 a0)) with (electrons s x y (a_wl a0) (scene_radiance 1 300 a0)); [exact Pos|].
  unfold electrons. change (self_irradiance (turned s)) with (self_irradiance s). cbn [turned s_D s_f s_wx s_wy s_t_filt s_eta].
  now rewrite (Rmult_comm (s_wx s) (s_wy s)).
Qed.
Lemma image_turn ni it diag d r s w m : observe ni it w = Ok m -> good_camera s -> (length (s_kernel s) <= 1)%nat ->
  good_geometry (sc w) -> good_scene s (atm_rows m) -> forall w1 t b n,
  simulate_image ni it diag d r s w = (w1, Ok (t, b, n)) <->
  simulate_image ni it diag (flip_draws d) (flip_reference r) (turned s) w = (w1, Ok (flip t, flip b, xflip n)).
Proof.
  intros O GC K GG GS.
  assert (M : forall d r s, good_camera s -> (length (s_kernel s) <= 1)%nat -> good_scene s (atm_rows m) -> forall w1 t b n,
    simulate_image ni it diag d r s w = (w1, Ok (t, b, n)) ->
    simulate_image ni it diag (flip_draws d) (flip_reference r) (turned s) w = (w1, Ok (flip t, flip b, xflip n))).
  { clear d r s GC K GS. intros d r s GC K GS w1 t b n H.
    destruct (sim_reload ni it diag d r s w w1 _ H (ex_intro _ m O)) as (A1 & A2 & _).
    assert (GG' : good_geometry (sc w1)) by (unfold good_geometry; rewrite A1, A2; exact GG). clear A1 A2.
    rewrite sim_world, O in H |- *. cbn [bind] in H |- *. apply pair_equal_spec in H. destruct H as [E H]. rewrite E in H |- *. apply pair_equal_spec. split; [reflexivity|].
    exact (rest_turn diag d s (sc w1) r m (t, b, n) GC K GG' GS H). }
  intros w1 t b n. split; [apply M; assumption|]. intros H.
  apply (M (flip_draws d) (flip_reference r) (turned s) (camera_turn s GC) K (scene_turn s _ GS)) in H.
  rewrite flip_draws_twice, flip_reference_twice, turned_turned, !flip_flip in H.
  replace (xflip (xflip n)) with n in H by (destruct n; reflexivity). exact H.
Qed.

(** ** The calibration from percentiles *)
Lemma flat_map_nil {A} (l : list nat) : flat_map (fun _ => @nil A) l = [].
Proof. induction l; [reflexivity | assumption]. Qed.
Lemma flat_map_split {A} (f g : nat -> list A) l : Permutation (flat_map (fun i => f i ++ g i) l) (flat_map f l ++ flat_map g l).
Proof.
  induction l as [|x l IH]; [constructor|]. cbn [flat_map]. rewrite <- !app_assoc. apply Permutation_app_head.
  etransitivity; [apply Permutation_app_head, IH|]. rewrite !app_assoc. apply Permutation_app_tail, Permutation_app_comm.
Qed.
Lemma grid_perm {A} (f : nat -> nat -> A) l m :
  Permutation (flat_map (fun i => map (f i) m) l) (flat_map (fun j => map (fun i => f i j) l) m).
Proof.
  induction l as [|x l IH]; cbn [flat_map map]; [now rewrite flat_map_nil|].
  etransitivity; [|symmetry; apply (flat_map_split (fun j => [f x j]) (fun j => map (fun i => f i j) l) m)].
  replace (flat_map (fun j => [f x j]) m) with (map (f x) m) by (clear; induction m; cbn; [|rewrite IHm]; reflexivity).
  apply Permutation_app_head, IH.
Qed.
Lemma ravel_flip a : Permutation (ravel a) (ravel (flip a)).
Proof. unfold ravel. cbn [flip rows cols px]. apply (grid_perm (px a)). Qed.
Lemma percentile_perm l l' q : Permutation l l' -> percentile l q = percentile l' q.
Proof.
  intros H. unfold percentile. assert (L := Permutation_length H).
  destruct l as [|x l]; [apply Permutation_nil in H; now subst|]. destruct l' as [|x' l']; [symmetry in H; apply Permutation_nil in H; discriminate|].
  rewrite L. replace (sortR (x' :: l')) with (sortR (x :: l)); [reflexivity|].
  apply sorted_unique; [apply sortR_sorted | apply sortR_sorted|].
  etransitivity; [symmetry; apply sortR_perm|]. etransitivity; [exact H|]. apply sortR_perm.
Qed.
Lemma reference_turn a gsd pix refl r : reference_init a gsd pix refl = Ok r <-> reference_init (flip a) gsd pix refl = Ok (flip_reference r).
Proof.
  assert (M : forall a r, reference_init a gsd pix refl = Ok r -> reference_init (flip a) gsd pix refl = Ok (flip_reference r)).
  { clear a r. intros a r. unfold reference_init, ref_image_init. rewrite <- !(percentile_perm _ _ _ (ravel_flip a)).
    destruct pix as [p|].
    - destruct refl as [y|]; cbn [bind]; intros H; [|discriminate H]. apply ok_inj in H. subst r. reflexivity.
    - destruct (percentile _ 0.2); [|discriminate]. cbn [bind]. destruct (percentile _ 99.8); [|discriminate]. cbn [bind].
      intros H. apply ok_inj in H. subst r. reflexivity. }
  split; [apply M|]. intros H. apply M in H. rewrite flip_flip, flip_reference_twice in H. exact H.
Qed.
