(** * Proof_Whole: simulate_image in closed form (C120) *)
From Coq Require Import Reals Lra List Lia ZArith Psatz Bool Sorted FunctionalExtensionality.
From Flocq Require Import Core.Raux Core.Generic_fmt.
From Verif Require Import Base_XR Base_Np Base_NpFacts Base_Interp Model_Geo Model_Noise Model_Scenario Model_Sensor Model_Rad Model_Db Model_Otf Model_Img Model_Met Model_Sim
  Spec_Geo Spec_Rad Spec_Otf Spec_Img Spec_Blur Spec_System Spec_Chain Spec_Met Spec_Sim Spec_Apply Spec_Whole
  Proof_Noise Proof_Geo Proof_Otf Proof_Rad Proof_Pe Proof_RadP Proof_OtfX Proof_Psf Proof_Image Proof_Weight Proof_System Proof_SystemX Proof_Contrast Proof_Niirs
  Proof_Even Proof_Refl Proof_Sim Proof_SimT Proof_SimP Proof_NiirsDemo Proof_SimDemo Proof_GainDemo Proof_SimX Proof_SimCal Proof_Apply
  Spec_Reading Proof_Reading.
Import ListNotations.
Open Scope R_scope.
Opaque linspace.

(** ** The spectrum *)
Lemma mean_scale k ps F : k <> 0 -> spectral_mean (map (fun p => (fst p, snd p / k)) ps) F = spectral_mean ps F.
Proof.
  intros H. unfold spectral_mean. rewrite !map_map. cbn [fst snd].
  assert (L : forall (f : R * R -> R), Rsum (map (fun p => f p / k) ps) = Rsum (map f ps) / k).
  { intros f. induction ps as [|p ps IH]; cbn [map]; [unfold Rsum; simpl; field; exact H|]. rewrite !Rsum_cons, IH. field. exact H. }
  rewrite (L snd). rewrite (map_ext (fun p => snd p / k * F (fst p)) (fun p => snd p * F (fst p) / k)) by (intros p; field; exact H).
  rewrite L. destruct (Req_dec (Rsum (map snd ps)) 0) as [Z | Z].
  - rewrite Z. unfold Rdiv. rewrite Rmult_0_l, Rinv_0. ring.
  - field. auto.
Qed.
Lemma spectrum_scale s tr q b : has_tables s -> sorted_tables s -> response_curves s tr q -> (forall a, In a b -> 0 < a_wl a) ->
  (exists a, In a b /\ 0 < spec_rate s 1 a) ->
  exists k, k <> 0 /\ ps_of s b = map (fun p => (fst p, snd p / k)) (charge_spectrum s tr q (scene_radiance 1 300) b).
Proof.
  intros TB St [R1 R2] W (a & Ia & Pa).
  set (top := match map (spec_rate s 1) b with [] => 1 | w0 :: w => maxl w0 w end).
  assert (Tp : 0 < top).
  { unfold top. assert (I : In (spec_rate s 1 a) (map (spec_rate s 1) b)) by now apply in_map.
    destruct (map (spec_rate s 1) b) as [|w0 w]; [lra|]. destruct (maxl_ge w0 w) as [M1 M2]. destruct I as [I|I]; [lra|]. specialize (M2 _ I). lra. }
  exists top. split; [lra|]. unfold ps_of, charge_spectrum.
  assert (G : forall x, g_of s b x = spec_rate s 1 x / top) by reflexivity. clearbody top.
  assert (E : forall x, In x b -> electrons s (tr (a_wl x)) (q (a_wl x)) (a_wl x) (scene_radiance 1 300 x) = spec_rate s 1 x).
  { intros x Hx. unfold spec_rate. rewrite <- scene_eq. apply electrons_at; auto. }
  assert (X : forall l, (forall x, In x l -> In x b) ->
     map (fun a => (a_wl a, g_of s b a)) (filter (fun a => Rltb 0 (g_of s b a)) l)
     = map (fun p => (fst p, snd p / top)) (filter (fun p => if Rlt_dec 0 (snd p) then true else false)
        (map (fun a => (a_wl a, electrons s (tr (a_wl a)) (q (a_wl a)) (a_wl a) (scene_radiance 1 300 a))) l))).
  { induction l as [|x l IH]; intros H; [reflexivity|]. cbn [map filter snd fst]. rewrite (E x) by (apply H; now left).
    rewrite G. destruct (Rlt_dec 0 (spec_rate s 1 x)) as [P | P].
    - rewrite (proj2 (Rltb_true _ _)) by (apply Rdiv_lt_0_compat; lra). cbn [map fst snd]. rewrite G, IH by (intros; apply H; now right). reflexivity.
    - rewrite (proj2 (Rltb_false _ _)). { apply IH. intros; apply H; now right. }
      apply Rmult_le_reg_r with top; [lra|]. unfold Rdiv. rewrite Rmult_assoc, Rinv_l by lra. lra. }
  apply X. auto.
Qed.

(** ** Turbulence *)
Lemma ground_point a L : 0 < a -> a <= L <= 2 * r_earth + a ->
  exists G, height r_earth G = 0 /\ dist G (on_axis r_earth a) = L.
Proof.
  intros Ha [L1 L2]. assert (HR : 0 < r_earth) by (unfold r_earth; lra).
  set (x := (r_earth * r_earth + (r_earth + a) * (r_earth + a) - L * L) / (2 * r_earth * (r_earth + a))).
  assert (P : 0 < 2 * r_earth * (r_earth + a)) by nra.
  assert (X : -1 <= x <= 1).
  { assert (E : x * (2 * r_earth * (r_earth + a)) = r_earth * r_earth + (r_earth + a) * (r_earth + a) - L * L) by (unfold x; field; lra).
    split; apply Rmult_le_reg_r with (2 * r_earth * (r_earth + a)); try exact P; rewrite E; nra. }
  exists (above r_earth 0 (acos x)). unfold height, dist, norm, vsub, Spec_Geo.dot, above, on_axis. cbn [fst snd].
  assert (SC : sin (acos x) * sin (acos x) + cos (acos x) * cos (acos x) = 1) by (generalize (sin2_cos2 (acos x)); unfold Rsqr; auto).
  assert (C : cos (acos x) = x) by (apply cos_acos; exact X). rewrite C in *.
  set (y := sin (acos x)) in *. clearbody y.
  split.
  - replace ((r_earth + 0) * y * ((r_earth + 0) * y) + (r_earth + 0) * x * ((r_earth + 0) * x)) with (r_earth * r_earth * (y * y + x * x)) by ring.
    rewrite SC, Rmult_1_r, sqrt_square by lra. ring.
  - replace (((r_earth + 0) * y - 0) * ((r_earth + 0) * y - 0) + ((r_earth + 0) * x - (r_earth + a)) * ((r_earth + 0) * x - (r_earth + a)))
      with (r_earth * r_earth * (y * y + x * x) + (r_earth + a) * (r_earth + a) - x * (2 * r_earth * (r_earth + a))) by ring.
    rewrite SC. replace (x * (2 * r_earth * (r_earth + a))) with (r_earth * r_earth + (r_earth + a) * (r_earth + a) - L * L) by (unfold x; field; lra).
    replace (r_earth * r_earth * 1 + (r_earth + a) * (r_earth + a) - (r_earth * r_earth + (r_earth + a) * (r_earth + a) - L * L)) with (L * L) by ring.
    apply sqrt_square. lra.
Qed.
Lemma list_by_nth {A} (l : list A) (d : A) (f : nat -> A) n : length l = n -> (forall i, (i < n)%nat -> nth i l d = f i) -> l = map f (seq 0 n).
Proof.
  intros L H. apply (nth_ext _ _ d d). { rewrite map_length, seq_length. exact L. }
  intros i Hi. rewrite L in Hi. rewrite H by exact Hi. rewrite (nth_indep _ d (f 0%nat)) by (rewrite map_length, seq_length; exact Hi).
  rewrite map_nth, seq_nth by exact Hi. reflexivity.
Qed.
Lemma seeing_form k c L zp hp r1 : 0 < altitude c -> altitude c <= L <= 2 * r_earth + altitude c ->
  altitude_along_slant_path k 0 (altitude c) L = Ok (zp, hp) ->
  coherence_diameter (1 / 10 ^ 6) zp (map (fun h => hufnagel_valley_turbulence_profile h (plain c HaWindSpeed) (plain c Cn2At1m)) hp) = Ok (Fin r1) ->
  seeing c L r1.
Proof.
  intros Ha HL Ep Ec. destruct (ground_point (altitude c) L Ha HL) as (G & H0 & D0).
  assert (HR : 0 < r_earth) by (unfold r_earth; lra).
  destruct (path_of_point k (altitude c) G) as (zs & hs & E & Lz & Lh & V); [lra | change (sensor_pt (altitude c)) with (on_axis r_earth (altitude c)); lra|].
  change (sensor_pt (altitude c)) with (on_axis r_earth (altitude c)) in *. rewrite H0, D0 in E. rewrite Ep in E. apply ok_inj in E.
  injection E as E1 E2. subst zs hs.
  exists G. cbv zeta. change earth_radius with r_earth. split; [exact H0|]. split; [exact D0|].
  set (S := on_axis r_earth (altitude c)) in *.
  rewrite (list_by_nth zp NaN (fun i => Fin (INR i * L / 9999)) 10000 Lz) in Ec by (intros i Hi; rewrite <- D0; apply V; exact Hi).
  rewrite (list_by_nth hp NaN (fun i => Fin (height r_earth (along G S (INR i / 9999)))) 10000 Lh) in Ec by (intros i Hi; apply V; exact Hi).
  rewrite map_map in Ec.
  rewrite (map_ext (fun i => hufnagel_valley_turbulence_profile (Fin (height r_earth (along G S (INR i / 9999)))) (plain c HaWindSpeed) (plain c Cn2At1m))
    (fun i => Fin (hufnagel_valley (height r_earth (along G S (INR i / 9999))) (plain c HaWindSpeed) (plain c Cn2At1m)))) in Ec
    by (intros i; rewrite hv_published; reflexivity).
  destruct (coherence_formula (fun i => INR i * L / 9999)
    (fun i => hufnagel_valley (height r_earth (along G S (INR i / 9999))) (plain c HaWindSpeed) (plain c Cn2At1m)) 10000 (1 / 10 ^ 6) r1) as [P F].
  - lra.
  - apply le_n_S, le_n_S, Nat.le_0_l.
  - change (INR 0) with 0. lra.
  - intros j _. rewrite S_INR. lra.
  - exact Ec.
  - split; [exact P|]. rewrite F. f_equal; [|f_equal].
    + f_equal. f_equal. field.
    + apply map_ext. intros i. f_equal. f_equal. replace (INR (10000 - 1)) with 9999 by (rewrite INR_IZR_INZ; reflexivity). field. lra.
Qed.

(** ** The system transfer function *)
(* any grid, any spectrum, any kernel *)
Lemma sharpening_exists diag s : 0 < s_px s -> 0 < s_f s -> exists g, forall u w, sharpening diag s u w (g u w) /\
  ((1 < length (s_kernel s))%nat -> filter_OTF diag u w (s_kernel s) (s_px s / s_f s) = Ok (Fin (g u w))).
Proof.
  intros Hp Hf. destruct (Nat.le_gt_cases (length (s_kernel s)) 1) as [K | K].
  - exists (fun _ _ => 1). intros u w. split; [split; [reflexivity|]|]; intros C; exfalso; lia.
  - exists (fun u w => getv (filter_OTF diag u w (s_kernel s) (s_px s / s_f s))). intros u w.
    destruct (filter_reads diag u w (s_kernel s) (s_px s / s_f s)) as (g & Eg & RG); [apply Rdiv_lt_0_compat; lra|].
    rewrite Eg. cbn [getv]. split; [|reflexivity]. split; [intros C; exfalso; lia|]. intros _. exact RG.
Qed.
Lemma system_value diag k s c pts ps sl ti o v : good_spectrum ps -> good_optics s -> 0 < s_px s -> 0 < s_f s ->
  0 < altitude c -> altitude c <= sl <= 2 * r_earth + altitude c -> pts <> [] ->
  common_OTFs diag k s c pts (map fst ps) (map (fun p => Fin (snd p)) ps) sl ti = Ok o -> system_OTF o = map Fin v ->
  exists r1 g, (0 < plain c Cn2At1m -> seeing c sl r1) /\ (forall u w, sharpening diag s u w (g u w)) /\
    forall j u w, nth_error pts j = Some (u, w) -> nth j v 0 = system_mtf (with_int_time s ti) c ps r1 u w * g u w.
Proof.
  intros GS GO Hpx Hf Ha HL NE Eo Ev.
  assert (GP : good_path c sl) by (right; unfold r_earth in HL; lra).
  assert (CF := common_factors diag k s c pts ps sl ti o GS GO GP Eo).
  destruct GS as (ND & _).
  destruct (common_product diag k s c pts (map fst ps) (map (fun p => Fin (snd p)) ps) sl ti o) as [LS PR];
    [now rewrite !map_length | exact ND | exact Eo|].
  assert (TU : exists r1, (0 < plain c Cn2At1m -> seeing c sl r1) /\
     forall j u w, nth_error pts j = Some (u, w) -> nth_error (turb_OTF o) j = Some (Fin (if Rlt_dec 0 (plain c Cn2At1m)
       then spectral_mean ps (fun l => turbulence_mtf (r_at r1 l) l (s_D s) (plain c AircraftSpeed * (ti * s_ntdi s)) u w) else 1))).
  { destruct (Rlt_dec 0 (plain c Cn2At1m)) as [P | P].
    - assert (H0 : exists u0 w0, nth_error pts 0 = Some (u0, w0)) by (destruct pts as [|[u0 w0] ?]; [now elim NE | do 2 eexists; reflexivity]).
      destruct H0 as (u0 & w0 & H0). destruct (CF 0%nat u0 w0 H0) as (_ & _ & _ & _ & _ & _ & _ & _ & T1).
      destruct (T1 P) as (zp & hp & r1 & Pr & Ep & Er & _). exists r1. split.
      + intros _. apply (seeing_form k c _ zp hp r1 Ha HL Ep Er).
      + intros j u w Hj. destruct (CF j u w Hj) as (_ & _ & _ & _ & _ & _ & _ & _ & T2).
        destruct (T2 P) as (zp' & hp' & r1' & _ & Ep' & Er' & Tj & _). rewrite Ep in Ep'. apply ok_inj in Ep'.
        assert (Z : zp = zp') by exact (f_equal fst Ep'). assert (H : hp = hp') by exact (f_equal snd Ep'). subst zp' hp'.
        rewrite Er in Er'. apply ok_inj in Er'. injection Er' as <-. exact Tj.
    - exists 1. split; [lra|]. intros j u w Hj. destruct (CF j u w Hj) as (_ & _ & _ & _ & _ & _ & _ & T1 & _). apply T1. lra. }
  destruct TU as (r1 & SE & TU). destruct (sharpening_exists diag s Hpx Hf) as (g & SG). exists r1, g.
  split; [exact SE|]. split; [intros u w; apply SG|]. intros j u w Hn.
  assert (TJ := TU _ _ _ Hn). destruct (CF _ _ _ Hn) as (F1 & F2 & F3 & F4 & F5 & F6 & F7 & _).
  assert (Lj : (j < length pts)%nat) by (apply nth_error_Some; rewrite Hn; discriminate).
  assert (F8 : nth_error (filt_OTF o) j = Some (Fin (g u w))).
  { destruct (SG u w) as [[S1 _] S2]. destruct (Nat.le_gt_cases (length (s_kernel s)) 1) as [K | K].
    - rewrite (S1 K). exact (F6 K).
    - destruct (F7 K) as (h & Eh & Ef). rewrite (S2 K) in Ef. apply ok_inj in Ef. subst h. exact Eh. }
  specialize (PR j Lj). cbv zeta in PR. rewrite Ev in PR. rewrite (nth_indep _ NaN (Fin 0)), map_nth in PR by (rewrite <- Ev, LS; exact Lj).
  rewrite (nth_error_nth _ _ NaN F1), (nth_error_nth _ _ NaN TJ), (nth_error_nth _ _ NaN F2), (nth_error_nth _ _ NaN F3), (nth_error_nth _ _ NaN F4),
    (nth_error_nth _ _ NaN F5), (nth_error_nth _ _ NaN F8) in PR.
  rewrite !xmul_fin in PR. apply fin_inj in PR. rewrite PR. unfold system_mtf. cbv zeta.
  cbn [with_int_time s_int_time s_ntdi s_D s_eta s_wx s_wy s_f s_sx s_sy s_dax s_day s_pv s_pv_wl s_Lx s_Ly].
  rewrite <- (Rmult_assoc (s_dax s)), <- (Rmult_assoc (s_day s)). reflexivity.
Qed.
Lemma flat_bounds c : good_geometry c -> altitude c <= slant_flat c <= 2 * r_earth + altitude c.
Proof.
  intros [Ha Hg]. unfold slant_flat. assert (G : 0 <= ground_range c * ground_range c) by apply Rle_0_sqr.
  assert (HR : 0 < r_earth) by (unfold r_earth; lra). split.
  - rewrite <- (sqrt_square (altitude c)) at 1 by lra. apply sqrt_le_1_alt. lra.
  - rewrite <- (sqrt_square (2 * r_earth + altitude c)) by lra. apply sqrt_le_1_alt.
    assert (ground_range c * ground_range c <= (2 * r_earth) * (2 * r_earth)).
    { rewrite <- (Rabs_pos_eq (ground_range c * ground_range c)) by lra. rewrite Rabs_mult.
      apply Rmult_le_compat; try apply Rabs_pos; unfold r_earth; lra. }
    nra.
Qed.
Lemma mtf_ps s c tr q L b k ps r1 u w : k <> 0 -> ps = map (fun p => (fst p, snd p / k)) (charge_spectrum s tr q L b) ->
  system_mtf s c ps r1 u w = system_mtf s c (charge_spectrum s tr q L b) r1 u w.
Proof. intros H ->. unfold system_mtf. cbv zeta. rewrite !mean_scale by exact H. reflexivity. Qed.
Lemma same_time s : with_int_time s (s_int_time s) = s.
Proof. destruct s. reflexivity. Qed.
Lemma system_form diag s c tr q b lmin o v : good_camera s -> good_geometry c -> good_spectrum (ps_of s b) ->
  (exists k, k <> 0 /\ ps_of s b = map (fun p => (fst p, snd p / k)) (charge_spectrum s tr q (scene_radiance 1 300) b)) ->
  common_OTFs diag Np s c (sim_pts (s_D s / lmin)) (map fst (ps_of s b)) (map (fun p => Fin (snd p)) (ps_of s b)) (slant_flat c) (s_int_time s) = Ok o ->
  system_OTF o = map Fin v ->
  exists r1 g, (0 < plain c Cn2At1m -> seeing c (slant_flat c) r1) /\ (forall u w, sharpening diag s u w (g u w)) /\
    forall i j, (i < n_sim)%nat -> (j < n_sim)%nat -> let u := (INR j - 750) * (s_D s / lmin / 750) in let w := (750 - INR i) * (s_D s / lmin / 750) in
      nth (i * n_sim + j) v 0 = system_mtf s c (charge_spectrum s tr q (scene_radiance 1 300) b) r1 u w * g u w.
Proof.
  intros GC GG GS (k & Hk & Ek) Eo Ev. assert (GC' := GC). destruct GC' as (_ & _ & GO & Hf & Hpx & _). assert (GG' := GG). destruct GG' as [G1 G2].
  set (pts := sim_pts (s_D s / lmin)) in *.
  assert (N1 : forall i j, (i < n_sim)%nat -> (j < n_sim)%nat ->
    nth_error pts (i * n_sim + j) = Some ((INR j - 750) * (s_D s / lmin / 750), (750 - INR i) * (s_D s / lmin / 750))).
  { intros i j Hi Hj. rewrite (nth_error_nth' pts (0, 0)) by (unfold pts; rewrite sim_pts_len; nia). unfold pts. rewrite sim_pts_nth by assumption.
    f_equal. generalize (s_D s / lmin). intros y. f_equal; field. }
  assert (NE : pts <> []).
  { intros C. assert (Q := n_sim_pos). specialize (N1 0%nat 0%nat ltac:(lia) ltac:(lia)). rewrite C in N1. revert N1. generalize (0 * n_sim + 0)%nat. intros [|n]; discriminate. }
  destruct (system_value diag Np s c pts _ _ _ o v GS GO Hpx Hf G1 (flat_bounds c GG) NE Eo Ev) as (r1 & g & SE & SG & SV).
  exists r1, g. split; [exact SE|]. split; [exact SG|]. intros i j Hi Hj u w. rewrite (SV _ u w (N1 i j Hi Hj)), same_time.
  now rewrite (mtf_ps s c tr q (scene_radiance 1 300) b k (ps_of s b) r1 u w Hk Ek).
Qed.

(** ** The whole picture *)
Lemma inverse_ft_ext n m a b X Y X' Y' i j : (forall p q, (p < n)%nat -> (q < m)%nat -> X p q = X' p q /\ Y p q = Y' p q) ->
  inverse_ft n m a b X Y i j = inverse_ft n m a b X' Y' i j.
Proof.
  intros H. unfold inverse_ft. apply sum_over_ext. intros p q Hp Hq. destruct (H p q Hp Hq) as [E1 E2]. cbv zeta. rewrite E1, E2. reflexivity.
Qed.
Lemma spread_ext n m X Y X' Y' h w : (forall p q, (p < n)%nat -> (q < m)%nat -> X p q = X' p q /\ Y p q = Y' p q) ->
  spread n m X Y h w = spread n m X' Y' h w.
Proof.
  intros H. extensionality i. extensionality j. unfold spread. f_equal. extensionality p. extensionality q. now apply inverse_ft_ext.
Qed.
Lemma additive_form s : 0 < s_bits s -> g_noise_of s = Fin (additive_noise s).
Proof.
  intros Hb. unfold g_noise_of, quantization_noise.
  assert (P : 1 < Rpower 2 (s_bits s)). { rewrite <- (Rpower_O 2) by lra. apply Rpower_lt; lra. }
  assert (Q : 0 < sqrt 12) by (apply sqrt_lt_R0; lra).
  assert (Q2 : sqrt 12 * sqrt 12 = 12) by (apply sqrt_sqrt; lra).
  rewrite xdiv_fin by nra. rewrite xsq_fin, xadd_fin. rewrite xsqrt_fin by nra. unfold additive_noise. f_equal. f_equal.
  replace (s_max_n s / (sqrt 12 * (Rpower 2 (s_bits s) - 1)) * (s_max_n s / (sqrt 12 * (Rpower 2 (s_bits s) - 1))))
    with ((s_max_n s / (Rpower 2 (s_bits s) - 1)) ^ 2 / (sqrt 12 * sqrt 12)) by (field; split; lra).
  rewrite Q2. ring.
Qed.
Lemma noise_form d s a X : 0 < s_bits s -> add_noise d (g_noise_of s) a = Ok X ->
  xrows X = rows a /\ xcols X = cols a /\
  (forall i j, (i < rows a)%nat -> (j < cols a)%nat -> 0 <= px a i j <= (2 ^ 63 - 1) - sqrt (2 ^ 63 - 1) * 10) /\
  forall i j, xpx X i j = Fin (INR (d_count d (px a i j) i j) + additive_noise s * d_normal d i j).
Proof.
  intros Hb E. rewrite additive_form in E by exact Hb. unfold add_noise in E. destruct (rates_ok a) eqn:RO; [|discriminate].
  apply ok_inj in E. subst X. cbn [xrows xcols xpx]. split; [reflexivity|]. split; [reflexivity|]. split.
  - exact (proj1 (rates_ok_true a) RO).
  - intros i j. rewrite xmul_fin, xadd_fin. reflexivity.
Qed.
Lemma whole_form ni it diag d r s w m w' T B X tr q e :
  good_camera s -> good_geometry (sc w) -> observe ni it w = Ok m -> good_scene s (atm_rows m) ->
  good_calibration (sr_pix r) (sr_refl r) -> response_curves s tr q ->
  (2 <= rows (sr_img r))%nat -> (2 <= cols (sr_img r))%nat -> 0 < sr_gsd r ->
  simulate_image ni it diag d r s w = (w', Ok (T, B, X)) -> mirrored (rows T) (cols T) (px T) e ->
  let L := sqrt (altitude (sc w) * altitude (sc w) + ground_range (sc w) * ground_range (sc w)) in
  let ifov := (s_px s + s_py s) / 2 / s_f s in
  exists b lmin r1 g k, seen_rows s (atm_rows m) b /\ (0 < plain (sc w) Cn2At1m -> seeing (sc w) L r1) /\
    (forall u v, sharpening diag s u v (g u v)) /\
    let ps := charge_spectrum s tr q (scene_radiance 1 300) b in
    In lmin (map fst ps) /\ (forall p, In p ps -> lmin <= fst p) /\
    let df := s_D s / lmin / 750 in
    let h := Z.to_nat (Z.max 1 (Ztrunc (1 / df / (2 * atan (sr_gsd r / 2 / L))))) in
    let mtf u v := system_mtf s (sc w) ps r1 u v * g u v in
    let f := spread 1501 1501 (fun i j => mtf ((INR j - 750) * df) ((750 - INR i) * df)) (fun _ _ => 0) h h in
    crop h h 1501 f k /\ sum_over h h f <> 0 /\ window_sum h h k f <> 0 /\
    (rows T = rows (sr_img r) /\ cols T = cols (sr_img r) /\
     forall i j, exists rho, calibrated (combine (sr_pix r) (sr_refl r)) (px (sr_img r) i j) rho /\
       px T i j = collected s tr q b (exposure s tr q b) 300 (clip01 rho)) /\
    (half_even (INR (rows T) * (sr_gsd r / L) / ifov) (Z.of_nat (rows B)) /\
     half_even (INR (cols T) * (sr_gsd r / L) / ifov) (Z.of_nat (cols B)) /\
     forall i j, (i < rows B)%nat -> (j < cols B)%nat ->
       px B i j = interpolated (rows T) (cols T)
                    (fun y x => correlation (kept h k) (kept h k) (fun p q => window h h k f p q / window_sum h h k f) e (Z.of_nat y) (Z.of_nat x))
                    (pixel_position (rows T) (rows B) i) (pixel_position (cols T) (cols B) j)) /\
    (xrows X = rows B /\ xcols X = cols B /\
     forall i j, xpx X i j = Fin (INR (d_count d (px B i j) i j) + additive_noise s * d_normal d i j)).
Proof.
  intros GC GG0 O GS GK Rc R2 C2 Hg H ME L ifov.
  destruct (sim_current ni it diag d r s w m O) as (w1 & E & A & G & P). rewrite H in E.
  assert (W : w' = w1) by congruence. subst w1.
  assert (R : simulate_rest diag d s (sc w') r m = Ok (T, B, X)) by congruence. clear E H.
  assert (GG : good_geometry (sc w')) by (unfold good_geometry in *; now rewrite A, G).
  assert (EL : slant_flat (sc w') = L) by (unfold slant_flat, L; now rewrite A, G).
  destruct (true_image s (atm_rows m) _ _ (sr_img r) tr q GC GS GK Rc) as (b & Y & pe & T' & Sn & Sb & Ex & E & EY & ET & Tr & Tc & TV).
  assert (So : StronglySorted Rlt (map a_wl b)) by (apply Sn, GS).
  assert (GG' := GG). destruct GG' as [G1 G2]. assert (GP := flat_good_path (sc w') G1 G2).
  destruct (otf_part diag s (sc w') b GC GP Sb So Ex) as (lmin & v & o & Im & Lm & Pm & Eo & Ev & Lv & EO).
  destruct (ps_good s b Sb So Ex) as (_ & GSp & _).
  assert (GC' := GC). destruct GC' as (PH & St & GO & Hf & Hpx & Hpy).
  assert (SC := spectrum_scale s tr q b (ph_tables _ PH) St Rc (fun a I => proj1 (Sb a I)) Ex).
  destruct (system_form diag s (sc w') tr q b lmin o v GC GG GSp SC Eo Ev) as (r1 & g & SE & SG & SV). rewrite EL in SE.
  unfold simulate_rest in R. rewrite E in R. cbn [bind] in R. rewrite EO in R. cbn [bind] in R.
  rewrite pydiv_ok in R by lra. cbn [bind] in R. rewrite EY in R. cbn [bind] in R.
  rewrite mapM_finite in R. cbn [bind] in R. rewrite ET in R. cbn [bind] in R. rewrite EL in R. fold ifov in R.
  destruct (apply_otf_to_image _ _ _ _ _ _ _ _ _) as [[blur sp]|] eqn:EA; [cbn [bind] in R|discriminate R].
  destruct (add_noise d (g_noise_of s) blur) as [noisy|] eqn:EN; [cbn [bind] in R|discriminate R].
  apply ok_inj in R. assert (T' = T /\ blur = B /\ noisy = X) as (-> & -> & ->) by (injection R; auto). clear R.
  assert (HL : 0 < L) by (rewrite <- EL; apply range_pos; exact GG).
  assert (HD : 0 < s_D s) by apply GO.
  set (df := s_D s / lmin / 750) in *. assert (Hdf : 0 < df) by (unfold df; repeat apply Rdiv_lt_0_compat; lra).
  assert (Hi : ifov <> 0) by (assert (Q := ifov_pos s GC); unfold ifov; lra).
  assert (AF := apply_form T (sr_gsd r) Np L (otf_image n_sim v) n_sim n_sim Np df Py ifov e ltac:(lia) ltac:(lia) Hg HL ltac:(lra) Hi eq_refl eq_refl
    ltac:(unfold n_sim; lia) ltac:(unfold n_sim; lia) ME B sp EA). cbv zeta in AF.
  replace (INR n_sim / (INR n_sim * df) / (2 * atan (sr_gsd r / 2 / L))) with (1 / df / (2 * atan (sr_gsd r / 2 / L))) in AF.
  2:{ rewrite n_sim_INR. unfold Rdiv. generalize (/ (2 * atan (sr_gsd r * / 2 * / L))). intros y. field. lra. }
  rewrite Nat.min_id in AF.
  set (ps := charge_spectrum s tr q (scene_radiance 1 300) b) in *.
  rewrite (spread_ext n_sim n_sim (re (otf_image n_sim v)) (im (otf_image n_sim v))
    (fun i j => system_mtf s (sc w') ps r1 ((INR j - 750) * df) ((750 - INR i) * df) * g ((INR j - 750) * df) ((750 - INR i) * df)) (fun _ _ => 0)) in AF.
  2:{ intros p q' Hp Hq. cbn [otf_image re im]. split; [apply SV; assumption | reflexivity]. }
  destruct AF as (k & CR & S0 & W0 & HB1 & HB2 & _ & _ & PX & _).
  exists b, lmin, r1, g, k. split; [exact Sn|].
  assert (SM : forall u y, system_mtf s (sc w') ps r1 u y = system_mtf s (sc w) ps r1 u y) by (intros; unfold system_mtf; rewrite P; reflexivity).
  split. { intros Q. rewrite <- P in Q. destruct (SE Q) as (Gp & D1). exists Gp. rewrite <- A, <- P. exact D1. }
  split; [exact SG|].
  cbv zeta. fold ps. fold df.
  assert (IP : map fst ps = map fst (ps_of s b)). { destruct SC as (k0 & _ & ->). rewrite map_map. reflexivity. }
  split; [rewrite IP; exact Im|]. split.
  { intros p Hp. apply (in_map fst) in Hp. rewrite IP in Hp. apply in_map_iff in Hp. destruct Hp as (p' & <- & Hp'). apply Lm. exact Hp'. }
  change 1501%nat with n_sim.
  rewrite <- (spread_ext n_sim n_sim (fun i j => system_mtf s (sc w') ps r1 ((INR j - 750) * df) ((750 - INR i) * df) * g ((INR j - 750) * df) ((750 - INR i) * df)) (fun _ _ => 0)
     (fun i j => system_mtf s (sc w) ps r1 ((INR j - 750) * df) ((750 - INR i) * df) * g ((INR j - 750) * df) ((750 - INR i) * df)) (fun _ _ => 0)) by (intros; split; [now rewrite SM | reflexivity]).
  split; [exact CR|]. split; [exact S0|]. split; [exact W0|]. split.
  { split; [exact Tr|]. split; [exact Tc|]. intros i j. destruct (TV i j) as (_ & rho & C & V). exists rho. auto. }
  split. { split; [exact HB1|]. split; [exact HB2|]. exact PX. }
  destruct (noise_form d s B X (ph_bits _ PH) EN) as (N1 & N2 & _ & N4). auto.
Qed.

(** ** One coherence diameter *)
Lemma stewart G S t : Spec_Geo.dot (along G S t) (along G S t) = (1 - t) * Spec_Geo.dot G G + t * Spec_Geo.dot S S - t * (1 - t) * Spec_Geo.dot (vsub G S) (vsub G S).
Proof. unfold Spec_Geo.dot, along, vsub. cbn [fst snd]. ring. Qed.
Lemma norm_sq x : Spec_Geo.dot x x = norm x * norm x.
Proof. unfold norm. rewrite sqrt_sqrt; [reflexivity|]. unfold Spec_Geo.dot. nra. Qed.
Lemma seeing_one c L r1 r2 : seeing c L r1 -> seeing c L r2 -> r1 = r2.
Proof.
  intros (G & H1 & D1 & P1 & E1) (G' & H2 & D2 & P2 & E2). set (S := on_axis earth_radius (altitude c)) in *.
  assert (HH : forall t, height earth_radius (along G S t) = height earth_radius (along G' S t)).
  { intros t. unfold height, norm. f_equal. f_equal. rewrite !stewart, (norm_sq G), (norm_sq G'), (norm_sq (vsub G S)), (norm_sq (vsub G' S)).
    fold (dist G S). fold (dist G' S). rewrite D1, D2. unfold height in H1, H2. replace (norm G') with (norm G) by lra. reflexivity. }
  assert (E : Rpower r1 (- (5 / 3)) = Rpower r2 (- (5 / 3))).
  { rewrite E1, E2. f_equal. f_equal. apply map_ext. intros i. rewrite HH. reflexivity. }
  unfold Rpower in E. apply exp_inv in E. apply Rmult_eq_reg_l in E; [|lra]. apply ln_inv; assumption.
Qed.
Lemma whole_demo : good_camera (red_cam [[1]]) /\ good_geometry (sc demo_world) /\ observe demo_load demo_load demo_world = Ok demo_m /\
  good_scene (red_cam [[1]]) (atm_rows demo_m) /\ good_calibration (sr_pix demo_ref) (sr_refl demo_ref) /\
  (exists tr q, response_curves (red_cam [[1]]) tr q) /\
  (2 <= rows (sr_img demo_ref))%nat /\ (2 <= cols (sr_img demo_ref))%nat /\ 0 < sr_gsd demo_ref /\ 0 < plain (sc demo_world) Cn2At1m /\
  forall d, exists w t bl n e, simulate_image demo_load demo_load no_diag d demo_ref (red_cam [[1]]) demo_world = (w, Ok (t, bl, n)) /\
    mirrored (rows t) (cols t) (px t) e.
Proof.
  assert (GC := red_good [[1]]). assert (GC' := GC). destruct GC' as (P & St & _). destruct given_demo as (GK & GG & O & RN).
  assert (Rc := curves_exist _ (ph_tables _ P) St). assert (GS := demo_scene [[1]]).
  split; [exact GC|]. split; [exact GG|]. split; [exact O|]. split; [exact GS|]. split; [exact GK|].
  split; [do 2 eexists; exact Rc|]. split; [cbn; lia|]. split; [cbn; lia|]. split; [cbn; lra|]. split; [cbn; lra|].
  intros d. destruct (like_run demo_ref d GK eq_refl ltac:(split; cbn; lia)) as (w & t & bl & n & E).
  destruct (true_of_world _ _ _ _ _ _ _ _ _ _ _ _ _ _ GC GG O GS GK Rc E) as (b & _ & Tr & Tc & _).
  destruct (continued (rows t) (cols t) (px t)) as (e & M); [rewrite Tr; cbn; lia | rewrite Tc; cbn; lia|].
  exists w, t, bl, n, e. split; [exact E | exact M].
Qed.
