(** * Proof_Contrast: contrast, noise terms, spectral weights and frequency grid of niirs *)
From Coq Require Import Reals Lra List Lia ZArith Psatz Bool Sorted.
From Verif Require Import Base_XR Base_Np Base_NpFacts Base_Interp Model_Db Model_Scenario Model_Sensor Model_Rad Model_Otf Model_Img Model_Met
  Spec_Rad Spec_System Spec_Met Proof_Rad Proof_Snr Proof_Pe Proof_RadP Proof_Weight.
Import ListNotations.
Open Scope R_scope.

Definition isem (em : Z) : bool := negb (Z.eqb em 0).
Lemma scene_rad1 r T a : scene_radiance r T a = rad1 r T a.
Proof. unfold scene_radiance, rad1, db_reflectance. lra. Qed.
Lemma giqe_radiance_fin l em : (forall a, In a l -> a_wl a <> 0) ->
  giqe_radiance l em = (map (fun a => Fin (giqe_target (isem em) a)) l, map (fun a => Fin (giqe_background (isem em) a)) l).
Proof.
  intros H. unfold giqe_radiance, giqe_target, giqe_background, isem.
  destruct (Z.eqb em 0); cbn [negb]; rewrite !total_radiance_fin by exact H; f_equal; apply map_ext; intros a; rewrite scene_rad1; reflexivity.
Qed.
Lemma scene_ge_haze r T a : 0 <= r <= 1 -> 0 <= T -> 0 < a_wl a -> 0 <= a_trans a -> 0 <= a_grnd a ->
  haze_radiance a <= scene_radiance r T a.
Proof.
  intros Hr HT Hl Ht Hg. unfold haze_radiance, scene_radiance.
  pose proof (planck_nonneg (a_wl a) T Hl HT).
  assert (0 <= (1 - r) * planck (a_wl a) T * a_trans a) by (apply Rmult_le_pos; [apply Rmult_le_pos; lra | lra]).
  assert (0 <= r / 0.15 * a_grnd a) by (apply Rmult_le_pos; [apply Rmult_le_pos; lra | lra]). lra.
Qed.

(* photoelectron rate of scene radiance, in the model's own arrangement *)
Definition phot (s : sensor) (l : list arow) (rad : arow -> R) : R :=
  trapezoid (map (fun a => dN1 (s_D s) (s_f s) (s_wx s) (s_wy s) (a_wl a) (rad a) (trans_at s (a_wl a)) (qe_at s (a_wl a)) 0) l) (map a_wl l).
Lemma phot_mono s l r1 r2 : physical s -> ascending (map a_wl l) -> (forall a, In a l -> 0 < a_wl a /\ 0 <= r1 a <= r2 a) ->
  0 <= phot s l r1 <= phot s l r2.
Proof.
  intros P A H.
  assert (K : forall a, In a l ->
    0 <= dN1 (s_D s) (s_f s) (s_wx s) (s_wy s) (a_wl a) (r1 a) (trans_at s (a_wl a)) (qe_at s (a_wl a)) 0
      <= dN1 (s_D s) (s_f s) (s_wx s) (s_wy s) (a_wl a) (r2 a) (trans_at s (a_wl a)) (qe_at s (a_wl a)) 0).
  { intros a Ha. destruct (H a Ha) as [L B]. apply dN1_mono; try lra; try apply (ph_wx _ P); try apply (ph_wy _ P).
    - pose proof (trans_nonneg s (a_wl a) P). lra.
    - pose proof (qe_nonneg s (a_wl a) P). lra. }
  unfold phot. split; [apply trapezoid_nonneg; auto; intros; apply K; auto | apply trapezoid_mono; auto; intros; apply K; auto].
Qed.
Lemma phot_spec s tr q L l : has_tables s -> sorted_tables s -> response_curves s tr q -> (forall a, In a l -> 0 < a_wl a) ->
  phot s l L = scene_electrons s tr q L l.
Proof.
  intros [T1 [T2 [T3 T4]]] [S1 S2] [R1 R2] Hl. unfold phot, scene_electrons. apply trapezoid_ext. intros a Ha. specialize (Hl a Ha).
  unfold dN1, trans_at, qe_at, photon_energy.
  rewrite (reads_interp _ _ _ _ T1 T2 S1 (R1 (a_wl a))). rewrite (reads_interp _ _ _ _ T3 T4 S2 (R2 (a_wl a))).
  rewrite hc_spec, cc_spec. pose proof hc_pos. pose proof cc_pos. field. repeat split; lra.
Qed.

Lemma bmap2_one {A C} (f : A -> xr -> C) y l : bmap2 f l [y] = Ok (map (fun x => f x y) l).
Proof. destruct l as [|a [|b l]]; reflexivity. Qed.

Lemma positive_fin (g : arow -> R) l :
  positive_weights (map a_wl l) (map (fun a => Fin (g a)) l)
  = let ps := map (fun a => (a_wl a, g a)) (filter (fun a => Rltb 0 (g a)) l) in
    Ok (map fst ps, map (fun p => Fin (snd p)) ps).
Proof.
  unfold positive_weights. rewrite !map_length, Nat.eqb_refl. cbv zeta. rewrite combine_maps, filter_map.
  assert (E : filter (fun x => xlt (Fin 0) (snd (a_wl x, Fin (g x)))) l = filter (fun a => Rltb 0 (g a)) l).
  { apply filter_ext. intros a. cbn [snd]. apply xlt_fin. }
  rewrite E, !map_map. reflexivity.
Qed.

Definition spectrum (s : sensor) (l : list arow) (em : Z) : list (R * R) :=
  map (fun a => (a_wl a, dN_at s (a_wl a) (giqe_target (isem em) a)))
      (filter (fun a => Rltb 0 (dN_at s (a_wl a) (giqe_target (isem em) a))) l).

Section C.
  Variables (s : sensor) (l : list arow) (em : Z).
  Hypothesis P : physical s.
  Hypothesis Sr : sound_rows l.
  Let rt := giqe_target (isem em).
  Let rb := giqe_background (isem em).

  Lemma Hx : forall a, In a l -> a_wl a <> 0.
  Proof. intros a Ha. destruct (Sr a Ha) as [H _]. lra. Qed.

  Lemma contrast_form : exists M t,
    photon_detector_SNR s (map a_wl l) (map (fun a => Fin (rt a)) l) (map (fun a => Fin (rb a)) l) = Ok M /\
    m_int_time M = Fin t /\ 0 <= t <= s_int_time s /\ (0 < s_int_time s -> 0 < s_max_fill s -> 0 < t) /\
    contrast_part s l em =
      let both := xmax (xsqrt (Fin (phot s l rt * t * s_ntdi s))) (xsqrt (Fin (phot s l rb * t * s_ntdi s))) in
      let pn := xsqrt (Fin (phot s l haze_radiance * t * s_ntdi s)) in
      let ps := spectrum s l em in
      let* lmin := py_min (map fst ps) in
      let* cutoff := finite (xdiv (Fin (s_D s)) (Fin lmin)) in
      Ok {| ct_snr := M; ct_path_noise := pn; ct_scene_noise := xsqrt (xsub (xsq both) (xsq pn));
            ct_wl := map fst ps; ct_w := map (fun p => Fin (snd p)) ps; ct_cutoff := cutoff;
            ct_df := nth 1 (freqs (-1) 1 cutoff) 0 - nth 0 (freqs (-1) 1 cutoff) 0;
            ct_pts := meshgrid (freqs (-1) 1 cutoff) (freqs 1 (-1) cutoff) |}.
  Proof.
    assert (Ht := ph_tables _ P). assert (HD := ph_D _ P).
    destruct (snr_closed_form s a_wl rt rb l Ht HD Hx (ph_max_n _ P) (ph_max_fill _ P)) as (M & HM & C).
    destruct C as (_ & _ & _ & _ & CT & _ & _ & _ & _ & _ & _ & _ & _ & CW).
    set (sc := fill _ _) in CT.
    assert (Hm : 0 <= s_max_fill s * s_max_n s).
    { apply Rmult_le_pos; [apply (ph_max_fill _ P)|]. pose proof (ph_max_n _ P). lra. }
    assert (F : 0 <= sc <= 1) by (apply fill_bounds; exact Hm).
    pose proof (ph_time _ P) as HT.
    exists M, (sc * s_int_time s). split; [exact HM|]. split; [exact CT|].
    split; [split; [apply Rmult_le_pos; lra|]; rewrite <- (Rmult_1_l (s_int_time s)) at 2; apply Rmult_le_compat_r; lra|].
    split.
    { intros T0 M0. apply Rmult_lt_0_compat; [|exact T0]. unfold sc, fill. rcase; [|lra].
      assert (0 < s_max_fill s * s_max_n s) by (apply Rmult_lt_0_compat; [exact M0 | apply (ph_max_n _ P)]).
      apply Rdiv_lt_0_compat; lra. }
    assert (HM' := HM).
    assert (Hx' : forall y, In y (map a_wl l) -> y <> 0).
    { intros y Hy. apply in_map_iff in Hy. destruct Hy as [i [<- Hi]]. apply Hx; auto. }
    unfold photon_detector_SNR in HM'.
    rewrite sensor_trans_fin, sensor_qe_fin, sensor_other_fin in HM' by auto. cbn [bind] in HM'.
    rewrite !sensor_rate in HM' by auto. cbn [bind] in HM'.
    rewrite (map_map a_wl), (map_map a_wl) in HM'. rewrite pdr_maps in HM'. cbn [bind] in HM'. rewrite trapz_maps in HM'. cbn [bind] in HM'.
    apply ok_inj in HM'.
    assert (E1 : m_tgt_irr M = map (fun i => Fin (trans_at s (a_wl i) * (cone (s_D s) (s_f s) * rt i) + other_at s (a_wl i))) l) by (subst M; reflexivity).
    assert (E2 : m_bkg_irr M = map (fun i => Fin (trans_at s (a_wl i) * (cone (s_D s) (s_f s) * rb i) + other_at s (a_wl i))) l) by (subst M; reflexivity).
    assert (E3 : m_other_irr M = map (fun i => Fin (other_at s (a_wl i))) l).
    { subst M. cbn [m_other_irr]. rewrite ?map_map. reflexivity. }
    assert (E4 : m_qe M = map (fun i => qe_at s (a_wl i)) l) by (subst M; cbn [m_qe]; rewrite ?map_map; reflexivity).
    assert (E5 : m_opt_trans M = map (fun i => trans_at s (a_wl i)) l) by (subst M; cbn [m_opt_trans]; rewrite ?map_map; reflexivity).
    clear HM'.
    assert (PN : forall r, photon_noise s (map a_wl l) M (map (fun i => Fin (trans_at s (a_wl i) * (cone (s_D s) (s_f s) * r i) + other_at s (a_wl i))) l)
       = Ok (xsqrt (Fin (phot s l r * (sc * s_int_time s) * s_ntdi s)))).
    { intros r. unfold photon_noise. rewrite E3, E4, bmap2_maps. cbn [bind].
      assert (EE : map (fun x => xsub (Fin (trans_at s (a_wl x) * (cone (s_D s) (s_f s) * r x) + other_at s (a_wl x))) (Fin (other_at s (a_wl x)))) l
                 = map (fun x => Fin (trans_at s (a_wl x) * (cone (s_D s) (s_f s) * r x) + 0)) l).
      { apply map_ext. intros a. rewrite xsub_fin. f_equal. ring. }
      rewrite EE, pdr_maps. cbn [bind]. rewrite trapz_maps. cbn [bind]. rewrite CT, !xmul_fin. reflexivity. }
    unfold contrast_part. rewrite (giqe_radiance_fin l em Hx). fold rt rb. rewrite HM. cbn [bind].
    rewrite E1, E2, !PN. cbn [bind].
    unfold path_radiance. unfold signal_rate. rewrite E4, E5.
    rewrite (afpi_fin (s_D s) (s_f s) (fun a => a_path a + a_scat a)) by exact HD. cbn [bind].
    rewrite bmap2_maps. cbn [bind]. rewrite bmap2_one. rewrite map_map. cbn [bind].
    assert (EE : map (fun x => xadd (xmul (Fin (trans_at s (a_wl x))) (Fin (cone (s_D s) (s_f s) * (a_path x + a_scat x)))) (Fin 0)) l
               = map (fun x => Fin (trans_at s (a_wl x) * (cone (s_D s) (s_f s) * haze_radiance x) + 0)) l) by (apply map_ext; intros a; reflexivity).
    rewrite EE, pdr_maps. cbn [bind]. rewrite trapz_maps. cbn [bind]. rewrite CT, xadd_fin, !xmul_fin.
    rewrite CW, positive_fin. cbv zeta. cbn [bind]. fold (spectrum s l em).
    change (trapezoid (map (fun i => a_wl i / (hc * cc) * qe_at s (a_wl i) * s_wx s * s_wy s * (trans_at s (a_wl i) * (cone (s_D s) (s_f s) * haze_radiance i) + 0)) l) (map a_wl l))
      with (phot s l haze_radiance).
    rewrite Rplus_0_r. reflexivity.
  Qed.
End C.

(** ** C84 *)
Lemma seen_band s all rows : band s all = Ok rows -> seen_rows s all rows.
Proof.
  intros E. unfold band in E. destruct (first_of (s_owl s)) as [lo|] eqn:E1; [|discriminate].
  destruct (last_of (s_owl s)) as [hi|] eqn:E2; [|discriminate]. cbn [bind] in E. apply ok_inj in E. subst rows.
  assert (N : s_owl s <> []) by (intros C; rewrite C in E1; discriminate).
  assert (F1 : nth_error (s_owl s) 0 = Some lo).
  { destruct (s_owl s); [contradiction|]. cbn in E1. injection E1 as ->. reflexivity. }
  apply (last_of_nth _ _ N) in E2.
  split.
  - intros a. rewrite !filter_In. split.
    + intros ((H1 & H2) & H3). apply Rleb_true in H2, H3. split; [exact H1|]. exists lo, hi. repeat split; auto.
    + intros (H1 & lo' & hi' & A1 & A2 & B). rewrite F1 in A1. rewrite E2 in A2. injection A1 as <-. injection A2 as <-.
      repeat split; auto; apply Rleb_true; lra.
  - assert (F : forall (Q : arow -> bool) l, StronglySorted Rlt (map a_wl l) -> StronglySorted Rlt (map a_wl (filter Q l))).
    { intros Q l H. induction l as [|x l IH]; cbn; [constructor|]. cbn in H. inversion H as [|y m H1 H2]; subst.
      destruct (Q x); [|auto]. cbn. constructor; [auto|]. rewrite Forall_forall in *. intros z Hz. apply H2.
      apply in_map_iff in Hz. destruct Hz as (b & <- & Hb). apply filter_In in Hb. apply in_map. tauto. }
    intros H. apply F, F, H.
Qed.
Lemma strict_ascending l : StronglySorted Rlt l -> ascending l.
Proof.
  induction l as [|x [|y l] IH]; intros H; cbn; auto. inversion H as [|? ? H1 H2]; subst.
  split; [inversion H2; subst; lra | exact (IH H1)].
Qed.
Lemma sound_scene r T a : 0 <= r <= 1 -> 0 <= T -> 0 < a_wl a /\ 0 <= a_trans a /\ 0 <= a_path a /\ 0 <= a_scat a /\ 0 <= a_grnd a ->
  0 <= haze_radiance a <= scene_radiance r T a.
Proof. intros Hr HT (A & B & C & D & E). split; [unfold haze_radiance; lra | apply scene_ge_haze; auto]. Qed.
Lemma target_sound em a : 0 < a_wl a /\ 0 <= a_trans a /\ 0 <= a_path a /\ 0 <= a_scat a /\ 0 <= a_grnd a ->
  0 <= haze_radiance a <= giqe_target em a.
Proof. intros. apply sound_scene; auto; [destruct em|]; lra. Qed.
Lemma background_sound em a : 0 < a_wl a /\ 0 <= a_trans a /\ 0 <= a_path a /\ 0 <= a_scat a /\ 0 <= a_grnd a ->
  0 <= haze_radiance a <= giqe_background em a.
Proof. intros. apply sound_scene; auto; [destruct em|]; lra. Qed.

Lemma xmax_sqrt a b : 0 <= a -> 0 <= b -> xmax (xsqrt (Fin a)) (xsqrt (Fin b)) = Fin (sqrt (Rmax a b)).
Proof.
  intros A B. rewrite !xsqrt_fin by auto. rewrite xmax_fin. f_equal. unfold Rmax.
  destruct (Rle_dec a b) as [L|L], (Rle_dec (sqrt a) (sqrt b)) as [M|M]; auto.
  - exfalso. apply M. apply sqrt_le_1_alt. exact L.
  - exfalso. apply Rnot_le_lt in L. assert (sqrt b < sqrt a) by (apply sqrt_lt_1_alt; lra). lra.
Qed.

Lemma noise_split s l em ct tr q : physical s -> sorted_tables s -> response_curves s tr q -> sound_rows l -> ascending (map a_wl l) ->
  contrast_part s l em = Ok ct ->
  exists t pn sn, m_int_time (ct_snr ct) = Fin t /\ 0 <= t <= s_int_time s /\
    ct_path_noise ct = Fin pn /\ ct_scene_noise ct = Fin sn /\ 0 <= pn /\ 0 <= sn /\
    pn * pn = scene_electrons s tr q haze_radiance l * t * s_ntdi s /\
    pn * pn + sn * sn = Rmax (scene_electrons s tr q (giqe_target (isem em)) l) (scene_electrons s tr q (giqe_background (isem em)) l) * t * s_ntdi s.
Proof.
  intros P So Rc Sr A E. destruct (contrast_form s l em P Sr) as (M & t & _ & HT & HB & _ & F).
  rewrite F in E. cbv zeta in E. destruct (py_min _) as [lmin|]; [|discriminate]. cbn [bind] in E.
  destruct (finite _) as [cut|]; [|discriminate]. cbn [bind] in E. apply ok_inj in E. subst ct.
  cbn [ct_snr ct_path_noise ct_scene_noise].
  assert (Hl : forall a, In a l -> 0 < a_wl a) by (intros a Ha; apply (Sr a Ha)).
  rewrite <- !(phot_spec s tr q _ l (ph_tables _ P) So Rc Hl).
  pose proof (ph_ntdi _ P) as Hn.
  assert (K1 : 0 <= phot s l haze_radiance <= phot s l (giqe_target (isem em))).
  { apply phot_mono; auto. intros a Ha. split; [auto|]. apply target_sound. apply (Sr a Ha). }
  assert (K2 : 0 <= phot s l haze_radiance <= phot s l (giqe_background (isem em))).
  { apply phot_mono; auto. intros a Ha. split; [auto|]. apply background_sound. apply (Sr a Ha). }
  assert (G : 0 <= t * s_ntdi s) by (apply Rmult_le_pos; lra).
  set (x := phot s l haze_radiance) in *. set (y := phot s l (giqe_target (isem em))) in *. set (z := phot s l (giqe_background (isem em))) in *.
  assert (Q : forall w, 0 <= w -> 0 <= w * t * s_ntdi s) by (intros; rewrite Rmult_assoc; apply Rmult_le_pos; auto).
  rewrite xmax_sqrt by (apply Q; lra). rewrite xsqrt_fin by (apply Q; lra). rewrite !xsq_fin.
  rewrite sqrt_sqrt. 2:{ apply Rle_trans with (2 := Rmax_l _ _). apply Q; lra. }
  rewrite sqrt_sqrt by (apply Q; lra). rewrite xsub_fin.
  assert (EM : Rmax (y * t * s_ntdi s) (z * t * s_ntdi s) = Rmax y z * t * s_ntdi s).
  { replace (y * t * s_ntdi s) with (t * s_ntdi s * y) by ring. replace (z * t * s_ntdi s) with (t * s_ntdi s * z) by ring.
    rewrite Rmax_scale by exact G. ring. }
  rewrite EM.
  assert (D : 0 <= Rmax y z * t * s_ntdi s - x * t * s_ntdi s).
  { replace (Rmax y z * t * s_ntdi s - x * t * s_ntdi s) with ((Rmax y z - x) * t * s_ntdi s) by ring. apply Q.
    pose proof (Rmax_l y z). lra. }
  rewrite xsqrt_fin by exact D.
  exists t, (sqrt (x * t * s_ntdi s)), (sqrt (Rmax y z * t * s_ntdi s - x * t * s_ntdi s)).
  split; [exact HT|]. split; [exact HB|]. split; [reflexivity|]. split; [reflexivity|].
  split; [apply sqrt_pos|]. split; [apply sqrt_pos|].
  rewrite !sqrt_sqrt by (auto; apply Q; lra). split; [reflexivity | ring].
Qed.

(** ** C86 *)
Lemma flat_nth {A B C} (g : B -> A -> C) (u : list A) (v : list B) i j n da db dc : length u = n -> (i < length v)%nat -> (j < n)%nat ->
  nth (i * n + j) (flat_map (fun y => map (g y) u) v) dc = g (nth i v db) (nth j u da).
Proof.
  intros Hu. revert i. induction v as [|y v IH]; intros i Hi Hj; cbn in Hi; [lia|]. cbn [flat_map].
  destruct i as [|i].
  - cbn [Nat.mul Nat.add nth]. rewrite app_nth1 by (rewrite map_length; lia).
    rewrite (nth_indep _ dc (g y da)) by (rewrite map_length; lia). apply map_nth.
  - rewrite app_nth2 by (rewrite map_length, Hu; lia). rewrite map_length, Hu.
    replace (S i * n + j - n)%nat with (i * n + j)%nat by lia. cbn [nth]. apply IH; lia.
Qed.
Lemma flat_len {A B C} (g : B -> A -> C) (u : list A) (v : list B) : length (flat_map (fun y => map (g y) u) v) = (length v * length u)%nat.
Proof. induction v as [|y v IH]; cbn; [reflexivity|]. rewrite app_length, map_length, IH. reflexivity. Qed.
Opaque linspace.
Lemma freqs_len a b c : length (freqs a b c) = 101%nat.
Proof. unfold freqs. rewrite map_length. apply linspace_length. Qed.
Lemma freqs_nth a b c i : (i <= 100)%nat -> nth i (freqs a b c) 0 = (a + INR i * ((b - a) / 100)) * c.
Proof.
  intros H. unfold freqs. rewrite (nth_indep _ 0 (0 * c)) by (rewrite map_length, linspace_length; lia).
  rewrite (map_nth (fun x => x * c)). rewrite linspace_nth by lia.
  replace (INR (101 - 1)) with 100 by (change (101 - 1)%nat with 100%nat; rewrite INR_IZR_INZ; reflexivity). reflexivity.
Qed.
Lemma fold_min_spec l x : In (fold_left Rmin l x) (x :: l) /\ forall y, In y (x :: l) -> fold_left Rmin l x <= y.
Proof.
  revert x. induction l as [|z l IH]; intros x; cbn [fold_left].
  - split; [now left|]. intros y [->|[]]. lra.
  - destruct (IH (Rmin x z)) as [A B]. split.
    + destruct A as [A|A]; [|right; now right]. rewrite <- A. unfold Rmin. destruct (Rle_dec x z); [now left | right; now left].
    + intros y Hy. assert (M : fold_left Rmin l (Rmin x z) <= Rmin x z) by (apply B; now left).
      pose proof (Rmin_l x z). pose proof (Rmin_r x z). destruct Hy as [<-|[<-|Hy]]; try lra. apply B. now right.
Qed.
Lemma py_min_spec l m : py_min l = Ok m -> In m l /\ forall y, In y l -> m <= y.
Proof. destruct l as [|x l]; cbn [py_min]; intros E; [discriminate|]. apply ok_inj in E. subst m. apply fold_min_spec. Qed.

Lemma grid_shape s l em ct : physical s -> sound_rows l -> contrast_part s l em = Ok ct ->
  exists lmin, In lmin (ct_wl ct) /\ (forall x, In x (ct_wl ct) -> lmin <= x) /\ 0 < lmin /\
    ct_cutoff ct = s_D s / lmin /\ ct_df ct = ct_cutoff ct / 50 /\ length (ct_pts ct) = (101 * 101)%nat /\
    forall i j, (i <= 100)%nat -> (j <= 100)%nat ->
      nth (i * 101 + j) (ct_pts ct) (0, 0) = ((INR j - 50) * ct_df ct, (50 - INR i) * ct_df ct).
Proof.
  intros P Sr E. destruct (contrast_form s l em P Sr) as (M & t & _ & HT & HB & _ & F).
  rewrite F in E. cbv zeta in E. destruct (py_min _) as [lmin|] eqn:EM; [|discriminate]. cbn [bind] in E.
  apply py_min_spec in EM. destruct EM as [I1 I2].
  assert (L0 : 0 < lmin).
  { unfold spectrum in I1. rewrite map_map in I1. apply in_map_iff in I1. destruct I1 as (a & <- & Ha). apply filter_In in Ha.
    cbn [fst]. apply (Sr a). tauto. }
  rewrite xdiv_fin in E by lra. cbn [finite bind] in E. apply ok_inj in E. subst ct. cbn [ct_wl ct_cutoff ct_df ct_pts].
  exists lmin. split; [exact I1|]. split; [exact I2|]. split; [exact L0|]. split; [reflexivity|].
  set (c := s_D s / lmin).
  assert (D : nth 1 (freqs (-1) 1 c) 0 - nth 0 (freqs (-1) 1 c) 0 = c / 50).
  { rewrite !freqs_nth by lia. change (INR 1) with 1. change (INR 0) with 0. field. }
  split; [exact D|]. rewrite D. unfold meshgrid.
  split; [rewrite (flat_len (fun y x => (x, y))), !freqs_len; reflexivity|].
  intros i j Hi Hj. rewrite (flat_nth (fun y x => (x, y)) _ _ i j 101 0 0 (0, 0)); rewrite ?freqs_len; try lia.
  rewrite !freqs_nth by lia. f_equal; field.
Qed.
