(** * Proof_SimT: simulate_image as a whole (C88, C96, C97) *)
From Coq Require Import Reals Lra List Lia ZArith Psatz Bool Sorted Permutation.
From Verif Require Import Base_XR Base_Np Base_NpFacts Base_Interp Base_Percentile Model_Geo Model_Noise Model_Scenario Model_Sensor Model_Rad Model_Db Model_Otf Model_Img Model_Met Model_Sim
  Spec_Rad Spec_Img Spec_System Spec_Met Spec_Sim Proof_Noise Proof_Rad Proof_Pe Proof_RadP Proof_Psf Proof_Image Proof_Weight Proof_System Proof_Contrast Proof_Niirs
  Proof_Even Proof_Refl Proof_Sim.
Import ListNotations.
Open Scope R_scope.
Opaque linspace.

(** ** The photoelectron table *)
Lemma sorted_ascending l : StronglySorted Rlt l -> ascending l.
Proof.
  induction 1 as [|x l H IH F]; [exact I|]. destruct l as [|y l]; [exact I|]. split; [|exact IH].
  inversion F; subst. lra.
Qed.
Lemma fin_list_inj (a b : list R) : map Fin a = map Fin b -> a = b.
Proof.
  revert b. induction a as [|x a IH]; intros [|y b] H; simpl in H; try discriminate; auto. injection H as -> H. f_equal. auto.
Qed.
Lemma table_facts s all t T b : physical s -> 0 <= t -> good_rows s all -> ascending (map a_wl all) -> sound_rows all -> band s all = Ok b ->
  reflectance_to_photoelectrons all s t T = Ok (linspace 0 1 100, map Fin (curve s b t), (map a_wl b, wts s b)) /\
  length (curve s b t) = 100%nat /\ (forall p, In p (curve s b t) -> 0 <= p <= s_max_n s) /\
  forall r lft rgt, 0 <= r <= 1 ->
    np_interp (Fin r) (linspace 0 1 100) (curve s b t) lft rgt = Ok (Fin ((1 - r) * nth 0 (curve s b t) 0 + r * nth 99 (curve s b t) 0)).
Proof.
  intros P Ht G A Sr Hb. assert (TB := ph_tables _ P). assert (HD := ph_D _ P). assert (Hm := ph_max_n _ P).
  destruct (good_band s all TB G) as (b' & Hb' & Hne & Hw & B). rewrite Hb in Hb'. apply ok_inj in Hb'. subst b'.
  assert (E := r2p_closed s all b TB HD Hm Hb Hne Hw t T). split; [exact E|].
  destruct (r2p_shape all s t T TB HD Hm G) as (ref & pe & w & E1 & _ & L & _ & Le & _). rewrite E in E1.
  injection E1 as _ E1 _. apply fin_list_inj in E1. subst pe.
  split; [exact L|]. split.
  - destruct (r2p_nonneg all s t T P Ht G A Sr) as (ref' & pe & w' & E2 & N). rewrite E in E2. injection E2 as _ E2 _. apply fin_list_inj in E2. subst pe.
    intros p Hp. split; [apply N | apply Le]; exact Hp.
  - destruct (r2p_interp_exact all s t T TB HD Hm G) as (ref' & pe & w' & E2 & N). rewrite E in E2. injection E2 as <- E2 _. apply fin_list_inj in E2. subst pe.
    exact N.
Qed.
Lemma mapM_finite l : mapM finite (map Fin l) = Ok l.
Proof. induction l as [|x l IH]; [reflexivity|]. cbn [map mapM finite bind]. rewrite IH. reflexivity. Qed.
Lemma linspace01_last : last (linspace 0 1 100) 0 = 1.
Proof. apply linspace_last. lia. Qed.
Lemma linspace01_first : nth 0 (linspace 0 1 100) 0 = 0.
Proof. rewrite linspace_nth by lia. change (INR 0) with 0. ring. Qed.
Lemma xall_true Q a : xall Q a = true <-> forall i j, (i < xrows a)%nat -> (j < xcols a)%nat -> Q (xpx a i j) = true.
Proof.
  unfold xall. rewrite forallb_forall. split.
  - intros H i j Hi Hj. specialize (H i ltac:(apply in_seq; lia)). rewrite forallb_forall in H. apply H. apply in_seq. lia.
  - intros H i Hi. rewrite forallb_forall. intros j Hj. apply in_seq in Hi. apply in_seq in Hj. apply H; lia.
Qed.
Lemma tope_ok pe (X : ximg) p0 p1 : length pe = 100%nat ->
  (forall r lft rgt, 0 <= r <= 1 -> np_interp (Fin r) (linspace 0 1 100) pe lft rgt = Ok (Fin ((1 - r) * p0 + r * p1))) ->
  (forall i j, (i < xrows X)%nat -> (j < xcols X)%nat -> exists r, xpx X i j = Fin r /\ 0 <= r <= 1) ->
  exists T, to_photoelectrons (linspace 0 1 100) pe X = Ok T /\ rows T = xrows X /\ cols T = xcols X /\
    forall i j r, xpx X i j = Fin r -> 0 <= r <= 1 -> px T i j = (1 - r) * p0 + r * p1.
Proof.
  intros L I H. unfold to_photoelectrons. rewrite linspace01_first, linspace01_last.
  replace (xall (fun r => negb (xlt r (Fin 0)) && negb (xlt (Fin 1) r)) X) with true.
  2:{ symmetry. apply xall_true. intros i j Hi Hj. destruct (H i j Hi Hj) as (r & E & B). rewrite E, !xlt_fin.
      rewrite (proj2 (Rltb_false r 0)) by lra. rewrite (proj2 (Rltb_false 1 r)) by lra. reflexivity. }
  replace (xall (fun r => match r with Fin _ => true | _ => false end) X) with true.
  2:{ symmetry. apply xall_true. intros i j Hi Hj. destruct (H i j Hi Hj) as (r & E & B). rewrite E. reflexivity. }
  assert (IT : interp_table (linspace 0 1 100) pe = Ok (combine (linspace 0 1 100) pe)).
  { apply interp_table_ok; [|rewrite linspace_length; auto]. intros C. apply (f_equal (@length R)) in C. rewrite linspace_length in C. discriminate. }
  rewrite IT. cbn [bind]. eexists. split; [reflexivity|]. cbn [rows cols px]. split; [reflexivity|]. split; [reflexivity|].
  intros i j r E B. rewrite E. specialize (I r 0 0 B). unfold np_interp in I. rewrite IT in I. cbn [bind] in I.
  injection I as I. exact I.
Qed.
(* any nan in the reflectance image stops the simulation *)
Lemma tope_nan pe X : xall (fun r => match r with NaN => true | _ => false end) X = true -> (0 < xrows X)%nat -> (0 < xcols X)%nat ->
  to_photoelectrons (linspace 0 1 100) pe X = Err NonFinite.
Proof.
  intros H Hr Hc. rewrite xall_true in H. unfold to_photoelectrons.
  replace (xall (fun r => negb (xlt r (Fin (nth 0 (linspace 0 1 100) 0))) && negb (xlt (Fin (last (linspace 0 1 100) 0)) r)) X) with true.
  2:{ symmetry. apply xall_true. intros i j Hi Hj. specialize (H i j Hi Hj). destruct (xpx X i j); try discriminate. reflexivity. }
  replace (xall (fun r => match r with Fin _ => true | _ => false end) X) with false; [reflexivity|].
  symmetry. apply not_true_iff_false. intros C. rewrite xall_true in C. specialize (C 0%nat 0%nat Hr Hc). specialize (H 0%nat 0%nat Hr Hc).
  destruct (xpx X 0 0); discriminate.
Qed.

(** ** The transfer function *)
Definition g_of (s : sensor) (b : list arow) (a : arow) : R :=
  spec_rate s 1 a / match map (spec_rate s 1) b with [] => 1 | w0 :: w => maxl w0 w end.
Definition ps_of (s : sensor) (b : list arow) : list (R * R) := map (fun a => (a_wl a, g_of s b a)) (filter (fun a => Rltb 0 (g_of s b a)) b).
Lemma sorted_filter (Q : arow -> bool) l : StronglySorted Rlt (map a_wl l) -> StronglySorted Rlt (map a_wl (filter Q l)).
Proof.
  intros H. induction l as [|x l IH]; cbn; [constructor|]. cbn in H. inversion H as [|y m H1 H2]; subst.
  destruct (Q x); [|auto]. cbn. constructor; [auto|]. rewrite Forall_forall in *. intros z Hz. apply H2.
  apply in_map_iff in Hz. destruct Hz as (b & <- & Hb). apply filter_In in Hb. apply in_map. tauto.
Qed.
Lemma ps_good s b : sound_rows b -> StronglySorted Rlt (map a_wl b) -> (exists a, In a b /\ 0 < spec_rate s 1 a) ->
  positive_weights (map a_wl b) (wts s b) = Ok (map fst (ps_of s b), map (fun p => Fin (snd p)) (ps_of s b)) /\
  good_spectrum (ps_of s b) /\ ps_of s b <> [].
Proof.
  intros Sr So (a & Ia & Pa).
  set (top := match map (spec_rate s 1) b with [] => 1 | w0 :: w => maxl w0 w end).
  assert (Tp : 0 < top).
  { unfold top. assert (I : In (spec_rate s 1 a) (map (spec_rate s 1) b)) by now apply in_map.
    destruct (map (spec_rate s 1) b) as [|w0 w]; [lra|]. destruct (maxl_ge w0 w) as [M1 M2]. destruct I as [I|I]; [lra|]. specialize (M2 _ I). lra. }
  assert (G : forall x, 0 < spec_rate s 1 x <-> 0 < g_of s b x).
  { intros x. unfold g_of. fold top. split; intros H.
    - apply Rdiv_lt_0_compat; lra.
    - replace (spec_rate s 1 x) with (spec_rate s 1 x / top * top) by (field; lra). apply Rmult_lt_0_compat; lra. }
  assert (W : wts s b = map (fun a => Fin (g_of s b a)) b).
  { unfold wts. replace (match map (spec_rate s 1) b with [] => [] | w0 :: w => map (fun p => xdiv (Fin p) (Fin (maxl w0 w))) (w0 :: w) end)
      with (map (fun p => xdiv (Fin p) (Fin top)) (map (spec_rate s 1) b)) by (unfold top; destruct (map (spec_rate s 1) b); reflexivity).
    rewrite map_map. apply map_ext. intros x. rewrite xdiv_fin by lra. reflexivity. }
  split; [rewrite W; exact (positive_fin (g_of s b) b)|].
  assert (If : In a (filter (fun a => Rltb 0 (g_of s b a)) b)) by (apply filter_In; split; [exact Ia | apply Rltb_true, G, Pa]).
  assert (Al : forall x, In x (filter (fun a => Rltb 0 (g_of s b a)) b) -> 0 < a_wl x /\ 0 < g_of s b x).
  { intros x Hx. apply filter_In in Hx. destruct Hx as [H1 H2]. apply Rltb_true in H2. split; [apply (Sr x H1) | exact H2]. }
  unfold ps_of. set (L := filter (fun a => Rltb 0 (g_of s b a)) b) in *.
  split; [split; [|split]|].
  - rewrite map_map. cbn [fst]. apply nodup_sorted. apply sorted_filter, So.
  - intros p Hp. apply in_map_iff in Hp. destruct Hp as (x & <- & Hx). cbn [fst snd]. destruct (Al x Hx). lra.
  - rewrite map_map. cbn [snd]. clear -If Al. induction L as [|x m IH]; [destruct If|].
    cbn [map]. rewrite Rsum_cons. destruct (Al x (or_introl eq_refl)) as [_ X].
    assert (0 <= Rsum (map (fun x => g_of s b x) m)). { apply Rsum_nonneg. intros y Hy. apply in_map_iff in Hy. destruct Hy as (z & <- & Hb). left. apply Al. now right. }
    lra.
  - intros C. apply (in_map (fun a => (a_wl a, g_of s b a))) in If. rewrite C in If. destruct If.
Qed.
(* no signal from a white target at any wavelength: weights are nan or not positive *)
Lemma weights_dark s b : (forall a, In a b -> spec_rate s 1 a = 0) -> positive_weights (map a_wl b) (wts s b) = Ok ([], []).
Proof.
  intros H. unfold positive_weights, wts.
  assert (Z : forall w, In w (map (spec_rate s 1) b) -> w = 0) by (intros w Hw; apply in_map_iff in Hw; destruct Hw as (a & <- & Ha); auto).
  assert (Lm : length (map a_wl b) = length (map (spec_rate s 1) b)) by now rewrite !map_length.
  destruct (map (spec_rate s 1) b) as [|w0 w] eqn:E.
  - rewrite Lm. cbn. destruct (map a_wl b); [reflexivity | discriminate].
  - match goal with |- (if ?q then _ else _) = _ => replace q with true by (symmetry; apply Nat.eqb_eq; etransitivity; [exact Lm | symmetry; apply map_length]) end.
    assert (M : maxl w0 w = 0) by (apply Z; destruct (maxl_in w0 w) as [->|]; [now left | now right]). rewrite M.
    assert (N : map (fun p => xdiv (Fin p) (Fin 0)) (w0 :: w) = map (fun _ => NaN) (w0 :: w)).
    { apply map_ext_in. intros p Hp. rewrite (Z p Hp). apply xdiv_zero_zero. }
    rewrite N. cbv zeta.
    assert (F : forall wl, filter (fun q : R * xr => xlt (Fin 0) (snd q)) (combine wl (map (fun _ : R => NaN) (w0 :: w))) = []).
    { clear. intros wl. revert wl. induction (w0 :: w) as [|x l IH]; intros [|y wl]; try reflexivity. cbn [map combine filter snd]. cbn [xlt]. apply IH. }
    rewrite F. reflexivity.
Qed.
Lemma min_pos ps : good_spectrum ps -> ps <> [] -> exists m, py_min (map fst ps) = Ok m /\ 0 < m /\ (forall p, In p ps -> m <= fst p) /\ In m (map fst ps).
Proof.
  intros (_ & W & _) N. destruct (py_min (map fst ps)) as [m|e] eqn:E.
  - exists m. split; [reflexivity|]. apply py_min_spec in E. destruct E as [E1 E2]. split; [|split; [|exact E1]].
    + apply in_map_iff in E1. destruct E1 as (p & <- & Hp). apply (W p Hp).
    + intros p Hp. apply E2. now apply in_map.
  - exfalso. destruct ps as [|p ps]; [contradiction|]. discriminate E.
Qed.
Lemma n_sim_1 : INR (n_sim - 1) = 1500.
Proof. change (n_sim - 1)%nat with 1500%nat. rewrite INR_IZR_INZ. reflexivity. Qed.
Lemma n_sim_odd : Nat.odd n_sim = true. Proof. reflexivity. Qed.
Lemma n_sim_pos : (1 < n_sim)%nat. Proof. unfold n_sim. lia. Qed.
Lemma fsim_len a b c : length (freqs_sim a b c) = n_sim.
Proof. unfold freqs_sim. rewrite map_length. apply linspace_length. Qed.
Lemma fsim_nth a b c i : (i < n_sim)%nat -> nth i (freqs_sim a b c) 0 = (a + INR i * ((b - a) / 1500)) * c.
Proof.
  intros H. unfold freqs_sim. rewrite (nth_indep _ 0 (0 * c)) by (rewrite map_length, linspace_length; exact H).
  rewrite (map_nth (fun x => x * c)). rewrite linspace_nth by exact H. rewrite n_sim_1. reflexivity.
Qed.
Definition sim_pts (c : R) : list (R * R) := meshgrid (freqs_sim (-1) 1 c) (freqs_sim 1 (-1) c).
Lemma sim_pts_len c : length (sim_pts c) = (n_sim * n_sim)%nat.
Proof. unfold sim_pts, meshgrid. rewrite (flat_len (fun y x => (x, y))), !fsim_len. reflexivity. Qed.
Lemma sim_pts_nth c i j : (i < n_sim)%nat -> (j < n_sim)%nat ->
  nth (i * n_sim + j) (sim_pts c) (0, 0) = ((INR j - 750) / 750 * c, (750 - INR i) / 750 * c).
Proof.
  intros Hi Hj. unfold sim_pts, meshgrid. rewrite (flat_nth (fun y x => (x, y)) _ _ i j n_sim 0 0) by (rewrite ?fsim_len; assumption || reflexivity).
  rewrite !fsim_nth by assumption. f_equal; field.
Qed.
Definition sim_df (c : R) : R :=
  (Rabs (nth 1 (freqs_sim (-1) 1 c) 0 - nth 0 (freqs_sim (-1) 1 c) 0) + Rabs (nth 0 (freqs_sim 1 (-1) c) 0 - nth 1 (freqs_sim 1 (-1) c) 0)) / 2.
Lemma sim_df_val c : 0 < c -> sim_df c = c / 750.
Proof.
  intros H. assert (P := n_sim_pos). unfold sim_df. rewrite !fsim_nth by lia. change (INR 0) with 0. change (INR 1) with 1.
  rewrite !Rabs_pos_eq by lra. field.
Qed.
Lemma otf_part diag s c b : good_camera s -> good_path c (slant_flat c) -> sound_rows b -> StronglySorted Rlt (map a_wl b) ->
  (exists a, In a b /\ 0 < spec_rate s 1 a) ->
  exists lmin v o, In lmin (map fst (ps_of s b)) /\ (forall p, In p (ps_of s b) -> lmin <= fst p) /\ 0 < lmin /\
    common_OTFs diag Np s c (sim_pts (s_D s / lmin)) (map fst (ps_of s b)) (map (fun p => Fin (snd p)) (ps_of s b)) (slant_flat c) (s_int_time s) = Ok o /\
    system_OTF o = map Fin v /\ length v = (n_sim * n_sim)%nat /\
    simulate_otf diag s c (map a_wl b) (wts s b) = Ok (otf_image n_sim v, s_D s / lmin / 750).
Proof.
  intros (P & _ & GO & Hf & Hpx & _) GP Sr So Ex. destruct (ps_good s b Sr So Ex) as (EP & GS & NE).
  destruct (min_pos _ GS NE) as (m & Em & Hm & Lm & Im).
  assert (HD : 0 < s_D s) by apply GO. assert (Hc : 0 < s_D s / m) by (apply Rdiv_lt_0_compat; lra).
  destruct (common_any diag Np s c (sim_pts (s_D s / m)) (ps_of s b) (slant_flat c) (s_int_time s) GS GO GP Hpx Hf) as (o & v & Eo & Ev & Lv).
  exists m, v, o. split; [exact Im|]. split; [exact Lm|]. split; [exact Hm|]. split; [exact Eo|]. split; [exact Ev|]. split; [rewrite Lv; apply sim_pts_len|].
  unfold simulate_otf. rewrite EP. cbn [bind]. rewrite Em. cbn [bind]. rewrite xdiv_fin by lra. cbn [finite bind]. cbv zeta.
  fold (sim_pts (s_D s / m)). fold (sim_df (s_D s / m)). rewrite sim_df_val by exact Hc. rewrite Eo. cbn [bind].
  rewrite (proj2 (Rleb_false (s_D s / m / 750) 0)) by lra. rewrite Ev, mapM_finite. reflexivity.
Qed.

(** ** The true image *)
Lemma top_ends s b t : top_raw s b t = Rmax (raw s b t 0) (raw s b t 1).
Proof.
  assert (B : forall r, 0 <= r <= 1 -> raw s b t r <= Rmax (raw s b t 0) (raw s b t 1)).
  { intros r Hr. rewrite raw_affine. assert (A := Rmax_l (raw s b t 0) (raw s b t 1)). assert (C := Rmax_r (raw s b t 0) (raw s b t 1)).
    set (M := Rmax _ _) in *. assert ((1 - r) * raw s b t 0 <= (1 - r) * M) by (apply Rmult_le_compat_l; lra).
    assert (r * raw s b t 1 <= r * M) by (apply Rmult_le_compat_l; lra). lra. }
  assert (I0 : In 0 (linspace 0 1 100)). { assert (H := nth_In (linspace 0 1 100) 0 (n := 0) ltac:(rewrite linspace_length; lia)). rewrite linspace01_first in H. exact H. }
  assert (I1 : In 1 (linspace 0 1 100)).
  { replace 1 with (nth 99 (linspace 0 1 100) 0) at 1; [apply nth_In; rewrite linspace_length; lia|].
    rewrite linspace_nth by lia. change (100 - 1)%nat with 99%nat. replace (INR 99) with 99 by (rewrite INR_IZR_INZ; reflexivity). field. }
  apply Rle_antisym.
  - unfold top_raw. destruct (map (raw s b t) (linspace 0 1 100)) as [|v0 v] eqn:E.
    + apply (f_equal (@length R)) in E. rewrite map_length, linspace_length in E. discriminate.
    + assert (Al : forall y, In y (v0 :: v) -> y <= Rmax (raw s b t 0) (raw s b t 1)).
      { rewrite <- E. intros y Hy. apply in_map_iff in Hy. destruct Hy as (r & <- & Hr). apply B, linspace01_bounds, Hr. }
      destruct (maxl_in v0 v) as [->|I]; apply Al; [now left | now right].
  - apply Rmax_lub; apply top_raw_ge; assumption.
Qed.
Lemma band_seen s all b : (forall a, In a b <-> In a all /\ in_band s a) -> band s all = Ok b -> seen_rows s all b.
Proof. intros B H. split; [exact B|]. intros S. destruct (band_filter s all b H) as [p ->]. apply sorted_filter, S. Qed.
Lemma collected_raw s tr q b t r : has_tables s -> sorted_tables s -> response_curves s tr q -> (forall a, In a b -> 0 < a_wl a) ->
  collected s tr q b t 300 r = raw s b t r.
Proof.
  intros TB St Rc W. unfold collected, raw. f_equal. f_equal. f_equal. apply trapezoid_ext.
  intros a I. rewrite <- scene_eq. apply electrons_eq; auto.
Qed.
Lemma exposure_raw s tr q b r : has_tables s -> sorted_tables s -> response_curves s tr q -> (forall a, In a b -> 0 < a_wl a) ->
  collected s tr q b (exposure s tr q b) 300 r = shrink (top_raw s b (s_int_time s)) (s_max_n s) * raw s b (s_int_time s) r.
Proof.
  intros TB St Rc W. unfold exposure, shrink. rewrite !(collected_raw s tr q b) by assumption. rewrite <- top_ends.
  destruct (Rlt_dec _ _) as [L|L].
  - rewrite (proj2 (Rltb_true _ _)) by exact L. rewrite raw_time. reflexivity.
  - rewrite (proj2 (Rltb_false _ _)) by lra. ring.
Qed.
Lemma true_image s all pix refl a tr q : good_camera s -> good_scene s all -> good_calibration pix refl -> response_curves s tr q ->
  exists b X pe T, seen_rows s all b /\ sound_rows b /\ (exists a, In a b /\ 0 < spec_rate s 1 a) /\
    reflectance_to_photoelectrons all s (s_int_time s) 300 = Ok (linspace 0 1 100, map Fin pe, (map a_wl b, wts s b)) /\
    img_to_reflectance a pix refl = Ok X /\ to_photoelectrons (linspace 0 1 100) pe X = Ok T /\ rows T = rows a /\ cols T = cols a /\
    forall i j, 0 <= px T i j <= s_max_n s /\ exists r, calibrated (combine pix refl) (px a i j) r /\
      px T i j = collected s tr q b (exposure s tr q b) 300 (clip01 r).
Proof.
  intros (P & St & GO & Hf & Hpx & _) (Sr & So & (a0 & x & y & Ia & Ba & Rx & Ry & Pos)) (GL & G2 & GN) Rc.
  assert (TB := ph_tables _ P). assert (GR : good_rows s all). { split; [exists a0; auto|]. intros a' I _. specialize (Sr a' I). lra. }
  destruct (good_band s all TB GR) as (b & Hb & Hne & Hw & B).
  assert (Sb : sound_rows b) by (intros a' I; apply Sr, B, I).
  assert (W : forall a, In a b -> 0 < a_wl a) by (intros a' I; apply (Sb a' I)).
  destruct (table_facts s all (s_int_time s) 300 b P (ph_time _ P) GR (sorted_ascending _ So) Sr Hb) as (E & Lc & Rg & It).
  destruct (reflectance_value a pix refl GL G2 GN) as (X & EX & Xr & Xc & XV).
  assert (Xin : forall i j, exists r, xpx X i j = Fin r /\ 0 <= r <= 1).
  { intros i j. destruct (XV i j) as (r & -> & _). exists (clip01 r). split; [reflexivity | apply clip01_range]. }
  destruct (tope_ok (curve s b (s_int_time s)) X _ _ Lc It (fun i j _ _ => Xin i j)) as (T & ET & Tr & Tc & TV).
  exists b, X, (curve s b (s_int_time s)), T. split; [apply band_seen; assumption|]. split; [exact Sb|]. split.
  { exists a0. split; [apply B; auto|]. unfold spec_rate. rewrite <- scene_eq. rewrite <- (electrons_at s x y) by (auto; apply (Sr a0 Ia)). exact Pos. }
  split; [exact E|]. split; [exact EX|]. split; [exact ET|]. split; [congruence|]. split; [congruence|].
  intros i j. destruct (XV i j) as (r & Er & Cr). assert (CB := clip01_range r). rewrite (TV i j _ Er CB).
  assert (Ends : nth 0 (curve s b (s_int_time s)) 0 = collected s tr q b (exposure s tr q b) 300 0 /\
                 nth 99 (curve s b (s_int_time s)) 0 = collected s tr q b (exposure s tr q b) 300 1).
  { rewrite !curve_nth by lia. rewrite !exposure_raw by assumption. split; f_equal; f_equal.
    - change (INR 0) with 0. field.
    - replace (INR 99) with 99 by (rewrite INR_IZR_INZ; reflexivity). field. }
  assert (R0 : 0 <= nth 0 (curve s b (s_int_time s)) 0 <= s_max_n s) by (apply Rg, nth_In; lia).
  assert (R1 : 0 <= nth 99 (curve s b (s_int_time s)) 0 <= s_max_n s) by (apply Rg, nth_In; lia).
  split.
  - set (p0 := nth 0 _ 0) in *. set (p1 := nth 99 _ 0) in *. clearbody p0 p1. set (z := clip01 r) in *. clearbody z. split; nra.
  - exists r. split; [exact Cr|]. destruct Ends as [E0 E1]. rewrite E0, E1. symmetry. apply collected_affine.
Qed.

(** ** The whole pipeline *)
Lemma sim_pipeline diag s c r m tr q : good_camera s -> good_geometry c -> good_scene s (atm_rows m) ->
  good_calibration (sr_pix r) (sr_refl r) -> response_curves s tr q ->
  exists b T lmin v, seen_rows s (atm_rows m) b /\ rows T = rows (sr_img r) /\ cols T = cols (sr_img r) /\
    (forall i j, 0 <= px T i j <= s_max_n s /\ exists rho, calibrated (combine (sr_pix r) (sr_refl r)) (px (sr_img r) i j) rho /\
       px T i j = collected s tr q b (exposure s tr q b) 300 (clip01 rho)) /\
    In lmin (map a_wl b) /\ 0 < lmin /\ length v = (n_sim * n_sim)%nat /\
    (exists ps o, good_spectrum ps /\ (forall p, In p ps -> lmin <= fst p) /\
       common_OTFs diag Np s c (sim_pts (s_D s / lmin)) (map fst ps) (map (fun p => Fin (snd p)) ps) (slant_flat c) (s_int_time s) = Ok o /\
       system_OTF o = map Fin v) /\
    forall d, simulate_rest diag d s c r m =
      let* (blur, _) := apply_otf_to_image T (sr_gsd r) Np (slant_flat c) (otf_image n_sim v) Np (s_D s / lmin / 750) Py ((s_px s + s_py s) / 2 / s_f s) in
      let* noisy := add_noise d (g_noise_of s) blur in Ok (T, blur, noisy).
Proof.
  intros GC GG GS GK Rc. destruct (true_image s (atm_rows m) _ _ (sr_img r) tr q GC GS GK Rc) as (b & X & pe & T & Sn & Sb & Ex & E & EX & ET & Tr & Tc & TV).
  assert (So : StronglySorted Rlt (map a_wl b)) by (apply Sn, GS).
  destruct GG as [G1 G2]. assert (GP := flat_good_path c G1 G2).
  destruct (otf_part diag s c b GC GP Sb So Ex) as (lmin & v & o & Im & Lm & Pm & Eo & Ev & Lv & EO).
  destruct (ps_good s b Sb So Ex) as (_ & GSp & _).
  exists b, T, lmin, v. split; [exact Sn|]. split; [exact Tr|]. split; [exact Tc|]. split; [exact TV|]. split.
  { apply in_map_iff in Im. destruct Im as (p & <- & Hp). unfold ps_of in Hp. apply in_map_iff in Hp. destruct Hp as (x & <- & Hx).
    apply filter_In in Hx. cbn [fst]. apply in_map. tauto. }
  split; [exact Pm|]. split; [exact Lv|]. split; [exists (ps_of s b), o; auto|].
  intros d. unfold simulate_rest. rewrite E. cbn [bind]. rewrite EO. cbn [bind].
  destruct GC as (_ & _ & _ & Hf & _). rewrite pydiv_ok by lra. cbn [bind]. rewrite EX. cbn [bind].
  rewrite mapM_finite. cbn [bind]. rewrite ET. reflexivity.
Qed.
