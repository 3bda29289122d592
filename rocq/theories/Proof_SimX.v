(** * Proof_SimX: the simulation facts in the form in which they are stated, and their examples *)
From Coq Require Import Reals Lra Lia Bool List ZArith Psatz Sorted Permutation.
From Flocq Require Import Core.Raux Core.Generic_fmt.
From Verif Require Import Base_XR Base_Np Base_Percentile Model_Geo Model_Noise Model_Db Model_Scenario Model_Sensor Model_Rad Model_Otf Model_Img Model_Met Model_Sim
  Spec_Rad Spec_Img Spec_System Spec_Met Spec_Sim Proof_Geo Proof_Db Proof_Rad Proof_Snr Proof_RadP Proof_Weight Proof_Image Proof_Contrast Proof_Niirs Proof_NiirsDemo
  Proof_Refl Proof_Sim Proof_SimT Proof_SimP Proof_SimDemo.
Import ListNotations.
Open Scope R_scope.

(** ** C87 *)
Lemma calibrated_nodup_unique cal v r q : NoDup (map fst cal) -> calibrated cal v r -> calibrated cal v q -> r = q.
Proof. intros N. apply calibrated_unique, nodup_functional, N. Qed.
Lemma reflectance_distinct_refuted : ~ forall a pix refl out, length pix = length refl ->
  (exists p q, In p pix /\ In q pix /\ p <> q) -> img_to_reflectance a pix refl = Ok out ->
  forall i j, (i < rows a)%nat -> (j < cols a)%nat -> exists r, xpx out i j = Fin r /\ 0 <= r <= 1.
Proof.
  intros H. set (a := {| rows := 1; cols := 1; px := fun _ _ => 0 |}).
  destruct (H a [0; 0; 10] [0.1; 0.2; 0.9] _ eq_refl ltac:(exists 0, 10; simpl; repeat split; auto; lra) eq_refl 0%nat 0%nat ltac:(cbn; lia) ltac:(cbn; lia)) as (r & E & _).
  cbn [xpx a px] in E. unfold sort_by in E. cbn [combine fold_right insert_by fst] in E.
  rewrite (proj2 (Rleb_true 0 10)) in E by lra. cbn [insert_by fst] in E. rewrite (proj2 (Rleb_true 0 0)) in E by lra.
  unfold extrapolate in E. cbn [length filter fst] in E.
  rewrite (proj2 (Rltb_false 0 0)) in E by lra. rewrite (proj2 (Rltb_false 10 0)) in E by lra. cbn [length Nat.max Nat.min Nat.sub nth fst snd] in E.
  replace (0 - 0) with 0 in E by ring. rewrite zero_times in E. discriminate E.
Qed.
Lemma reflectance_single_refuted : ~ forall a pix refl, (length pix < 2 \/ length refl < 2)%nat ->
  img_to_reflectance a pix refl = Err ValueError.
Proof. intros H. specialize (H {| rows := 1; cols := 1; px := fun _ _ => 0 |} [0] [0] ltac:(simpl; lia)). discriminate H. Qed.
Lemma refl_demo : good_calibration (sr_pix demo_ref) (sr_refl demo_ref) /\ rising (combine (sr_pix demo_ref) (sr_refl demo_ref)) /\
  exists out, img_to_reflectance (sr_img demo_ref) (sr_pix demo_ref) (sr_refl demo_ref) = Ok out /\ xpx out 0%nat 1%nat = Fin 0.18.
Proof.
  split; [exact demo_calibration|]. split.
  { intros p q Hp Hq. cbn in Hp, Hq. destruct Hp as [<-|[<-|[]]]; destruct Hq as [<-|[<-|[]]]; cbn; lra. }
  destruct demo_calibration as (L & L2 & N). destruct (reflectance_value (sr_img demo_ref) _ _ L L2 N) as (out & E & _ & _ & V).
  exists out. split; [exact E|]. destruct (V 0%nat 1%nat) as (r & -> & C). f_equal.
  assert (C' : calibrated (combine (sr_pix demo_ref) (sr_refl demo_ref)) (px (sr_img demo_ref) 0 1) 0.18).
  { exists 10, 0.1, 110, 0.9. cbn [demo_ref sr_pix sr_refl sr_img px combine]. rewrite INR_IZR_INZ. cbn [Z.of_nat Nat.mul Nat.add Pos.of_succ_nat Pos.succ].
    repeat split; try (simpl; tauto); try lra; intros; try lra. destruct H as [<-|[<-|[]]]; cbn; lra. }
  rewrite (calibrated_nodup_unique _ _ _ _ ltac:(rewrite combine_fst by exact L; exact N) C C'). apply clip01_id. lra.
Qed.

(** ** C88 *)
Lemma sim_pipeline_stated diag s c r m tr q : good_camera s -> good_geometry c -> good_scene s (atm_rows m) ->
  good_calibration (sr_pix r) (sr_refl r) -> response_curves s tr q ->
  exists b T ref pe wl w otf df, seen_rows s (atm_rows m) b /\ rows T = rows (sr_img r) /\ cols T = cols (sr_img r) /\
    (forall i j, 0 <= px T i j <= s_max_n s /\ exists rho, calibrated (combine (sr_pix r) (sr_refl r)) (px (sr_img r) i j) rho /\
       px T i j = collected s tr q b (exposure s tr q b) 300 (clip01 rho)) /\
    reflectance_to_photoelectrons (atm_rows m) s (s_int_time s) 300 = Ok (ref, pe, (wl, w)) /\ simulate_otf diag s c wl w = Ok (otf, df) /\
    (exists a, In a b /\ df = s_D s / a_wl a / 750) /\
    forall d, simulate_rest diag d s c r m =
      let* (blur, _) := apply_otf_to_image T (sr_gsd r) Np (slant_flat c) otf Np df Py ((s_px s + s_py s) / 2 / s_f s) in
      let* noisy := add_noise d (g_noise_of s) blur in Ok (T, blur, noisy).
Proof.
  intros GC GG GS GK Rc. destruct (true_image s (atm_rows m) _ _ (sr_img r) tr q GC GS GK Rc) as (b & X & pe & T & Sn & Sb & Ex & E & EX & ET & Tr & Tc & TV).
  assert (So : StronglySorted Rlt (map a_wl b)) by (apply Sn, GS).
  destruct GG as [G1 G2]. assert (GP := flat_good_path c G1 G2).
  destruct (otf_part diag s c b GC GP Sb So Ex) as (lmin & v & o & Im & Lm & Pm & Eo & Ev & Lv & EO).
  exists b, T. do 6 eexists. split; [exact Sn|]. split; [exact Tr|]. split; [exact Tc|]. split; [exact TV|].
  split; [exact E|]. split; [exact EO|]. split.
  { apply in_map_iff in Im. destruct Im as (p & <- & Hp). unfold ps_of in Hp. apply in_map_iff in Hp. destruct Hp as (x & <- & Hx).
    apply filter_In in Hx. exists x. split; [tauto | reflexivity]. }
  intros d. unfold simulate_rest. rewrite E. cbn [bind]. rewrite EO. cbn [bind].
  destruct GC as (_ & _ & _ & Hf & _). rewrite pydiv_ok by lra. cbn [bind]. rewrite EX. cbn [bind].
  rewrite mapM_finite. cbn [bind]. rewrite ET. reflexivity.
Qed.
Definition demo_uniform : reference := {|
  sr_img := {| rows := 2; cols := 3; px := fun _ _ => 60 |}; sr_gsd := 18; sr_pix := [10; 110]; sr_refl := [0.1; 0.9] |}.
Lemma demo_run r d : sr_pix r = sr_pix demo_ref -> sr_refl r = sr_refl demo_ref -> sr_gsd r = sr_gsd demo_ref -> nonempty (sr_img r) ->
  exists T B X, simulate_rest no_diag d (red_cam [[1]]) demo_over r demo_m = Ok (T, B, X).
Proof.
  intros E1 E2 E3 N. assert (P := red_good [[1]]). destruct P as (P & St & P').
  destruct (sim_coarse no_diag (red_cam [[1]]) demo_over r demo_m _ _ (conj P (conj St P')) demo_geometry (demo_scene _)
    ltac:(rewrite E1, E2; exact demo_calibration) (curves_exist _ (ph_tables _ P) St) ltac:(cbn; lia) (demo_fine _) ltac:(cbn; lra)
    ltac:(cbn; lra) N ltac:(rewrite E3; apply demo_coarse) ltac:(rewrite E3; apply demo_magnified))
    as (b & T & B & T' & g & _ & _ & _ & _ & _ & _ & _ & _ & _ & H).
  destruct (H d) as (X & EX & _). exists T, B, X. exact EX.
Qed.
Lemma sim_demo : good_camera (red_cam [[1]]) /\ good_geometry demo_over /\ good_scene (red_cam [[1]]) (atm_rows demo_m) /\
  good_calibration (sr_pix demo_ref) (sr_refl demo_ref) /\ s_max_n (red_cam [[1]]) <= 10 ^ 18 /\
  forall d, exists T B X, simulate_rest no_diag d (red_cam [[1]]) demo_over demo_ref demo_m = Ok (T, B, X).
Proof.
  split; [apply red_good|]. split; [exact demo_geometry|]. split; [apply demo_scene|]. split; [exact demo_calibration|].
  split; [cbn; lra|]. intros d. apply demo_run; try reflexivity. split; cbn; lia.
Qed.
Lemma sim_demo_uniform d : good_calibration (sr_pix demo_uniform) (sr_refl demo_uniform) /\
  exists T B X, simulate_rest no_diag d (red_cam [[1]]) demo_over demo_uniform demo_m = Ok (T, B, X).
Proof. split; [exact demo_calibration|]. apply demo_run; try reflexivity. split; cbn; lia. Qed.

(** ** C89 *)
Definition signal_demo : list (R * ((R * R) * (R * R))) := [(1 / 2, ((1, 0), (1 / 2, 0))); (1 / 2, ((1, 0), (- (1 / 2), 0)))].
Lemma wiener_demo : uncorrelated signal_demo 1 (1 / 4) /\ wiener_filter (1 / 2) 0 (1 / 4) = (Fin 1, Fin 0) /\
  mean signal_demo (restoration_error (1 / 2, 0) (1, 0)) = 1 / 2.
Proof.
  split. { unfold uncorrelated, cmod2, signal_demo, mean. cbn [fst snd]. repeat split; field. }
  split. { rewrite wiener_val by lra. f_equal; f_equal; field. }
  unfold restoration_error, signal_demo, mean, cmod2, csub, cmul, cadd. cbn [fst snd]. field.
Qed.

(** ** C90 *)
Lemma stretch_demo : percentile [0; 1; 3] 0 = Ok 0 /\ percentile [0; 1; 3] 100 = Ok 3 /\
  stretch_contrast_convert_8bit [0; 1; 3] (Some [0; 100]) = Ok [0; 85; 255]%Z.
Proof.
  assert (S : sortR [0; 1; 3] = [0; 1; 3]).
  { unfold sortR. cbn [fold_right insertR]. rewrite (proj2 (Rleb_true 1 3)) by lra. cbn [insertR]. rewrite (proj2 (Rleb_true 0 1)) by lra. reflexivity. }
  assert (E0 : percentile [0; 1; 3] 0 = Ok 0).
  { unfold percentile. rewrite (proj2 (Rleb_true 0 0)), (proj2 (Rleb_true 0 100)) by lra. cbn [andb]. rewrite S. f_equal. unfold lerp_at.
    replace (INR (length [0; 1; 3] - 1) * (0 / 100)) with (IZR 0) by (cbn [length Nat.sub]; field). rewrite Zfloor_IZR. cbn [Z.to_nat nth Nat.add]. ring. }
  assert (E1 : percentile [0; 1; 3] 100 = Ok 3).
  { unfold percentile. rewrite (proj2 (Rleb_true 0 100)), (proj2 (Rleb_true 100 100)) by lra. cbn [andb]. rewrite S. f_equal. unfold lerp_at.
    replace (INR (length [0; 1; 3] - 1) * (100 / 100)) with (IZR 2) by (cbn [length Nat.sub INR]; field). rewrite Zfloor_IZR.
    change (Z.to_nat 2) with 2%nat. cbn [nth Nat.add]. ring. }
  split; [exact E0|]. split; [exact E1|].
  destruct (stretch_levels [0; 1; 3] (Some [0; 100]) 0 100 [] 0 3 eq_refl E0 E1 ltac:(lra)) as (out & -> & L & V). f_equal.
  destruct out as [|a [|b [|c [|? ?]]]]; try discriminate L.
  assert (A := proj2 (V 0%nat ltac:(cbn; lia))). assert (B := proj2 (V 1%nat ltac:(cbn; lia))). assert (C := proj2 (V 2%nat ltac:(cbn; lia))).
  cbn [nth] in A, B, C. rewrite display_lo in A by lra. rewrite display_hi in C by lra.
  replace (display_level 0 3 1) with 85 in B. 2:{ unfold display_level. rewrite Rmin_right by lra. rewrite Rmax_right; lra. }
  rewrite (half_even_unique _ _ _ A (half_even_IZR 0)), (half_even_unique _ _ _ B (half_even_IZR 85)), (half_even_unique _ _ _ C (half_even_IZR 255)). reflexivity.
Qed.

(** ** C91 *)
Lemma pixel_statistics om a g i j : (forall i j, (i < rows a)%nat -> (j < cols a)%nat -> 0 <= px a i j <= lam_max) ->
  shot_and_normal om (px a i j) (fun d => INR (d_count d (px a i j) i j)) (fun d => d_normal d i j) ->
  exists pixel : draws -> R, (forall d, exists b, add_noise d (Fin g) a = Ok b /\ xpx b i j = Fin (pixel d)) /\
    mean om pixel = px a i j /\ mean om (fun d => (pixel d - px a i j) * (pixel d - px a i j)) = px a i j + g * g.
Proof.
  intros H M. exists (fun d => INR (d_count d (px a i j) i j) + g * d_normal d i j). split.
  - intros d. destruct (noise_ok a g H d) as (b & E & _ & _ & V). exists b. auto.
  - apply (noise_moments om (px a i j) g _ _ M).
Qed.
Definition coin (n : nat) (z : R) : R * draws := (1 / 4, {| d_count := fun _ _ _ => n; d_normal := fun _ _ => z |}).
Definition coin_draws : list (R * draws) := [coin 0 1; coin 0 (-1); coin 2 1; coin 2 (-1)].
Lemma noise_demo : 0 < s_bits (red_cam [[1]]) /\ 0 < s_max_n (red_cam [[1]]) /\
  shot_and_normal coin_draws 1 (fun d => INR (d_count d 1 0 0)) (fun d => d_normal d 0%nat 0%nat) /\ 1 <= lam_max.
Proof.
  split; [cbn; lra|]. split; [cbn; lra|]. split; [|assert (L := lam_max_big); lra].
  unfold shot_and_normal, coin_draws, coin, mean. cbn [d_count d_normal INR]. repeat split; field.
Qed.

(** ** C92 *)
Lemma ifov_bounds w f i : 0 <= w -> 0 < f -> instantaneous_FOV w f = Ok i ->
  0 <= 2 * atan (w / 2 / f) <= i /\ i <= 2 * atan (w / 2 / f) * (1 + (i / 2) * (i / 2)).
Proof. intros Hw Hf E. split; [exact (ifov_small_angle w f i Hw Hf E) | exact (ifov_error w f i Hw Hf E)]. Qed.
Lemma ifov_demo : instantaneous_FOV 8 4 = Ok 2 /\ ground_sample_distance 2 9 = 8 * 9 / 4.
Proof. split; [unfold instantaneous_FOV; rewrite pydiv_ok by lra; f_equal; field | unfold ground_sample_distance; field]. Qed.

(** ** C93 *)
Lemma flat_error c s : 0 <= altitude c -> curved_earth_slant_range 0 (altitude c) (ground_range c) = Fin s ->
  let flat2 := altitude c * altitude c + ground_range c * ground_range c in
  flat2 * (1 - ground_range c * ground_range c / (12 * 6378164 * 6378164)) <= s * s /\ s * s <= flat2 * (1 + altitude c / 6378164).
Proof. intros Ha E. cbv zeta. rewrite <- (proj2 (flat_sq c)). exact (flat_close c s Ha E). Qed.
Lemma flat_refuted : ~ forall c, 0 < altitude c -> Rabs (ground_range c) <= 2 * 6378164 ->
  curved_earth_slant_range 0 (altitude c) (ground_range c) = Fin (slant_flat c).
Proof.
  intros H. set (c := {| ihaze := 1; altitude := 2000; ground_range := 1000; interp := false; plain := fun _ => 0; cache := None |}).
  specialize (H c ltac:(cbn; lra) ltac:(cbn; rewrite Rabs_pos_eq; lra)).
  assert (L := flat_shorter c _ ltac:(cbn; lra) H ltac:(cbn; lra) ltac:(cbn; unfold r_earth; lra)). lra.
Qed.
Lemma flat_demo : 0 < altitude demo_scen /\ Rabs (ground_range demo_scen) <= 2 * 6378164.
Proof. cbn. split; [lra|]. rewrite Rabs_pos_eq; lra. Qed.

(** ** C96 *)
(* no quantum efficiency at all *)
Definition blind_cam : sensor := {|
  s_D := 0.3; s_f := 4; s_px := 8 / 10 ^ 6; s_py := 8 / 10 ^ 6; s_wx := 8 / 10 ^ 6; s_wy := 8 / 10 ^ 6; s_eta := 0.4;
  s_owl := [wavelength 30; 0.8 / 10 ^ 6]; s_otr := [1; 1]; s_qwl := [wavelength 30; 0.8 / 10 ^ 6]; s_qe := [0; 0];
  s_int_time := 0.03; s_dark := 0; s_other_irr := 0; s_read := 25; s_max_n := 96000;
  s_max_fill := 0.6; s_bits := 11.9; s_ntdi := 1;
  s_T_shield := 70; s_T_opt := 270; s_e_opt := 0; s_t_filt := 1; s_T_filt := 70; s_e_filt := 0;
  s_sx := 0; s_sy := 0; s_dax := 0; s_day := 0; s_pv := 0; s_pv_wl := 0.633 / 10 ^ 6;
  s_Lx := 1; s_Ly := 1; s_other_noise := [0]; s_kernel := [[1]]; s_frames := 1 |}.
Definition flat_image : img := {| rows := 2; cols := 3; px := fun _ _ => 7 |}.
Lemma blind_good : good_camera blind_cam.
Proof.
  assert (W : 0 < wavelength 30 < 0.8 / 10 ^ 6) by (rewrite red_edge; lra).
  unfold good_camera. cbn [blind_cam s_owl s_otr s_qwl s_qe]. split; [|split; [|split]].
  - constructor; cbn [blind_cam s_D s_f s_px s_py s_wx s_wy s_eta s_owl s_otr s_qwl s_qe s_int_time s_dark s_other_irr s_read s_max_n s_max_fill s_bits s_ntdi
      s_T_shield s_T_opt s_e_opt s_t_filt s_T_filt s_e_filt s_frames]; try lra; try (intros x [<-|[<-|[]]]; lra).
    repeat split; try discriminate; reflexivity.
  - split; cbn [blind_cam s_owl s_qwl]; repeat (constructor; try lra).
  - unfold good_optics. cbn [blind_cam s_D s_eta s_sx s_sy s_pv s_pv_wl s_Lx s_Ly s_f s_wx s_wy s_dax s_day s_ntdi s_int_time]. repeat split; lra.
  - cbn [blind_cam s_f s_px s_py]. repeat split; lra.
Qed.
Lemma failure_demo : good_camera blind_cam /\ sound_rows (atm_rows demo_m) /\ (exists a, In a (atm_rows demo_m) /\ in_band blind_cam a) /\
  (forall a x y, In a (atm_rows demo_m) -> in_band blind_cam a -> reads (s_owl blind_cam) (s_otr blind_cam) (a_wl a) x ->
     reads (s_qwl blind_cam) (s_qe blind_cam) (a_wl a) y -> electrons blind_cam x y (a_wl a) (scene_radiance 1 300 a) = 0) /\
  reference_init flat_image 18 None None = Ok {| sr_img := flat_image; sr_gsd := 18; sr_pix := [7; 7]; sr_refl := [0.05; 0.95] |}.
Proof.
  split; [exact blind_good|]. split; [exact demo_sound|]. split.
  { exists red_row. split; [exact red_row_in|]. exact (red_row_band [[1]]). }
  split.
  { intros a x y _ _ _ Hy. assert (y = 0) as ->; [|unfold electrons, Rdiv; ring].
    cbn [blind_cam s_qwl s_qe] in Hy. assert (Z : forall i, nth i [0; 0] 0 = 0) by (intros [|[|[|i]]]; reflexivity).
    inversion Hy; rewrite ?Z; try reflexivity. ring. }
  unfold reference_init, ref_image_init. rewrite (ravel_const flat_image 7) by reflexivity. rewrite !percentile_const by (try lra; cbn; lia). reflexivity.
Qed.

(** ** C97-C100 *)
Lemma sim_modulated diag s c all ref pe wl w otf df : good_camera s -> good_geometry c -> good_scene s all -> (length (s_kernel s) <= 1)%nat ->
  reflectance_to_photoelectrons all s (s_int_time s) 300 = Ok (ref, pe, (wl, w)) -> simulate_otf diag s c wl w = Ok (otf, df) ->
  forall i j, px (psf_raw otf) i j = cos (2 * PI * ((INR i - 750) / 1501 + (INR j - 750) / 1501)) * inverse_ft 1501 1501 750 750 (re otf) (im otf) i j.
Proof. intros H1 H2 H3 H4 H5 H6. apply (sim_otf_facts _ _ _ _ _ _ _ _ _ _ H1 H2 H3 H4 H5 H6). Qed.
Lemma sim_symmetric diag s c all ref pe wl w otf df : good_camera s -> good_geometry c -> good_scene s all -> (length (s_kernel s) <= 1)%nat ->
  reflectance_to_photoelectrons all s (s_int_time s) 300 = Ok (ref, pe, (wl, w)) -> simulate_otf diag s c wl w = Ok (otf, df) ->
  crows otf = 1501%nat /\ ccols otf = 1501%nat /\ 0 < df /\ re otf 750%nat 750%nat = 1 /\
  forall i j, (i <= 1500)%nat -> (j <= 1500)%nat -> re otf (1500 - i)%nat (1500 - j)%nat = re otf i j /\ im otf i j = 0.
Proof.
  intros H1 H2 H3 H4 H5 H6. destruct (sim_otf_facts _ _ _ _ _ _ _ _ _ _ H1 H2 H3 H4 H5 H6) as (A & B & C & D & E & _).
  exact (conj A (conj B (conj C (conj D E)))).
Qed.
Lemma otf_demo : good_camera (red_cam [[1]]) /\ good_geometry demo_over /\ good_scene (red_cam [[1]]) (atm_rows demo_m) /\
  exists ref pe wl w otf df, reflectance_to_photoelectrons (atm_rows demo_m) (red_cam [[1]]) (s_int_time (red_cam [[1]])) 300 = Ok (ref, pe, (wl, w)) /\
    simulate_otf no_diag (red_cam [[1]]) demo_over wl w = Ok (otf, df).
Proof.
  destruct sim_demo as (A & B & C & D & E & _). split; [exact A|]. split; [exact B|]. split; [exact C|].
  destruct (sim_success no_diag _ _ _ _ A B C D E) as (T & ref & pe & wl & w & otf & df & g & H1 & H2 & _).
  exists ref, pe, wl, w, otf, df. exact (conj H1 H2).
Qed.
Lemma symmetry_demo : (length (s_kernel (red_cam [[1%R]])) <= 1)%nat /\ fine_detector (red_cam [[1]]) (atm_rows demo_m) /\
  0 <= plain demo_over AircraftSpeed /\
  exists ref pe wl w otf df, reflectance_to_photoelectrons (atm_rows demo_m) (red_cam [[1]]) (s_int_time (red_cam [[1]])) 300 = Ok (ref, pe, (wl, w)) /\
    simulate_otf no_diag (red_cam [[1]]) demo_over wl w = Ok (otf, df).
Proof. split; [cbn; lia|]. split; [apply demo_fine|]. split; [cbn; lra|]. apply otf_demo. Qed.
Lemma coarse_demo : fine_detector (red_cam [[1]]) (atm_rows demo_m) /\ coarse_scene (red_cam [[1]]) demo_over (sr_gsd demo_ref) (atm_rows demo_m) /\
  (s_px (red_cam [[1]]) + s_py (red_cam [[1]])) / 2 / s_f (red_cam [[1]]) <= sr_gsd demo_ref / slant_flat demo_over.
Proof. split; [apply demo_fine|]. split; [apply demo_coarse | apply demo_magnified]. Qed.
Lemma sim_current ni it diag d r s w m : observe ni it w = Ok m ->
  exists w1, simulate_image ni it diag d r s w = (w1, simulate_rest diag d s (sc w1) r m) /\
    altitude (sc w1) = altitude (sc w) /\ ground_range (sc w1) = ground_range (sc w) /\ plain (sc w1) = plain (sc w).
Proof.
  intros H. exists (fst (step ni it w ReadAtm)). rewrite sim_world, H. split; [reflexivity|].
  destruct (sim_reload ni it diag d r s w _ _ (sim_world ni it diag d r s w) (ex_intro _ m H)) as (A & B & C & _). auto.
Qed.
Lemma sim_once ni it diag d r s w w1 out : simulate_image ni it diag d r s w = (w1, out) -> (exists m, observe ni it w = Ok m) ->
  (loads w1 <= S (loads w))%nat /\ (forall d' r' s', fst (simulate_image ni it diag d' r' s' w1) = w1) /\ simulate_image ni it diag d r s w1 = (w1, out).
Proof.
  intros H1 H2. destruct (sim_reload _ _ _ _ _ _ _ _ _ H1 H2) as (_ & _ & _ & A & B). split; [exact A|]. split; [intros; apply B|].
  apply (B d r s).
Qed.
Lemma sim_load_error ni it diag d r s w e : observe ni it w = Err e -> snd (simulate_image ni it diag d r s w) = Err e.
Proof. intros H. rewrite sim_world, H. reflexivity. Qed.
Lemma world_demo : observe demo_load demo_load (init 1 9000 0 false (plain demo_over)) = Ok demo_m.
Proof. reflexivity. Qed.
