(** * Proof_SimP: the point spread function and the end of simulate_image (C88, C96-C99) *)
From Coq Require Import Reals Lra List Lia ZArith Psatz Bool Sorted Permutation.
From Flocq Require Import Core.Raux Core.Generic_fmt.
From Verif Require Import Base_XR Base_Np Base_NpFacts Base_Interp Base_Percentile Model_Geo Model_Noise Model_Scenario Model_Sensor Model_Rad Model_Db Model_Otf Model_Img Model_Met Model_Sim
  Spec_Rad Spec_Img Spec_System Spec_Met Spec_Sim Proof_Noise Proof_Rad Proof_Pe Proof_RadP Proof_Psf Proof_Image Proof_Weight Proof_System Proof_Contrast Proof_Niirs
  Proof_Even Proof_Refl Proof_Sim Proof_SimT.
Import ListNotations.
Open Scope R_scope.
Opaque linspace.

(** ** A scene pixel wider than the frame of the PSF *)
Lemma rs_pos_centre k : rs_pos (2 * k + 1) 1 0 = (k, 0).
Proof.
  unfold rs_pos. replace ((INR 0 + 0.5) * (INR (2 * k + 1) / INR 1) - 0.5) with (INR k).
  2:{ rewrite plus_INR, mult_INR. change (INR 1) with 1. change (INR 2) with (1 + 1). change (INR 0) with 0. lra. }
  rewrite INR_IZR_INZ, Zfloor_IZR. destruct (Z.ltb_spec (Z.of_nat k) 0); [lia|].
  destruct (Z.leb_spec (Z.of_nat (2 * k + 1) - 1) (Z.of_nat k)).
  - f_equal. lia.
  - f_equal; [lia | ring].
Qed.
Lemma psf_centre otf k : crows otf = (2 * k + 1)%nat -> ccols otf = (2 * k + 1)%nat ->
  px (psf_raw otf) k k = sum_over (crows otf) (ccols otf) (re otf) / (INR (crows otf) * INR (ccols otf)).
Proof.
  intros Er Ec. rewrite psf_odd by (rewrite ?Er, ?Ec; try lia; rewrite Nat.add_1_r, Nat.odd_succ; apply Nat.even_spec; exists k; lia).
  unfold inverse_ft, ctr. rewrite Er, Ec. replace ((2 * k + 1) / 2)%nat with k by (apply Nat.div_unique with 1%nat; lia).
  set (n := (2 * k + 1)%nat). unfold sum_over, Rdiv.
  assert (L : forall (f : nat -> R) c l, Rsum (map (fun x => f x * c) l) = Rsum (map f l) * c).
  { clear. intros f c l. induction l as [|x l IH]; cbn [map]; [unfold Rsum; simpl; ring|]. rewrite !Rsum_cons, IH. ring. }
  rewrite <- L. f_equal. apply map_ext. intros p. rewrite <- L. f_equal. apply map_ext. intros q. cbv zeta.
  match goal with |- context [cos ?x] => replace x with 0 by (unfold Rdiv; ring) end.
  rewrite cos_0, sin_0. unfold Rdiv. ring.
Qed.
Definition dot (p : img) : Prop := rows p = 1%nat /\ cols p = 1%nat /\ px p 0%nat 0%nat = 1.
Lemma coarse_psf otf k kd df dx : crows otf = (2 * k + 1)%nat -> ccols otf = (2 * k + 1)%nat -> (5 <= k)%nat -> 0 < df -> 0 < dx -> 1 / df < 2 * dx ->
  sum_over (crows otf) (ccols otf) (re otf) <> 0 ->
  exists p, otf_to_psf otf kd df (Fin dx) = Ok p /\ dot p.
Proof.
  intros Er Ec Hk Hdf Hdx Hb Hs. rewrite otf_to_psf_eq.
  assert (N : INR (2 * k + 1) > 0) by (apply lt_0_INR; lia).
  rewrite Er, Ec in *. replace (Nat.eqb (2 * k + 1) 0) with false by (symmetry; apply Nat.eqb_neq; lia). cbn [orb].
  rewrite qdiv_fin by (apply Rgt_not_eq; apply Rmult_lt_0_compat; lra). cbn [bind].
  change (cols (psf_raw otf)) with (ccols otf). change (rows (psf_raw otf)) with (crows otf). rewrite Er, Ec.
  rewrite !xmul_fin, !xdiv_fin by lra. cbn [xint bind].
  set (z := INR (2 * k + 1) * (1 / (INR (2 * k + 1) * df)) / dx).
  assert (Ez : z = 1 / df / dx) by (unfold z; field; repeat split; lra).
  assert (Hz : 0 <= z < 2).
  { rewrite Ez. split.
    - apply Rlt_le. apply Rdiv_lt_0_compat; [apply Rdiv_lt_0_compat; lra|lra].
    - apply Rmult_lt_reg_r with dx; [lra|]. unfold Rdiv at 1. rewrite Rmult_assoc, Rinv_l by lra. lra. }
  assert (Hi : Z.max 1 (py_int z) = 1%Z).
  { unfold py_int. rewrite Ztrunc_floor by lra. assert (Zfloor z <= 1)%Z; [|lia].
    assert (IZR (Zfloor z) <= z) by apply Zfloor_lb. apply Z.lt_succ_r. apply lt_IZR. simpl. lra. }
  rewrite Hi. unfold cv_resize at 1. change (rows (psf_raw otf)) with (crows otf). change (cols (psf_raw otf)) with (ccols otf). rewrite Er, Ec.
  replace (Nat.eqb (2 * k + 1) 0) with false by (symmetry; apply Nat.eqb_neq; lia).
  change (Z.leb 1 0) with false. cbn [orb bind]. change (Z.to_nat 1) with 1%nat.
  match goal with |- context [isum ?a] => set (f := a) end.
  assert (F0 : px f 0%nat 0%nat = px (psf_raw otf) k k).
  { unfold f. cbn [px]. rewrite !rs_pos_centre. ring. }
  assert (SF : isum f = px (psf_raw otf) k k).
  { unfold isum, f. cbn [rows cols seq map]. fold f. unfold Rsum. cbn [fold_right]. rewrite <- F0. unfold f. cbn [px]. ring. }
  assert (Q : px (psf_raw otf) k k <> 0).
  { rewrite psf_centre by assumption. rewrite Er, Ec. intros C. apply Hs. apply (Rmult_eq_compat_r (INR (2 * k + 1) * INR (2 * k + 1))) in C.
    unfold Rdiv in C. rewrite Rmult_assoc, Rinv_l, Rmult_1_r, Rmult_0_l in C by (apply Rgt_not_eq; apply Rmult_lt_0_compat; lra). exact C. }
  rewrite Nat.min_id.
  assert (CS : exists t, crop_sizes (2 * k + 1) = 10%nat :: t).
  { unfold crop_sizes. assert (1 <= (2 * k + 1 - 10 + 4) / 5)%nat by (apply Nat.div_le_lower_bound; lia).
    destruct ((2 * k + 1 - 10 + 4) / 5)%nat as [|u]; [lia|]. cbn [seq map]. eexists. reflexivity. }
  destruct CS as (t & CS). rewrite CS. rewrite (proj2 (Reqb_false (isum f) 0)) by (rewrite SF; exact Q).
  cbn [crop_loop]. set (g := get_middle (iscale (isum f) f) 10).
  assert (G : rows g = 1%nat /\ cols g = 1%nat /\ px g 0%nat 0%nat = 1).
  { unfold g, get_middle. change (rows (iscale (isum f) f)) with 1%nat. change (cols (iscale (isum f) f)) with 1%nat.
    rewrite !mid_slice_outside by lia. change (Z.max 0 ((3 * Z.of_nat 1 - Z.of_nat 10) / 2)) with 0%Z.
    cbn [rows cols px]. split; [reflexivity|]. split; [reflexivity|]. change (Z.to_nat 0 + 0)%nat with 0%nat.
    cbn [iscale px]. rewrite F0, SF. unfold Rdiv. apply Rinv_r. exact Q. }
  destruct G as (G1 & G2 & G3).
  assert (SG : isum g = 1). { unfold isum. rewrite G1, G2. cbn [seq map]. unfold Rsum. cbn [fold_right]. rewrite G3. ring. }
  rewrite (proj2 (Rltb_true 0.95 (isum g))) by (rewrite SG; lra).
  rewrite (proj2 (Reqb_false (isum g) 0)) by (rewrite SG; lra).
  eexists. split; [reflexivity|]. unfold dot, iscale. cbn [rows cols px]. rewrite G1, G2, G3, SG. split; [reflexivity|]. split; [reflexivity|]. field.
Qed.
Lemma resize_ext a b w h a' : rows b = rows a -> cols b = cols a ->
  (forall i j, (i < rows a)%nat -> (j < cols a)%nat -> px b i j = px a i j) -> cv_resize a w h = Ok a' ->
  exists b', cv_resize b w h = Ok b' /\ rows b' = rows a' /\ cols b' = cols a' /\
    forall i j, (i < rows a')%nat -> (j < cols a')%nat -> px b' i j = px a' i j.
Proof.
  intros Er Ec Ep H. destruct (resize_inv _ _ _ _ H) as ([Hr Hc] & Hw & Hh & Rr & Rc & _).
  unfold cv_resize in *. rewrite Er, Ec. destruct (Z.leb w 0 || Z.leb h 0 || Nat.eqb (rows a) 0 || Nat.eqb (cols a) 0); [discriminate|].
  apply ok_inj in H. subst a'. eexists. split; [reflexivity|]. cbn [rows cols px] in *. split; [reflexivity|]. split; [reflexivity|].
  intros i j Hi Hj. destruct (rs_pos_ok (rows a) (Z.to_nat h) i) as (y & t & -> & Ly & Bt & Ty); [lia|lia|exact Hi|].
  destruct (rs_pos_ok (cols a) (Z.to_nat w) j) as (x & s & -> & Lx & Bs & Tx); [lia|lia|exact Hj|].
  rewrite (Ep y x) by lia.
  destruct Ty as [Ty|Ty]; destruct Tx as [Tx|Tx]; subst; rewrite ?(Ep (y + 1)%nat), ?(Ep y) by lia; ring.
Qed.
(* a one-pixel PSF leaves the image alone: only resampling is left *)
Lemma coarse_apply T gsd rng otf kd df ifov p w h wp : nonempty T -> 0 < rng -> 0 < ifov ->
  otf_to_psf otf kd df (Fin (2 * atan (gsd / 2 / rng))) = Ok p -> dot p ->
  half_even (INR (cols T) * (gsd / rng) / ifov) w -> half_even (INR (rows T) * (gsd / rng) / ifov) h -> half_even (gsd / rng / ifov) wp ->
  (0 < w)%Z -> (0 < h)%Z -> (0 < wp)%Z ->
  exists B sp T', apply_otf_to_image T gsd Np rng otf kd df Py ifov = Ok (B, sp) /\ cv_resize T w h = Ok T' /\
    Z.of_nat (rows B) = h /\ Z.of_nat (cols B) = w /\ rows T' = rows B /\ cols T' = cols B /\
    forall i j, (i < rows B)%nat -> (j < cols B)%nat -> px B i j = px T' i j.
Proof.
  intros NT Hr Hi EP (P1 & P2 & P3) Hw Hh Hwp W H WP.
  rewrite apply_val by lra. rewrite EP. cbn [bind].
  assert (NP : nonempty p) by (split; lia).
  destruct (filter_ok T p NT NP) as (f & EF & Fr & Fc). rewrite EF. cbn [bind].
  assert (FI := filter_identity T p f EF). 
  assert (FV : forall i j, (i < rows T)%nat -> (j < cols T)%nat -> px f i j = px T i j).
  { apply FI. rewrite P1, P2. intros a b Ha Hb. replace a with 0%nat by lia. replace b with 0%nat by lia. rewrite P3. reflexivity. }
  rewrite !resample_val by lra. rewrite Fr, Fc, P1, P2. change (INR 1) with 1.
  rewrite (half_even_unique _ _ _ (np_round_spec _) Hw), (half_even_unique _ _ _ (np_round_spec _) Hh).
  replace (1 * (gsd / rng) / ifov) with (gsd / rng / ifov) by (unfold Rdiv; ring).
  rewrite (half_even_unique _ _ _ (np_round_spec _) Hwp).
  destruct (resize_ok T w h NT W H) as (T' & ET & Tr & Tc).
  destruct (resize_ext T f w h T' Fr Fc FV ET) as (B & EB & Br & Bc & BV). rewrite EB. cbn [bind].
  destruct (resize_ok p wp wp NP WP WP) as (sp & ESP & _). rewrite ESP. cbn [bind].
  exists B, sp, T'. split; [reflexivity|]. split; [exact ET|]. split; [lia|]. split; [lia|]. split; [congruence|]. split; [congruence|].
  rewrite Br, Bc. exact BV.
Qed.

(** ** The transfer function on the 1501 x 1501 grid *)
Lemma n_sim_half : n_sim = (2 * 750 + 1)%nat. Proof. reflexivity. Qed.
Opaque n_sim.
Definition neg2 (p : R * R) : R * R := (- fst p, - snd p).
Lemma fin_map_inj {A} (F : A -> R) l v : map Fin v = map (fun p => Fin (F p)) l -> v = map F l.
Proof. intros H. apply fin_list_inj. rewrite H, map_map. reflexivity. Qed.
Lemma single_inj {A} (F : A -> R) x y : map (fun p => Fin (F p)) [x] = map (fun p => Fin (F p)) [y] -> F x = F y.
Proof. intros H. injection H. auto. Qed.
Lemma sim_shape diag s c ps lmin o v : good_spectrum ps -> good_optics s -> good_path c (slant_flat c) -> (length (s_kernel s) <= 1)%nat ->
  common_OTFs diag Np s c (sim_pts (s_D s / lmin)) (map fst ps) (map (fun p => Fin (snd p)) ps) (slant_flat c) (s_int_time s) = Ok o ->
  system_OTF o = map Fin v ->
  exists F N, (forall i j, (i < n_sim)%nat -> (j < n_sim)%nat ->
      re (otf_image n_sim v) i j = F ((INR j - 750) / 750 * (s_D s / lmin), (750 - INR i) / 750 * (s_D s / lmin))) /\
    F (0, 0) = 1 /\ (forall p, F (neg2 p) = F p) /\
    (forall p, F p = N p * (Rsinc (s_wx s * fst p / s_f s) * Rsinc (s_wy s * snd p / s_f s))
                     * (Rsinc (s_dax s * s_int_time s * s_ntdi s * fst p) * Rsinc (s_day s * s_int_time s * s_ntdi s * snd p))) /\
    (0 <= plain c AircraftSpeed * (s_int_time s * s_ntdi s) -> forall p, 0 <= N p).
Proof.
  intros GS GO GP K Eo Ev. destruct (common_sign diag Np s c ps (slant_flat c) (s_int_time s) GS GO GP K) as (F & N & HF & HN & HS).
  exists F, N. split; [|split; [|split; [|split; assumption]]].
  - intros i j Hi Hj. destruct (HF (sim_pts (s_D s / lmin))) as (o' & Eo' & Ev'). rewrite Eo in Eo'. apply ok_inj in Eo'. subst o'.
    rewrite Ev in Ev'. apply fin_map_inj in Ev'. subst v. cbn [otf_image re].
    rewrite (nth_indep _ 0 (F (0, 0))).
    + rewrite (map_nth F). rewrite sim_pts_nth by assumption. reflexivity.
    + rewrite map_length, sim_pts_len. nia.
  - destruct (common_good diag Np s c [(0, 0)] ps (slant_flat c) (s_int_time s) GS GO GP K) as (o1 & E1 & _ & H1).
    destruct (H1 0%nat 0 0 eq_refl) as (a & t & d & ji & dr & w & _ & _ & _ & _ & _ & _ & _ & HS0 & H0 & _).
    destruct (HF [(0, 0)]) as (o2 & E2 & H2). rewrite E1 in E2. apply ok_inj in E2. subst o2. rewrite H2 in HS0. cbn in HS0.
    injection HS0 as HS0. rewrite HS0. apply H0; reflexivity.
  - intros p. destruct (HF [neg p]) as (o1 & E1 & H1). destruct (HF [p]) as (o2 & E2 & H2).
    change [neg p] with (map neg [p]) in E1. rewrite common_even in E1; [|exact K|apply GO|apply GO]. rewrite E1 in E2. apply ok_inj in E2. subst o2.
    rewrite H1 in H2. apply single_inj in H2. destruct p as [u w]. exact H2.
Qed.
Lemma sim_mirror s lmin v (F : R * R -> R) i j : (forall i j, (i < n_sim)%nat -> (j < n_sim)%nat ->
      re (otf_image n_sim v) i j = F ((INR j - 750) / 750 * (s_D s / lmin), (750 - INR i) / 750 * (s_D s / lmin))) ->
  (forall p, F (neg2 p) = F p) -> (i < n_sim)%nat -> (j < n_sim)%nat ->
  re (otf_image n_sim v) (n_sim - 1 - i)%nat (n_sim - 1 - j)%nat = re (otf_image n_sim v) i j.
Proof.
  intros HR HE Hi Hj. rewrite !HR by lia. rewrite <- HE. f_equal. unfold neg2. cbn [fst snd]. rewrite (minus_INR (n_sim - 1) i), (minus_INR (n_sim - 1) j), n_sim_1 by lia. generalize (s_D s / lmin). intros x. f_equal; field.
Qed.
Lemma sum_over_term n m f i0 j0 : (i0 < n)%nat -> (j0 < m)%nat -> (forall i j, (i < n)%nat -> (j < m)%nat -> 0 <= f i j) -> f i0 j0 <= sum_over n m f.
Proof.
  intros Hi Hj Hf. assert (T : forall (g : nat -> R) l x, In x l -> (forall y, In y l -> 0 <= g y) -> g x <= Rsum (map g l)).
  { clear. intros g l x. induction l as [|y l IH]; intros I H; [destruct I|]. cbn [map]. rewrite Rsum_cons.
    assert (0 <= Rsum (map g l)) by (apply Rsum_nonneg; intros z Hz; apply in_map_iff in Hz; destruct Hz as (a & <- & Ha); apply H; now right).
    destruct I as [<-|I]; [lra|]. assert (0 <= g y) by (apply H; now left). assert (g x <= Rsum (map g l)) by (apply IH; [exact I | intros; apply H; now right]). lra. }
  unfold sum_over. eapply Rle_trans; [|apply (T (fun i => Rsum (map (fun j => f i j) (seq 0 m))) (seq 0 n) i0)].
  - apply (T (f i0) (seq 0 m) j0); [apply in_seq; lia|]. intros y Hy. apply in_seq in Hy. apply Hf; lia.
  - apply in_seq. lia.
  - intros y Hy. apply in_seq in Hy. apply Rsum_nonneg. intros z Hz. apply in_map_iff in Hz. destruct Hz as (q & <- & Hq). apply in_seq in Hq. apply Hf; lia.
Qed.
(* detectors whose first zero lies beyond the optical cutoff, no drift *)
Lemma sim_nonneg s c lmin v (F N : R * R -> R) :
  (forall i j, (i < n_sim)%nat -> (j < n_sim)%nat ->
      re (otf_image n_sim v) i j = F ((INR j - 750) / 750 * (s_D s / lmin), (750 - INR i) / 750 * (s_D s / lmin))) ->
  (forall p, F p = N p * (Rsinc (s_wx s * fst p / s_f s) * Rsinc (s_wy s * snd p / s_f s))
                     * (Rsinc (s_dax s * s_int_time s * s_ntdi s * fst p) * Rsinc (s_day s * s_int_time s * s_ntdi s * snd p))) ->
  (0 <= plain c AircraftSpeed * (s_int_time s * s_ntdi s) -> forall p, 0 <= N p) ->
  0 <= plain c AircraftSpeed * (s_int_time s * s_ntdi s) -> 0 < s_D s -> 0 < lmin -> 0 < s_f s -> 0 <= s_wx s -> 0 <= s_wy s ->
  s_wx s * s_D s <= s_f s * lmin -> s_wy s * s_D s <= s_f s * lmin -> s_dax s = 0 -> s_day s = 0 ->
  forall i j, (i < n_sim)%nat -> (j < n_sim)%nat -> 0 <= re (otf_image n_sim v) i j.
Proof.
  intros HR HF HN Hv HD Hl Hf Hx Hy Wx Wy Dx Dy i j Hi Hj. rewrite HR, HF by assumption. cbn [fst snd]. specialize (HN Hv).
  assert (R1 : forall k, (k < n_sim)%nat -> Rabs ((INR k - 750) / 750) <= 1).
  { intros k Hk. assert (0 <= INR k) by apply pos_INR. assert (INR k <= 1500).
    { rewrite <- n_sim_1. apply le_INR. lia. }
    apply Rabs_le. lra. }
  assert (D : forall w k, 0 <= w -> w * s_D s <= s_f s * lmin -> Rabs k <= 1 -> 0 <= Rsinc (w * (k * (s_D s / lmin)) / s_f s)).
  { intros w k Hw B Hk. apply Rsinc_nonneg.
    replace (w * (k * (s_D s / lmin)) / s_f s) with (k * (w * s_D s / (s_f s * lmin))) by (field; lra).
    rewrite Rabs_mult. assert (Q : 0 <= w * s_D s / (s_f s * lmin) <= 1).
    { assert (0 < s_f s * lmin) by now apply Rmult_lt_0_compat. split.
      - apply Rmult_le_pos; [nra|]. left. now apply Rinv_0_lt_compat.
      - apply Rmult_le_reg_r with (s_f s * lmin); [assumption|]. unfold Rdiv. rewrite Rmult_assoc, Rinv_l; lra. }
    rewrite (Rabs_pos_eq (w * s_D s / (s_f s * lmin))) by lra. assert (P := Rabs_pos k). nra. }
  rewrite Dx, Dy, !Rmult_0_l. unfold Rsinc at 3 4. rcase; [|lra]. rewrite !Rmult_1_r.
  apply Rmult_le_pos; [apply HN|]. apply Rmult_le_pos; apply D; auto.
  replace ((750 - INR i) / 750) with (- ((INR i - 750) / 750)) by field. rewrite Rabs_Ropp. auto.
Qed.
Lemma sim_sum v : (forall i j, (i < n_sim)%nat -> (j < n_sim)%nat -> 0 <= re (otf_image n_sim v) i j) ->
  re (otf_image n_sim v) 750 750 = 1 -> 1 <= sum_over n_sim n_sim (re (otf_image n_sim v)).
Proof.
  intros H E. rewrite <- E. apply sum_over_term; [| |exact H]; rewrite n_sim_half; lia.
Qed.

(** ** What simulate_otf returns *)
Lemma otf_result diag s c all ref pe wl w otf df : good_camera s -> good_geometry c -> good_scene s all ->
  reflectance_to_photoelectrons all s (s_int_time s) 300 = Ok (ref, pe, (wl, w)) -> simulate_otf diag s c wl w = Ok (otf, df) ->
  exists b lmin v ps o, seen_rows s all b /\ In lmin (map a_wl b) /\ 0 < lmin /\ otf = otf_image n_sim v /\ df = s_D s / lmin / 750 /\ length v = (n_sim * n_sim)%nat /\
    good_spectrum ps /\ (forall p, In p ps -> lmin <= fst p) /\
    common_OTFs diag Np s c (sim_pts (s_D s / lmin)) (map fst ps) (map (fun p => Fin (snd p)) ps) (slant_flat c) (s_int_time s) = Ok o /\
    system_OTF o = map Fin v.
Proof.
  intros GC GG GS E EO. assert (GC' := GC). destruct GC' as (P & St & _).
  assert (GK : good_calibration [0; 1] [0; 1]). { split; [reflexivity|]. split; [simpl; lia|]. constructor; [simpl; intros [H|[]]; lra|]. constructor; [simpl; tauto | constructor]. }
  destruct (true_image s all _ _ {| rows := 0; cols := 0; px := fun _ _ => 0 |} _ _ GC GS GK (curves_exist s (ph_tables _ P) St))
    as (b & X & pe' & T & Sn & Sb & Ex & E' & _).
  rewrite E in E'. apply ok_inj in E'. injection E' as -> -> -> ->.
  assert (So : StronglySorted Rlt (map a_wl b)) by (apply Sn, GS).
  destruct GG as [G1 G2]. assert (GP := flat_good_path c G1 G2).
  destruct (otf_part diag s c b GC GP Sb So Ex) as (lmin & v & o & Im & Lm & Pm & Eo & Ev & Lv & EO').
  destruct (ps_good s b Sb So Ex) as (_ & GSp & _).
  rewrite EO in EO'. apply ok_inj in EO'. injection EO' as -> ->.
  exists b, lmin, v, (ps_of s b), o. split; [exact Sn|]. split.
  { apply in_map_iff in Im. destruct Im as (p & <- & Hp). unfold ps_of in Hp. apply in_map_iff in Hp. destruct Hp as (x & <- & Hx).
    apply filter_In in Hx. cbn [fst]. apply in_map. tauto. }
  auto 10.
Qed.
Lemma sim_odd n : n = n_sim -> Nat.odd n = true.
Proof. intros ->. exact n_sim_odd. Qed.
Lemma ctr_sim : ctr n_sim = 750.
Proof. unfold ctr. replace (n_sim / 2)%nat with 750%nat by reflexivity. rewrite INR_IZR_INZ. reflexivity. Qed.
Lemma n_sim_INR : INR n_sim = 1501.
Proof. rewrite INR_IZR_INZ. reflexivity. Qed.
Lemma sim_otf_facts diag s c all ref pe wl w otf df : good_camera s -> good_geometry c -> good_scene s all -> (length (s_kernel s) <= 1)%nat ->
  reflectance_to_photoelectrons all s (s_int_time s) 300 = Ok (ref, pe, (wl, w)) -> simulate_otf diag s c wl w = Ok (otf, df) ->
  crows otf = 1501%nat /\ ccols otf = 1501%nat /\ 0 < df /\ re otf 750%nat 750%nat = 1 /\
  (forall i j, (i <= 1500)%nat -> (j <= 1500)%nat -> re otf (1500 - i)%nat (1500 - j)%nat = re otf i j /\ im otf i j = 0) /\
  forall i j, px (psf_raw otf) i j = cos (2 * PI * ((INR i - 750) / 1501 + (INR j - 750) / 1501)) * inverse_ft 1501 1501 750 750 (re otf) (im otf) i j.
Proof.
  intros GC GG GS K E EO. destruct (otf_result _ _ _ _ _ _ _ _ _ _ GC GG GS E EO) as (b & lmin & v & ps & o & _ & _ & Pm & -> & -> & _ & GSp & _ & Eo & Ev).
  destruct GC as (_ & _ & GO & _). destruct GG as [G1 G2].
  destruct (sim_shape diag s c ps lmin o v GSp GO (flat_good_path c G1 G2) K Eo Ev) as (F & N & HR & F0 & FE & _).
  change 1501%nat with n_sim. change 1500%nat with (n_sim - 1)%nat.
  assert (HM := fun i j => sim_mirror s lmin v F i j HR FE).
  assert (L : (750 < n_sim)%nat) by (rewrite n_sim_half; lia).
  split; [reflexivity|]. split; [reflexivity|]. split; [apply Rdiv_lt_0_compat; [apply Rdiv_lt_0_compat; [apply GO|exact Pm]|lra]|].
  split.
  { rewrite HR by exact L. rewrite <- F0. f_equal. replace (INR 750) with 750 by (rewrite INR_IZR_INZ; reflexivity). f_equal; unfold Rdiv; ring. }
  split.
  { intros i j Hi Hj. split; [|reflexivity]. assert (P := n_sim_pos). apply HM; lia. }
  intros i j. rewrite psf_odd_modulated.
  - change (crows (otf_image n_sim v)) with n_sim. change (ccols (otf_image n_sim v)) with n_sim. rewrite ctr_sim, n_sim_INR. reflexivity.
  - change (0 < n_sim)%nat. lia.
  - change (0 < n_sim)%nat. lia.
  - exact n_sim_odd.
  - exact n_sim_odd.
  - intros p q Hp Hq. change (crows (otf_image n_sim v)) with n_sim in *. change (ccols (otf_image n_sim v)) with n_sim in *. split; [apply HM; assumption|].
    cbn [otf_image im]. ring.
Qed.
Lemma sim_otf_nonneg diag s c all ref pe wl w otf df : good_camera s -> good_geometry c -> good_scene s all -> (length (s_kernel s) <= 1)%nat ->
  fine_detector s all -> 0 <= plain c AircraftSpeed ->
  reflectance_to_photoelectrons all s (s_int_time s) 300 = Ok (ref, pe, (wl, w)) -> simulate_otf diag s c wl w = Ok (otf, df) ->
  forall i j, (i <= 1500)%nat -> (j <= 1500)%nat -> 0 <= re otf i j.
Proof.
  intros GC GG GS K (Dx & Dy & FD) Hv E EO i j Hi Hj.
  destruct (otf_result _ _ _ _ _ _ _ _ _ _ GC GG GS E EO) as (b & lmin & v & ps & o & [Bi _] & Il & Pm & -> & -> & _ & GSp & _ & Eo & Ev).
  destruct GC as (P & _ & GO & Hf & _). destruct GG as [G1 G2].
  destruct (sim_shape diag s c ps lmin o v GSp GO (flat_good_path c G1 G2) K Eo Ev) as (F & N & HR & F0 & FE & HF & HN).
  apply in_map_iff in Il. destruct Il as (a & <- & Ia). apply Bi in Ia. destruct Ia as [Ia Ba]. destruct (FD a Ia Ba).
  change 1500%nat with (n_sim - 1)%nat in *. assert (Q := n_sim_pos).
  refine (sim_nonneg s c (a_wl a) v F N HR HF HN _ _ Pm Hf (ph_wx _ P) (ph_wy _ P) _ _ Dx Dy i j _ _); try assumption; try lia.
  - apply Rmult_le_pos; [exact Hv|]. apply Rmult_le_pos; [apply (ph_time _ P) | apply (ph_ntdi _ P)].
  - apply GO.
Qed.

(** ** The end of the pipeline *)
Lemma lam_max_big : 10 ^ 18 <= lam_max.
Proof.
  unfold lam_max. assert (sqrt (2 ^ 63 - 1) <= 2 ^ 32).
  { rewrite <- (sqrt_pow2 (2 ^ 32)) by lra. apply sqrt_le_1_alt. lra. }
  lra.
Qed.
Lemma range_pos c : good_geometry c -> 0 < slant_flat c.
Proof. intros [H _]. unfold slant_flat. apply sqrt_lt_R0. assert (0 <= ground_range c * ground_range c) by apply Rle_0_sqr. nra. Qed.
Lemma ifov_pos s : good_camera s -> 0 < (s_px s + s_py s) / 2 / s_f s.
Proof. intros (_ & _ & _ & Hf & Hx & Hy). apply Rdiv_lt_0_compat; lra. Qed.
Lemma rest_inv diag d s c r m T B X : simulate_rest diag d s c r m = Ok (T, B, X) ->
  exists otf df sp ifov, ifov = (s_px s + s_py s) / 2 / s_f s /\
    apply_otf_to_image T (sr_gsd r) Np (slant_flat c) otf Np df Py ifov = Ok (B, sp) /\ add_noise d (g_noise_of s) B = Ok X.
Proof.
  unfold simulate_rest. destruct (reflectance_to_photoelectrons _ _ _ _) as [[[ref pe] [wl w]]|]; [|discriminate]. cbn [bind].
  destruct (simulate_otf _ _ _ _ _) as [[otf df]|]; [|discriminate]. cbn [bind].
  destruct (pydiv _ (s_f s)) as [ifov|] eqn:Ei; [|discriminate]. cbn [bind].
  destruct (img_to_reflectance _ _ _); [|discriminate]. cbn [bind]. destruct (mapM finite pe); [|discriminate]. cbn [bind].
  destruct (to_photoelectrons _ _ _) as [T'|]; [|discriminate]. cbn [bind].
  destruct (apply_otf_to_image _ _ _ _ _ _ _ _ _) as [[B' sp]|] eqn:EA; [|discriminate]. cbn [bind].
  destruct (add_noise _ _ _) as [X'|] eqn:EN; [|discriminate]. cbn [bind]. intros H. apply ok_inj in H. injection H as -> -> ->.
  exists otf, df, sp, ifov. split; [|split; assumption].
  unfold pydiv in Ei. destruct (Reqb (s_f s) 0); [discriminate|]. apply ok_inj in Ei. auto.
Qed.
Lemma sim_uniform diag d s c r m v T B X : good_camera s -> good_geometry c -> good_scene s (atm_rows m) ->
  good_calibration (sr_pix r) (sr_refl r) -> (forall i j, px (sr_img r) i j = v) -> simulate_rest diag d s c r m = Ok (T, B, X) ->
  exists n, 0 <= n <= s_max_n s /\ (forall i j, px T i j = n) /\ forall i j, (i < rows B)%nat -> (j < cols B)%nat -> px B i j = n.
Proof.
  intros GC GG GS GK U H. assert (Hr := range_pos c GG). assert (Hi := ifov_pos s GC).
  destruct (rest_inv _ _ _ _ _ _ _ _ _ H) as (otf & df & sp & ifov & Ei & EA & EN). subst ifov.
  destruct GC as (P & St & GC'). assert (GC : good_camera s) by (split; [|split]; assumption).
  destruct (sim_pipeline diag s c r m _ _ GC GG GS GK (curves_exist s (ph_tables _ P) St)) as (b & T' & lmin & w & _ & Tr & Tc & TV & _ & _ & _ & _ & HE).
  rewrite (HE d) in H. destruct (apply_otf_to_image T' _ _ _ _ _ _ _ _) as [[B' sp']|]; [|discriminate H]. cbn [bind] in H.
  destruct (add_noise _ _ _); [|discriminate H]. cbn [bind] in H. apply ok_inj in H. injection H as -> _ _.
  exists (px T 0%nat 0%nat). split; [apply TV|].
  assert (UT : forall i j, px T i j = px T 0%nat 0%nat).
  { intros i j. destruct (TV i j) as (_ & r1 & C1 & ->). destruct (TV 0%nat 0%nat) as (_ & r2 & C2 & ->). rewrite U in C1, C2.
    destruct GK as (GL & G2 & GN). f_equal. f_equal.
    apply (calibrated_unique (combine (sr_pix r) (sr_refl r)) v); [apply nodup_functional; rewrite combine_fst by exact GL; exact GN|exact C1|exact C2]. }
  split; [exact UT|]. intros i j. apply (apply_uniform T (sr_gsd r) Np (slant_flat c) otf Np df Py ((s_px s + s_py s) / 2 / s_f s) B sp); auto; lra.
Qed.
(* a PSF without negative lobes keeps the counts inside the well, and the simulation succeeds *)
Lemma sim_success diag s c r m : good_camera s -> good_geometry c -> good_scene s (atm_rows m) ->
  good_calibration (sr_pix r) (sr_refl r) -> s_max_n s <= 10 ^ 18 ->
  exists T ref pe wl w otf df g, reflectance_to_photoelectrons (atm_rows m) s (s_int_time s) 300 = Ok (ref, pe, (wl, w)) /\
    simulate_otf diag s c wl w = Ok (otf, df) /\ rows T = rows (sr_img r) /\ cols T = cols (sr_img r) /\ g_noise_of s = Fin g /\
    forall psf B sp, otf_to_psf otf Np df (Fin (2 * atan (sr_gsd r / 2 / slant_flat c))) = Ok psf ->
      (forall p q, (p < rows psf)%nat -> (q < cols psf)%nat -> 0 <= px psf p q) ->
      apply_otf_to_image T (sr_gsd r) Np (slant_flat c) otf Np df Py ((s_px s + s_py s) / 2 / s_f s) = Ok (B, sp) ->
      (forall i j, (i < rows B)%nat -> (j < cols B)%nat -> 0 <= px B i j <= s_max_n s) /\
      forall d, exists X, simulate_rest diag d s c r m = Ok (T, B, X) /\ xrows X = rows B /\ xcols X = cols B /\
        forall i j, xpx X i j = Fin (INR (d_count d (px B i j) i j) + g * d_normal d i j).
Proof.
  intros GC GG GS GK Hm. assert (Hr := range_pos c GG). assert (Hi := ifov_pos s GC).
  assert (GC' := GC). destruct GC' as (P & St & _ & Hf & _).
  destruct (true_image s (atm_rows m) _ _ (sr_img r) _ _ GC GS GK (curves_exist s (ph_tables _ P) St)) as (b & X & pe & T & Sn & Sb & Ex & E & EX & ET & Tr & Tc & TV).
  assert (So : StronglySorted Rlt (map a_wl b)) by (apply Sn, GS).
  destruct GG as [G1 G2]. assert (GP := flat_good_path c G1 G2).
  destruct (otf_part diag s c b GC GP Sb So Ex) as (lmin & v & o & _ & _ & _ & _ & _ & _ & EO).
  destruct (g_variance s (ph_bits _ P) (ph_max_n _ P)) as (g & Eg & _).
  exists T, (linspace 0 1 100), (map Fin pe), (map a_wl b), (wts s b), (otf_image n_sim v), (s_D s / lmin / 750), g.
  split; [exact E|]. split; [exact EO|]. split; [exact Tr|]. split; [exact Tc|]. split; [exact Eg|].
  intros psf B sp EP NN EA.
  assert (RB : forall i j, (i < rows B)%nat -> (j < cols B)%nat -> 0 <= px B i j <= s_max_n s).
  { apply (apply_range T (sr_gsd r) Np (slant_flat c) _ Np _ Py _ B sp 0 (s_max_n s) (Rgt_not_eq _ _ Hr) (Rgt_not_eq _ _ Hi) EA).
    - intros psf' EP'. rewrite EP in EP'. apply ok_inj in EP'. subst psf'. exact NN.
    - intros i j _ _. apply TV. }
  split; [exact RB|]. assert (LM := lam_max_big). intros d.
  destruct (noise_ok B g (fun i j A C => conj (proj1 (RB i j A C)) (Rle_trans _ _ _ (proj2 (RB i j A C)) (Rle_trans _ _ _ Hm LM))) d) as (Y & EY & Yr & Yc & YV).
  exists Y. split; [|auto].
  unfold simulate_rest. rewrite E. cbn [bind]. rewrite EO. cbn [bind]. rewrite pydiv_ok by lra. cbn [bind]. rewrite EX. cbn [bind].
  rewrite mapM_finite. cbn [bind]. rewrite ET. cbn [bind]. rewrite EA. cbn [bind]. rewrite Eg, EY. reflexivity.
Qed.
(* one negative pixel after blurring, or one above the largest rate, stops the simulation *)
Lemma sim_negative diag d s c r m T B sp i j : good_camera s -> good_geometry c -> good_scene s (atm_rows m) ->
  good_calibration (sr_pix r) (sr_refl r) ->
  (exists ref pe wl w otf df X pe', reflectance_to_photoelectrons (atm_rows m) s (s_int_time s) 300 = Ok (ref, pe, (wl, w)) /\
    simulate_otf diag s c wl w = Ok (otf, df) /\ mapM finite pe = Ok pe' /\
    img_to_reflectance (sr_img r) (sr_pix r) (sr_refl r) = Ok X /\ to_photoelectrons ref pe' X = Ok T /\
    apply_otf_to_image T (sr_gsd r) Np (slant_flat c) otf Np df Py ((s_px s + s_py s) / 2 / s_f s) = Ok (B, sp)) ->
  (i < rows B)%nat -> (j < cols B)%nat -> px B i j < 0 -> simulate_rest diag d s c r m = Err ValueError.
Proof.
  intros GC GG GS GK (ref & pe & wl & w & otf & df & X & pe' & E & EO & EM & EX & ET & EA) Hi Hj H.
  destruct GC as (_ & _ & _ & Hf & _).
  unfold simulate_rest. rewrite E. cbn [bind]. rewrite EO. cbn [bind]. rewrite pydiv_ok by lra. cbn [bind]. rewrite EX. cbn [bind].
  rewrite EM. cbn [bind]. rewrite ET. cbn [bind]. rewrite EA. cbn [bind]. rewrite (noise_bad B _ d i j Hi Hj (or_introl H)). reflexivity.
Qed.
Lemma near_up q n : 1 <= q -> half_even q n -> (0 < n)%Z.
Proof.
  intros Hq [H _]. apply lt_IZR. apply Rabs_le_inv in H. lra.
Qed.
Lemma inb q : exists n, half_even q n.
Proof. exists (np_round q). apply np_round_spec. Qed.
Lemma sim_coarse diag s c r m tr q : good_camera s -> good_geometry c -> good_scene s (atm_rows m) ->
  good_calibration (sr_pix r) (sr_refl r) -> response_curves s tr q -> (length (s_kernel s) <= 1)%nat -> fine_detector s (atm_rows m) -> 0 <= plain c AircraftSpeed ->
  s_max_n s <= 10 ^ 18 -> nonempty (sr_img r) -> coarse_scene s c (sr_gsd r) (atm_rows m) ->
  (s_px s + s_py s) / 2 / s_f s <= sr_gsd r / slant_flat c ->
  exists b T B T' g, seen_rows s (atm_rows m) b /\ rows T = rows (sr_img r) /\ cols T = cols (sr_img r) /\
    (forall i j, exists rho, calibrated (combine (sr_pix r) (sr_refl r)) (px (sr_img r) i j) rho /\
       px T i j = collected s tr q b (exposure s tr q b) 300 (clip01 rho)) /\
    resample_2D Np T (Fin (sr_gsd r / slant_flat c)) (Fin ((s_px s + s_py s) / 2 / s_f s)) = Ok T' /\
    rows B = rows T' /\ cols B = cols T' /\ (forall i j, (i < rows B)%nat -> (j < cols B)%nat -> px B i j = px T' i j /\ 0 <= px B i j <= s_max_n s) /\
    g_noise_of s = Fin g /\
    forall d, exists X, simulate_rest diag d s c r m = Ok (T, B, X) /\ xrows X = rows B /\ xcols X = cols B /\
      forall i j, xpx X i j = Fin (INR (d_count d (px B i j) i j) + g * d_normal d i j).
Proof.
  intros GC GG GS GK Rc K FD Hv Hm NT CO IF.
  assert (Hr := range_pos c GG). assert (Hi := ifov_pos s GC).
  destruct (sim_pipeline diag s c r m tr q GC GG GS GK Rc) as (b & T & lmin & v & [Bi Bs] & Tr & Tc & TV & Il & Pm & Lv & (ps & o & GSp & Lm & Eo & Ev) & HE).
  destruct GC as (P & St & GO & Hf & _). destruct GG as [G1 G2].
  destruct (sim_shape diag s c ps lmin o v GSp GO (flat_good_path c G1 G2) K Eo Ev) as (F & N & HR & F0 & FE & HF & HN).
  assert (Il' := Il). apply in_map_iff in Il'. destruct Il' as (a & Ea & Ia). apply Bi in Ia. destruct Ia as [Ia Ba].
  destruct FD as (Dx & Dy & FD). destruct (FD a Ia Ba) as [W1 W2]. rewrite Ea in W1, W2. assert (CO' := CO a Ia Ba). rewrite Ea in CO'. fold (slant_flat c) in CO'.
  assert (HD : 0 < s_D s) by apply GO.
  assert (NNG : forall i j, (i < n_sim)%nat -> (j < n_sim)%nat -> 0 <= re (otf_image n_sim v) i j).
  { refine (sim_nonneg s c lmin v F N HR HF HN _ HD Pm Hf (ph_wx _ P) (ph_wy _ P) W1 W2 Dx Dy).
    apply Rmult_le_pos; [exact Hv|]. apply Rmult_le_pos; [apply (ph_time _ P) | apply (ph_ntdi _ P)]. }
  assert (C1 : re (otf_image n_sim v) 750 750 = 1).
  { assert (L : (750 < n_sim)%nat) by (rewrite n_sim_half; lia). rewrite HR by exact L. rewrite <- F0. f_equal.
    replace (INR 750) with 750 by (rewrite INR_IZR_INZ; reflexivity). f_equal; unfold Rdiv; ring. }
  assert (SS := sim_sum v NNG C1).
  assert (Hdf : 0 < s_D s / lmin / 750) by (apply Rdiv_lt_0_compat; [apply Rdiv_lt_0_compat; lra|lra]).
  assert (E1 : 1 / (s_D s / lmin / 750) = 750 * lmin / s_D s) by (field; lra).
  assert (X1 : 0 < 750 * lmin / s_D s) by (apply Rdiv_lt_0_compat; lra).
  destruct (coarse_psf (otf_image n_sim v) 750 Np (s_D s / lmin / 750) (2 * atan (sr_gsd r / 2 / slant_flat c)))
    as (p & EP & DP); [exact n_sim_half | exact n_sim_half | lia | exact Hdf | lra | rewrite E1; lra | cbn [otf_image crows ccols]; lra|].
  assert (IFs : 1 <= sr_gsd r / slant_flat c / ((s_px s + s_py s) / 2 / s_f s)).
  { clear -IF Hi. revert IF Hi. generalize (sr_gsd r / slant_flat c) ((s_px s + s_py s) / 2 / s_f s). intros A x H X.
    apply Rmult_le_reg_r with x; [exact X|]. unfold Rdiv. rewrite Rmult_assoc, Rinv_l by lra. lra. }
  assert (NT' : nonempty T) by (destruct NT; split; lia).
  destruct (inb (INR (cols T) * (sr_gsd r / slant_flat c) / ((s_px s + s_py s) / 2 / s_f s))) as (w & Hw).
  destruct (inb (INR (rows T) * (sr_gsd r / slant_flat c) / ((s_px s + s_py s) / 2 / s_f s))) as (h & Hh).
  destruct (inb (sr_gsd r / slant_flat c / ((s_px s + s_py s) / 2 / s_f s))) as (wp & Hwp).
  assert (UP : forall n, (0 < n)%nat -> 1 <= INR n * (sr_gsd r / slant_flat c) / ((s_px s + s_py s) / 2 / s_f s)).
  { intros n Hn. apply (le_INR 1) in Hn. change (INR 1) with 1 in Hn. replace (INR n * (sr_gsd r / slant_flat c) / ((s_px s + s_py s) / 2 / s_f s))
      with (INR n * (sr_gsd r / slant_flat c / ((s_px s + s_py s) / 2 / s_f s))) by (unfold Rdiv; ring). revert IFs. generalize (sr_gsd r / slant_flat c / ((s_px s + s_py s) / 2 / s_f s)). intros; nra. }
  destruct (coarse_apply T (sr_gsd r) (slant_flat c) (otf_image n_sim v) Np (s_D s / lmin / 750) ((s_px s + s_py s) / 2 / s_f s) p w h wp NT' Hr Hi EP DP Hw Hh Hwp
     (near_up _ _ (UP _ (proj2 NT')) Hw) (near_up _ _ (UP _ (proj1 NT')) Hh) (near_up _ _ IFs Hwp)) as (B & sp & T' & EA & ET & Br & Bc & Tr' & Tc' & BV).
  assert (RB : forall i j, (i < rows B)%nat -> (j < cols B)%nat -> 0 <= px B i j <= s_max_n s).
  { apply (apply_range T (sr_gsd r) Np (slant_flat c) _ Np _ Py _ B sp 0 (s_max_n s) (Rgt_not_eq _ _ Hr) (Rgt_not_eq _ _ Hi) EA).
    - intros psf EP' x y Hx Hy. rewrite EP in EP'. apply ok_inj in EP'. subst psf. destruct DP as (D1 & D2 & D3).
      replace x with 0%nat by lia. replace y with 0%nat by lia. lra.
    - intros i j _ _. apply TV. }
  assert (LM := lam_max_big).
  destruct (g_variance s (ph_bits _ P) (ph_max_n _ P)) as (g & Eg & _).
  exists b, T, B, T', g. split; [split; assumption|]. split; [exact Tr|]. split; [exact Tc|]. split; [intros i j; apply TV|].
  split. { rewrite resample_val by lra. rewrite (half_even_unique _ _ _ (np_round_spec _) Hw), (half_even_unique _ _ _ (np_round_spec _) Hh). exact ET. }
  split; [auto|]. split; [auto|]. split; [intros i j A C; split; [apply BV | apply RB]; assumption|]. split; [exact Eg|].
  intros d. destruct (noise_ok B g (fun i j A C => conj (proj1 (RB i j A C)) (Rle_trans _ _ _ (proj2 (RB i j A C)) (Rle_trans _ _ _ Hm LM))) d) as (Y & EY & Yr & Yc & YV).
  exists Y. split; [|auto]. rewrite HE, EA. cbn [bind]. rewrite Eg, EY. reflexivity.
Qed.

(** ** Failures *)
Lemma sim_dark diag d s c r m : good_camera s -> sound_rows (atm_rows m) -> StronglySorted Rlt (map a_wl (atm_rows m)) ->
  (exists a, In a (atm_rows m) /\ in_band s a) ->
  (forall a x y, In a (atm_rows m) -> in_band s a -> reads (s_owl s) (s_otr s) (a_wl a) x -> reads (s_qwl s) (s_qe s) (a_wl a) y ->
     electrons s x y (a_wl a) (scene_radiance 1 300 a) = 0) ->
  simulate_rest diag d s c r m = Err ValueError.
Proof.
  intros (P & St & _) Sr So Ex Dk. assert (TB := ph_tables _ P).
  assert (GR : good_rows s (atm_rows m)) by (split; [exact Ex|]; intros a I _; specialize (Sr a I); lra).
  destruct (good_band s (atm_rows m) TB GR) as (b & Hb & Hne & Hw & B).
  assert (RC := curves_exist s TB St). destruct RC as [R1 R2].
  unfold simulate_rest. rewrite (r2p_closed s (atm_rows m) b TB (ph_D _ P) (ph_max_n _ P) Hb Hne Hw). cbn [bind].
  unfold simulate_otf. rewrite weights_dark; [reflexivity|].
  intros a Ia. apply B in Ia. destruct Ia as [Ia Ba]. unfold spec_rate. rewrite <- scene_eq.
  rewrite <- (electrons_at s _ _ _ _ TB St (R1 (a_wl a)) (R2 (a_wl a)) (proj1 (Sr a Ia))). apply Dk; auto.
Qed.
Lemma ravel_const a v : (forall i j, (i < rows a)%nat -> (j < cols a)%nat -> px a i j = v) -> ravel a = repeat v (rows a * cols a).
Proof.
  intros H. unfold ravel. assert (R : forall i, (i < rows a)%nat -> map (px a i) (seq 0 (cols a)) = repeat v (cols a)).
  { intros i Hi. rewrite (map_ext_in _ (fun _ => v)) by (intros j Hj; apply in_seq in Hj; apply H; lia).
    generalize (cols a) 0%nat. induction n as [|n IH]; intros k; [reflexivity|]. cbn [seq map repeat]. f_equal. apply IH. }
  assert (G : forall n k, (k + n <= rows a)%nat -> flat_map (fun i => map (px a i) (seq 0 (cols a))) (seq k n) = repeat v (n * cols a)).
  { induction n as [|n IH]; intros k Hk; [reflexivity|]. cbn [seq flat_map]. rewrite R by lia. rewrite IH by lia.
    rewrite <- repeat_app. reflexivity. }
  apply G. lia.
Qed.
Lemma sim_flat diag d s c a gsd v r m : good_camera s -> good_geometry c -> good_scene s (atm_rows m) -> nonempty a ->
  (forall i j, (i < rows a)%nat -> (j < cols a)%nat -> px a i j = v) -> reference_init a gsd None None = Ok r ->
  simulate_rest diag d s c r m = Err NonFinite.
Proof.
  intros GC GG GS [Nr Nc] U Hr. unfold reference_init, ref_image_init in Hr. rewrite (ravel_const a v U) in Hr.
  rewrite !percentile_const in Hr by (try lra; nia). cbn [bind ri_gsd ri_pix ri_refl] in Hr. apply ok_inj in Hr. subst r.
  assert (GC' := GC). destruct GC' as (P & St & _ & Hf & _).
  assert (GK : good_calibration [0; 1] [0; 1]). { split; [reflexivity|]. split; [simpl; lia|]. constructor; [simpl; intros [H|[]]; lra|]. constructor; [simpl; tauto | constructor]. }
  destruct (true_image s (atm_rows m) _ _ a _ _ GC GS GK (curves_exist s (ph_tables _ P) St)) as (b & X & pe & T & Sn & Sb & Ex & E & _).
  assert (So : StronglySorted Rlt (map a_wl b)) by (apply Sn, GS).
  destruct GG as [G1 G2]. assert (GP := flat_good_path c G1 G2).
  destruct (otf_part diag s c b GC GP Sb So Ex) as (lmin & w & o & _ & _ & _ & _ & _ & _ & EO).
  unfold simulate_rest. rewrite E. cbn [bind]. rewrite EO. cbn [bind]. rewrite pydiv_ok by lra. cbn [bind sr_img sr_pix sr_refl].
  destruct (img_to_reflectance a [v; v] [0.05; 0.95]) as [Y|e] eqn:EY; [|discriminate EY]. cbn [bind].
  assert (YD : xrows Y = rows a /\ xcols Y = cols a) by (injection EY as <-; split; reflexivity). destruct YD as [Y1 Y2].
  rewrite mapM_finite. cbn [bind]. rewrite tope_nan; [reflexivity| |lia|lia].
  apply xall_true. intros i j Hi Hj. rewrite (reflectance_flat a v _ _ Y i j EY) by (apply U; lia). reflexivity.
Qed.
Lemma sim_world ni it diag d r s w : simulate_image ni it diag d r s w =
  (fst (step ni it w ReadAtm), let* m := observe ni it w in simulate_rest diag d s (sc (fst (step ni it w ReadAtm))) r m).
Proof.
  unfold simulate_image, observe. destruct (step ni it w ReadAtm) as [w' [o|e]] eqn:E; [|reflexivity]. cbn [fst].
  destruct o as [|l]; [reflexivity|]. destruct (nth_error (heap w') l); reflexivity.
Qed.
Lemma sim_reload ni it diag d r s w w1 out : simulate_image ni it diag d r s w = (w1, out) -> (exists m, observe ni it w = Ok m) ->
  altitude (sc w1) = altitude (sc w) /\ ground_range (sc w1) = ground_range (sc w) /\ plain (sc w1) = plain (sc w) /\
  (loads w1 <= S (loads w))%nat /\ forall d' r' s', fst (simulate_image ni it diag d' r' s' w1) = w1 /\ simulate_image ni it diag d r s w1 = (w1, out).
Proof.
  intros H (m & Hm). rewrite sim_world in H. injection H as H1 H2. 
  unfold observe in Hm, H2. cbn [step] in H1, Hm, H2. destruct (cache (sc w)) as [l|] eqn:C.
  - cbn [fst] in H1. subst w1. repeat split; auto; try (rewrite sim_world; cbn [step]; rewrite C; cbn [fst]; try reflexivity).
    unfold observe. cbn [step]. rewrite C. cbn [fst] in H2. rewrite H2. reflexivity.
  - destruct (if interp (sc w) then _ else _) as [m'|] eqn:L; [|discriminate]. cbn [fst] in H1. subst w1. cbn [sc altitude ground_range plain loads].
    repeat split; auto; rewrite sim_world; cbn [step sc cache fst]; try reflexivity.
    f_equal. unfold observe. cbn [step sc cache]. cbn [fst sc] in H2. exact H2.
Qed.
