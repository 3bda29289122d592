(** * Proof_CentreX: perfect systems that displace the picture; the whole simulation *)
From Coq Require Import Reals Lra List Lia ZArith Psatz Bool Sorted.
From Flocq Require Import Core.Raux.
From Verif Require Import Base_XR Base_Np Model_Geo Model_Noise Model_Scenario Model_Sensor Model_Rad Model_Db Model_Otf Model_Img Model_Met Model_Sim
  Spec_Rad Spec_Img Spec_Blur Spec_System Spec_Met Spec_Sim Spec_Centre Proof_Otf Proof_Filter Proof_Weight Proof_Psf Proof_Image Proof_ImgX Proof_Sim Proof_SimP Proof_SimX Proof_Native Proof_Centre.
From Verif Require Proof_Pe Proof_Sim Proof_SimT Proof_Whole.
Import ListNotations.
Open Scope R_scope.

(** ** Resizing a point *)
Lemma point_interpolated n c y x : (c < n)%nat -> interpolated n n (point (Z.of_nat c) (Z.of_nat c)) y x = tent (y - INR c) * tent (x - INR c).
Proof.
  intros Hc. unfold interpolated, sum_over. rewrite (Rsum_single _ n c Hc).
  - rewrite (Rsum_single _ n c Hc).
    + unfold point. rewrite !Z.eqb_refl. cbn [andb]. ring.
    + intros j Hj N. unfold point. replace (Z.eqb (Z.of_nat j) (Z.of_nat c)) with false by (symmetry; apply Z.eqb_neq; lia). rewrite andb_false_r. ring.
  - intros i Hi N. apply Rsum_zero. intros j _. unfold point. replace (Z.eqb (Z.of_nat i) (Z.of_nat c)) with false by (symmetry; apply Z.eqb_neq; lia). cbn [andb]. ring.
Qed.
Lemma flat_resized otf n c d : crows otf = n -> ccols otf = n -> n = (2 * c + 1)%nat -> (11 <= n)%nat -> (0 < d)%nat ->
  (forall p q, (p < n)%nat -> (q < n)%nat -> re otf p q = 1 /\ im otf p q = 0) ->
  exists full, cv_resize (psf_raw otf) (Z.of_nat d) (Z.of_nat d) = Ok full /\ rows full = d /\ cols full = d /\
    forall i j, (i < d)%nat -> (j < d)%nat -> px full i j = tent (pixel_position n d i - INR c) * tent (pixel_position n d j - INR c).
Proof.
  intros Er Ec En Hn Hd H.
  destruct (resize_ok (psf_raw otf) (Z.of_nat d) (Z.of_nat d)) as (full & ER & _); [split; cbn [psf_raw rows cols]; lia|lia|lia|].
  destruct (resize_inv _ _ _ _ ER) as (_ & _ & _ & Rr & Rc & _). assert (Rf : rows full = d) by lia. assert (Cf : cols full = d) by lia.
  exists full. split; [exact ER|]. split; [exact Rf|]. split; [exact Cf|]. intros i j Hi Hj. rewrite (resize_tent _ _ _ _ ER) by lia.
  change (rows (psf_raw otf)) with (crows otf). change (cols (psf_raw otf)) with (ccols otf). rewrite Er, Ec, Rf, Cf.
  rewrite <- point_interpolated with (n := n) by lia. unfold interpolated. apply sum_over_ext. intros p q Hp Hq. f_equal.
  rewrite (raw_flat otf n Er Ec Hn H p q Hp Hq). rewrite !Z.add_0_r. replace (n / 2)%nat with c by (apply Nat.div_unique with 1%nat; lia). reflexivity.
Qed.
Lemma position_inner n d i : (0 < d)%nat -> (0 < n)%nat -> (d <= n)%nat -> (i < d)%nat -> pixel_position n d i = (INR i + / 2) * INR n / INR d - / 2.
Proof.
  intros Hd Hn L Hi. unfold pixel_position. assert (P : 0 < INR d) by (apply lt_0_INR; exact Hd). assert (Q : INR d <= INR n) by (apply le_INR; exact L).
  assert (I0 := pos_INR i). assert (I1 : INR i + 1 <= INR d) by (rewrite <- S_INR; apply le_INR; lia).
  assert (A : / 2 <= (INR i + / 2) * INR n / INR d).
  { apply Rmult_le_reg_r with (INR d); [exact P|]. unfold Rdiv. rewrite Rmult_assoc, Rinv_l by lra. nra. }
  assert (B : (INR i + / 2) * INR n / INR d <= INR n - / 2).
  { apply Rmult_le_reg_r with (INR d); [exact P|]. unfold Rdiv. rewrite Rmult_assoc, Rinv_l by lra. nra. }
  rewrite Rmin_right, Rmax_right by lra. reflexivity.
Qed.

(** ** Forward *)
Lemma side_int df dx d : 0 < df -> 0 < dx -> (0 < d)%nat -> df * dx = 1 / INR d -> psf_side df dx = Z.of_nat d.
Proof.
  intros Hf Hd D E. unfold psf_side. rewrite E. assert (P : 0 < INR d) by (apply lt_0_INR; exact D).
  replace (1 / (1 / INR d)) with (IZR (Z.of_nat d)) by (rewrite <- INR_IZR_INZ; field; lra). rewrite Zfloor_IZR. lia.
Qed.
Lemma kernel_forward otf n kd df dx full c : crows otf = n -> ccols otf = n -> (11 <= n)%nat -> 0 < df -> 0 < dx ->
  cv_resize (psf_raw otf) (psf_side df dx) (psf_side df dx) = Ok full -> isum full <> 0 ->
  crop_loop (iscale (isum full) full) (crop_sizes n) None = Some c -> isum c <> 0 -> otf_to_psf otf kd df (Fin dx) = Ok (iscale (isum c) c).
Proof.
  intros Er Ec Hn Hf Hd ER Z0 CL Z1. rewrite otf_to_psf_eq. rewrite Er, Ec.
  replace (Nat.eqb n 0) with false by (symmetry; apply Nat.eqb_neq; lia). cbn [orb]. assert (Pn : 0 < INR n) by (apply lt_0_INR; lia).
  rewrite qdiv_fin by (apply Rgt_not_eq; nra). cbn [bind].
  change (cols (psf_raw otf)) with (ccols otf). change (rows (psf_raw otf)) with (crows otf). rewrite Er, Ec.
  rewrite !xmul_fin, !xdiv_fin by lra. cbn [xint bind]. unfold py_int.
  assert (Q : INR n * (1 / (INR n * df)) / dx = 1 / (df * dx)) by (field; lra). rewrite Q.
  assert (Pd : 0 < df * dx) by (apply Rmult_lt_0_compat; lra).
  rewrite Ztrunc_floor by (apply Rlt_le, Rdiv_lt_0_compat; lra). fold (psf_side df dx). rewrite Nat.min_id, ER. cbn [bind].
  destruct (crop_sizes n) as [|k0 l] eqn:CS; [apply crop_sizes_nil in CS; lia|].
  destruct (Reqb (isum full) 0) eqn:W; [apply Reqb_true in W; contradiction|]. rewrite CL.
  destruct (Reqb (isum c) 0) eqn:V; [apply Reqb_true in V; contradiction|]. reflexivity.
Qed.
Lemma apply_forward T gsd rng otf kd df k F : nonempty T -> 0 < gsd -> 0 < rng ->
  otf_to_psf otf kd df (Fin (2 * atan (gsd / 2 / rng))) = Ok k -> nonempty k -> filter2D T k = Ok F ->
  exists B sp, apply_otf_to_image T gsd Np rng otf kd df Py (gsd / rng) = Ok (B, sp) /\ rows B = rows T /\ cols B = cols T /\
    (forall y x, (y < rows T)%nat -> (x < cols T)%nat -> px B y x = px F y x) /\ rows sp = rows k /\ cols sp = cols k.
Proof.
  intros NT Hg Hr EK NK EF. assert (Q : 0 < gsd / rng) by (apply Rdiv_lt_0_compat; lra). rewrite apply_val by lra. rewrite EK. cbn [bind]. rewrite EF. cbn [bind].
  destruct (filter_inv _ _ _ EF) as (_ & _ & Fr & Fc & _). assert (NF : nonempty F) by (destruct NT; split; lia).
  destruct (resample_same (join Np Py) F (gsd / rng) NF) as (B & -> & Br & Bc & BV); [lra|]. cbn [bind].
  destruct (resample_same (join Np Py) k (gsd / rng) NK) as (sp & -> & Sr & Sc & _); [lra|]. cbn [bind].
  exists B, sp. split; [reflexivity|]. split; [congruence|]. split; [congruence|]. split; [intros y x Hy Hx; apply BV; congruence|]. split; congruence.
Qed.
Lemma atan_half_pos gsd rng : 0 < gsd -> 0 < rng -> 0 < 2 * atan (gsd / 2 / rng).
Proof. intros Hg Hr. assert (0 < atan (gsd / 2 / rng)); [|lra]. rewrite <- atan_0. apply atan_increasing. apply Rdiv_lt_0_compat; lra. Qed.

(** ** One sample fewer: half a pixel *)
Lemma half_tent c i : (5 <= c)%nat -> (i < 2 * c)%nat ->
  tent (pixel_position (2 * c + 1) (2 * c) i - INR c) = if (Nat.eqb i (c - 1) || Nat.eqb i c)%bool then / 2 - / (4 * INR c) else 0.
Proof.
  intros Hc Hi. rewrite position_inner by lia. assert (P : 5 <= INR c) by (replace 5 with (INR 5) by (rewrite INR_IZR_INZ; reflexivity); apply le_INR; exact Hc).
  replace ((INR i + / 2) * INR (2 * c + 1) / INR (2 * c) - / 2 - INR c) with ((INR i - INR c) + (INR i + / 2) / (2 * INR c))
    by (rewrite plus_INR, mult_INR; simpl (INR 2); simpl (INR 1); field; lra).
  destruct (Nat.eqb_spec i (c - 1)) as [->|N1]; cbn [orb]; [|destruct (Nat.eqb_spec i c) as [->|N2]; cbn [orb]].
  - rewrite minus_INR by lia. simpl (INR 1). assert (U : 0 < / (4 * INR c) < / 2).
    { split; [apply Rinv_0_lt_compat; lra|]. apply Rinv_lt_contravar; lra. }
    replace (INR c - 1 - INR c + (INR c - 1 + / 2) / (2 * INR c)) with (- (/ 2 + / (4 * INR c))) by (field; lra).
    rewrite tent_neg by lra. lra.
  - assert (U : 0 < / (4 * INR c) < / 2). { split; [apply Rinv_0_lt_compat; lra|]. apply Rinv_lt_contravar; lra. }
    replace (INR c - INR c + (INR c + / 2) / (2 * INR c)) with (/ 2 + / (4 * INR c)) by (field; lra). rewrite tent_in by lra. lra.
  - apply tent_out. destruct (Nat.le_gt_cases i (c - 2)) as [L|L].
    + assert (L' : INR i + 2 <= INR c) by (replace 2 with (INR 2) by reflexivity; rewrite <- plus_INR; apply le_INR; lia).
      assert (U : (INR i + / 2) / (2 * INR c) <= 1) by (apply Rmult_le_reg_r with (2 * INR c); [lra|]; unfold Rdiv; rewrite Rmult_assoc, Rinv_l by lra; lra).
      assert (V : (INR i + / 2) / (2 * INR c) <= / 2) by (apply Rmult_le_reg_r with (2 * INR c); [lra|]; unfold Rdiv; rewrite Rmult_assoc, Rinv_l by lra; lra).
      rewrite Rabs_left1 by lra. lra.
    + assert (L' : INR c + 1 <= INR i) by (rewrite <- S_INR; apply le_INR; lia). assert (0 < (INR i + / 2) / (2 * INR c)) by (apply Rdiv_lt_0_compat; lra).
      rewrite Rabs_right by lra. lra.
Qed.
Definition two (a : nat) (i : nat) : R := if (Nat.eqb i a || Nat.eqb i (S a))%bool then 1 else 0.
Lemma sum_two n a : (S a < n)%nat -> Rsum (map (two a) (seq 0 n)) = 2.
Proof.
  intros H. rewrite (Rsum_two _ n a); [|lia| |left; exact H].
  - unfold two. rewrite !Nat.eqb_refl, orb_true_r. cbn [orb]. lra.
  - intros i Hi N1 N2. unfold two. rewrite (proj2 (Nat.eqb_neq i a)), (proj2 (Nat.eqb_neq i (S a))) by assumption. reflexivity.
Qed.

Lemma half_kernel otf n c kd df dx : crows otf = n -> ccols otf = n -> n = (2 * c + 1)%nat -> (5 <= c)%nat -> 0 < df -> 0 < dx -> df * dx = 1 / INR (2 * c) ->
  (forall p q, (p < n)%nat -> (q < n)%nat -> re otf p q = 1 /\ im otf p q = 0) ->
  exists k, otf_to_psf otf kd df (Fin dx) = Ok k /\ rows k = 10%nat /\ cols k = 10%nat /\
    forall p q, (p < 10)%nat -> (q < 10)%nat -> px k p q = two 4 p * two 4 q / 4.
Proof.
  intros Er Ec En Hc Hf Hd E H. assert (SD := side_int df dx (2 * c) Hf Hd ltac:(lia) E).
  destruct (flat_resized otf n c (2 * c) Er Ec En ltac:(lia) ltac:(lia) H) as (full & ER & Rf & Cf & FV).
  assert (P : 5 <= INR c) by (replace 5 with (INR 5) by (rewrite INR_IZR_INZ; reflexivity); apply le_INR; exact Hc).
  set (u := / 2 - / (4 * INR c)). assert (U : 0 < u).
  { unfold u. assert (/ (4 * INR c) < / 2); [apply Rinv_lt_contravar; lra|lra]. }
  assert (FV' : forall i j, (i < 2 * c)%nat -> (j < 2 * c)%nat -> px full i j = u * u * (two (c - 1) i * two (c - 1) j)).
  { intros i j Hi Hj. rewrite FV by assumption. rewrite En, !half_tent by lia. fold u. unfold two. replace (S (c - 1)) with c by lia.
    destruct (Nat.eqb i (c - 1) || Nat.eqb i c)%bool; destruct (Nat.eqb j (c - 1) || Nat.eqb j c)%bool; ring. }
  assert (S1 : isum full = 4 * (u * u)).
  { rewrite isum_over, Rf, Cf. rewrite (sum_over_ext _ _ _ _ FV'), sum_over_scal. unfold sum_over.
    rewrite (Rsum_map_ext _ (fun i => two (c - 1) i * 2)).
    - rewrite Rsum_scal, sum_two by lia. ring.
    - intros i _. rewrite <- (sum_two (2 * c) (c - 1)) by lia. rewrite <- Rsum_scal_l. reflexivity. }
  destruct (get_middle_inside (iscale (isum full) full) 10) as (i0 & j0 & A1 & A2 & A3 & A4 & A5 & A6 & A7); [cbn [iscale rows]; lia|cbn [iscale cols]; lia|].
  cbn [iscale rows cols] in A1, A2. rewrite Rf in A1. rewrite Cf in A2. set (m := get_middle (iscale (isum full) full) 10) in *.
  assert (R10 : rows m = 10%nat) by lia. assert (C10 : cols m = 10%nat) by lia.
  assert (MV : forall p q, (p < 10)%nat -> (q < 10)%nat -> px m p q = two 4 p * two 4 q / 4).
  { intros p q Hp Hq. rewrite A7. cbn [iscale px]. rewrite FV' by lia. rewrite S1.
    replace (two (c - 1) (i0 + p)) with (two 4 p). 2:{ unfold two. replace (Nat.eqb (i0 + p) (c - 1)) with (Nat.eqb p 4). replace (Nat.eqb (i0 + p) (S (c - 1))) with (Nat.eqb p 5); [reflexivity|].
      destruct (Nat.eqb_spec p 5); destruct (Nat.eqb_spec (i0 + p) (S (c - 1))); lia. destruct (Nat.eqb_spec p 4); destruct (Nat.eqb_spec (i0 + p) (c - 1)); lia. }
    replace (two (c - 1) (j0 + q)) with (two 4 q). 2:{ unfold two. replace (Nat.eqb (j0 + q) (c - 1)) with (Nat.eqb q 4). replace (Nat.eqb (j0 + q) (S (c - 1))) with (Nat.eqb q 5); [reflexivity|].
      destruct (Nat.eqb_spec q 5); destruct (Nat.eqb_spec (j0 + q) (S (c - 1))); lia. destruct (Nat.eqb_spec q 4); destruct (Nat.eqb_spec (j0 + q) (c - 1)); lia. }
    field. lra. }
  assert (SM : isum m = 1).
  { rewrite isum_over, R10, C10. rewrite (sum_over_ext _ _ _ _ MV). unfold sum_over.
    rewrite (Rsum_map_ext _ (fun i => two 4 i * (2 / 4))).
    - rewrite Rsum_scal, sum_two by lia. field.
    - intros i _. unfold Rdiv. rewrite Rsum_scal, Rsum_scal_l, sum_two by lia. ring. }
  exists (iscale (isum m) m). split.
  - apply (kernel_forward otf n kd df dx full m); auto; try lia; try (rewrite ?S1, ?SM; apply Rgt_not_eq; nra).
    + rewrite SD. exact ER.
    + unfold crop_sizes. destruct ((n - 10 + 4) / 5)%nat eqn:Q.
      { exfalso. assert (1 <= (n - 10 + 4) / 5)%nat by (apply Nat.div_le_lower_bound; lia). lia. }
      cbn [seq map crop_loop Nat.mul Nat.add]. fold m. rewrite SM. destruct (Rltb 0.95 1) eqn:L; [reflexivity|]. apply Rltb_false in L. lra.
  - rewrite SM. cbn [iscale rows cols px]. split; [exact R10|]. split; [exact C10|]. intros p q Hp Hq. rewrite MV by assumption. field.
Qed.
Lemma half_held otf n c : crows otf = n -> ccols otf = n -> n = (2 * c + 1)%nat -> (5 <= c)%nat ->
  (forall p q, (p < n)%nat -> (q < n)%nat -> re otf p q = 1 /\ im otf p q = 0) -> held n (2 * c) (px (psf_raw otf)) 10.
Proof.
  intros Er Ec En Hc H. assert (P : 5 <= INR c) by (replace 5 with (INR 5) by (rewrite INR_IZR_INZ; reflexivity); apply le_INR; exact Hc).
  set (u := / 2 - / (4 * INR c)). assert (U : 0 < u).
  { unfold u. assert (/ (4 * INR c) < / 2); [apply Rinv_lt_contravar; lra|lra]. }
  assert (G : forall i j, (i < 2 * c)%nat -> (j < 2 * c)%nat -> interpolated n n (px (psf_raw otf)) (pixel_position n (2 * c) i) (pixel_position n (2 * c) j) = u * u * (two (c - 1) i * two (c - 1) j)).
  { intros i j Hi Hj. transitivity (interpolated n n (point (Z.of_nat c) (Z.of_nat c)) (pixel_position n (2 * c) i) (pixel_position n (2 * c) j)).
    - unfold interpolated. apply sum_over_ext. intros p q Hp Hq. f_equal. rewrite (raw_flat otf n Er Ec ltac:(lia) H p q Hp Hq). rewrite !Z.add_0_r.
      replace (n / 2)%nat with c by (apply Nat.div_unique with 1%nat; lia). reflexivity.
    - rewrite point_interpolated by lia. rewrite En, !half_tent by lia. fold u. unfold two. replace (S (c - 1)) with c by lia.
      destruct (Nat.eqb i (c - 1) || Nat.eqb i c)%bool; destruct (Nat.eqb j (c - 1) || Nat.eqb j c)%bool; ring. }
  assert (S1 : sum_over (2 * c) (2 * c) (fun i j => u * u * (two (c - 1) i * two (c - 1) j)) = 4 * (u * u)).
  { rewrite sum_over_scal. unfold sum_over. rewrite (Rsum_map_ext _ (fun i => two (c - 1) i * 2)).
    - rewrite Rsum_scal, sum_two by lia. ring.
    - intros i _. rewrite <- (sum_two (2 * c) (c - 1)) by lia. rewrite <- Rsum_scal_l. reflexivity. }
  unfold held. rewrite (sum_over_ext _ _ _ _ G), S1.
  rewrite (sum_over_ext _ _ _ (fun i j => u * u * (two (c - 1) i * two (c - 1) j))).
  - rewrite S1. nra.
  - intros i j Hi Hj. rewrite G by assumption.
    assert (M : forall i, (i < 2 * c)%nat -> in_middle (2 * c) 10 i = true \/ two (c - 1) i = 0).
    { intros z Hz. unfold in_middle, two. destruct (Nat.eqb_spec z (c - 1)); [left; apply Z.leb_le; lia|]. destruct (Nat.eqb_spec z (S (c - 1))); [left; apply Z.leb_le; lia|]. right. reflexivity. }
    destruct (M i Hi) as [-> | ->]; [|rewrite Rmult_0_l, Rmult_0_r; destruct (_ && _)%bool; reflexivity].
    destruct (M j Hj) as [-> | ->]; [reflexivity|]. rewrite !Rmult_0_r. destruct (_ && _)%bool; reflexivity.
Qed.
Lemma sum_four n a (G : nat -> nat -> R) : (S a < n)%nat ->
  sum_over n n (fun p q => two a p * two a q / 4 * G p q) = (G a a + G a (S a) + G (S a) a + G (S a) (S a)) / 4.
Proof.
  intros H. assert (Z : forall p, p <> a -> p <> S a -> two a p = 0).
  { intros p N1 N2. unfold two. rewrite (proj2 (Nat.eqb_neq p a)), (proj2 (Nat.eqb_neq p (S a))) by assumption. reflexivity. }
  assert (T1 : two a a = 1) by (unfold two; rewrite Nat.eqb_refl; reflexivity).
  assert (T2 : two a (S a) = 1) by (unfold two; rewrite Nat.eqb_refl, orb_true_r; reflexivity).
  unfold sum_over. rewrite (Rsum_two _ n a); [|lia| |left; exact H].
  - rewrite !(Rsum_two _ n a); try (left; exact H); try lia.
    + rewrite !T1, !T2. field.
    + intros q _ N1 N2. rewrite (Z q N1 N2). unfold Rdiv. ring.
    + intros q _ N1 N2. rewrite (Z q N1 N2). unfold Rdiv. ring.
  - intros p _ N1 N2. apply Rsum_zero. intros q _. rewrite (Z p N1 N2). unfold Rdiv. ring.
Qed.
Lemma half_pixel T gsd rng otf n kd : nonempty T -> 0 < gsd -> 0 < rng -> crows otf = n -> ccols otf = n -> (11 <= n)%nat -> Nat.odd n = true ->
  (forall p q, (p < n)%nat -> (q < n)%nat -> re otf p q = 1 /\ im otf p q = 0) ->
  exists B sp, apply_otf_to_image T gsd Np rng otf kd (1 / (INR (n - 1) * (2 * atan (gsd / 2 / rng)))) Py (gsd / rng) = Ok (B, sp) /\
    rows B = rows T /\ cols B = cols T /\ rows sp = 10%nat /\ cols sp = 10%nat /\
    forall y x, (1 <= y < rows T)%nat -> (1 <= x < cols T)%nat ->
      px B y x = (px T (y - 1)%nat (x - 1)%nat + px T (y - 1)%nat x + px T y (x - 1)%nat + px T y x) / 4.
Proof.
  intros NT Hg Hr Er Ec Hn On H. assert (A := atan_half_pos gsd rng Hg Hr). apply Nat.odd_spec in On. destruct On as (c & En).
  assert (Pn : 0 < INR (n - 1)) by (apply lt_0_INR; lia).
  destruct (half_kernel otf n c kd (1 / (INR (n - 1) * (2 * atan (gsd / 2 / rng)))) (2 * atan (gsd / 2 / rng)) Er Ec En ltac:(lia)) as (k & EK & Rk & Ck & KV).
  { apply Rdiv_lt_0_compat; [lra|]. apply Rmult_lt_0_compat; lra. } { exact A. }
  { replace (2 * c)%nat with (n - 1)%nat by lia. revert A Pn. generalize (2 * atan (gsd / 2 / rng)) (INR (n - 1)). intros a b Ha Hb. field. lra. } { exact H. }
  assert (NK : nonempty k) by (split; lia). destruct (filter_ok T k NT NK) as (F & EF & Fr & Fc).
  destruct (apply_forward T gsd rng otf kd _ k F NT Hg Hr EK NK EF) as (B & sp & EA & Br & Bc & BV & Sr & Sc).
  exists B, sp. split; [exact EA|]. split; [exact Br|]. split; [exact Bc|]. split; [congruence|]. split; [congruence|]. intros y x Hy Hx. rewrite BV by lia. rewrite (filter_at _ _ _ _ _ EF), Rk, Ck.
  change (10 / 2)%nat with 5%nat.
  rewrite (sum_over_ext 10 10 _ (fun p q => two 4 p * two 4 q / 4 * px T (reflect101 (rows T) (Z.of_nat y + Z.of_nat p - Z.of_nat 5)) (reflect101 (cols T) (Z.of_nat x + Z.of_nat q - Z.of_nat 5)))).
  2:{ intros p q Hp Hq. rewrite KV by assumption. reflexivity. }
  rewrite sum_four by lia. replace (Z.of_nat y + Z.of_nat 4 - Z.of_nat 5)%Z with (Z.of_nat (y - 1)) by lia. replace (Z.of_nat y + Z.of_nat 5 - Z.of_nat 5)%Z with (Z.of_nat y) by lia.
  replace (Z.of_nat x + Z.of_nat 4 - Z.of_nat 5)%Z with (Z.of_nat (x - 1)) by lia. replace (Z.of_nat x + Z.of_nat 5 - Z.of_nat 5)%Z with (Z.of_nat x) by lia.
  rewrite !reflect_inside by lia. reflexivity.
Qed.

(** ** Few samples: whole pixels *)
Lemma odd_tent c e i : (e <= c)%nat -> (i < 2 * e + 1)%nat ->
  tent (pixel_position (2 * c + 1) (2 * e + 1) i - INR c) = if Nat.eqb i e then 1 else 0.
Proof.
  intros Hc Hi. rewrite position_inner by lia. assert (P : INR e <= INR c) by (apply le_INR; exact Hc). assert (P0 := pos_INR e).
  replace ((INR i + / 2) * INR (2 * c + 1) / INR (2 * e + 1) - / 2 - INR c) with ((INR i - INR e) * ((2 * INR c + 1) / (2 * INR e + 1)))
    by (rewrite !plus_INR, !mult_INR; simpl (INR 2); simpl (INR 1); field; lra).
  assert (Q : 1 <= (2 * INR c + 1) / (2 * INR e + 1)).
  { apply Rmult_le_reg_r with (2 * INR e + 1); [lra|]. unfold Rdiv. rewrite Rmult_assoc, Rinv_l by lra. lra. }
  destruct (Nat.eqb_spec i e) as [->|N].
  - replace (INR e - INR e) with 0 by ring. rewrite Rmult_0_l. rewrite tent_in by lra. ring.
  - apply tent_out. rewrite Rabs_mult, (Rabs_right ((2 * INR c + 1) / (2 * INR e + 1))) by lra.
    assert (1 <= Rabs (INR i - INR e)).
    { rewrite !INR_IZR_INZ, <- minus_IZR, <- abs_IZR. apply IZR_le. lia. }
    nra.
Qed.
Lemma corner a e d k : rows a = d -> cols a = d -> (forall i j, (i < d)%nat -> (j < d)%nat -> px a i j = point (Z.of_nat e) (Z.of_nat e) i j) ->
  (0 < d < k)%nat -> (e < d)%nat -> (k < 3 * d)%nat ->
  let i0 := Z.to_nat ((3 * Z.of_nat d - Z.of_nat k) / 2) in
  rows (get_middle a k) = (d - i0)%nat /\ cols (get_middle a k) = (d - i0)%nat /\
  (forall p q, (p < d - i0)%nat -> (q < d - i0)%nat -> px (get_middle a k) p q = point (Z.of_nat e - Z.of_nat i0) (Z.of_nat e - Z.of_nat i0) p q) /\
  isum (get_middle a k) = if Nat.leb i0 e then 1 else 0.
Proof.
  intros Er Ec H Hd He Hk i0. destruct (get_middle_outside a k) as (i & j & A & B & C & D & E); [lia|lia|]. rewrite Er in A, C. rewrite Ec in B, D.
  assert (Z0 : (0 <= (3 * Z.of_nat d - Z.of_nat k) / 2)%Z) by (apply Z.div_pos; lia).
  assert (Ei : i = i0) by (unfold i0; lia). assert (Ej : j = i0) by (unfold i0; lia). clearbody i0. subst i j. clear A B Z0.
  assert (V : forall p q, (p < d - i0)%nat -> (q < d - i0)%nat -> px (get_middle a k) p q = point (Z.of_nat e - Z.of_nat i0) (Z.of_nat e - Z.of_nat i0) p q).
  { intros p q Hp Hq. rewrite E, H by lia. unfold point.
    assert (Q : forall r, Z.eqb (Z.of_nat (i0 + r)) (Z.of_nat e) = Z.eqb (Z.of_nat r) (Z.of_nat e - Z.of_nat i0)).
    { intros r. apply eq_true_iff_eq. rewrite !Z.eqb_eq. lia. }
    rewrite !Q. reflexivity. }
  split; [lia|]. split; [lia|]. split; [exact V|]. rewrite isum_over. replace (rows (get_middle a k)) with (d - i0)%nat by lia. replace (cols (get_middle a k)) with (d - i0)%nat by lia.
  rewrite (sum_over_ext _ _ _ _ V). destruct (Nat.leb_spec i0 e).
  - apply sum_point; lia.
  - unfold sum_over. apply Rsum_zero. intros p _. apply Rsum_zero. intros q _. unfold point.
    replace (Z.eqb (Z.of_nat p) (Z.of_nat e - Z.of_nat i0)) with false by (symmetry; apply Z.eqb_neq; lia). reflexivity.
Qed.
Lemma filter_dot T k F z : filter2D T k = Ok F -> (z < rows k)%nat -> (z < cols k)%nat ->
  (forall p q, (p < rows k)%nat -> (q < cols k)%nat -> px k p q = point (Z.of_nat z) (Z.of_nat z) p q) ->
  forall y x, px F y x = px T (reflect101 (rows T) (Z.of_nat y + Z.of_nat z - Z.of_nat (rows k / 2))) (reflect101 (cols T) (Z.of_nat x + Z.of_nat z - Z.of_nat (cols k / 2))).
Proof.
  intros EF Hr Hc HP y x. rewrite (filter_at _ _ _ _ _ EF). unfold sum_over. rewrite (Rsum_single _ (rows k) z); [|exact Hr|].
  - rewrite (Rsum_single _ (cols k) z); [|exact Hc|].
    + rewrite HP by assumption. unfold point. rewrite !Z.eqb_refl. cbn [andb]. ring.
    + intros q Hq N. rewrite HP by assumption. unfold point. replace (Z.eqb (Z.of_nat q) (Z.of_nat z)) with false by (symmetry; apply Z.eqb_neq; lia). rewrite andb_false_r. ring.
  - intros p Hp N. apply Rsum_zero. intros q Hq. apply in_seq in Hq. rewrite HP by lia. unfold point.
    replace (Z.eqb (Z.of_nat p) (Z.of_nat z)) with false by (symmetry; apply Z.eqb_neq; lia). cbn [andb]. ring.
Qed.
Lemma three_crops n : (21 <= n)%nat -> exists l, crop_sizes n = 10%nat :: 15%nat :: 20%nat :: l.
Proof.
  intros H. unfold crop_sizes. assert (3 <= (n - 10 + 4) / 5)%nat by (apply Nat.div_le_lower_bound; lia).
  destruct ((n - 10 + 4) / 5)%nat as [|[|[|q]]]; [lia|lia|lia|]. cbn [seq map Nat.mul Nat.add]. eexists. reflexivity.
Qed.
Lemma few_loop a l d s : few d s -> rows a = d -> cols a = d ->
  (forall i j, (i < d)%nat -> (j < d)%nat -> px a i j = point (Z.of_nat (d / 2)) (Z.of_nat (d / 2)) i j) ->
  exists m h z, crop_loop a (10%nat :: 15%nat :: 20%nat :: l) None = Some m /\ isum m = 1 /\ rows m = h /\ cols m = h /\ (z < h)%nat /\ (z + s = h / 2)%nat /\
    forall p q, (p < h)%nat -> (q < h)%nat -> px m p q = point (Z.of_nat z) (Z.of_nat z) p q.
Proof.
  intros FW Er Ec H.
  assert (L1 : Rltb 0.95 1 = true) by (apply Rltb_true; lra). assert (L0 : Rltb 0.95 0 = false) by (apply Rltb_false; lra).
  cbn [crop_loop]. destruct FW as [[-> ->]|[[-> ->]|[-> ->]]].
  - destruct (corner a 2 5 10 Er Ec H) as (A1 & A2 & A3 & A4); try lia. cbv in A1, A2. change (Nat.leb _ 2) with true in A4. cbv iota in A4.
    change (Z.to_nat ((3 * Z.of_nat 5 - Z.of_nat 10) / 2)) with 2%nat in A3.
    rewrite A4, L1. exists (get_middle a 10), 3%nat, 0%nat. repeat split; auto; try lia. 
  - destruct (corner a 3 7 10 Er Ec H) as (_ & _ & _ & A4); try lia. change (Nat.leb _ 3) with false in A4. cbv iota in A4. rewrite A4, L0.
    destruct (corner a 3 7 15 Er Ec H) as (A1 & A2 & A3 & B4); try lia. change (Nat.leb _ 3) with true in B4. cbv iota in B4.
    change (Z.to_nat ((3 * Z.of_nat 7 - Z.of_nat 15) / 2)) with 3%nat in *.
    rewrite B4, L1. exists (get_middle a 15), 4%nat, 0%nat. repeat split; auto; try lia.
  - destruct (corner a 4 9 10 Er Ec H) as (_ & _ & _ & A4); try lia. change (Nat.leb _ 4) with false in A4. cbv iota in A4. rewrite A4, L0.
    destruct (corner a 4 9 15 Er Ec H) as (_ & _ & _ & B4); try lia. change (Nat.leb _ 4) with false in B4. cbv iota in B4. rewrite B4, L0.
    destruct (corner a 4 9 20 Er Ec H) as (A1 & A2 & A3 & C4); try lia. change (Nat.leb _ 4) with true in C4. cbv iota in C4.
    change (Z.to_nat ((3 * Z.of_nat 9 - Z.of_nat 20) / 2)) with 3%nat in *.
    rewrite C4, L1. exists (get_middle a 20), 6%nat, 1%nat. repeat split; auto; try lia.
Qed.
Lemma few_pixels T gsd rng otf n kd d s : nonempty T -> 0 < gsd -> 0 < rng -> crows otf = n -> ccols otf = n -> (21 <= n)%nat -> Nat.odd n = true -> few d s ->
  (forall p q, (p < n)%nat -> (q < n)%nat -> re otf p q = 1 /\ im otf p q = 0) ->
  exists B sp, apply_otf_to_image T gsd Np rng otf kd (1 / (INR d * (2 * atan (gsd / 2 / rng)))) Py (gsd / rng) = Ok (B, sp) /\
    rows B = rows T /\ cols B = cols T /\
    forall y x, (s <= y < rows T)%nat -> (s <= x < cols T)%nat -> px B y x = px T (y - s)%nat (x - s)%nat.
Proof.
  intros NT Hg Hr Er Ec Hn On FW H. assert (A := atan_half_pos gsd rng Hg Hr). apply Nat.odd_spec in On. destruct On as (c & En).
  assert (De : exists e, d = (2 * e + 1)%nat /\ (d / 2 = e)%nat /\ (2 <= e <= 4)%nat).
  { destruct FW as [[-> ->]|[[-> ->]|[-> ->]]]; [exists 2%nat|exists 3%nat|exists 4%nat]; repeat split; lia. }
  destruct De as (e & Ed & Eh & He). assert (Pd : 0 < INR d) by (apply lt_0_INR; lia).
  set (dx := 2 * atan (gsd / 2 / rng)) in *. set (df := 1 / (INR d * dx)).
  assert (Hf : 0 < df) by (apply Rdiv_lt_0_compat; [lra|]; apply Rmult_lt_0_compat; lra).
  assert (SD : psf_side df dx = Z.of_nat d) by (apply side_int; auto; try lia; unfold df; field; lra).
  destruct (flat_resized otf n c d Er Ec En ltac:(lia) ltac:(lia) H) as (full & ER & Rf & Cf & FV).
  assert (FV' : forall i j, (i < d)%nat -> (j < d)%nat -> px full i j = point (Z.of_nat (d / 2)) (Z.of_nat (d / 2)) i j).
  { intros i j Hi Hj. rewrite FV by assumption. rewrite Eh, En, Ed, !odd_tent by lia. unfold point.
    replace (Z.eqb (Z.of_nat i) (Z.of_nat e)) with (Nat.eqb i e) by (apply eq_true_iff_eq; rewrite Nat.eqb_eq, Z.eqb_eq; lia).
    replace (Z.eqb (Z.of_nat j) (Z.of_nat e)) with (Nat.eqb j e) by (apply eq_true_iff_eq; rewrite Nat.eqb_eq, Z.eqb_eq; lia).
    destruct (Nat.eqb i e); destruct (Nat.eqb j e); cbn [andb]; ring. }
  assert (S1 : isum full = 1).
  { rewrite isum_over, Rf, Cf, (sum_over_ext _ _ _ _ FV'). apply sum_point; lia. }
  destruct (three_crops n Hn) as (l & CS).
  destruct (few_loop (iscale (isum full) full) l d s FW Rf Cf) as (m & h & z & CL & SM & Rm & Cm & Lz & Es & MV).
  { intros i j Hi Hj. cbn [iscale px]. rewrite FV', S1 by assumption. field. }
  assert (EK : otf_to_psf otf kd df (Fin dx) = Ok (iscale (isum m) m)).
  { apply (kernel_forward otf n kd df dx full m); auto; try lia; [rewrite SD; exact ER|rewrite S1; lra|rewrite CS; exact CL|rewrite SM; lra]. }
  set (k := iscale (isum m) m) in *. assert (NK : nonempty k) by (split; cbn [k iscale rows cols]; lia). destruct (filter_ok T k NT NK) as (F & EF & Fr & Fc).
  destruct (apply_forward T gsd rng otf kd df k F NT Hg Hr EK NK EF) as (B & sp & EA & Br & Bc & BV & Sr & Sc).
  exists B, sp. split; [exact EA|]. split; [exact Br|]. split; [exact Bc|]. intros y x Hy Hx. rewrite BV by lia.
  rewrite (filter_dot T k F z EF); [|cbn [k iscale rows]; lia|cbn [k iscale cols]; lia|].
  - cbn [k iscale rows cols]. rewrite Rm, Cm, <- Es. replace (Z.of_nat y + Z.of_nat z - Z.of_nat (z + s))%Z with (Z.of_nat (y - s)) by lia.
    replace (Z.of_nat x + Z.of_nat z - Z.of_nat (z + s))%Z with (Z.of_nat (x - s)) by lia. rewrite !reflect_inside by lia. reflexivity.
  - intros p q Hp Hq. cbn [k iscale rows cols px] in *. rewrite SM, MV by lia. field.
Qed.

(** ** The whole simulation *)
Lemma shortest_result diag s c all ref pe wl w otf df tr q : good_camera s -> good_geometry c -> good_scene s all -> response_curves s tr q ->
  reflectance_to_photoelectrons all s (s_int_time s) 300 = Ok (ref, pe, (wl, w)) -> simulate_otf diag s c wl w = Ok (otf, df) ->
  exists a0, shortest_seen s tr q all a0 /\ df = s_D s / a_wl a0 / 750.
Proof.
  intros GC GG GS Rc E EO. assert (GC' := GC). destruct GC' as (P & St & _).
  assert (GK : good_calibration [0; 1] [0; 1]). { split; [reflexivity|]. split; [simpl; lia|]. constructor; [simpl; intros [H|[]]; lra|]. constructor; [simpl; tauto | constructor]. }
  destruct (Proof_SimT.true_image s all _ _ {| rows := 0; cols := 0; px := fun _ _ => 0 |} _ _ GC GS GK Rc)
    as (b & X & pe' & T & Sn & Sb & Ex & E' & _).
  rewrite E in E'. apply ok_inj in E'. injection E' as -> -> -> ->.
  assert (So : StronglySorted Rlt (map a_wl b)) by (apply Sn, GS).
  destruct GG as [G1 G2]. assert (GP := Proof_Sim.flat_good_path c G1 G2).
  destruct (Proof_SimT.otf_part diag s c b GC GP Sb So Ex) as (lmin & v & o & Im & Lm & Pm & Eo & Ev & Lv & EO').
  rewrite EO in EO'. apply ok_inj in EO'. injection EO' as -> ->.
  destruct (Proof_Whole.spectrum_scale s tr q b (ph_tables _ P) St Rc (fun a I => proj1 (Sb a I)) Ex) as (k & Hk & Ek).
  assert (IP : map fst (Proof_SimT.ps_of s b) = map fst (Spec_Whole.charge_spectrum s tr q (scene_radiance 1 300) b)) by (rewrite Ek, map_map; reflexivity).
  assert (In' : forall a, In a b -> 0 < electrons s (tr (a_wl a)) (q (a_wl a)) (a_wl a) (scene_radiance 1 300 a) -> lmin <= a_wl a).
  { intros a Ia Pa. assert (H : In (a_wl a) (map fst (Proof_SimT.ps_of s b))).
    { rewrite IP. apply in_map_iff. exists (a_wl a, electrons s (tr (a_wl a)) (q (a_wl a)) (a_wl a) (scene_radiance 1 300 a)). split; [reflexivity|].
      unfold Spec_Whole.charge_spectrum. apply filter_In. split; [apply in_map_iff; exists a; auto|]. cbn [snd]. destruct (Rlt_dec 0 _); [reflexivity | contradiction]. }
    apply in_map_iff in H. destruct H as (p & <- & Hp). apply Lm. exact Hp. }
  rewrite IP in Im. apply in_map_iff in Im. destruct Im as (p & El & Hp). unfold Spec_Whole.charge_spectrum in Hp. apply filter_In in Hp. destruct Hp as [Hp Hp'].
  apply in_map_iff in Hp. destruct Hp as (a0 & <- & Ia). cbn [fst snd] in *. destruct (Rlt_dec 0 _) as [Pa|]; [|discriminate Hp'].
  destruct Sn as [Bi _]. exists a0. split; [|rewrite El; reflexivity]. split.
  - destruct (proj1 (Bi a0) Ia) as [A1 A2]. auto.
  - intros a (A1 & A2 & A3). rewrite El. apply In'; [|exact A3]. apply Bi. auto.
Qed.
Lemma sim_plane ni it diag d r s w w1 m T B X tr q : simulate_image ni it diag d r s w = (w1, Ok (T, B, X)) -> observe ni it w = Ok m ->
  good_camera s -> good_geometry (sc w) -> good_scene s (atm_rows m) -> (length (s_kernel s) <= 1)%nat -> 0 < sr_gsd r ->
  (s_px s + s_py s) / 2 * slant_flat (sc w) = sr_gsd r * s_f s -> response_curves s tr q ->
  let dx := 2 * atan (sr_gsd r / 2 / slant_flat (sc w)) in
  (forall a, shortest_seen s tr q (atm_rows m) a -> middle_anyway (frame_pixels s dx a)) ->
  rows B = rows T /\ cols B = cols T /\
  exists a0, shortest_seen s tr q (atm_rows m) a0 /\ let z := Z.max 1 (Zfloor (frame_pixels s dx a0)) in
  exists h v, (0 < h <= Nat.min 1501 (Z.to_nat z))%nat /\ (0 < v <= Nat.min 1501 (Z.to_nat z))%nat /\
    forall a b c y x, plane_near (rows T) (cols T) (px T) h v a b c y x ->
      px B y x = ramp a b c (INR y - lag z) (INR x - lag z).
Proof.
  intros H O GC GG GS K Hg EM Rc dx NW. assert (H' := H). rewrite sim_world in H'. apply pair_equal_spec in H'. destruct H' as [W1 H'].
  rewrite O in H'. cbn [bind] in H'. rewrite W1 in H'. destruct (sim_reload ni it diag d r s w w1 _ H (ex_intro _ m O)) as (A1 & A2 & _).
  assert (SF : slant_flat (sc w1) = slant_flat (sc w)) by (unfold slant_flat; rewrite A1, A2; reflexivity).
  assert (GG1 : good_geometry (sc w1)) by (unfold good_geometry; rewrite A1, A2; exact GG).
  assert (Hr := range_pos _ GG). unfold simulate_rest in H'.
  destruct (reflectance_to_photoelectrons (atm_rows m) s (s_int_time s) 300) as [[[ref pe] [wl ww]]|] eqn:EP; [|discriminate]. cbn [bind] in H'.
  destruct (simulate_otf diag s (sc w1) wl ww) as [[otf df]|] eqn:EO; [|discriminate]. cbn [bind] in H'.
  destruct (pydiv ((s_px s + s_py s) / 2) (s_f s)) as [ifov|] eqn:Ei; [|discriminate]. cbn [bind] in H'.
  destruct (img_to_reflectance _ _ _) as [ri|]; [|discriminate]. cbn [bind] in H'. destruct (mapM finite pe) as [pf|]; [|discriminate]. cbn [bind] in H'.
  destruct (to_photoelectrons _ _ _) as [T'|]; [|discriminate]. cbn [bind] in H'.
  destruct (apply_otf_to_image _ _ _ _ _ _ _ _ _) as [[B' sp]|] eqn:EA; [|discriminate]. cbn [bind] in H'.
  destruct (add_noise _ _ _) as [X'|]; [|discriminate]. cbn [bind] in H'. apply ok_inj in H'. apply pair_equal_spec in H'. destruct H' as [H' _].
  apply pair_equal_spec in H'. destruct H' as [-> ->].
  destruct (sim_otf_facts diag s (sc w1) (atm_rows m) ref pe wl ww otf df GC GG1 GS K EP EO) as (Nr & Nc & Pf & _ & SY & _).
  destruct (shortest_result diag s (sc w1) (atm_rows m) ref pe wl ww otf df tr q GC GG1 GS Rc EP EO) as (a0 & SS & Edf).
  assert (Pm : 0 < a_wl a0) by (destruct GS as (SR & _); apply SR, SS).
  assert (Adx : 0 < dx) by (apply atan_half_pos; assumption).
  assert (GD : 0 < s_D s) by (destruct GC as (_ & _ & GO & _); apply GO). assert (GF : 0 < s_f s) by (destruct GC as (_ & _ & _ & GF & _); exact GF).
  assert (PS : psf_side df dx = Z.max 1 (Zfloor (frame_pixels s dx a0))).
  { unfold psf_side, frame_pixels. rewrite Edf. f_equal. f_equal. field. lra. }
  assert (KM : kept_middle 1501 (px (psf_raw otf)) (psf_side df dx)).
  { rewrite PS. destruct (NW a0 SS) as [N|[N|N]].
    - left. apply Z.max_lub; [lia|]. assert (Zfloor (frame_pixels s dx a0) < 4)%Z; [|lia]. apply lt_IZR. eapply Rle_lt_trans; [apply Zfloor_lb|exact N].
    - right. left. apply Z.le_trans with (Zfloor (frame_pixels s dx a0)); [|lia]. apply Zfloor_lub. exact N.
    - right. right. left. rewrite Z.max_r; [exact N|]. destruct N as [N _]. lia. }
  rewrite SF in EA. assert (Ei' : ifov * slant_flat (sc w) = sr_gsd r).
  { rewrite pydiv_ok in Ei by lra. apply ok_inj in Ei. subst ifov. apply Rmult_eq_reg_r with (s_f s); [|lra]. rewrite <- EM. field. lra. }
  destruct (apply_plane T (sr_gsd r) (slant_flat (sc w)) otf 1501 Np df ifov B sp Hg Hr Pf Ei' Nr Nc eq_refl) as (Br & Bc & R1 & R2 & _ & _ & PL).
  - intros p q0 Hp Hq. apply SY; lia.
  - exact KM.
  - exact EA.
  - fold dx in PL. rewrite PS in PL. split; [exact Br|]. split; [exact Bc|]. exists a0. split; [exact SS|]. exists (rows sp), (cols sp). fold dx in R1, R2. rewrite PS in R1, R2. auto 10.
Qed.
