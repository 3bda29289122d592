(** * Num_TestImg: slices, point spread functions, resampling and digital filters on the
    cases of /repo/tests/otf/test_otf.py.

    Left out: one-dimensional arrays where a picture is expected. *)
From Coq Require Import Reals ZArith List Bool Lra Lia FunctionalExtensionality.
From Flocq Require Import Core.Raux.
From Interval Require Import Tactic.
From Verif Require Import Base_XR Base_Np Model_Geo Model_Otf Model_Img Spec_Test Spec_Img Spec_Blur
  Proof_Otf Proof_Filter Proof_Slice Proof_Psf Proof_Weight Proof_Image Proof_ImgX Num_TestTac.
Import ListNotations.
Open Scope R_scope.

Definition ones (n : nat) : img := {| rows := n; cols := n; px := fun _ _ => 1 |}.
Definition table (l : list (list R)) : img :=
  {| rows := length l; cols := length (nth 0 l []); px := fun i j => nth j (nth i l []) 0 |}.

(** ** resample_2D (test_otf.py:320-371) *)
Example test_resample_2d_zero_division :
  resample_2D Py (ones 5) (Fin 0) (Fin 0) = Err ZeroDivisionError
  /\ resample_2D Py (ones 5) (Fin 1) (Fin 0) = Err ZeroDivisionError.
Proof. split; apply resample_zero. Qed.
Example test_resample_2d_cv2_error : resample_2D Py (ones 5) (Fin 0) (Fin 1) = Err CvError.
Proof.
  apply (resample_size Py (ones 5) 0 1 0 0); [split; cbn; lia | lra | | | left; lia];
    (split; [cbn [ones rows cols]; replace (IZR 0 - INR 5 * 0 / 1) with 0 by (simpl INR; lra); rewrite Rabs_R0; lra | intros _; reflexivity]).
Qed.
Example test_resample_2d : returns (fun o => rows o = 5%nat /\ cols o = 5%nat /\
    forall i j, (i < 5)%nat -> (j < 5)%nat -> near (5 / 10 ^ 20) 1 (px o i j)) (resample_2D Py (ones 5) (Fin 1) (Fin 1)).
Proof.
  destruct (resample_same Py (ones 5) 1) as (b & -> & R & C & P); [split; cbn; lia | lra|]. cbn [returns].
  split; [exact R|]. split; [exact C|]. intros i j Hi Hj. rewrite P by assumption. cbn [ones px]. near_num.
Qed.

(** ** slice_otf (1055-1081), angles in radians *)
Lemma slice_2 a b c d ang : slice_otf (table [[a; b]; [c; d]]) ang = Ok [(a + b + c + d) / 4].
Proof.
  rewrite (slice_form (table [[a; b]; [c; d]]) 2 ang eq_refl eq_refl) by lia. change (2 / 2)%nat with 1%nat. cbn [seq map].
  do 2 f_equal. assert (I : forall e, idx e 1 0 = 0) by (intros e; unfold idx; destruct (Rltb _ _) || destruct (Rleb _ _); reflexivity).
  rewrite !I, !Rmult_0_l. unfold bilin. change (INR (2 - 1)) with 1.
  assert (C : cell_of 2 ((0 + 1) / 2 * 1) = 0%nat) by (unfold cell_of; apply Nat.min_0_l).
  cbv zeta. rewrite !C. cbn. lra.
Qed.
Example test_slice_otf :
  returns (fun l => l = [1]) (slice_otf (table [[1; 1]; [1; 1]]) 0)
  /\ returns (fun l => l = [0.5]) (slice_otf (table [[1; 0]; [1; 0]]) 10)
  /\ returns (fun l => l = [0.5]) (slice_otf (table [[1; 0]; [1; 0]]) 180)
  /\ returns (fun l => l = [1]) (slice_otf (table [[1; 1]; [1; 1]]) 360).
Proof. rewrite !slice_2. cbn [returns]. repeat split; f_equal; lra. Qed.

(** ** filter_OTF (2221-2265) *)
Lemma one_tap (c : nat -> nat -> R) :
  Rsum (map (fun a => Rsum (map (fun b => kget [[1]] a b * c a b) (seq 0 100))) (seq 0 100)) = c 0%nat 0%nat.
Proof.
  rewrite (Rsum_single _ 100 0); [|lia|].
  - rewrite (Rsum_single _ 100 0); [|lia|]; [unfold kget; cbn [nth]; ring|].
    intros b _ N. unfold kget. destruct b as [|[|b]]; [congruence | |]; cbn [nth]; ring.
  - intros a _ N. apply Rsum_zero. intros b _. unfold kget. destruct a as [|[|a]]; [congruence | |]; cbn [nth]; destruct b; ring.
Qed.
Lemma one_tap_filter diag u v ifov : 0 < ifov -> filter_OTF diag u v [[1]] ifov = Ok (Fin 1).
Proof.
  intros H. unfold filter_OTF. rewrite pydiv_ok by lra. cbn [bind].
  assert (X : forall i j, xfer [[1]] i j = 1).
  { intros i j. unfold xfer.
    assert (E : forall j k, dft_re [[1]] j k = 1).
    { intros p q. etransitivity; [exact (one_tap (fun a b => cos (2 * PI * (INR (p * a) + INR (q * b)) / INR n_filt)))|]. cbv beta.
      rewrite !Nat.mul_0_r. simpl (INR 0). replace (2 * PI * (0 + 0) / INR n_filt) with 0 by (unfold Rdiv; ring). apply cos_0. }
    assert (F : forall j k, dft_im [[1]] j k = 0).
    { intros p q. transitivity (- sin (2 * PI * (INR (p * 0) + INR (q * 0)) / INR n_filt)).
      - rewrite <- (one_tap (fun a b => - sin (2 * PI * (INR (p * a) + INR (q * b)) / INR n_filt))).
        apply Rsum_map_ext. intros a _. apply Rsum_map_ext. intros b _. ring.
      - rewrite !Nat.mul_0_r. simpl (INR 0). replace (2 * PI * (0 + 0) / INR n_filt) with 0 by (unfold Rdiv; ring). rewrite sin_0. ring. }
    rewrite E, F. replace (1 * 1 + 0 * 0) with 1 by ring. apply sqrt_1. }
  rewrite !X. unfold tri. do 2 f_equal. destruct (diag _ _); destruct (Rleb _ _); ring.
Qed.
Example test_filter_OTF : forall diag,
  returns (is_near (5 / 10 ^ 20) 1) (filter_OTF diag 1 1 [[1]] 1)
  /\ returns (is_near (5 / 10 ^ 20) 0.99975328) (filter_OTF diag 1 1 [[0.5; 0.5]] 10)
  /\ returns (is_near (5 / 10 ^ 20) 1) (filter_OTF diag 10 0.5 [[1]] 1)
  /\ returns (is_near (5 / 10 ^ 20) 1) (filter_OTF diag 10 1 [[1]] 1).
Proof.
  intros diag. rewrite !one_tap_filter by lra.
  assert (K : forall u v, filter_OTF diag u v [[0.5; 0.5]] 10 = filter_OTF diag u v two_tap 10).
  { assert (G : kget [[0.5; 0.5]] = kget two_tap).
    { apply functional_extensionality. intros a. apply functional_extensionality. intros b.
      unfold kget, two_tap. destruct a as [|[|[|a]]]; cbn [nth]; destruct b as [|[|[|b]]]; cbn [nth]; lra. }
    intros u v. unfold filter_OTF, xfer, dft_re, dft_im. rewrite G. reflexivity. }
  rewrite K. replace (filter_OTF diag 1 1 two_tap 10) with (filter_OTF diag (0 + IZR 10 / 10) (0 + IZR 10 / 10) two_tap 10) by (f_equal; lra).
  rewrite filter_periodic, filter_two_tap by lra. cbn [returns is_near].
  repeat split; near_num.
Qed.

(** ** otf_to_psf (473-530) and apply_otf_to_image (378-470) *)
Definition ones_otf (n : nat) : cimg := {| crows := n; ccols := n; re := fun _ _ => 1; im := fun _ _ => 0 |}.
Example test_otf_to_psf_zero_division :
  otf_to_psf_k Py (ones_otf 10) Py 0 (Fin 0) = Err ZeroDivisionError
  /\ otf_to_psf_k Py (ones_otf 10) Py 0 (Fin 1) = Err ZeroDivisionError
  /\ otf_to_psf_k Py (ones_otf 10) Py 1 (Fin 0) = Err ZeroDivisionError.
Proof.
  assert (P : (0 < crows (ones_otf 10))%nat /\ (0 < ccols (ones_otf 10))%nat) by (cbn [ones_otf crows ccols]; lia). destruct P as [P Q].
  split; [apply (proj1 (psf_py_zero (ones_otf 10) 1 (Fin 0) P Q))|].
  split; [apply (proj1 (psf_py_zero (ones_otf 10) 1 (Fin 1) P Q)) | apply (proj2 (psf_py_zero (ones_otf 10) 1 (Fin 1) P Q))].
Qed.

Definition single (k : img) : Prop := rows k = 1%nat /\ cols k = 1%nat /\ px k 0 0 = 1.
Lemma one_pixel n dx : n = 15%nat \/ n = 100%nat -> 1 / 2 < dx <= 1 ->
  returns single (otf_to_psf (ones_otf n) Py 1 (Fin dx)).
Proof.
  intros Hn Hd. assert (N : (11 <= n)%nat) by lia. assert (P : 0 < INR n) by (apply lt_0_INR; lia).
  rewrite otf_to_psf_eq. cbn [ones_otf crows ccols].
  replace (Nat.eqb n 0) with false by (symmetry; apply Nat.eqb_neq; lia). cbn [orb].
  rewrite qdiv_fin by lra. cbn [bind psf_raw rows cols crows ccols ones_otf].
  rewrite !xmul_fin, !xdiv_fin by lra. cbn [xint bind]. unfold py_int.
  replace (INR n * (1 / (INR n * 1)) / dx) with (/ dx) by (field; lra).
  assert (D : 1 <= / dx < 2).
  { split; [rewrite <- Rinv_1; apply Rinv_le_contravar; lra|]. replace 2 with (/ (1 / 2)) by field. apply Rinv_lt_contravar; lra. }
  replace (Ztrunc (/ dx)) with 1%Z
    by (symmetry; rewrite Ztrunc_floor by lra; apply Zfloor_imp; change (1 + 1)%Z with 2%Z; lra).
  change (Z.max 1 1) with 1%Z.
  set (raw := psf_raw (ones_otf n)).
  assert (R : forall i j, (i < n)%nat -> (j < n)%nat -> px raw i j = point (Z.of_nat (n / 2) + 0) (Z.of_nat (n / 2) + 0) i j).
  { apply raw_flat; [reflexivity | reflexivity | exact N | intros; split; reflexivity]. }
  assert (B : exists b, cv_resize raw 1 1 = Ok b /\ rows b = 1%nat /\ cols b = 1%nat /\ px b 0 0 <> 0).
  { unfold cv_resize. change (rows raw) with n. change (cols raw) with n.
    replace (Nat.eqb n 0) with false by (symmetry; apply Nat.eqb_neq; lia). cbn [orb Z.leb Z.compare].
    eexists; split; [reflexivity|]. cbn [rows cols px]. split; [reflexivity|]. split; [reflexivity|].
    change (Z.to_nat 1) with 1%nat. unfold rs_pos. destruct Hn as [-> | ->].
    - replace (Zfloor ((INR 0 + 0.5) * (INR 15 / INR 1) - 0.5)) with 7%Z
        by (symmetry; apply Zfloor_imp; rewrite !INR_IZR_INZ; cbn; lra).
      change (Z.ltb 7 0) with false. change (Z.leb (Z.of_nat 15 - 1) 7) with false. cbv iota.
      change (Z.to_nat 7) with 7%nat. change (7 + 1)%nat with 8%nat.
      rewrite !R by lia. unfold point. change (Z.of_nat (15 / 2) + 0)%Z with 7%Z.
      change (Z.of_nat 7 =? 7)%Z with true. change (Z.of_nat 8 =? 7)%Z with false. cbv iota beta delta [andb].
      replace (INR 0) with 0 by reflexivity. replace (INR 15) with 15 by (rewrite INR_IZR_INZ; reflexivity). replace (INR 1) with 1 by reflexivity. lra.
    - replace (Zfloor ((INR 0 + 0.5) * (INR 100 / INR 1) - 0.5)) with 49%Z
        by (symmetry; apply Zfloor_imp; rewrite !INR_IZR_INZ; cbn; lra).
      change (Z.ltb 49 0) with false. change (Z.leb (Z.of_nat 100 - 1) 49) with false. cbv iota.
      change (Z.to_nat 49) with 49%nat. change (49 + 1)%nat with 50%nat.
      rewrite !R by lia. unfold point. change (Z.of_nat (100 / 2) + 0)%Z with 50%Z.
      change (Z.of_nat 49 =? 50)%Z with false. change (Z.of_nat 50 =? 50)%Z with true. cbv iota beta delta [andb].
      replace (INR 0) with 0 by reflexivity. replace (INR 100) with 100 by (rewrite INR_IZR_INZ; reflexivity). replace (INR 1) with 1 by reflexivity. lra. }
  destruct B as (b & E & Rb & Cb & Pb). change {| rows := n; cols := n; px := _ |} with raw. rewrite E. cbn [bind].
  rewrite Nat.min_id. destruct (crop_sizes n) as [|k0 sizes] eqn:CS; [apply crop_sizes_nil in CS; lia|].
  assert (k0 = 10%nat).
  { unfold crop_sizes in CS. destruct ((n - 10 + 4) / 5)%nat; [discriminate|]. cbn [seq map] in CS. injection CS as <- _. reflexivity. }
  subst k0.
  assert (S : forall a, rows a = 1%nat -> cols a = 1%nat -> isum a = px a 0 0).
  { intros a Ra Ca. unfold isum. rewrite Ra, Ca. cbn [seq map Rsum fold_right]. ring. }
  rewrite (S b Rb Cb). replace (Reqb (px b 0 0) 0) with false by (symmetry; apply Reqb_false; exact Pb).
  cbn [crop_loop].
  assert (M : rows (get_middle (iscale (px b 0 0) b) 10) = 1%nat /\ cols (get_middle (iscale (px b 0 0) b) 10) = 1%nat
    /\ px (get_middle (iscale (px b 0 0) b) 10) 0 0 = 1).
  { unfold get_middle. cbn [iscale rows cols]. rewrite Rb, Cb. cbn. split; [reflexivity|]. split; [reflexivity|]. field. exact Pb. }
  destruct M as (Mr & Mc & Mp). set (mm := get_middle _ 10) in *. rewrite (S mm Mr Mc), Mp.
  replace (Rltb 0.95 1) with true by (symmetry; apply Rltb_true; lra).
  rewrite (S mm Mr Mc), Mp. replace (Reqb 1 0) with false by (symmetry; apply Reqb_false; lra). cbn [returns].
  unfold single. cbn [iscale rows cols px]. split; [exact Mr|]. split; [exact Mc|]. rewrite Mp. field.
Qed.
Example test_otf_to_psf : returns single (otf_to_psf_k Py (ones_otf 15) Py 1 (Fin 1)) /\ returns single (otf_to_psf_k Py (ones_otf 100) Py 1 (Fin 1)).
Proof. rewrite !psf_py_same by lra. split; apply one_pixel; auto; lra. Qed.

Lemma half_angle : 1 / 2 < 2 * atan (1 / 2 / 1) <= 1. Proof. split; [interval | interval]. Qed.
Example test_apply_otf_to_image_zero_division : forall a o df ifov,
  apply_otf_to_image a 0 Py 0 o Py df Py ifov = Err ZeroDivisionError
  /\ apply_otf_to_image a 1 Py 0 o Py df Py ifov = Err ZeroDivisionError
  /\ apply_otf_to_image (ones 100) 0 Py 1 (ones_otf 100) Py 0 Py 0 = Err ZeroDivisionError
  /\ apply_otf_to_image (ones 100) 1 Py 1 (ones_otf 100) Py 1 Py 0 = Err ZeroDivisionError.
Proof.
  intros a o df ifov. split; [apply apply_zero_range|]. split; [apply apply_zero_range|]. split.
  - unfold apply_otf_to_image. unfold qdiv at 1. replace (Reqb 1 0) with false by (symmetry; apply Reqb_false; lra). cbn [bind].
    unfold otf_to_psf, otf_to_psf_k. cbn [ones_otf crows ccols]. change (Nat.eqb 100 0) with false. cbn [orb].
    unfold qdiv at 1. replace (Reqb (INR 100 * 0) 0) with true by (symmetry; apply Reqb_true; ring). reflexivity.
  - assert (H := one_pixel 100 (2 * atan (1 / 2 / 1)) ltac:(auto) half_angle).
    destruct (otf_to_psf _ _ _ _) as [psf|e] eqn:E; [|contradiction].
    apply (apply_zero_ifov _ _ _ _ _ _ psf); [lra | split; cbn [ones rows cols]; lia | exact E].
Qed.
Example test_apply_otf_to_image : returns (fun o => rows (fst o) = 100%nat /\ cols (fst o) = 100%nat /\
    (forall i j, (i < 100)%nat -> (j < 100)%nat -> near (5 / 10 ^ 20) 1 (px (fst o) i j)) /\ single (snd o))
  (apply_otf_to_image (ones 100) 1 Py 1 (ones_otf 100) Py 1 Py 1).
Proof.
  assert (H := one_pixel 100 (2 * atan (1 / 2 / 1)) ltac:(auto) half_angle).
  rewrite apply_val by lra. destruct (otf_to_psf _ _ _ _) as [psf|e]; [|contradiction].
  cbn [returns] in H. destruct H as (Kr & Kc & Kp). cbn [bind].
  assert (Nk : nonempty psf) by (split; lia). assert (Na : nonempty (ones 100)) by (split; cbn [ones rows cols]; lia).
  destruct (filter_ok (ones 100) psf Na Nk) as (b & E & Rb & Cb).
  assert (Pb : forall y x, px b y x = 1).
  { intros y x. unfold filter2D in E. destruct (_ || _ || _ || _)%bool; [discriminate|]. apply ok_inj in E. subst b. cbn [px].
    rewrite Kr, Kc. cbn [seq map Rsum fold_right]. rewrite Kp. cbn [ones px]. ring. }
  rewrite E. cbn [bind]. replace (1 / 1) with 1 by field.
  assert (Nb : nonempty b) by (unfold nonempty; rewrite Rb, Cb; exact Na).
  destruct (resample_same (join Py Py) b 1 Nb) as (sim & -> & Rs & Cs & Ps); [lra|]. cbn [bind].
  destruct (resample_same (join Py Py) psf 1 Nk) as (sp & -> & Rp & Cp & Pp); [lra|]. cbn [bind returns fst snd].
  rewrite Rb in Rs, Ps. rewrite Cb in Cs, Ps. cbn [ones rows cols] in Rs, Cs, Ps.
  split; [exact Rs|]. split; [exact Cs|]. split.
  - intros i j Hi Hj. rewrite Ps, Pb by assumption. near_num.
  - split; [congruence|]. split; [congruence|]. rewrite Pp by lia. exact Kp.
Qed.
