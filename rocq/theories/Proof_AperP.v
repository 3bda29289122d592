(** * Proof_AperP: corollaries stated in Prop_Aper. *)
From Coq Require Import Reals Lra Psatz Bool.
From Coquelicot Require Import Coquelicot.
From Verif Require Import Base_XR Base_Int Model_Geo Model_Otf Spec_Otf Proof_Lens Proof_Aper.
Open Scope R_scope.

Lemma xarg_zero u v l D : u = 0 -> v = 0 -> xarg u v l D = 0.
Proof. intros -> ->. unfold xarg. rewrite Rmult_0_l, Rplus_0_l, sqrt_0. unfold Rdiv; ring. Qed.

Lemma circ_mtf k u v l D eta : 0 < l -> 0 < D -> eta <= 0 ->
  exists h, circular_aperture_OTF k u v l D eta = Ok (Fin h)
    /\ 0 <= h <= 1 /\ (u = 0 -> v = 0 -> h = 1)
    /\ (D / l <= sqrt (u * u + v * v) -> h = 0).
Proof.
  intros Hl HD He. rewrite circ_plain by auto. eexists; split; [reflexivity|].
  generalize PI_RGT_0 (lens1_range _ (xarg_nonneg u v l D Hl HD)); intros P R.
  assert (P2 : 0 < 2 / PI) by (apply Rdiv_lt_0_compat; lra).
  repeat split.
  - apply Rmult_le_pos; lra.
  - apply Rle_trans with (2 / PI * (PI / 2)); [apply Rmult_le_compat_l; lra|]. right; field; lra.
  - intros Hu Hv. rewrite xarg_zero, lens1_0 by auto. field. lra.
  - intros H. rewrite lens1_out by (apply xarg_ge; auto). ring.
Qed.

Lemma circ_mono k u v u' v' l D eta : 0 < l -> 0 < D -> eta <= 0 ->
  u * u + v * v <= u' * u' + v' * v' ->
  exists h h', circular_aperture_OTF k u v l D eta = Ok (Fin h)
    /\ circular_aperture_OTF k u' v' l D eta = Ok (Fin h')
    /\ h' <= h /\ (u * u + v * v = u' * u' + v' * v' -> h' = h).
Proof.
  intros Hl HD He H. rewrite !circ_plain by auto. do 2 eexists.
  split; [reflexivity|]. split; [reflexivity|].
  generalize PI_RGT_0; intros P.
  assert (P2 : 0 < 2 / PI) by (apply Rdiv_lt_0_compat; lra). split.
  - apply Rmult_le_compat_l; [lra|]. apply lens1_mono. split; [apply xarg_nonneg; auto|].
    apply xarg_mono; auto.
  - intros E. unfold xarg. rewrite E. reflexivity.
Qed.

Lemma disc_overlap_full r : 0 < r -> disc_overlap r r 0 = PI * (r * r).
Proof. intros H. apply overlap_inside; lra. Qed.

Lemma circ_annulus_mtf k u v l D eta : 0 < l -> 0 < D -> 0 < eta < 1 ->
  exists h, circular_aperture_OTF k u v l D eta = Ok (Fin h)
    /\ 0 <= h <= 1 /\ (u = 0 -> v = 0 -> h = 1)
    /\ (D / l <= sqrt (u * u + v * v) -> h = 0).
Proof.
  intros Hl HD He. rewrite circ_annulus by auto. eexists; split; [reflexivity|].
  generalize PI_RGT_0 (annulus_bounds eta (pupil_shift u v l D) ltac:(lra)); intros P B.
  assert (Q : 0 < PI * (1 - eta * eta)) by (apply Rmult_lt_0_compat; nra).
  repeat split.
  - apply Rdiv_le_0_compat; lra.
  - apply Rmult_le_reg_r with (PI * (1 - eta * eta)); [lra|].
    unfold Rdiv. rewrite Rmult_assoc, Rinv_l by lra. lra.
  - intros Hu Hv. rewrite shift_xarg, xarg_zero, Rmult_0_r, annulus_0 by auto. field. split; nra.
  - intros H. rewrite annulus_far; [unfold Rdiv; ring | lra |].
    rewrite shift_xarg by auto. generalize (xarg_ge u v l D Hl HD H). lra.
Qed.

Lemma circ_boundary :
  (forall u v D eta, circular_aperture_OTF Py u v 0 D eta = Err ZeroDivisionError)
  /\ (forall k u v l D, 0 < l -> 0 < D ->
       exists x, circular_aperture_OTF k u v l D 1 = Ok x /\ ~ is_fin x).
Proof.
  split.
  - intros. unfold circular_aperture_OTF, kdiv.
    replace (Reqb 0 0) with true by (symmetry; apply Reqb_true; reflexivity). reflexivity.
  - intros k u v l D Hl HD. unfold circular_aperture_OTF. rewrite kdiv_ok by lra. cbn [bind].
    replace (Rltb 0 1) with true by (symmetry; apply Rltb_true; lra).
    eexists; split; [reflexivity|]. replace (1 - 1 * 1) with 0 by ring.
    match goal with |- ~ is_fin (xdiv ?x _) => generalize x end.
    intros x [r E]. destruct x as [y | | |]; simpl in E; try discriminate E.
    + replace (Reqb 0 0) with true in E by (symmetry; apply Reqb_true; reflexivity).
      unfold inf_sgn in E. destruct (Rltb 0 y); [discriminate|]. destruct (Rltb y 0); discriminate.
    + destruct (Rltb 0 0); discriminate E.
    + destruct (Rltb 0 0); discriminate E.
Qed.
