(** * Proof_Aper: circular_aperture_OTF against the overlap areas. *)
From Coq Require Import Reals Lra Psatz Bool.
From Coquelicot Require Import Coquelicot.
From Verif Require Import Base_XR Base_Int Model_Geo Model_Otf Spec_Otf Proof_Lens.
Open Scope R_scope.

Lemma radial_fin u v : radial u v = Fin (sqrt (u * u + v * v)).
Proof. unfold radial. apply xsqrt_fin. nra. Qed.

Lemma kdiv_ok k a b : b <> 0 -> kdiv k (Fin a) (Fin b) = Ok (Fin (a / b)).
Proof.
  intros H. unfold kdiv. destruct k.
  - destruct (Reqb b 0) eqn:E; [apply Reqb_true in E; contradiction|].
    rewrite xdiv_fin by auto. reflexivity.
  - rewrite xdiv_fin by auto. reflexivity.
Qed.

(* the a and b terms: scaled lens of two equal discs, 0 outside *)
Definition lens1 (x : R) : R :=
  if Rle_dec x 1 then acos x - x * sqrt (1 - x * x) else 0.

Lemma lens_term c x : 0 <= x ->
  xnan_to_num (xmul (Fin c) (xsub (xacos (Fin x))
     (xmul (Fin x) (xsqrt (xsub (Fin 1) (xsq (Fin x))))))) = Fin (c * lens1 x).
Proof.
  intros Hx. unfold lens1. rewrite xsq_fin, xsub_fin.
  destruct (Rle_dec x 1) as [L | L].
  - rewrite xacos_fin by lra. rewrite xsqrt_fin by nra. reflexivity.
  - rewrite xacos_nan by lra. simpl. f_equal. ring.
Qed.

Lemma acos_le x y : -1 <= x -> x <= y -> y <= 1 -> acos y <= acos x.
Proof.
  intros H1 H2 H3. destruct (Rle_lt_dec (acos y) (acos x)) as [L | L]; [exact L|].
  generalize (acos_bound x) (acos_bound y); intros.
  assert (C : cos (acos y) < cos (acos x)) by (apply cos_decreasing_1; lra).
  rewrite !cos_acos in C by lra. lra.
Qed.

Lemma lens1_range x : 0 <= x -> 0 <= lens1 x <= PI / 2.
Proof.
  intros Hx. unfold lens1. generalize PI_RGT_0; intros P. destruct (Rle_dec x 1) as [L | L]; [|lra].
  generalize (acos_bound x); intros B.
  assert (E : x = cos (acos x)) by (rewrite cos_acos; lra).
  assert (S : sqrt (1 - x * x) = sin (acos x)) by (rewrite sin_acos by lra; reflexivity).
  rewrite S.
  assert (A2 : acos x <= PI / 2).
  { rewrite <- acos_0. apply acos_le; lra. }
  assert (S0 : 0 <= sin (acos x)) by (apply sin_ge_0; lra).
  split; [|nra].
  assert (SL : sin (acos x) <= acos x).
  { generalize (sin_abs_le (acos x)). rewrite !Rabs_right by lra. lra. }
  nra.
Qed.

Lemma lens1_mono x y : 0 <= x <= y -> lens1 y <= lens1 x.
Proof.
  intros [Hx Hxy]. generalize (lens1_range x Hx); intros R0. unfold lens1 in *.
  destruct (Rle_dec y 1) as [Ly | Ly]; destruct (Rle_dec x 1) as [Lx | Lx]; try lra.
  assert (C : forall z, 0 <= z <= 1 -> acos z - z * sqrt (1 - z * z) = (2 * acos z - sin (2 * acos z)) / 2).
  { intros z Hz. rewrite sin_2a, cos_acos, sin_acos by lra. unfold Rsqr. lra. }
  rewrite !C by lra.
  assert (A : acos y <= acos x).
  { apply acos_le; lra. }
  set (a := acos y) in *. set (b := acos x) in *.
  assert (F : sin (2 * b) - sin (2 * a) <= 2 * b - 2 * a).
  { rewrite form4.
    replace ((2 * b - 2 * a) / 2) with (b - a) by lra.
    generalize (sin_abs_le (b - a)) (COS_bound ((2 * b + 2 * a) / 2)). intros S B.
    rewrite (Rabs_right (b - a)) in S by lra.
    generalize (Rle_abs (sin (b - a))) (Rle_abs (- sin (b - a))). rewrite Rabs_Ropp. intros. nra. }
  lra.
Qed.

Lemma lens1_0 : lens1 0 = PI / 2.
Proof. unfold lens1. destruct (Rle_dec 0 1); [|lra]. rewrite acos_0. ring. Qed.
Lemma lens1_out x : 1 <= x -> lens1 x = 0.
Proof.
  intros H. unfold lens1. destruct (Rle_dec x 1); [|reflexivity].
  replace x with 1 by lra. replace (1 - 1 * 1) with 0 by ring. rewrite acos_1, sqrt_0. ring.
Qed.

Lemma lens1_overlap r d : 0 < r -> 0 <= d ->
  disc_overlap r r d = 2 * (r * r) * lens1 (d / (2 * r)).
Proof.
  intros Hr Hd. unfold lens1. destruct (Rle_dec (d / (2 * r)) 1) as [L | L].
  - apply overlap_equal; [lra|]. split; [lra|].
    apply Rmult_le_compat_r with (r := 2 * r) in L; [|lra].
    unfold Rdiv in L. rewrite Rmult_assoc, Rinv_l in L by lra. lra.
  - rewrite Rmult_0_r. apply overlap_disjoint; try lra.
    assert (~ d <= 2 * r); [|lra]. intros Q. apply L.
    apply Rmult_le_reg_r with (2 * r); [lra|]. unfold Rdiv. rewrite Rmult_assoc, Rinv_l by lra. lra.
Qed.

(* argument of the lens: rho / (D / lambda) *)
Definition xarg (u v l D : R) : R := sqrt (u * u + v * v) / (D / l).
Lemma xarg_nonneg u v l D : 0 < l -> 0 < D -> 0 <= xarg u v l D.
Proof.
  intros. unfold xarg. apply Rmult_le_pos; [apply sqrt_pos|].
  left. apply Rinv_0_lt_compat. apply Rdiv_lt_0_compat; lra.
Qed.
Lemma shift_xarg u v l D : 0 < l -> 0 < D -> pupil_shift u v l D = 2 * xarg u v l D.
Proof. intros. unfold pupil_shift, xarg. field. lra. Qed.
Lemma r0_pos l D : 0 < l -> 0 < D -> 0 < D / l.
Proof. intros. apply Rdiv_lt_0_compat; lra. Qed.

Lemma circ_plain k u v l D eta : 0 < l -> 0 < D -> eta <= 0 ->
  circular_aperture_OTF k u v l D eta = Ok (Fin (2 / PI * lens1 (xarg u v l D))).
Proof.
  intros Hl HD He. unfold circular_aperture_OTF. rewrite radial_fin, kdiv_ok by lra.
  cbn [bind]. generalize (r0_pos l D Hl HD); intros R0.
  rewrite (xdiv_fin (sqrt (u * u + v * v)) (D / l)) by lra.
  fold (xarg u v l D). rewrite lens_term by (apply xarg_nonneg; lra).
  destruct (Rltb 0 eta) eqn:E; [apply Rltb_true in E; lra | reflexivity].
Qed.

(* the c term: minus twice the normalised overlap of the unit disc and the
   obscuration *)
Definition c_terms (eta rho r0 : R) : xr * xr :=
  (xmul (Fin (-2 * (eta * eta)))
        (b2x (xlt (Fin rho) (xdiv (xmul (Fin (1 - eta)) (Fin r0)) (Fin 2)))),
   let phi := xacos (xdiv (xdiv (xsub (Fin (1 + eta * eta)) (xsq (xdiv (xmul (Fin 2) (Fin rho)) (Fin r0))))
                               (Fin 2)) (Fin eta)) in
   xmul (xnan_to_num (xsub
     (xsub (xadd (xdiv (xmul (Fin (2 * eta)) (xsin phi)) (Fin PI))
                        (xdiv (xmul (Fin (1 + eta * eta)) phi) (Fin PI)))
                  (Fin (2 * (eta * eta))))
     (xmul (Fin (2 * (1 - eta * eta) / PI))
                  (xatan (xdiv (xmul (Fin (1 + eta)) (xtan (xdiv phi (Fin 2))))
                               (Fin (1 - eta)))))))
     (b2x (xle (Fin rho) (xdiv (xmul (Fin (1 + eta)) (Fin r0)) (Fin 2))))).

Lemma c_value eta rho r0 : 0 < eta < 1 -> 0 <= rho -> 0 < r0 ->
  exists c1 c2, c_terms eta rho r0 = (Fin c1, Fin c2)
   /\ c1 + c2 = - (2 / PI) * disc_overlap 1 eta (2 * (rho / r0)).
Proof.
  intros He Hr H0. generalize PI_RGT_0; intros P.
  set (d := 2 * (rho / r0)).
  assert (Hd : 0 <= d).
  { unfold d. assert (0 <= rho / r0); [|lra].
    apply Rmult_le_pos; [lra|]. left; apply Rinv_0_lt_compat; lra. }
  assert (Rd : rho = d * r0 / 2) by (unfold d; field; lra).
  unfold c_terms. cbv zeta. rewrite !xmul_fin.
  rewrite (xdiv_fin (2 * rho) r0), xsq_fin, xsub_fin by lra.
  rewrite !(xdiv_fin _ 2) by lra. rewrite (xdiv_fin _ eta) by lra.
  rewrite xlt_fin, xle_fin.
  replace (2 * rho / r0) with d by (unfold d; field; lra).
  set (q := (1 + eta * eta - d * d) / 2 / eta).
  assert (Eq : d * d = 1 + eta * eta - 2 * eta * q) by (unfold q; field; lra).
  destruct (Rlt_le_dec d (1 - eta)) as [I | I].
  - (* disc of the obscuration inside *)
    assert (1 < q) by nra. rewrite xacos_nan by lra. simpl.
    assert (T1 : Rltb rho ((1 - eta) * r0 / 2) = true).
    { apply Rltb_true. rewrite Rd. nra. }
    rewrite T1. cbn [b2x]. destruct (Rleb _ _); cbn [b2x];
    (do 2 eexists; split; [reflexivity|]; rewrite overlap_inside by lra; field; lra).
  - assert (T1 : Rltb rho ((1 - eta) * r0 / 2) = false).
    { apply Rltb_false. rewrite Rd. nra. }
    rewrite T1. cbn [b2x].
    destruct (Rlt_le_dec (1 + eta) d) as [O | O].
    + assert (q < -1) by nra. rewrite xacos_nan by lra. simpl.
      destruct (Rleb _ _); cbn [b2x];
      (do 2 eexists; split; [reflexivity|]; rewrite overlap_disjoint by lra; lra).
    + assert (T2 : Rleb rho ((1 + eta) * r0 / 2) = true).
      { apply Rleb_true. rewrite Rd. nra. }
      rewrite T2. cbn [b2x].
      assert (Hq : -1 <= q <= 1) by (split; nra).
      rewrite xacos_fin by lra. set (phi := acos q).
      assert (Cq : cos phi = q) by (unfold phi; apply cos_acos; lra).
      assert (Bp : 0 <= phi <= PI) by (unfold phi; apply acos_bound).
      cbn [xsin]. rewrite !xmul_fin, !(xdiv_fin _ PI) by lra. rewrite (xdiv_fin phi 2) by lra.
      cbn [xtan].
      destruct (Reqb (cos (phi / 2)) 0) eqn:Ec.
      * (* phi = pi: the circles touch from outside *)
        apply Reqb_true in Ec.
        assert (phi = PI).
        { destruct (Req_dec phi PI) as [|N]; auto.
          assert (0 < cos (phi / 2)) by (apply cos_gt_0; lra). lra. }
        assert (d = 1 + eta).
        { rewrite H, cos_PI in Cq. assert (D2 : d * d = (1 + eta) * (1 + eta)) by (rewrite Eq; nra).
          nra. }
        assert (E1 : xmul (Fin (1 + eta)) PInf = PInf).
        { unfold xmul, inf_sgn. replace (Rltb 0 (1 + eta)) with true by (symmetry; apply Rltb_true; lra). reflexivity. }
        rewrite E1.
        assert (E2 : xdiv PInf (Fin (1 - eta)) = PInf).
        { unfold xdiv. replace (Rltb (1 - eta) 0) with false by (symmetry; apply Rltb_false; lra). reflexivity. }
        rewrite E2. cbn [xatan xmul xadd xsub xopp xnan_to_num]. do 2 eexists; split; [reflexivity|].
        rewrite overlap_disjoint by lra. rewrite H, sin_PI. field. lra.
      * apply Reqb_false in Ec.
        rewrite xmul_fin, (xdiv_fin _ (1 - eta)) by lra. cbn [xatan xmul xadd xsub xopp xnan_to_num].
        do 2 eexists; split; [reflexivity|].
        assert (phi < PI).
        { destruct (Req_dec phi PI) as [N|N]; [|lra]. rewrite N in Ec. rewrite cos_PI2 in Ec. lra. }
        rewrite (overlap_unequal eta d phi); try lra.
        field. lra.
        rewrite Cq. exact Eq.
Qed.

Lemma circ_annulus k u v l D eta : 0 < l -> 0 < D -> 0 < eta < 1 ->
  circular_aperture_OTF k u v l D eta
  = Ok (Fin (annulus_overlap eta (pupil_shift u v l D) / (PI * (1 - eta * eta)))).
Proof.
  intros Hl HD He. unfold circular_aperture_OTF. rewrite radial_fin, kdiv_ok by lra.
  cbn [bind]. generalize (r0_pos l D Hl HD) PI_RGT_0; intros R0 P.
  set (rho := sqrt (u * u + v * v)). assert (Hrho : 0 <= rho) by apply sqrt_pos.
  destruct (c_value eta rho (D / l) He Hrho R0) as (c1 & c2 & Ec & Sc).
  unfold c_terms in Ec. cbv zeta in Ec |- *.
  pose proof (f_equal fst Ec) as Ec1. pose proof (f_equal snd Ec) as Ec2.
  cbn [fst snd] in Ec1, Ec2. rewrite Ec1, Ec2.
  rewrite !xdiv_fin by lra.
  assert (X0 : 0 <= rho / (D / l)).
  { apply Rmult_le_pos; [lra|]. left; apply Rinv_0_lt_compat; lra. }
  assert (X1 : 0 <= rho / eta / (D / l)).
  { apply Rmult_le_pos; [|left; apply Rinv_0_lt_compat; lra].
    apply Rmult_le_pos; [lra|]. left; apply Rinv_0_lt_compat; lra. }
  rewrite !lens_term by assumption.
  replace (Rltb 0 eta) with true by (symmetry; apply Rltb_true; lra).
  rewrite !xadd_fin. rewrite xdiv_fin by nra. do 2 f_equal.
  rewrite annulus_incl_excl by lra. rewrite shift_xarg by lra.
  replace (xarg u v l D) with (rho / (D / l)) by reflexivity.
  rewrite !lens1_overlap by lra.
  replace (2 * (rho / (D / l)) / (2 * 1)) with (rho / (D / l)) by lra.
  replace (2 * (rho / (D / l)) / (2 * eta)) with (rho / eta / (D / l)) by (field; lra).
  rewrite (Rplus_assoc _ c1 c2), Sc. field. split; [nra | lra].
Qed.

Lemma circ_disc k u v l D eta : 0 < l -> 0 < D -> eta <= 0 ->
  circular_aperture_OTF k u v l D eta
  = Ok (Fin (disc_overlap 1 1 (pupil_shift u v l D) / PI)).
Proof.
  intros Hl HD He. rewrite circ_plain by auto. do 2 f_equal.
  generalize PI_RGT_0 (xarg_nonneg u v l D Hl HD); intros P X.
  rewrite shift_xarg by auto. rewrite lens1_overlap by lra.
  replace (2 * xarg u v l D / (2 * 1)) with (xarg u v l D) by lra. field. lra.
Qed.

Lemma annulus_0 eta : 0 < eta < 1 -> annulus_overlap eta 0 = PI * (1 - eta * eta).
Proof.
  intros H. rewrite annulus_incl_excl by lra. rewrite !lens1_overlap by lra.
  rewrite overlap_inside by lra. replace (0 / (2 * 1)) with 0 by lra.
  replace (0 / (2 * eta)) with 0 by (unfold Rdiv; ring). rewrite lens1_0. lra.
Qed.
Lemma annulus_far eta d : 0 < eta < 1 -> 2 <= d -> annulus_overlap eta d = 0.
Proof.
  intros H Hd. rewrite annulus_incl_excl by lra. rewrite !overlap_disjoint by lra. ring.
Qed.

Lemma xarg_ge u v l D : 0 < l -> 0 < D -> D / l <= sqrt (u * u + v * v) -> 1 <= xarg u v l D.
Proof.
  intros Hl HD H. generalize (r0_pos l D Hl HD); intros R0. unfold xarg.
  apply Rmult_le_reg_r with (D / l); [lra|].
  replace (sqrt (u * u + v * v) / (D / l) * (D / l)) with (sqrt (u * u + v * v)) by (field; lra).
  lra.
Qed.
Lemma xarg_mono u v u' v' l D : 0 < l -> 0 < D -> u * u + v * v <= u' * u' + v' * v' ->
  xarg u v l D <= xarg u' v' l D.
Proof.
  intros Hl HD H. unfold xarg. apply Rmult_le_compat_r.
  - left; apply Rinv_0_lt_compat, r0_pos; lra.
  - apply sqrt_le_1_alt. lra.
Qed.
