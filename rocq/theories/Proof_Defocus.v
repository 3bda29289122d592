(** * Proof_Defocus: circular_aperture_OTF_with_defocus. *)
From Coq Require Import Reals Lra Psatz Bool Lia.
From Coquelicot Require Import Coquelicot.
From Verif Require Import Base_XR Base_Int Model_Geo Model_Otf Spec_Otf Proof_Lens Proof_Aper.
Open Scope R_scope.

(** ** Zero defocus *)
Lemma defocus_denominator_pos fD : 0 < 1 + 4 * (fD * fD).
Proof. nra. Qed.

Lemma half_double x r : xmul (Fin (1 / 2)) (xdiv (xmul (Fin 2) (Fin x)) (Fin r)) = xdiv (Fin x) (Fin r).
Proof.
  rewrite xmul_fin. unfold xdiv. destruct (Reqb r 0) eqn:E.
  - unfold inf_sgn. repeat rcase; try lra; try reflexivity.
    + simpl. unfold inf_sgn. rcase; [reflexivity | lra].
    + simpl. unfold inf_sgn. repeat rcase; try lra; reflexivity.
  - apply Reqb_false in E. simpl. f_equal. field. exact E.
Qed.
Lemma half_double_inf x r : r = PInf \/ r = NInf \/ r = NaN ->
  xmul (Fin (1 / 2)) (xdiv (xmul (Fin 2) (Fin x)) r) = xdiv (Fin x) r.
Proof. intros [-> | [-> | ->]]; simpl; try reflexivity; f_equal; lra. Qed.

Lemma acos_term x :
  xmul (Fin (1 / PI)) (xsub (xmul (Fin 2) (xacos x)) (xsin (xmul (Fin 2) (xacos x))))
  = xmul (Fin (2 / PI)) (xsub (xacos x) (xmul x (xsqrt (xsub (Fin 1) (xsq x))))).
Proof.
  generalize PI_RGT_0; intros P.
  destruct x as [r | | |]; try reflexivity.
  unfold xacos. destruct (Rleb (-1) r && Rleb r 1) eqn:E; [|reflexivity].
  apply andb_prop in E. destruct E as [E1 E2]. apply Rleb_true in E1, E2.
  rewrite xsq_fin, xsub_fin, xsqrt_fin by nra. simpl. f_equal.
  rewrite sin_2a, cos_acos, acos_sin by lra. field. lra.
Qed.

Lemma defocus_zero k u v l D f : D <> 0 ->
  circular_aperture_OTF_with_defocus k u v l D f 0 = circular_aperture_OTF k u v l D 0.
Proof.
  intros HD. unfold circular_aperture_OTF_with_defocus, circular_aperture_OTF.
  rewrite radial_fin. set (rho := sqrt (u * u + v * v)).
  assert (E0 : Reqb 0 0 = true) by (apply Reqb_true; reflexivity).
  assert (L0 : Rltb 0 0 = false) by (apply Rltb_false; lra).
  rewrite E0, L0. cbn [negb]. rewrite pydiv_ok by exact HD.
  destruct k.
  - destruct (Req_dec l 0) as [-> | N].
    + unfold kdiv. rewrite E0. reflexivity.
    + rewrite !kdiv_ok by exact N. cbn [bind].
      rewrite pydiv_ok by (generalize (defocus_denominator_pos (f / D)); lra). cbn [bind].
      rewrite half_double, acos_term. reflexivity.
  - unfold kdiv. cbn [bind].
    rewrite pydiv_ok by (generalize (defocus_denominator_pos (f / D)); lra). cbn [bind].
    rewrite acos_term.
    destruct (xdiv (Fin D) (Fin l)) as [r | | |] eqn:E.
    + rewrite half_double. reflexivity.
    + rewrite half_double_inf by auto. reflexivity.
    + rewrite half_double_inf by auto. reflexivity.
    + rewrite half_double_inf by auto. reflexivity.
Qed.

(** ** Bessel functions near 0 *)
Lemma sin_nat_pi n : sin (INR n * PI) = 0.
Proof.
  induction n as [|n IH].
  - simpl. rewrite Rmult_0_l. apply sin_0.
  - rewrite S_INR, Rmult_plus_distr_r, Rmult_1_l, neg_sin, IH. lra.
Qed.

Lemma int_cos_nat n : (0 < n)%nat -> RInt (fun t => cos (INR n * t)) 0 PI = 0.
Proof.
  intros H. assert (N : INR n <> 0) by (apply not_0_INR; lia).
  rewrite (ri_deriv (fun t => sin (INR n * t) / INR n)).
  - rewrite sin_nat_pi, Rmult_0_r, sin_0. lra.
  - intros x. auto_derive; [exact I | field; exact N].
  - cont_tac.
Qed.

Definition bslope (n : nat) : R := / PI * RInt (fun t => sin t * sin (INR n * t)) 0 PI.

Lemma bslope_1 : bslope 1 = 1 / 2.
Proof.
  unfold bslope. generalize PI_RGT_0; intros P.
  rewrite (ri_deriv (fun t => t / 2 - sin (2 * t) / 4)).
  - rewrite Rmult_0_r, sin_0, sin_2PI. field. lra.
  - intros x. auto_derive; [exact I|]. simpl. rewrite Rmult_1_l, cos_2a.
    generalize (sin2_cos2 x). unfold Rsqr. rewrite (Rmult_1_l x). lra.
  - simpl. cont_tac.
Qed.

Lemma bslope_other n : n <> 1%nat -> bslope n = 0.
Proof.
  intros H. unfold bslope. destruct n as [|n].
  - rewrite (ri_ext _ (fun _ => 0)).
    + rewrite ri_const. lra.
    + intros x _. simpl. rewrite Rmult_0_l, sin_0. ring.
  - destruct n as [|n]; [lia|].
    set (a := INR (S n)). set (b := INR (S (S (S n)))).
    assert (Ha : a <> 0) by (apply not_0_INR; lia).
    assert (Hb : b <> 0) by (apply not_0_INR; lia).
    rewrite (ri_deriv (fun t => (sin (a * t) / a - sin (b * t) / b) / 2)).
    + unfold a, b. rewrite !sin_nat_pi, !Rmult_0_r, sin_0. unfold Rdiv. ring.
    + intros x. auto_derive; [exact I|].
      replace (a * x) with (INR (S (S n)) * x - x) by (unfold a; rewrite !S_INR; ring).
      replace (b * x) with (INR (S (S n)) * x + x) by (unfold b; rewrite !S_INR; ring).
      rewrite cos_minus, cos_plus. field; auto.
    + cont_tac.
Qed.

Lemma bessel_0 n : bessel n 0 = match n with O => 1 | _ => 0 end.
Proof.
  generalize PI_RGT_0; intros P. unfold bessel. destruct n as [|n].
  - rewrite (ri_ext _ (fun _ => 1)).
    + rewrite ri_const. field. lra.
    + intros x _. simpl. rewrite !Rmult_0_l, Rminus_0_r. apply cos_0.
  - rewrite (ri_ext _ (fun t => cos (INR (S n) * t))).
    + rewrite int_cos_nat by lia. ring.
    + intros x _. rewrite Rmult_0_l, Rminus_0_r. reflexivity.
Qed.

Lemma cos_quad y : Rabs (cos y - 1) <= y * y / 2.
Proof.
  replace (cos y) with (1 - 2 * (sin (y / 2) * sin (y / 2))).
  2:{ replace y with (2 * (y / 2)) at 3 by lra. rewrite cos_2a_sin. ring. }
  replace (1 - 2 * (sin (y / 2) * sin (y / 2)) - 1) with (- (2 * (sin (y / 2) * sin (y / 2)))) by ring.
  rewrite Rabs_Ropp, Rabs_right by nra.
  generalize (sin_abs_le (y / 2)); intros H.
  assert (Q : sin (y / 2) * sin (y / 2) <= y / 2 * (y / 2)); [|lra].
  apply (Rsqr_le_abs_1 (sin (y / 2)) (y / 2)). exact H.
Qed.

Lemma sin_quad y : Rabs (sin y - y) <= y * y.
Proof.
  destruct (MVT_gen (fun t => sin t - t) 0 y (fun t => cos t - 1)) as (c & Hc & E).
  - intros x _. auto_derive; [exact I | ring].
  - intros x _. apply continuity_pt_filterlim. apply (cont_minus sin (fun t => t)).
    apply cont_sin. apply cont_id.
  - rewrite sin_0 in E. replace (sin y - y) with ((cos c - 1) * (y - 0)) by lra.
    rewrite Rabs_mult, Rminus_0_r.
    assert (A : Rabs (cos c - 1) <= Rabs y).
    { apply Rle_trans with (Rabs c).
      - generalize (cos_quad c) (COS_bound c); intros Q B.
        destruct (Rle_lt_dec 2 (Rabs c)) as [G | G].
        + apply Rle_trans with 2; [|lra]. apply Rabs_le. lra.
        + apply Rle_trans with (1 := Q).
          replace (c * c) with (Rabs c * Rabs c) by (rewrite <- Rabs_mult; apply Rabs_right; nra).
          generalize (Rabs_pos c). nra.
      - destruct (Rle_lt_dec 0 y).
        + rewrite Rmin_left, Rmax_right in Hc by lra. rewrite !Rabs_right; lra.
        + rewrite Rmin_right, Rmax_left in Hc by lra. rewrite !Rabs_left1; lra. }
    replace (y * y) with (Rabs y * Rabs y) by (rewrite <- Rabs_mult; apply Rabs_right; nra).
    apply Rmult_le_compat_r; [apply Rabs_pos | exact A].
Qed.

Lemma bessel_taylor n h : Rabs (bessel n h - bessel n 0 - h * bslope n) <= 2 * (h * h).
Proof.
  generalize PI_RGT_0; intros P.
  set (g := fun t => cos (INR n * t - h * sin t) - cos (INR n * t - 0 * sin t) - h * (sin t * sin (INR n * t))).
  assert (C1 : forall y, cont (fun t => cos (INR n * t - y * sin t))) by (intros; cont_tac).
  assert (C2 : cont (fun t => sin t * sin (INR n * t))) by cont_tac.
  assert (Cg : cont g).
  { unfold g. cont_tac. }
  assert (E : bessel n h - bessel n 0 - h * bslope n = / PI * RInt g 0 PI).
  { unfold bessel, bslope, g.
    rewrite (ri_minus (fun t => cos (INR n * t - h * sin t) - cos (INR n * t - 0 * sin t))
               (fun t => h * (sin t * sin (INR n * t)))).
    - rewrite (ri_minus (fun t => cos (INR n * t - h * sin t))) by apply C1.
      rewrite (ri_scal (fun t => sin t * sin (INR n * t))) by apply C2. ring.
    - cont_tac.
    - cont_tac. }
  assert (B : forall t, Rabs (g t) <= 2 * (h * h)).
  { intros t. unfold g. rewrite Rmult_0_l, Rminus_0_r, cos_minus.
    set (a := INR n * t). set (y := h * sin t).
    replace (cos a * cos y + sin a * sin y - cos a - h * (sin t * sin a))
      with (cos a * (cos y - 1) + sin a * (sin y - y)) by (unfold y; ring).
    apply Rle_trans with (1 := Rabs_triang _ _). rewrite !Rabs_mult.
    assert (y * y <= h * h).
    { unfold y. generalize (SIN_bound t); intros.
      assert (sin t * sin t <= 1) by nra.
      replace (h * sin t * (h * sin t)) with (h * h * (sin t * sin t)) by ring.
      rewrite <- (Rmult_1_r (h * h)) at 2. apply Rmult_le_compat_l; [nra | lra]. }
    assert (Rabs (cos a) <= 1) by (apply Rabs_le; apply COS_bound).
    assert (Rabs (sin a) <= 1) by (apply Rabs_le; apply SIN_bound).
    generalize (cos_quad y) (sin_quad y) (Rabs_pos (cos a)) (Rabs_pos (sin a))
      (Rabs_pos (cos y - 1)) (Rabs_pos (sin y - y)); intros. nra. }
  rewrite E, Rabs_mult, (Rabs_right (/ PI)) by (left; apply Rinv_0_lt_compat; lra).
  assert (U : Rabs (RInt g 0 PI) <= 2 * (h * h) * (PI - 0)).
  { apply Rabs_le. split.
    - replace (- (2 * (h * h) * (PI - 0))) with (- (2 * (h * h)) * (PI - 0)) by ring.
      rewrite <- (ri_const (- (2 * (h * h)))).
      apply ri_le; [lra | apply cont_const | exact Cg |]. intros t _.
      generalize (B t). intros Q. apply Rabs_le_between in Q. lra.
    - rewrite <- (ri_const (2 * (h * h))).
      apply ri_le; [lra | exact Cg | apply cont_const |]. intros t _.
      generalize (B t). intros Q. apply Rabs_le_between in Q. lra. }
  apply Rmult_le_reg_l with PI; [lra|].
  rewrite <- Rmult_assoc, Rinv_r, Rmult_1_l by lra. lra.
Qed.

Lemma bessel_derive n : is_derive (bessel n) 0 (bslope n).
Proof.
  apply is_derive_Reals. intros eps He.
  assert (D : 0 < eps / 4) by lra. exists (mkposreal _ D). simpl. intros h Hh Hd.
  rewrite Rplus_0_l.
  replace ((bessel n h - bessel n 0) / h - bslope n)
    with ((bessel n h - bessel n 0 - h * bslope n) / h) by (field; exact Hh).
  unfold Rdiv. rewrite Rabs_mult, Rabs_inv.
  generalize (bessel_taylor n h); intros T.
  assert (HA : 0 < Rabs h) by (apply Rabs_pos_lt; exact Hh).
  apply Rmult_lt_reg_r with (Rabs h); [exact HA|].
  rewrite Rmult_assoc, Rinv_l, Rmult_1_r by lra.
  replace (h * h) with (Rabs h * Rabs h) in T by (rewrite <- Rabs_mult; apply Rabs_right; nra).
  nra.
Qed.
Lemma bessel_Derive n : Derive (bessel n) 0 = bslope n.
Proof. apply is_derive_unique, bessel_derive. Qed.
Lemma bessel_ex n : ex_derive (bessel n) 0.
Proof. exists (bslope n). apply bessel_derive. Qed.

(** ** The defocused OTF *)
(* numerator: pi/2 times alpha times the formula of the source *)
Definition Kfun (b s a : R) : R :=
  cos (a * (1 / 2) * s) *
    (b * bessel 1 a + 1 / 2 * sin (2 * b * (bessel 1 a - bessel 3 a))
     - 1 / 4 * sin (4 * b * (bessel 3 a - bessel 5 a))
     + 1 / 6 * sin (6 * b * (bessel 5 a - bessel 7 a)))
  - sin (a * (1 / 2) * s) *
    (sin (b * (bessel 0 a - bessel 2 a)) - 1 / 3 * sin (3 * b * (bessel 2 a - bessel 4 a))
     + 1 / 5 * sin (5 * b * (bessel 4 a - bessel 6 a))
     - 1 / 7 * sin (7 * b * (bessel 6 a - bessel 8 a))).

Lemma Kfun_0 b s : Kfun b s 0 = 0.
Proof.
  unfold Kfun. rewrite !bessel_0.
  replace (0 * (1 / 2) * s) with 0 by ring. rewrite sin_0, cos_0.
  replace (2 * b * (0 - 0)) with 0 by ring.
  replace (4 * b * (0 - 0)) with 0 by ring.
  replace (6 * b * (0 - 0)) with 0 by ring. rewrite sin_0. ring.
Qed.

Lemma Kfun_derive b s : is_derive (Kfun b s) 0 (b - s / 2 * sin b).
Proof.
  unfold Kfun. auto_derive.
  - repeat split; apply bessel_ex.
  - rewrite !bessel_Derive, !bessel_0, bslope_1, !bslope_other by lia.
    replace (0 * (1 / 2) * s) with 0 by ring. rewrite sin_0, cos_0.
    replace (2 * b * (0 + - 0)) with 0 by ring.
    replace (4 * b * (0 + - 0)) with 0 by ring.
    replace (6 * b * (0 + - 0)) with 0 by ring.
    replace (3 * b * (0 + - 0)) with 0 by ring.
    replace (5 * b * (0 + - 0)) with 0 by ring.
    replace (7 * b * (0 + - 0)) with 0 by ring.
    replace (b * (1 + - 0)) with b by ring.
    rewrite sin_0, cos_0. field.
Qed.

(* alpha per unit of defocus *)
Definition akappa (u v l D f : R) : R :=
  4 * PI / l * (1 / 2 / (1 + 4 * (f / D * (f / D)))) * (2 * xarg u v l D).

Lemma akappa_pos u v l D f : 0 < l -> 0 < D -> 0 < xarg u v l D -> 0 < akappa u v l D f.
Proof.
  intros Hl HD Hx. unfold akappa. generalize PI_RGT_0 (defocus_denominator_pos (f / D)); intros P Q.
  apply Rmult_lt_0_compat; [|lra]. apply Rmult_lt_0_compat; apply Rdiv_lt_0_compat; lra.
Qed.

Lemma rho_xarg u v l D : 0 < l -> 0 < D -> sqrt (u * u + v * v) = xarg u v l D * (D / l).
Proof. intros. unfold xarg. field. lra. Qed.

Lemma defocus_value k u v l D f e : 0 < l -> 0 < D -> e <> 0 ->
  circular_aperture_OTF_with_defocus k u v l D f e
  = Ok (Fin (if Req_EM_T (xarg u v l D) 0 then 1
             else if Rle_dec (xarg u v l D) 1
             then 2 / PI * (Kfun (acos (xarg u v l D)) (2 * xarg u v l D) (akappa u v l D f * e)
                            / (akappa u v l D f * e))
             else 0)).
Proof.
  intros Hl HD He. generalize PI_RGT_0 (r0_pos l D Hl HD) (xarg_nonneg u v l D Hl HD); intros P R0 X0.
  unfold circular_aperture_OTF_with_defocus. rewrite radial_fin, !kdiv_ok by lra. cbn [bind].
  rewrite (pydiv_ok f D) by lra. cbn [bind].
  generalize (defocus_denominator_pos (f / D)); intros Q.
  rewrite pydiv_ok by lra. cbn [bind].
  assert (E0 : Reqb e 0 = false) by (apply Reqb_false; exact He). rewrite E0. cbn [negb].
  rewrite half_double. rewrite (xmul_fin 2), !xdiv_fin by lra.
  fold (xarg u v l D).
  replace (2 * sqrt (u * u + v * v) / (D / l)) with (2 * xarg u v l D) by (unfold xarg; field; lra).
  rewrite !(xmul_fin (4 * PI / l)), !xmul_fin.
  replace (4 * PI / l * (1 / 2 / (1 + 4 * (f / D * (f / D))) * e) * (2 * xarg u v l D))
    with (akappa u v l D f * e) by (unfold akappa; field; repeat split; nra).
  assert (EQ : xeq (Fin (sqrt (u * u + v * v))) (Fin 0) = Reqb (sqrt (u * u + v * v)) 0) by reflexivity.
  rewrite EQ. destruct (Req_EM_T (xarg u v l D) 0) as [Z | Z].
  - rewrite (rho_xarg u v l D), Z, Rmult_0_l by lra.
    replace (Reqb 0 0) with true by (symmetry; apply Reqb_true; reflexivity). reflexivity.
  - assert (N : Reqb (sqrt (u * u + v * v)) 0 = false).
    { apply Reqb_false. rewrite (rho_xarg u v l D) by lra. nra. }
    rewrite N. destruct (Rle_dec (xarg u v l D) 1) as [L | L].
    + generalize (akappa_pos u v l D f Hl HD ltac:(lra)); intros K.
      rewrite xacos_fin by lra.
      set (a := akappa u v l D f * e). assert (Ha : a <> 0) by (unfold a; apply Rmult_integral_contrapositive_currified; lra).
      cbn [xjn xsin xcos xsub xopp xadd xmul]. 
      rewrite xdiv_fin by (apply Rmult_integral_contrapositive_currified; lra).
      cbn [xmul xadd xnan_to_num]. rewrite xsub_fin. cbn [xnan_to_num]. do 2 f_equal. unfold Kfun. unfold Rminus. field. split; [exact Ha | lra].
    + rewrite xacos_nan by lra. cbn [xjn xsin xcos xsub xopp xadd xmul].
      assert (G : forall z, xmul z NaN = NaN) by (intros [| | |]; reflexivity).
      rewrite !G. reflexivity.
Qed.

Lemma defocus_finite k u v l D f e : 0 < l -> 0 < D ->
  exists h, circular_aperture_OTF_with_defocus k u v l D f e = Ok (Fin h)
    /\ (u = 0 -> v = 0 -> h = 1) /\ (D / l <= sqrt (u * u + v * v) -> h = 0).
Proof.
  intros Hl HD. generalize PI_RGT_0 (xarg_nonneg u v l D Hl HD); intros P X0.
  assert (Z0 : u = 0 -> v = 0 -> xarg u v l D = 0).
  { intros -> ->. unfold xarg. rewrite Rmult_0_l, Rplus_0_l, sqrt_0. unfold Rdiv; ring. }
  destruct (Req_dec e 0) as [-> | N].
  - rewrite defocus_zero by lra. rewrite circ_plain by lra. eexists; split; [reflexivity|]. split.
    + intros Hu Hv. rewrite Z0 by auto. rewrite lens1_0. field. lra.
    + intros H. rewrite lens1_out by (apply xarg_ge; auto). ring.
  - rewrite defocus_value by auto. eexists; split; [reflexivity|]. split.
    + intros Hu Hv. rewrite (Z0 Hu Hv). destruct (Req_EM_T 0 0); [reflexivity | congruence].
    + intros H. generalize (xarg_ge u v l D Hl HD H); intros G.
      destruct (Req_EM_T _ 0); [lra|]. destruct (Rle_dec _ 1); [|reflexivity].
      replace (xarg u v l D) with 1 by lra. rewrite acos_1. unfold Kfun.
      rewrite !Rmult_0_r, !Rmult_0_l, sin_0. unfold Rdiv; ring.
Qed.

Lemma defocus_limit k u v l D f : 0 < l -> 0 < D ->
  exists h0, circular_aperture_OTF k u v l D 0 = Ok (Fin h0) /\
  forall eps, 0 < eps -> exists delta, 0 < delta /\
    forall e, Rabs e < delta ->
      exists h, circular_aperture_OTF_with_defocus k u v l D f e = Ok (Fin h)
        /\ Rabs (h - h0) < eps.
Proof.
  intros Hl HD. generalize PI_RGT_0 (xarg_nonneg u v l D Hl HD); intros P X0.
  set (x := xarg u v l D) in *.
  exists (2 / PI * lens1 x). split; [apply circ_plain; lra|].
  intros eps He.
  assert (Triv : forall e, e = 0 -> exists h, circular_aperture_OTF_with_defocus k u v l D f e = Ok (Fin h)
                 /\ Rabs (h - 2 / PI * lens1 x) < eps).
  { intros e ->. rewrite defocus_zero by lra. rewrite circ_plain by lra.
    eexists; split; [reflexivity|]. fold x. rewrite Rminus_diag_eq, Rabs_R0 by reflexivity. exact He. }
  destruct (Req_EM_T x 0) as [Z | Z].
  - exists 1. split; [lra|]. intros e Hd. destruct (Req_dec e 0) as [E | N]; [apply Triv; exact E|].
    rewrite defocus_value by auto. fold x. eexists; split; [reflexivity|].
    destruct (Req_EM_T x 0); [|contradiction]. rewrite Z, lens1_0.
    replace (1 - 2 / PI * (PI / 2)) with 0 by (field; lra). rewrite Rabs_R0. exact He.
  - destruct (Rle_dec x 1) as [L | L].
    + generalize (akappa_pos u v l D f Hl HD ltac:(fold x; lra)); intros K.
      set (kp := akappa u v l D f) in *.
      generalize (proj1 (is_derive_Reals _ _ _) (Kfun_derive (acos x) (2 * x))); intros DD.
      assert (He2 : 0 < eps * (PI / 2)) by nra.
      destruct (DD _ He2) as [d Hd]. simpl in Hd.
      exists (d / kp). split; [apply Rdiv_lt_0_compat; [apply cond_pos | lra]|].
      intros e Hde. destruct (Req_dec e 0) as [E | N]; [apply Triv; exact E|].
      rewrite defocus_value by auto. fold x kp. eexists; split; [reflexivity|].
      destruct (Req_EM_T x 0); [contradiction|]. destruct (Rle_dec x 1); [|contradiction].
      assert (Na : kp * e <> 0) by (apply Rmult_integral_contrapositive_currified; lra).
      assert (La : Rabs (kp * e) < d).
      { rewrite Rabs_mult, (Rabs_right kp) by lra.
        apply Rmult_lt_reg_r with (/ kp); [apply Rinv_0_lt_compat; lra|].
        replace (kp * Rabs e * / kp) with (Rabs e) by (field; lra). exact Hde. }
      specialize (Hd (kp * e) Na La). rewrite Rplus_0_l, Kfun_0, Rminus_0_r in Hd.
      assert (LE : lens1 x = acos x - 2 * x / 2 * sin (acos x)).
      { unfold lens1. destruct (Rle_dec x 1); [|contradiction]. rewrite acos_sin by lra. field. }
      rewrite LE, <- Rmult_minus_distr_l, Rabs_mult, (Rabs_right (2 / PI)).
      2:{ left. apply Rdiv_lt_0_compat; lra. }
      apply Rmult_lt_reg_l with (PI / 2); [lra|].
      rewrite <- Rmult_assoc. replace (PI / 2 * (2 / PI)) with 1 by (field; lra). lra.
    + exists 1. split; [lra|]. intros e Hd. destruct (Req_dec e 0) as [E | N]; [apply Triv; exact E|].
      rewrite defocus_value by auto. fold x. eexists; split; [reflexivity|].
      destruct (Req_EM_T x 0); [contradiction|]. destruct (Rle_dec x 1); [contradiction|].
      rewrite lens1_out by lra. rewrite Rmult_0_r, Rminus_0_r, Rabs_R0. exact He.
Qed.
