(** * Num_Defocus: the defocused aperture at half the cutoff frequency with a
    quarter wave of defocus, against the diffraction integral. *)
From Coq Require Import Reals Lra Psatz.
From Coquelicot Require Import Coquelicot.
From Interval Require Import Tactic.
From Verif Require Import Base_XR Base_Np Base_Int Model_Geo Model_Otf Spec_Otf Spec_Defocus Proof_Lens Proof_Aper Proof_Defocus.
Open Scope R_scope.

(** ** Bessel functions at pi *)
Lemma j0 : -0.3043 <= bessel 0 PI <= -0.3042.
Proof. unfold bessel; simpl INR. split; integral with (i_prec 40, i_relwidth 20). Qed.
Lemma j2 : 0.4854 <= bessel 2 PI <= 0.4855.
Proof. unfold bessel; simpl INR. split; integral with (i_prec 40, i_relwidth 20). Qed.
Lemma j4 : 0.1514 <= bessel 4 PI <= 0.1515.
Proof. unfold bessel; simpl INR. split; integral with (i_prec 40, i_relwidth 20). Qed.
Lemma j6 : 0.0145 <= bessel 6 PI <= 0.0146.
Proof. unfold bessel; simpl INR. split; integral with (i_prec 40, i_width (-16)). Qed.
Lemma j8 : 0.0006 <= bessel 8 PI <= 0.0007.
Proof. unfold bessel; simpl INR. split; integral with (i_prec 40, i_width (-20)). Qed.

(** ** The function of the source *)
Lemma quarter_wave_code k l D f : 0 < l -> 0 < D ->
  exists h, circular_aperture_OTF_with_defocus k (D / (2 * l)) 0 l D f (l / 2 * (1 + 4 * (f / D * (f / D)))) = Ok (Fin h)
    /\ 0.183 < h < 0.185.
Proof.
  intros Hl HD. generalize PI_RGT_0 (defocus_denominator_pos (f / D)); intros P Q.
  assert (X : xarg (D / (2 * l)) 0 l D = 1 / 2).
  { unfold xarg. rewrite Rmult_0_l, Rplus_0_r, sqrt_square by (apply Rlt_le, Rdiv_lt_0_compat; lra). field. lra. }
  rewrite defocus_value by (try lra; nra). rewrite X.
  destruct (Req_EM_T (1 / 2) 0) as [Z|Z]; [lra|].
  destruct (Rle_dec (1 / 2) 1) as [L|L]; [|lra].
  replace (akappa (D / (2 * l)) 0 l D f * (l / 2 * (1 + 4 * (f / D * (f / D))))) with PI.
  2:{ unfold akappa. rewrite X. field. repeat split; nra. }
  assert (A : acos (1 / 2) = PI / 3).
  { rewrite <- cos_PI3. apply acos_cos. lra. }
  rewrite A. eexists; split; [reflexivity|]. unfold Kfun.
  replace (PI * (1 / 2) * (2 * (1 / 2))) with (PI / 2) by field. rewrite cos_PI2, sin_PI2.
  generalize j0 j2 j4 j6 j8.
  generalize (bessel 0 PI) (bessel 2 PI) (bessel 4 PI) (bessel 6 PI) (bessel 8 PI) (bessel 1 PI) (bessel 3 PI) (bessel 5 PI) (bessel 7 PI).
  intros a0 a2 a4 a6 a8 a1 a3 a5 a7 H0 H2 H4 H6 H8. rewrite Rmult_0_l.
  set (z := sin (PI / 3 * (a0 - a2)) - 1 / 3 * sin (3 * (PI / 3) * (a2 - a4))
      + 1 / 5 * sin (5 * (PI / 3) * (a4 - a6)) - 1 / 7 * sin (7 * (PI / 3) * (a6 - a8))).
  assert (Z' : -0.911 < z < -0.905) by (unfold z; split; interval).
  split; [interval with (i_prec 40) | interval with (i_prec 40)].
Qed.

(** ** The diffraction integral *)
Lemma dint_cont : cont (fun x => 2 * Rmin (half_chord 1 x) (half_chord 1 (x - 1)) * cos (PI * (x - 1 / 2))).
Proof.
  apply (cont_mult (fun x => 2 * Rmin (half_chord 1 x) (half_chord 1 (x - 1)))); [apply overlap_cont | cont_tac].
Qed.
Lemma hc1 x : -1 <= x <= 1 -> half_chord 1 x = sqrt (1 - x * x).
Proof. intros H. unfold half_chord. f_equal. rewrite Rmax_right by nra. ring. Qed.
Lemma min_right_half x : 1 / 2 <= x <= 1 -> Rmin (half_chord 1 x) (half_chord 1 (x - 1)) = sqrt (1 - x * x).
Proof. intros H. rewrite !hc1 by lra. apply Rmin_left. apply sqrt_le_1_alt. nra. Qed.
Lemma min_left_half x : 0 <= x <= 1 / 2 ->
  Rmin (half_chord 1 x) (half_chord 1 (x - 1)) = sqrt (1 - (x - 1) * (x - 1)).
Proof. intros H. rewrite !hc1 by lra. apply Rmin_right. apply sqrt_le_1_alt. nra. Qed.

Lemma quarter_wave_diffraction : 0.287 < defocused_overlap 1 PI / PI.
Proof.
  generalize PI_RGT_0; intros P.
  unfold defocused_overlap. set (g := fun x => _). assert (C : cont g) by apply dint_cont.
  assert (N : forall x, 0 <= x <= 1 -> 0 <= g x).
  { intros x H. unfold g. apply Rmult_le_pos.
    - apply Rmult_le_pos; [lra|]. apply Rmin_case; apply hc_nonneg.
    - apply cos_ge_0; nra. }
  rewrite <- (ri_chasles g (-1) 0 1), <- (ri_chasles g 0 (1 / 100) 1), <- (ri_chasles g (1 / 100) (1 / 2) 1),
    <- (ri_chasles g (1 / 2) (99 / 100) 1) by exact C.
  assert (Z0 : RInt g (-1) 0 = 0).
  { apply ri_zero; [lra|]. intros x H. unfold g. rewrite (hc_out_l 1 (x - 1)) by lra.
    rewrite Rmin_right by apply hc_nonneg. ring. }
  assert (Z1 : 0 <= RInt g 0 (1 / 100)) by (apply ri_nonneg; [lra|exact C|intros; apply N; lra]).
  assert (Z4 : 0 <= RInt g (99 / 100) 1) by (apply ri_nonneg; [lra|exact C|intros; apply N; lra]).
  assert (Z2 : 0.4513 <= RInt g (1 / 100) (1 / 2)).
  { rewrite (ri_ext_le g (fun x => 2 * sqrt (1 - (x - 1) * (x - 1)) * cos (PI * (x - 1 / 2)))); [|lra|].
    - integral with (i_prec 40, i_width (-14)).
    - intros x H. unfold g. rewrite min_left_half by lra. reflexivity. }
  assert (Z3 : 0.4513 <= RInt g (1 / 2) (99 / 100)).
  { rewrite (ri_ext_le g (fun x => 2 * sqrt (1 - x * x) * cos (PI * (x - 1 / 2)))); [|lra|].
    - integral with (i_prec 40, i_width (-14)).
    - intros x H. unfold g. rewrite min_right_half by lra. reflexivity. }
  apply Rmult_lt_reg_r with PI; [exact P|]. unfold Rdiv. rewrite Rmult_assoc, Rinv_l by lra.
  assert (PI < 3.1416) by interval. lra.
Qed.

(** ** The comparison *)
Lemma quarter_wave_slope D f l : 0 < l -> 0 < D ->
  pupil_shift (D / (2 * l)) 0 l D = 1 /\
  phase_slope l (edge_path D f (l / 2 * (1 + 4 * (f / D * (f / D))))) 1 = PI /\
  edge_path D f (l / 2 * (1 + 4 * (f / D * (f / D)))) = l / 4.
Proof.
  intros Hl HD. generalize (defocus_denominator_pos (f / D)); intros Q.
  assert (E : edge_path D f (l / 2 * (1 + 4 * (f / D * (f / D)))) = l / 4).
  { unfold edge_path. field. split; nra. }
  split; [|split; [|exact E]].
  - unfold pupil_shift. rewrite Rmult_0_l, Rplus_0_r, sqrt_square by (apply Rlt_le, Rdiv_lt_0_compat; lra). field. lra.
  - rewrite E. unfold phase_slope. field. lra.
Qed.

Lemma quarter_wave k l D f : 0 < l -> 0 < D ->
  exists e h, edge_path D f e = l / 4 /\
    circular_aperture_OTF_with_defocus k (D / (2 * l)) 0 l D f e = Ok (Fin h) /\ 0.183 < h < 0.185 /\
    let s := pupil_shift (D / (2 * l)) 0 l D in
    0.287 < defocused_overlap s (phase_slope l (edge_path D f e) s) / PI.
Proof.
  intros Hl HD. destruct (quarter_wave_slope D f l Hl HD) as (E1 & E2 & E3).
  destruct (quarter_wave_code k l D f Hl HD) as (h & E & B).
  exists (l / 2 * (1 + 4 * (f / D * (f / D)))), h.
  split; [exact E3|]. split; [exact E|]. split; [exact B|]. cbv zeta. rewrite E1, E2. apply quarter_wave_diffraction.
Qed.

Lemma defocus_not_diffraction :
  ~ (forall k u v l D f e, 0 < l -> 0 < D ->
       let s := pupil_shift u v l D in
       circular_aperture_OTF_with_defocus k u v l D f e
       = Ok (Fin (defocused_overlap s (phase_slope l (edge_path D f e) s) / PI))).
Proof.
  intros H. destruct (quarter_wave Np 1 1 1 ltac:(lra) ltac:(lra)) as (e & h & _ & E & B & L). cbv zeta in L.
  rewrite (H Np _ _ 1 1 1 e ltac:(lra) ltac:(lra)) in E. cbv zeta in E.
  assert (G : forall a b, Ok (Fin a) = Ok (Fin b) -> a = b) by (intros a b G; congruence).
  apply G in E. lra.
Qed.

(* without defocus the overlap is the plain one *)
Lemma defocused_overlap_0 s : defocused_overlap s 0 = disc_overlap 1 1 s.
Proof.
  unfold defocused_overlap, disc_overlap. apply RInt_ext. intros x _. rewrite Rmult_0_l, cos_0. apply Rmult_1_r.
Qed.
Lemma in_focus k u v l D f : 0 < l -> 0 < D ->
  let s := pupil_shift u v l D in
  circular_aperture_OTF_with_defocus k u v l D f 0
  = Ok (Fin (defocused_overlap s (phase_slope l (edge_path D f 0) s) / PI)).
Proof.
  intros Hl HD s. rewrite defocus_zero, circ_disc by lra.
  replace (phase_slope l (edge_path D f 0) s) with 0.
  - rewrite defocused_overlap_0. reflexivity.
  - unfold phase_slope, edge_path, Rdiv. ring.
Qed.
