(** * Proof_F64Aper3: circular_aperture_OTF in double precision against its exact value *)
From Coq Require Import Reals ZArith Lia Lra Psatz Floats.
From Flocq Require Import Core IEEE754.BinarySingleNaN IEEE754.PrimFloat.
From Verif Require Import Base_XR Model_F64 Spec_F64 Spec_F64Aperture Proof_Round Model_F64Size Proof_F64Size Proof_F64Db Proof_F64Slice
  Model_F64Aperture Proof_Aper Proof_F64Aper1 Proof_F64Aper2 Num_PiF64.
Open Scope R_scope.

(** ** nan *)
Lemma nan_of x : Prim2SF x = S754_nan -> x = nan.
Proof. intros H. rewrite <- (SF2Prim_Prim2SF x), H. reflexivity. Qed.
Lemma nan_sub x : (nan - x)%float = nan.
Proof. apply nan_of. rewrite sub_spec. reflexivity. Qed.
Lemma nan_add_r x : (x + nan)%float = nan.
Proof. apply nan_of. rewrite add_spec. change (Prim2SF nan) with S754_nan. destruct (Prim2SF x); try reflexivity; destruct s; reflexivity. Qed.
Lemma nan_mul_r x : (x * nan)%float = nan.
Proof. apply nan_of. rewrite mul_spec. change (Prim2SF nan) with S754_nan. destruct (Prim2SF x); try reflexivity; destruct s; reflexivity. Qed.
Lemma nan_div x : (nan / x)%float = nan.
Proof. apply nan_of. rewrite div_spec. reflexivity. Qed.
Lemma num_nan : nan_to_num_f64 nan = 0%float. Proof. reflexivity. Qed.
Lemma fin_inf x r s : stands_for x r -> Prim2SF x <> S754_infinity s.
Proof. intros [F _] H. unfold is_finite in F. rewrite <- B2SF_Prim2B in H. destruct (Prim2B x); simpl in *; discriminate. Qed.
Lemma eqb_inf x r s : stands_for x r -> PrimFloat.eqb x (SF2Prim (S754_infinity s)) = false.
Proof.
  intros H. generalize (fin_inf x r true H) (fin_inf x r false H). intros A B. rewrite eqb_spec.
  replace (Prim2SF (SF2Prim (S754_infinity s))) with (S754_infinity s) by (destruct s; reflexivity).
  unfold SFeqb, SFcompare. destruct (Prim2SF x) as [|[]| |[]], s; try reflexivity; congruence.
Qed.
Lemma num_fin x r : stands_for x r -> nan_to_num_f64 x = x.
Proof.
  intros H. unfold nan_to_num_f64. replace (PrimFloat.eqb x x) with true by (symmetry; apply (f_eq x x r r H H); reflexivity).
  simpl negb. cbv iota. change infinity with (SF2Prim (S754_infinity false)). change neg_infinity with (SF2Prim (S754_infinity true)).
  rewrite !(eqb_inf x r) by exact H. reflexivity.
Qed.

(** ** approximate values *)
Definition ap (x : PrimFloat.float) (r e : R) : Prop := exists v, stands_for x v /\ Rabs (v - r) <= e.
(* one rounding of a number up to 100 *)
Definition one_rnd : R := / 70368744177664. (* 2^-46 *)
Lemma rnd_100 x : Rabs x <= 101 -> Rabs (rnd x - x) <= one_rnd.
Proof.
  intros X. eapply Rle_trans; [apply rnd_mix|]. fold mu tn. generalize tn_mu mumu mu_small. unfold one_rnd. intros.
  assert (mu * Rabs x <= mu * 101) by (apply Rmult_le_compat_l; lra). unfold mu in *. lra.
Qed.
Lemma lt_900 x : Rabs x <= 101 -> Rabs x < bpow radix2 900.
Proof. intros X. generalize (small_ok (Rabs x)). rewrite Rabs_Rabsolu. intros H. apply H. split; [apply Rabs_pos|lra]. Qed.
Lemma ap_of x r : stands_for x r -> ap x r 0.
Proof. intros H. exists r. split; [exact H|]. rewrite Rminus_diag_eq by reflexivity. rewrite Rabs_R0. lra. Qed.
Lemma ap_w x r e e' : ap x r e -> e <= e' -> ap x r e'.
Proof. intros (v & H & E) L. exists v. split; [exact H|lra]. Qed.
Lemma step x r r' e : stands_for x (rnd r') -> Rabs (r' - r) <= e -> Rabs r' <= 101 -> ap x r (e + one_rnd).
Proof.
  intros H E B. exists (rnd r'). split; [exact H|]. generalize (rnd_100 r' B). intros Q.
  replace (rnd r' - r) with ((rnd r' - r') + (r' - r)) by ring. eapply Rle_trans; [apply Rabs_triang|]. lra.
Qed.
Lemma abs_near r v e : Rabs (v - r) <= e -> Rabs v <= Rabs r + e.
Proof. intros H. replace v with (r + (v - r)) at 1 by ring. eapply Rle_trans; [apply Rabs_triang|]. lra. Qed.
Lemma ap_add x y a b e f : ap x a e -> ap y b f -> Rabs (a + b) <= 100 -> e + f <= 1 -> ap (x + y)%float (a + b) (e + f + one_rnd).
Proof.
  intros (v & Hv & Ev) (w & Hw & Ew) B S.
  assert (E : Rabs (v + w - (a + b)) <= e + f).
  { replace (v + w - (a + b)) with ((v - a) + (w - b)) by ring. eapply Rle_trans; [apply Rabs_triang|]. lra. }
  assert (B' : Rabs (v + w) <= 101) by (eapply Rle_trans; [apply abs_near with (r := a + b); exact E|]; lra).
  apply step with (v + w); [|exact E|exact B']. apply f_add; auto. apply lt_900. exact B'.
Qed.
Lemma ap_sub x y a b e f : ap x a e -> ap y b f -> Rabs (a - b) <= 100 -> e + f <= 1 -> ap (x - y)%float (a - b) (e + f + one_rnd).
Proof.
  intros (v & Hv & Ev) (w & Hw & Ew) B S.
  assert (E : Rabs (v - w - (a - b)) <= e + f).
  { replace (v - w - (a - b)) with ((v - a) + - (w - b)) by ring. eapply Rle_trans; [apply Rabs_triang|]. rewrite Rabs_Ropp. lra. }
  assert (B' : Rabs (v - w) <= 101) by (eapply Rle_trans; [apply abs_near with (r := a - b); exact E|]; lra).
  apply step with (v - w); [|exact E|exact B']. apply f_sub; auto. apply lt_900. exact B'.
Qed.
Lemma ap_mul x y a b e f A B : ap x a e -> ap y b f -> Rabs a <= A -> Rabs b <= B -> A * B <= 100 -> 0 <= e -> 0 <= f -> A * f + B * e + e * f <= 1 ->
  ap (x * y)%float (a * b) (A * f + B * e + e * f + one_rnd).
Proof.
  intros (v & Hv & Ev) (w & Hw & Ew) HA HB S E0 F0 S'.
  assert (P : Rabs (a * b) <= 100).
  { rewrite Rabs_mult. apply Rle_trans with (A * B); [|exact S]. apply Rmult_le_compat; auto using Rabs_pos. }
  assert (E : Rabs (v * w - a * b) <= A * f + B * e + e * f).
  { replace (v * w - a * b) with (a * (w - b) + b * (v - a) + (v - a) * (w - b)) by ring.
    eapply Rle_trans; [apply Rabs_triang|]. apply Rplus_le_compat.
    - eapply Rle_trans; [apply Rabs_triang|]. rewrite !Rabs_mult.
      apply Rplus_le_compat; apply Rmult_le_compat; auto using Rabs_pos.
    - rewrite Rabs_mult. apply Rmult_le_compat; auto using Rabs_pos. }
  assert (B' : Rabs (v * w) <= 101) by (eapply Rle_trans; [apply abs_near with (r := a * b); exact E|]; lra).
  apply step with (v * w); [|exact E|exact B']. apply f_mul; auto. apply lt_900. exact B'.
Qed.
(* division by a number that is known up to g and at least m *)
Lemma ap_div x y a b e g m : ap x a e -> ap y b g -> 0 < m -> m <= b -> g <= m / 100 -> 0 <= g -> Rabs (a / b) <= 100 -> 1.02 * (e + 100 * g) / m <= 1 ->
  ap (x / y)%float (a / b) (1.02 * (e + 100 * g) / m + one_rnd).
Proof.
  intros (v & Hv & Ev) (w & Hw & Ew) M MB G G0 B S.
  assert (W : m / 1.02 <= w) by (apply Rabs_le_inv in Ew; lra). assert (W0 : 0 < w) by lra.
  assert (E : Rabs (v / w - a / b) <= 1.02 * (e + 100 * g) / m).
  { replace (v / w - a / b) with (((v - a) + a / b * (b - w)) * / w) by (field; lra).
    rewrite Rabs_mult, (Rabs_pos_eq (/ w)) by (left; apply Rinv_0_lt_compat; lra).
    replace (1.02 * (e + 100 * g) / m) with ((e + 100 * g) * / (m / 1.02)) by (field; lra).
    apply Rmult_le_compat; [apply Rabs_pos|left; apply Rinv_0_lt_compat; lra| |apply Rinv_le; lra].
    eapply Rle_trans; [apply Rabs_triang|]. apply Rplus_le_compat; [exact Ev|]. rewrite Rabs_mult.
    apply Rmult_le_compat; auto using Rabs_pos. rewrite Rabs_minus_sym. exact Ew. }
  assert (B' : Rabs (v / w) <= 101) by (eapply Rle_trans; [apply abs_near with (r := a / b); exact E|]; lra).
  apply step with (v / w); [|exact E|exact B']. apply f_div; auto; [lra|]. apply lt_900. exact B'.
Qed.
Lemma ap_pi : ap pi_f64 PI (/ 4503599627370496).
Proof.
  exists pi_below. split.
  - apply f_value; [reflexivity|]. unfold pi_below. cbn. unfold Defs.F2R. simpl. lra.
  - generalize pi_below_near. intros. apply Rabs_le. lra.
Qed.
Lemma pi_3 : 3 <= PI <= 3.2.
Proof. generalize pi_below_near. unfold pi_below. lra. Qed.
Lemma ap_div_pi x a e : ap x a e -> Rabs a <= 100 -> 0 <= e <= 1 -> ap (x / pi_f64)%float (a / PI) (e / 2 + 8 * one_rnd).
Proof.
  intros H A E. generalize pi_3. intros P. apply ap_w with (1.02 * (e + 100 * / 4503599627370496) / 3 + one_rnd).
  - apply ap_div with (m := 3); auto; try lra; [apply ap_pi|].
    unfold Rdiv. rewrite Rabs_mult, (Rabs_pos_eq (/ PI)) by (left; apply Rinv_0_lt_compat; lra).
    apply Rle_trans with (100 * 1); [|lra]. apply Rmult_le_compat; [apply Rabs_pos|left; apply Rinv_0_lt_compat; lra|exact A|].
    rewrite <- Rinv_1. apply Rinv_le; lra.
  - unfold one_rnd. lra.
Qed.
(* products by an exact 2 and eta * eta *)
Lemma ap_sq f e : stands_for f e -> 0.1 <= e <= 0.9 -> ap (f * f)%float (e * e) one_rnd.
Proof.
  intros H E. apply ap_w with (1 * 0 + 1 * 0 + 0 * 0 + one_rnd); [|lra].
  apply ap_mul; try lra; try (apply ap_of; exact H); rewrite Rabs_pos_eq; lra.
Qed.
Lemma sq_bounds e : 0.1 <= e <= 0.9 -> 0.01 <= e * e <= 0.81.
Proof. intros E. split; nra. Qed.
Lemma ap_one_sub f e : stands_for f e -> 0.1 <= e <= 0.9 -> ap (1 - f * f)%float (1 - e * e) (2 * one_rnd).
Proof.
  intros H E. generalize (sq_bounds e E). intros S. apply ap_w with (0 + one_rnd + one_rnd); [|lra].
  apply ap_sub; [apply ap_of, f_one|apply ap_sq; auto|rewrite Rabs_pos_eq; lra|unfold one_rnd; lra].
Qed.
Lemma ap_one_add f e : stands_for f e -> 0.1 <= e <= 0.9 -> ap (1 + f * f)%float (1 + e * e) (2 * one_rnd).
Proof.
  intros H E. generalize (sq_bounds e E). intros S. apply ap_w with (0 + one_rnd + one_rnd); [|lra].
  apply ap_add; [apply ap_of, f_one|apply ap_sq; auto|rewrite Rabs_pos_eq; lra|unfold one_rnd; lra].
Qed.
Lemma ap_two x a e : ap x a e -> Rabs a <= 10 -> 0 <= e <= 0.1 -> ap (2 * x)%float (2 * a) (2 * e + one_rnd).
Proof.
  intros H A E. apply ap_w with (2 * e + 10 * 0 + 0 * e + one_rnd); [|lra].
  apply ap_mul; auto; try lra; [apply ap_of, f_two|rewrite Rabs_pos_eq; lra].
Qed.

(** ** the argument of arccos *)
Definition tq : R := 60 * one_rnd.
Lemma q_ok pf rf ef p r e r0 x : stands_for pf p -> stands_for rf r -> stands_for ef e -> r0ok r0 -> Rabs (r - r0) <= 2 * mu * r0 -> 0 <= p ->
  0 <= x <= 2 -> 0.1 <= e <= 0.9 -> Rabs (p / r0 - x) <= 11 * mu ->
  ap (ring_arg_f64 pf rf ef) (ring_cos e (2 * x)) tq.
Proof.
  intros Hp Hr He K Er P0 X Ee E. destruct (d_ok pf rf p r r0 x Hp Hr K Er P0 X E) as (d & Hd & D0 & Ed).
  generalize (sq_bounds e Ee). intros S2.
  assert (Ad : ap (2 * pf / rf)%float (2 * x) (50 * mu)) by (exists d; auto).
  unfold ring_arg_f64. cbv zeta. set (y := (2 * pf / rf)%float) in *. unfold ring_cos.
  assert (Ay : ap (y * y)%float (2 * x * (2 * x)) (5 * one_rnd)).
  { apply ap_w with (4 * (50 * mu) + 4 * (50 * mu) + 50 * mu * (50 * mu) + one_rnd); [|unfold mu, one_rnd; lra].
    apply ap_mul; auto; try (rewrite Rabs_pos_eq; lra); unfold mu; lra. }
  assert (X4 : 0 <= 2 * x * (2 * x) <= 16) by nra.
  assert (A1 : ap (1 + ef * ef - y * y)%float (1 + e * e - 2 * x * (2 * x)) (8 * one_rnd)).
  { apply ap_w with (2 * one_rnd + 5 * one_rnd + one_rnd); [|lra]. apply ap_sub; auto using ap_one_add; [apply Rabs_le; lra|unfold one_rnd; lra]. }
  set (n := 1 + e * e - 2 * x * (2 * x)) in *. assert (N : Rabs n <= 16) by (apply Rabs_le; unfold n; lra).
  assert (Z : forall a b, 0 < b -> Rabs (a / b) = Rabs a * / b).
  { intros a b Hb. unfold Rdiv. rewrite Rabs_mult, (Rabs_pos_eq (/ b)); [reflexivity|left; apply Rinv_0_lt_compat; exact Hb]. }
  assert (Ei : / e <= 10) by (replace 10 with (/ 0.1) by lra; apply Rinv_le; lra).
  assert (Ei0 : 0 < / e) by (apply Rinv_0_lt_compat; lra).
  assert (A2 : ap ((1 + ef * ef - y * y) / 2)%float (n / 2) (5.08 * one_rnd)).
  { apply ap_w with (1.02 * (8 * one_rnd + 100 * 0) / 2 + one_rnd); [|lra].
    apply ap_div; auto; try lra; [apply ap_of, f_two|rewrite Z; lra|unfold one_rnd; lra]. }
  apply ap_w with (1.02 * (5.08 * one_rnd + 100 * 0) / e + one_rnd).
  - apply ap_div; try lra; [exact A2|apply ap_of; exact He| |].
    + rewrite Z by lra. rewrite Z by lra. assert (H8 : Rabs n * / 2 <= 8) by lra.
      apply Rle_trans with (8 * 10); [|lra]. apply Rmult_le_compat; try lra. generalize (Rabs_pos n). lra.
    + unfold Rdiv. apply Rle_trans with (1.02 * (5.08 * one_rnd + 100 * 0) * 10); [|unfold one_rnd; lra].
      apply Rmult_le_compat_l; [unfold one_rnd; lra|exact Ei].
  - unfold Rdiv, tq. apply Rle_trans with (1.02 * (5.08 * one_rnd + 100 * 0) * 10 + one_rnd); [|unfold one_rnd; lra].
    apply Rplus_le_compat_r. apply Rmult_le_compat_l; [unfold one_rnd; lra|exact Ei].
Qed.

(** ** the two disc terms *)
Lemma sqrt_gap a b d : 0 <= a -> 0 <= b -> Rabs (a - b) <= d -> Rabs (R_sqrt.sqrt a - R_sqrt.sqrt b) <= R_sqrt.sqrt d.
Proof.
  intros A B D. assert (D0 : 0 <= d) by (generalize (Rabs_pos (a - b)); lra). apply Rabs_le_inv in D. apply Rabs_le.
  generalize (sqrt_near a b d A B D0 ltac:(lra)) (sqrt_near b a d B A D0 ltac:(lra)). lra.
Qed.
Lemma sqrt_below d s : 0 <= s -> d <= s * s -> R_sqrt.sqrt d <= s.
Proof. intros S D. rewrite <- (sqrt_square s S). apply sqrt_le_1_alt. exact D. Qed.
Lemma disc_in facos fsin ftan fatan z Z : good_libm facos fsin ftan fatan -> stands_for z Z -> 0 <= Z <= 1 ->
  ap (disc_f64 facos z) (lens1 Z) (/ 8388608).
Proof.
  intros L H B. destruct (acos_in _ _ _ _ L z Z H ltac:(lra)) as (s & Hs & _ & Es).
  assert (S1 : stands_for (z * z)%float (rnd (Z * Z))).
  { apply f_mul; auto. apply lt_900. rewrite Rabs_pos_eq; nra. }
  assert (Z2 : 0 <= Z * Z <= 1) by nra.
  assert (R1 : 0 <= rnd (Z * Z) <= 1).
  { split; [apply rnd_pos; lra|]. rewrite <- (rnd_int 1) by lia. apply rnd_mono. lra. }
  assert (S2 : stands_for (1 - z * z)%float (rnd (1 - rnd (Z * Z)))).
  { apply f_sub; auto using f_one. apply lt_900. rewrite Rabs_pos_eq; lra. }
  assert (R2 : 0 <= rnd (1 - rnd (Z * Z))) by (apply rnd_pos; lra).
  generalize (f_sqrt _ _ S2 R2). intros S3.
  assert (E1 : Rabs (rnd (Z * Z) - Z * Z) <= 2 * mu).
  { eapply Rle_trans; [apply rnd_mix|]. fold mu tn. rewrite Rabs_pos_eq by lra. generalize tn_mu mumu mu_small. intros.
    assert (mu * (Z * Z) <= mu * 1) by (apply Rmult_le_compat_l; lra). lra. }
  assert (E2 : Rabs (rnd (1 - rnd (Z * Z)) - (1 - rnd (Z * Z))) <= 2 * mu).
  { eapply Rle_trans; [apply rnd_mix|]. fold mu tn. rewrite Rabs_pos_eq by lra. generalize tn_mu mumu mu_small. intros.
    assert (mu * (1 - rnd (Z * Z)) <= mu * 1) by (apply Rmult_le_compat_l; lra). lra. }
  assert (E3 : Rabs (R_sqrt.sqrt (rnd (1 - rnd (Z * Z))) - R_sqrt.sqrt (1 - Z * Z)) <= / 40000000).
  { eapply Rle_trans; [apply sqrt_gap with (d := 4 * mu); try lra|].
    - apply Rabs_le_inv in E1, E2. apply Rabs_le. lra.
    - apply sqrt_below; [lra|unfold mu; lra]. }
  assert (Sq : 0 <= R_sqrt.sqrt (1 - Z * Z) <= 1).
  { split; [apply sqrt_pos|]. rewrite <- sqrt_1 at 2. apply sqrt_le_1_alt. lra. }
  assert (A3 : ap (PrimFloat.sqrt (1 - z * z)) (R_sqrt.sqrt (1 - Z * Z)) (/ 40000000 + one_rnd)).
  { apply step with (R_sqrt.sqrt (rnd (1 - rnd (Z * Z)))); auto. eapply Rle_trans; [apply abs_near; exact E3|]. rewrite Rabs_pos_eq; lra. }
  assert (A4 : ap (z * PrimFloat.sqrt (1 - z * z))%float (Z * R_sqrt.sqrt (1 - Z * Z)) (/ 30000000)).
  { apply ap_w with (1 * (/ 40000000 + one_rnd) + 1 * 0 + 0 * (/ 40000000 + one_rnd) + one_rnd); [|unfold one_rnd; lra].
    apply ap_mul; auto using ap_of; try (rewrite Rabs_pos_eq; lra); unfold one_rnd; lra. }
  assert (A5 : ap (facos z) (acos Z) (/ 2 ^ 40)) by (exists s; auto).
  assert (P40 : / 2 ^ 40 = / 1099511627776) by (f_equal; ring).
  rewrite P40 in A5. unfold lens1. destruct (Rle_dec Z 1); [|lra]. unfold disc_f64.
  apply ap_w with (/ 1099511627776 + / 30000000 + one_rnd); [|unfold one_rnd; lra].
  apply ap_sub; auto; [|lra]. generalize (acos_bound Z) pi_3. intros Ba Pi.
  assert (0 <= Z * R_sqrt.sqrt (1 - Z * Z) <= 1) by (split; [apply Rmult_le_pos; lra|]; apply Rle_trans with (1 * 1); [apply Rmult_le_compat; lra|lra]).
  apply Rabs_le. lra.
Qed.
Lemma disc_term facos fsin ftan fatan z Z c C x d : good_libm facos fsin ftan fatan -> stands_for z Z -> 0 <= Z -> 0 <= x -> Rabs (Z - x) <= d ->
  ap c C (20 * one_rnd) -> 0 <= C <= 1 ->
  ap (nan_to_num_f64 (c * disc_f64 facos z)) (C * lens1 x) (6 * R_sqrt.sqrt d + / 4000000).
Proof.
  intros L H Z0 X0 D Hc C1.
  assert (G : ap (nan_to_num_f64 (c * disc_f64 facos z)) (C * lens1 Z) (/ 4000000)).
  { destruct (Rle_lt_dec Z 1) as [I|I].
    - generalize (disc_in _ _ _ _ z Z L H ltac:(lra)) (lens1_range Z Z0) pi_3. intros A R P.
      assert (Q : ap (c * disc_f64 facos z)%float (C * lens1 Z) (/ 4000000)).
      { apply ap_w with (1 * / 8388608 + 2 * (20 * one_rnd) + 20 * one_rnd * / 8388608 + one_rnd); [|unfold one_rnd; lra].
        apply ap_mul; auto; try (rewrite Rabs_pos_eq; lra); unfold one_rnd; lra. }
      destruct Q as (v & Hv & Ev). exists v. split; [|exact Ev]. now rewrite (num_fin _ v Hv).
    - rewrite lens1_out by lra. rewrite Rmult_0_r. unfold disc_f64. rewrite (acos_out _ _ _ _ L z Z H) by lra.
      rewrite nan_sub, nan_mul_r, num_nan. eapply ap_w; [apply ap_of, f_0|lra]. }
  destruct G as (v & Hv & Ev). exists v. split; [exact Hv|]. generalize (lens1_holder Z x d Z0 X0 D). intros Q.
  replace (v - C * lens1 x) with ((v - C * lens1 Z) + C * (lens1 Z - lens1 x)) by ring.
  eapply Rle_trans; [apply Rabs_triang|]. rewrite Rabs_mult, (Rabs_pos_eq C) by lra.
  assert (C * Rabs (lens1 Z - lens1 x) <= 1 * (6 * R_sqrt.sqrt d)) by (apply Rmult_le_compat; auto; try lra; apply Rabs_pos). lra.
Qed.
Lemma const_a : ap (2 / pi_f64)%float (2 / PI) (20 * one_rnd) /\ 0 <= 2 / PI <= 1.
Proof.
  generalize pi_3. intros P. split.
  - eapply ap_w; [apply ap_div_pi with (e := 0); [apply ap_of, f_two|rewrite Rabs_pos_eq; lra|lra]|unfold one_rnd; lra].
  - split; [apply div_pos; lra|]. apply Rmult_le_reg_r with PI; [lra|]. unfold Rdiv. rewrite Rmult_assoc, Rinv_l by lra. lra.
Qed.
Lemma const_b f e : stands_for f e -> 0.1 <= e <= 0.9 -> ap (2 * (f * f) / pi_f64)%float (2 * (e * e) / PI) (20 * one_rnd) /\ 0 <= 2 * (e * e) / PI <= 1.
Proof.
  intros H E. generalize pi_3 (sq_bounds e E). intros P S. split.
  - eapply ap_w; [apply ap_div_pi with (e := 2 * one_rnd + one_rnd)|unfold one_rnd; lra].
    + apply ap_two; [apply ap_sq; auto|rewrite Rabs_pos_eq; lra|unfold one_rnd; lra].
    + rewrite Rabs_pos_eq; lra.
    + unfold one_rnd; lra.
  - split; [apply div_pos; lra|]. apply Rmult_le_reg_r with PI; [lra|]. unfold Rdiv. rewrite Rmult_assoc, Rinv_l by lra. lra.
Qed.
