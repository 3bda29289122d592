(** * Num_Planck: where Planck's curve has its peak, and the area below it *)
From Coq Require Import Reals Lra Lia List Arith Psatz.
From Coquelicot Require Import Coquelicot.
From Interval Require Import Tactic.
From Verif Require Import Base_XR Base_Np Model_Rad Spec_Rad Proof_Rad.
Import ListNotations.
Open Scope R_scope.

(** ** the peak: x^5 / (e^x - 1) with x = h c / (lambda k T) *)
Definition pk (x : R) : R := x ^ 5 / (exp x - 1).
Definition sg (x : R) : R := exp x * (5 - x) - 5.
Lemma exp_gt1 x : 0 < x -> 1 < exp x.
Proof. intros H. rewrite <- exp_0. now apply exp_increasing. Qed.
Lemma pk_der x : 0 < x -> is_derive pk x (x ^ 4 * sg x / (exp x - 1) ^ 2).
Proof.
  intros H. pose proof (exp_gt1 x H). unfold pk, sg. auto_derive; [lra|]. field. lra.
Qed.
Lemma sg_der x : is_derive sg x (exp x * (4 - x)).
Proof. unfold sg. auto_derive; [exact I|]. ring. Qed.
Lemma sg_up x y : x < y -> y <= 4 -> sg x < sg y.
Proof.
  intros H K. destruct (MVT_gen sg x y (fun t => exp t * (4 - t))) as (c & B & E).
  - intros t T. apply sg_der.
  - intros t T. apply continuity_pt_filterlim, (ex_derive_continuous sg). eexists. apply sg_der.
  - rewrite Rmin_left, Rmax_right in B by lra.
    destruct (Req_dec c 4) as [->|N].
    + (* the mean value is not at the end: compare through the middle *)
      exfalso. assert (y = 4) by lra. subst y.
      pose proof (exp_pos 4). 
      assert (sg x < sg 4); [|lra].
      clear E B. unfold sg. 
      (* exp x (5 - x) < exp 4 since 5 - x < exp (4 - x) *)
      assert (5 - x < exp (4 - x)). { generalize (exp_ineq1 (4 - x) ltac:(lra)). lra. }
      replace (exp 4) with (exp x * exp (4 - x)) by (rewrite <- exp_plus; f_equal; ring).
      pose proof (exp_pos x). nra.
    + pose proof (exp_pos c). assert (0 < exp c * (4 - c)) by (apply Rmult_lt_0_compat; lra). nra.
Qed.
Lemma sg_down x y : 4 <= x -> x <= y -> sg y <= sg x.
Proof.
  intros H K. destruct (MVT_gen sg x y (fun t => exp t * (4 - t))) as (c & B & E).
  - intros t T. apply sg_der.
  - intros t T. apply continuity_pt_filterlim, (ex_derive_continuous sg). eexists. apply sg_der.
  - rewrite Rmin_left, Rmax_right in B by lra. pose proof (exp_pos c).
    assert (0 <= exp c * (c - 4)) by (apply Rmult_le_pos; lra). nra.
Qed.
Lemma sg_pos x b : 0 < x -> x <= b -> 4 <= b -> 0 < sg b -> 0 < sg x.
Proof.
  intros H K L P. destruct (Rle_dec x 4).
  - assert (sg 0 < sg x) by (apply sg_up; lra). unfold sg in H0 at 1. rewrite exp_0 in H0. lra.
  - assert (sg b <= sg x) by (apply sg_down; lra). lra.
Qed.
Lemma pk_up x y b : 0 < x -> x < y -> y <= b -> 4 <= b -> 0 < sg b -> pk x < pk y.
Proof.
  intros H K L M P. destruct (MVT_gen pk x y (fun t => t ^ 4 * sg t / (exp t - 1) ^ 2)) as (c & B & E).
  - intros t T. rewrite Rmin_left in T by lra. apply pk_der. lra.
  - intros t T. rewrite Rmin_left in T by lra. apply continuity_pt_filterlim, (ex_derive_continuous pk). eexists. apply pk_der. lra.
  - rewrite Rmin_left, Rmax_right in B by lra. assert (0 < sg c) by (apply (sg_pos c b); lra).
    pose proof (exp_gt1 c ltac:(lra)).
    assert (0 < c ^ 4 * sg c / (exp c - 1) ^ 2).
    { apply Rdiv_lt_0_compat; [apply Rmult_lt_0_compat; [apply pow_lt; lra|assumption]|apply pow_lt; lra]. }
    assert (0 < c ^ 4 * sg c / (exp c - 1) ^ 2 * (y - x)) by (apply Rmult_lt_0_compat; lra). lra.
Qed.
Lemma pk_down x y b : 4 <= b -> sg b < 0 -> b <= x -> x < y -> pk y < pk x.
Proof.
  intros M P L K. destruct (MVT_gen pk x y (fun t => t ^ 4 * sg t / (exp t - 1) ^ 2)) as (c & B & E).
  - intros t T. rewrite Rmin_left in T by lra. apply pk_der. lra.
  - intros t T. rewrite Rmin_left in T by lra. apply continuity_pt_filterlim, (ex_derive_continuous pk). eexists. apply pk_der. lra.
  - rewrite Rmin_left, Rmax_right in B by lra. assert (sg c <= sg b) by (apply sg_down; lra).
    pose proof (exp_gt1 c ltac:(lra)).
    assert (0 < c ^ 4 * (- sg c) / (exp c - 1) ^ 2).
    { apply Rdiv_lt_0_compat; [apply Rmult_lt_0_compat; [apply pow_lt; lra|lra]|apply pow_lt; lra]. }
    assert (0 < c ^ 4 * (- sg c) / (exp c - 1) ^ 2 * (y - x)) by (apply Rmult_lt_0_compat; lra).
    replace (c ^ 4 * - sg c / (exp c - 1) ^ 2) with (- (c ^ 4 * sg c / (exp c - 1) ^ 2)) in H2 by (field; lra). lra.
Qed.

Definition c2 : R := h_planck * c_light / k_boltz. (* second radiation constant, 0.0143878 m K *)
Lemma c2_num : 0.01438777 <= c2 <= 0.01438778.
Proof. unfold c2, h_planck, c_light, k_boltz. interval. Qed.
Lemma planck_pk lam T : 0 < lam -> 0 < T ->
  planck lam T = 2 * h_planck * c_light ^ 2 / c2 ^ 5 * T ^ 5 * pk (c2 / (lam * T)).
Proof.
  intros Hl HT. unfold planck, pk. destruct (Req_EM_T T 0); [lra|].
  pose proof c2_num. assert (K : 0 < k_boltz) by (unfold k_boltz; lra).
  replace (h_planck * c_light / (lam * k_boltz * T)) with (c2 / (lam * T)) by (unfold c2; field; lra).
  assert (0 < c2 / (lam * T)) by (apply Rdiv_lt_0_compat; [lra|apply Rmult_lt_0_compat; lra]).
  pose proof (exp_gt1 _ H0). set (e := exp (c2 / (lam * T))) in *. clearbody e. field. repeat split; lra.
Qed.
Lemma wien_factor T : 0 < T -> 0 < 2 * h_planck * c_light ^ 2 / c2 ^ 5 * T ^ 5.
Proof.
  intros HT. pose proof c2_num. apply Rmult_lt_0_compat; [|apply pow_lt; lra].
  apply Rdiv_lt_0_compat; [|apply pow_lt; lra]. unfold h_planck, c_light. lra.
Qed.
Lemma wien_rise lam1 lam2 T : 0 < T -> 0 < lam1 -> lam1 < lam2 -> lam2 * T <= 2.89777 / 10 ^ 3 -> planck lam1 T < planck lam2 T.
Proof.
  intros HT H1 H12 H2. rewrite !planck_pk by lra. apply Rmult_lt_compat_l; [now apply wien_factor|].
  pose proof c2_num. assert (P1 : 0 < lam1 * T) by (apply Rmult_lt_0_compat; lra). assert (P12 : lam1 * T < lam2 * T) by (apply Rmult_lt_compat_r; lra).
  apply (pk_down _ _ (c2 / (2.89777 / 10 ^ 3))).
  - unfold c2, h_planck, c_light, k_boltz. interval.
  - unfold sg, c2, h_planck, c_light, k_boltz. interval with (i_prec 60).
  - apply Rmult_le_compat_l; [lra|]. apply Rinv_le_contravar; lra.
  - apply Rmult_lt_compat_l; [lra|]. apply Rinv_lt_contravar; [apply Rmult_lt_0_compat; lra|lra].
Qed.
Lemma wien_fall lam1 lam2 T : 0 < T -> 2.89778 / 10 ^ 3 <= lam1 * T -> lam1 < lam2 -> planck lam2 T < planck lam1 T.
Proof.
  intros HT H2 H12. assert (P1 : 0 < lam1 * T) by lra.
  assert (H1 : 0 < lam1) by (apply (Rmult_lt_reg_r T); lra).
  rewrite !planck_pk by lra. apply Rmult_lt_compat_l; [now apply wien_factor|].
  pose proof c2_num. assert (P12 : lam1 * T < lam2 * T) by (apply Rmult_lt_compat_r; lra).
  apply (pk_up _ _ (c2 / (2.89778 / 10 ^ 3))).
  - apply Rdiv_lt_0_compat; lra.
  - apply Rmult_lt_compat_l; [lra|]. apply Rinv_lt_contravar; [apply Rmult_lt_0_compat; lra|lra].
  - apply Rmult_le_compat_l; [lra|]. apply Rinv_le_contravar; lra.
  - unfold c2, h_planck, c_light, k_boltz. interval.
  - unfold sg, c2, h_planck, c_light, k_boltz. interval with (i_prec 60).
Qed.

(** ** the area: x^3 / (e^x - 1) *)
Definition qf (x : R) : R := x ^ 3 / (exp x - 1).
Lemma qf_cont x : 0 < x -> continuous qf x.
Proof. intros H. pose proof (exp_gt1 x H). apply (ex_derive_continuous qf). unfold qf. auto_derive. lra. Qed.
Lemma qf_int a b : 0 < a -> 0 < b -> ex_RInt qf a b.
Proof.
  intros A B. apply (ex_RInt_continuous (V := R_CompleteNormedModule)). intros z Z. apply qf_cont.
  assert (0 < Rmin a b) by (apply Rmin_glb_lt; lra). lra.
Qed.
Lemma qf_nonneg x : 0 < x -> 0 <= qf x.
Proof. intros H. pose proof (exp_gt1 x H). unfold qf. apply Rlt_le, Rdiv_lt_0_compat; [apply pow_lt|]; lra. Qed.
Lemma qf_small x : 0 < x -> qf x <= x ^ 2.
Proof.
  intros H. pose proof (exp_ineq1 x ltac:(lra)). unfold qf. apply (Rmult_le_reg_r (exp x - 1)); [lra|].
  unfold Rdiv. rewrite Rmult_assoc, Rinv_l, Rmult_1_r by lra. simpl. nra.
Qed.
Lemma qf_large x : 1 <= x -> qf x <= 1.6 * (x ^ 3 * exp (- x)).
Proof.
  intros H. assert (E : 2.7 <= exp x). { apply Rle_trans with (exp 1); [interval|]. destruct H as [H| <-]; [left; now apply exp_increasing|lra]. }
  unfold qf. rewrite exp_Ropp. apply (Rmult_le_reg_r (exp x - 1)); [lra|].
  unfold Rdiv. rewrite Rmult_assoc, Rinv_l, Rmult_1_r by lra.
  assert (P : 0 < x ^ 3) by (apply pow_lt; lra). set (y := x ^ 3) in *. set (e := exp x) in *. clearbody y e.
  replace (1.6 * (y * / e) * (e - 1)) with (y * (1.6 * (1 - / e))) by (field; lra).
  assert (/ e <= / 2.7) by (apply Rinv_le_contravar; lra). nra.
Qed.
Definition tl (x : R) : R := 1.6 * (exp (- x) * (x ^ 3 + 3 * x ^ 2 + 6 * x + 6)).
Lemma tl_int a b : is_RInt (fun x => 1.6 * (x ^ 3 * exp (- x))) a b (tl a - tl b).
Proof.
  replace (tl a - tl b) with (minus (- tl b) (- tl a)) by (unfold minus, plus, opp; simpl; ring).
  apply (is_RInt_derive (V := R_CompleteNormedModule) (fun x => - tl x)).
  - intros x _. unfold tl. auto_derive; [exact I|]. ring.
  - intros x _. apply (ex_derive_continuous (fun x => 1.6 * (x ^ 3 * exp (- x)))). auto_derive. exact I.
Qed.
Lemma tl_pos x : 0 <= x -> 0 <= tl x.
Proof. intros H. unfold tl. pose proof (exp_pos (- x)). apply Rmult_le_pos; [lra|]. apply Rmult_le_pos; [lra|]. assert (0 <= x ^ 3) by (apply pow_le; lra). nra. Qed.
Lemma tail_high a b : 1 <= a -> a <= b -> RInt qf a b <= tl a.
Proof.
  intros A B. apply Rle_trans with (RInt (fun x => 1.6 * (x ^ 3 * exp (- x))) a b).
  - apply RInt_le; [lra|apply qf_int; lra|eexists; apply tl_int|]. intros x X. apply qf_large. lra.
  - rewrite (is_RInt_unique _ _ _ _ (tl_int a b)). pose proof (tl_pos b ltac:(lra)). lra.
Qed.
Lemma tail_low a b : 0 < a -> a <= b -> RInt qf a b <= b ^ 3 / 3.
Proof.
  intros A B.
  assert (I : is_RInt (fun x => x ^ 2) a b (b ^ 3 / 3 - a ^ 3 / 3)).
  { apply (is_RInt_derive (V := R_CompleteNormedModule) (fun x => x ^ 3 / 3)).
    - intros x _. auto_derive; [exact I|]. field.
    - intros x _. apply (ex_derive_continuous (fun x => x ^ 2)). auto_derive. exact I. }
  apply Rle_trans with (RInt (fun x => x ^ 2) a b).
  - apply RInt_le; [lra|apply qf_int; lra|eexists; exact I|]. intros x X. apply qf_small. lra.
  - rewrite (is_RInt_unique _ _ _ _ I). assert (0 <= a ^ 3) by (apply pow_le; lra). lra.
Qed.
Lemma qf_split a b c : 0 < a -> 0 < b -> 0 < c -> RInt qf a c = RInt qf a b + RInt qf b c.
Proof. intros. symmetry. apply (RInt_Chasles (V := R_CompleteNormedModule)); now apply qf_int. Qed.
Lemma qf_ge0 a b : 0 < a -> a <= b -> 0 <= RInt qf a b.
Proof. intros. apply RInt_ge_0; [lra|apply qf_int; lra|]. intros x X. apply qf_nonneg. lra. Qed.

(* the area over the half line *)
Lemma whole : exists S, forall a b, 0 < a -> 1 <= b -> a <= b -> RInt qf a b <= S <= RInt qf a b + a ^ 3 / 3 + tl b.
Proof.
  assert (U : forall a b, 0 < a -> 1 <= b -> a <= b -> forall a' b', 0 < a' -> 1 <= b' -> a' <= b' ->
    RInt qf a' b' <= RInt qf a b + a ^ 3 / 3 + tl b).
  { intros a b A B L a' b' A' B' L'. set (m := Rmin a a'). set (M := Rmax b b').
    assert (0 < m <= a /\ m <= a') by (unfold m; repeat split; [apply Rmin_glb_lt; lra|apply Rmin_l|apply Rmin_r]).
    assert (b <= M /\ b' <= M) by (unfold M; split; [apply Rmax_l|apply Rmax_r]).
    apply Rle_trans with (RInt qf m M).
    - rewrite (qf_split m a' M), (qf_split a' b' M) by lra.
      pose proof (qf_ge0 m a' ltac:(lra) ltac:(lra)). pose proof (qf_ge0 b' M ltac:(lra) ltac:(lra)). lra.
    - rewrite (qf_split m a M), (qf_split a b M) by lra.
      pose proof (tail_low m a ltac:(lra) ltac:(lra)). pose proof (tail_high b M ltac:(lra) ltac:(lra)). lra. }
  destruct (completeness (fun v => exists a b, 0 < a /\ 1 <= b /\ a <= b /\ v = RInt qf a b)) as [S [Ub Lb]].
  - exists (RInt qf 1 1 + 1 ^ 3 / 3 + tl 1). intros v (a & b & A & B & L & ->). apply U; lra.
  - exists (RInt qf 1 1), 1, 1. repeat split; lra.
  - exists S. intros a b A B L. split.
    + apply Ub. exists a, b. tauto.
    + apply Lb. intros v (a' & b' & A' & B' & L' & ->). now apply U.
Qed.
Lemma tl_decays x : 1 <= x -> tl x <= 7000 / x.
Proof.
  intros H. unfold tl. rewrite exp_Ropp.
  assert (E : x ^ 4 / 256 <= exp x).
  { replace (exp x) with (exp (4 * (x / 4))) by (f_equal; field). replace (exp (4 * (x / 4))) with (exp (x / 4) ^ 4).
    - replace (x ^ 4 / 256) with ((x / 4) ^ 4) by field. apply pow_incr. split; [lra|]. generalize (exp_ineq1 (x / 4) ltac:(lra)). lra.
    - replace (4 * (x / 4)) with (x / 4 + x / 4 + x / 4 + x / 4) by field. rewrite !exp_plus. ring. }
  assert (P : 0 < x ^ 4) by (apply pow_lt; lra). assert (I : / exp x <= / (x ^ 4 / 256)) by (apply Rinv_le_contravar; lra).
  assert (C : x ^ 3 + 3 * x ^ 2 + 6 * x + 6 <= 16 * x ^ 3).
  { assert (1 <= x ^ 2) by (simpl; nra). assert (x <= x ^ 2) by (simpl; nra). assert (x ^ 2 <= x ^ 3) by (simpl in *; nra). lra. }
  assert (0 < x ^ 3) by (apply pow_lt; lra). assert (0 < / exp x) by (apply Rinv_0_lt_compat, exp_pos).
  apply Rle_trans with (1.6 * (/ (x ^ 4 / 256) * (16 * x ^ 3))).
  - apply Rmult_le_compat_l; [lra|]. apply Rmult_le_compat; try lra. assert (0 < x ^ 2) by (apply pow_lt; lra). lra.
  - replace (/ (x ^ 4 / 256) * (16 * x ^ 3)) with (4096 * / x) by (field; lra). unfold Rdiv.
    assert (0 < / x) by (apply Rinv_0_lt_compat; lra). lra.
Qed.
Lemma qf_num : 6.49393 <= RInt qf (1 / 100) 40 <= 6.49394.
Proof. unfold qf. integral with (i_fuel 2000, i_degree 6, i_relwidth 20). Qed.
Lemma whole_num S : (forall a b, 0 < a -> 1 <= b -> a <= b -> RInt qf a b <= S <= RInt qf a b + a ^ 3 / 3 + tl b) ->
  6.49393 <= S <= 6.49395.
Proof.
  intros W. pose proof (W (1 / 100) 40 ltac:(lra) ltac:(lra) ltac:(lra)) as [L U]. pose proof qf_num.
  assert (tl 40 <= / 10 ^ 7) by (unfold tl; interval). assert ((1 / 100) ^ 3 / 3 <= / 10 ^ 6) by lra. lra.
Qed.

(** ** back to wavelengths *)
Definition c1 : R := 2 * h_planck * c_light ^ 2 / c2 ^ 4.
Lemma c1_num : 2.77941 / 10 ^ 9 <= c1 <= 2.77942 / 10 ^ 9.
Proof. unfold c1, c2, h_planck, c_light, k_boltz. split; interval. Qed.
Lemma planck_qf lam T : 0 < lam -> 0 < T -> planck lam T = (- (c2 / T / lam ^ 2)) * (- (c1 * T ^ 4) * qf (c2 / T / lam)).
Proof.
  intros Hl HT. rewrite planck_pk by assumption. pose proof c2_num.
  unfold pk, qf, c1. replace (c2 / T / lam) with (c2 / (lam * T)) by (field; lra).
  assert (0 < c2 / (lam * T)) by (apply Rdiv_lt_0_compat; [lra|apply Rmult_lt_0_compat; lra]).
  pose proof (exp_gt1 _ H0). set (e := exp (c2 / (lam * T))) in *. clearbody e. field. repeat split; lra.
Qed.
Lemma planck_int T l L : 0 < T -> 0 < l -> l <= L ->
  is_RInt (fun x => planck x T) l L (c1 * T ^ 4 * RInt qf (c2 / T / L) (c2 / T / l)).
Proof.
  intros HT Hl HL. pose proof c2_num.
  assert (P : forall x, 0 < x -> 0 < c2 / T / x) by (intros; apply Rdiv_lt_0_compat; [apply Rdiv_lt_0_compat|]; lra).
  apply (is_RInt_ext (fun x => (- (c2 / T / x ^ 2)) * (- (c1 * T ^ 4) * qf (c2 / T / x)))).
  { intros x X. rewrite Rmin_left in X by lra. symmetry. apply planck_qf; lra. }
  replace (c1 * T ^ 4 * RInt qf (c2 / T / L) (c2 / T / l))
    with (RInt (fun y => - (c1 * T ^ 4) * qf y) (c2 / T / l) (c2 / T / L)).
  2: { etransitivity; [apply (RInt_scal (V := R_CompleteNormedModule) qf (c2 / T / l) (c2 / T / L) (- (c1 * T ^ 4)))|].
       2: rewrite <- (opp_RInt_swap (V := R_CompleteNormedModule) qf (c2 / T / l) (c2 / T / L)).
       2: unfold scal, opp; simpl; unfold mult; simpl; ring.
       all: apply qf_int; apply P; lra. }
  apply (is_RInt_comp (fun y => - (c1 * T ^ 4) * qf y) (fun x => c2 / T / x) (fun x => - (c2 / T / x ^ 2))).
  - intros x X. rewrite Rmin_left in X by lra. apply (continuous_scal_r (- (c1 * T ^ 4)) qf). apply qf_cont. apply P. lra.
  - intros x X. rewrite Rmin_left in X by lra. split.
    + auto_derive; [lra|]. field. lra.
    + apply (ex_derive_continuous (fun x => - (c2 / T / x ^ 2))). auto_derive. nra.
Qed.

Lemma stefan T b : 0 < T -> (forall l, 0 < l -> blackbody_radiance1 l T = Fin (b l)) ->
  exists J, is_RInt_gen b (at_right 0) (Rbar_locally p_infty) J /\
    5.6703 / 10 ^ 8 * T ^ 4 / PI <= J <= 5.6704 / 10 ^ 8 * T ^ 4 / PI.
Proof.
  intros HT HB. assert (E : forall l, 0 < l -> b l = planck l T).
  { intros l Hl. specialize (HB l Hl). rewrite bb_fin in HB by lra. congruence. }
  destruct whole as [S W]. pose proof (whole_num S W) as N. pose proof c2_num. pose proof c1_num.
  assert (T4 : 0 < T ^ 4) by (apply pow_lt; lra). assert (K : 0 < c1 * T ^ 4) by (apply Rmult_lt_0_compat; lra).
  exists (c1 * T ^ 4 * S). split.
  - intros Q [eps He]. unfold filtermapi. unfold ball in He; simpl in He. 
    set (d := eps / (c1 * T ^ 4)). assert (D : 0 < d) by (apply Rdiv_lt_0_compat; [apply cond_pos|exact K]).
    set (a0 := Rmin 1 (d / 3)). set (b0 := 1 + 7000 * (3 / d)).
    assert (A0 : 0 < a0 /\ a0 <= 1 /\ a0 <= d / 3).
    { unfold a0. repeat split; [apply Rmin_glb_lt; lra|apply Rmin_l|apply Rmin_r]. }
    assert (D3 : 0 < 3 / d) by (apply Rdiv_lt_0_compat; lra). assert (B0 : 1 < b0) by (unfold b0; lra).
    set (l0 := c2 / T / b0). set (L0 := c2 / T / a0). assert (0 < c2 / T) by (apply Rdiv_lt_0_compat; lra).
    apply (Filter_prod _ _ _ (fun l => 0 < l < l0) (fun L => L0 < L)).
    + exists (mkposreal l0 ltac:(unfold l0; apply Rdiv_lt_0_compat; lra)). intros y Y Py. split; [exact Py|].
      unfold ball in Y; simpl in Y; unfold AbsRing_ball, abs, minus, plus, opp in Y; simpl in Y.
      rewrite Ropp_0, Rplus_0_r, Rabs_pos_eq in Y by lra. exact Y.
    + exists L0. tauto.
    + intros l L [Hl Hl0] HL. simpl.
      assert (HLb : b0 < c2 / T / l).
      { unfold l0 in Hl0. apply (Rmult_lt_reg_r l); [lra|]. replace (c2 / T / l * l) with (c2 / T) by (field; lra).
        apply (Rmult_lt_compat_l b0) in Hl0; [|lra]. replace (b0 * (c2 / T / b0)) with (c2 / T) in Hl0 by (field; lra). exact Hl0. }
      assert (HLp : 0 < L) by (unfold L0 in HL; assert (0 < c2 / T / a0) by (apply Rdiv_lt_0_compat; lra); lra).
      assert (HLa : c2 / T / L < a0).
      { unfold L0 in HL. apply (Rmult_lt_reg_r L); [lra|]. replace (c2 / T / L * L) with (c2 / T) by (field; lra).
        apply (Rmult_lt_compat_l a0) in HL; [|lra]. replace (a0 * (c2 / T / a0)) with (c2 / T) in HL by (field; lra). exact HL. }
      assert (Pa : 0 < c2 / T / L) by (apply Rdiv_lt_0_compat; lra).
      assert (LL : l <= L).
      { assert (l0 <= L0); [|lra]. unfold l0, L0, Rdiv. apply Rmult_le_compat_l; [unfold Rdiv in *; lra|]. apply Rinv_le_contravar; lra. }
      exists (c1 * T ^ 4 * RInt qf (c2 / T / L) (c2 / T / l)). split.
      * apply (is_RInt_ext (fun x => planck x T)); [|now apply planck_int].
        intros x X. rewrite Rmin_left in X by lra. symmetry. apply E. lra.
      * apply He. change (Rabs (c1 * T ^ 4 * RInt qf (c2 / T / L) (c2 / T / l) + - (c1 * T ^ 4 * S)) < eps).
        pose proof (W (c2 / T / L) (c2 / T / l) Pa ltac:(lra) ltac:(lra)) as [W1 W2].
        set (I := RInt qf (c2 / T / L) (c2 / T / l)) in *.
        assert (T1 : (c2 / T / L) ^ 3 / 3 < d / 3).
        { assert ((c2 / T / L) ^ 3 <= c2 / T / L).
          { set (z := c2 / T / L) in *. clearbody z. simpl. assert (z * z <= 1) by nra. nra. }
          lra. }
        assert (T2 : tl (c2 / T / l) < d / 3).
        { apply Rle_lt_trans with (7000 / (c2 / T / l)); [apply tl_decays; lra|].
          set (z := c2 / T / l) in *. clearbody z. unfold b0 in HLb. apply (Rmult_lt_reg_r (z * (3 / d))); [apply Rmult_lt_0_compat; lra|].
          replace (7000 / z * (z * (3 / d))) with (7000 * (3 / d)) by (field; lra). replace (d / 3 * (z * (3 / d))) with z by (field; lra). lra. }
        replace (c1 * T ^ 4 * I + - (c1 * T ^ 4 * S)) with (- (c1 * T ^ 4 * (S - I))) by ring.
        rewrite Rabs_Ropp, Rabs_pos_eq by (apply Rmult_le_pos; lra).
        replace (pos eps) with (c1 * T ^ 4 * d) by (unfold d; field; split; lra).
        apply Rmult_lt_compat_l; lra.
  - assert (V : 5.6703 / 10 ^ 8 / PI <= c1 * S <= 5.6704 / 10 ^ 8 / PI).
    { assert (2.77941 / 10 ^ 9 * 6.49393 <= c1 * S <= 2.77942 / 10 ^ 9 * 6.49395) by (split; apply Rmult_le_compat; lra).
      assert (5.6703 / 10 ^ 8 / PI <= 2.77941 / 10 ^ 9 * 6.49393) by interval with (i_prec 60).
      assert (2.77942 / 10 ^ 9 * 6.49395 <= 5.6704 / 10 ^ 8 / PI) by interval with (i_prec 60). lra. }
    replace (5.6703 / 10 ^ 8 * T ^ 4 / PI) with (5.6703 / 10 ^ 8 / PI * T ^ 4) by (unfold Rdiv; ring).
    replace (5.6704 / 10 ^ 8 * T ^ 4 / PI) with (5.6704 / 10 ^ 8 / PI * T ^ 4) by (unfold Rdiv; ring).
    replace (c1 * T ^ 4 * S) with (c1 * S * T ^ 4) by ring. split; apply Rmult_le_compat_r; lra.
Qed.

(** the part of the curve at 300 K between 0.3 and 14 micrometres *)
Lemma share_num : 3.34 <= RInt qf (c2 / 300 / (14 / 10 ^ 6)) (c2 / 300 / (3 / 10 ^ 7)) <= 3.36.
Proof.
  unfold qf, c2, h_planck, c_light, k_boltz. split; integral with (i_fuel 2000, i_degree 6, i_relwidth 12).
Qed.
Lemma share300 b : (forall l, 0 < l -> blackbody_radiance1 l 300 = Fin (b l)) ->
  exists J I, is_RInt_gen b (at_right 0) (Rbar_locally p_infty) J /\ is_RInt b (3 / 10 ^ 7) (14 / 10 ^ 6) I /\
    51 / 100 * J <= I <= 52 / 100 * J.
Proof.
  intros HB. destruct (stefan 300 b ltac:(lra) HB) as [J [HJ [L U]]].
  exists J, (c1 * 300 ^ 4 * RInt qf (c2 / 300 / (14 / 10 ^ 6)) (c2 / 300 / (3 / 10 ^ 7))). split; [exact HJ|]. split.
  - apply (is_RInt_ext (fun x => planck x 300)); [|apply planck_int; lra].
    intros x X. rewrite Rmin_left in X by lra. specialize (HB x ltac:(lra)). rewrite bb_fin in HB by lra. congruence.
  - pose proof share_num. pose proof c1_num. set (q := RInt qf (c2 / 300 / (14 / 10 ^ 6)) (c2 / 300 / (3 / 10 ^ 7))) in *.
    assert (2.77941 / 10 ^ 9 * 3.34 <= c1 * q <= 2.77942 / 10 ^ 9 * 3.36) by (split; apply Rmult_le_compat; lra).
    replace (c1 * 300 ^ 4 * q) with (300 ^ 4 * (c1 * q)) by ring.
    assert (J <= 146.3) by (eapply Rle_trans; [exact U|]; interval).
    assert (146.1 <= J) by (eapply Rle_trans; [|exact L]; interval). lra.
Qed.

Lemma peak_rise T lam1 lam2 : 0 < T -> 0 < lam1 -> lam1 < lam2 -> lam2 * T <= 2.89777 / 10 ^ 3 ->
  exists b1 b2, blackbody_radiance1 lam1 T = Fin b1 /\ blackbody_radiance1 lam2 T = Fin b2 /\ b1 < b2.
Proof.
  intros HT H1 H2 HP. exists (planck lam1 T), (planck lam2 T). rewrite !bb_fin by lra.
  repeat split. now apply wien_rise.
Qed.
Lemma peak_fall T lam1 lam2 : 0 < T -> 2.89778 / 10 ^ 3 <= lam1 * T -> lam1 < lam2 ->
  exists b1 b2, blackbody_radiance1 lam1 T = Fin b1 /\ blackbody_radiance1 lam2 T = Fin b2 /\ b2 < b1.
Proof.
  intros HT HP H2. assert (0 < lam1) by (apply (Rmult_lt_reg_r T); lra).
  exists (planck lam1 T), (planck lam2 T). rewrite !bb_fin by lra. repeat split. now apply wien_fall.
Qed.
