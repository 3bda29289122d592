(** * Proof_Fried: the trapezoidal rule of coherence_diameter tends to the integral as the path is sampled more finely *)
From Coq Require Import Reals Lra Lia List Arith Psatz.
From Coquelicot Require Import Coquelicot.
From Verif Require Import Base_XR Base_Np Model_Otf Spec_Rad Spec_Chain Proof_Otf Proof_Weight Proof_SystemX.
Import ListNotations.
Open Scope R_scope.

(** ** The rule is the mean of two Riemann sums *)
Lemma trapezoid_sums (f : R -> R) P :
  trapezoid (map f P) P = (Riemann_sum f (SF_seq_f2 (fun x _ => x) P) + Riemann_sum f (SF_seq_f2 (fun _ y => y) P)) / 2.
Proof.
  induction P as [|x P IH].
  - unfold Riemann_sum, SF_seq_f2. simpl. unfold zero. simpl. lra.
  - destruct P as [|y P].
    + unfold Riemann_sum, SF_seq_f2. simpl. unfold zero. simpl. lra.
    + rewrite (SF_cons_f2 (fun x _ => x)), (SF_cons_f2 (fun _ y => y)) by (simpl; lia).
      rewrite !Riemann_sum_cons. cbn [seq.head fst snd].
      change (trapezoid (map f (x :: y :: P)) (x :: y :: P)) with ((y - x) * (f x + f y) / 2 + trapezoid (map f (y :: P)) (y :: P)).
      rewrite IH. unfold plus, scal; simpl. unfold mult; simpl.
      change (SF_h (SF_seq_f2 (fun x0 _ : R => x0) (y :: P))) with y. change (SF_h (SF_seq_f2 (fun _ y0 : R => y0) (y :: P))) with y. lra.
Qed.
Lemma unif_samples L n : unif_part 0 L n = map (fun i => L * INR i / INR (S n)) (seq 0 (S (S n))).
Proof.
  unfold unif_part, seq.mkseq. change seq.iota with seq. change (@seq.map nat R) with (@map nat R).
  apply map_ext. intros i. rewrite S_INR. unfold Rdiv. ring.
Qed.
Lemma fine_samples (g : R -> R -> R) L : (forall a b, a <= b -> a <= g a b <= b) -> 0 < L ->
  filterlim (fun n => SF_seq_f2 g (unif_part 0 L n)) eventually (Riemann_fine 0 L).
Proof.
  intros G HL P [d Hd]. unfold filtermap.
  assert (A : is_lim_seq (fun n => L / (INR n + 1)) 0).
  { apply is_lim_seq_ext with (fun n => L * / INR (S n)). { intros n. rewrite S_INR. reflexivity. }
    assert (I : is_lim_seq (fun n => / INR n) 0).
    { change (Finite 0) with (Rbar_inv p_infty). apply is_lim_seq_inv; [apply is_lim_seq_INR | discriminate]. }
    apply is_lim_seq_incr_1 in I. apply (is_lim_seq_scal_l _ L) in I. simpl in I. rewrite Rmult_0_r in I. exact I. }
  apply is_lim_seq_spec in A. specialize (A d). revert A. apply filter_imp. intros n A.
  destruct (Riemann_fine_unif_part g 0 L n G) as (S1 & S2 & S3 & S4); [lra|].
  apply Hd.
  - rewrite Rminus_0_r in S1. rewrite Rminus_0_r in A. apply Rle_lt_trans with (1 := S1). apply Rle_lt_trans with (2 := A). apply Rle_abs.
  - split; [exact S2|]. split; rewrite ?Rmin_left, ?Rmax_right by lra; assumption.
Qed.
Lemma trapezoid_tends (f : R -> R) (L J : R) : 0 < L -> is_RInt f 0 L J ->
  is_lim_seq (fun n => trapezoid (map (fun i => f (L * INR i / INR (S n))) (seq 0 (S (S n)))) (map (fun i => L * INR i / INR (S n)) (seq 0 (S (S n))))) J.
Proof.
  intros HL I.
  assert (T : forall g, (forall a b, a <= b -> a <= g a b <= b) -> is_lim_seq (fun n => Riemann_sum f (SF_seq_f2 g (unif_part 0 L n))) J).
  { intros g G. assert (Q := filterlim_comp _ _ _ _ _ _ _ _ (fine_samples g L G HL) I).
    unfold is_lim_seq. simpl Rbar_locally. revert Q. apply filterlim_ext. intros n.
    replace (sign (L - 0)) with 1 by (symmetry; apply sign_eq_1; lra). apply (scal_one (K := R_Ring)). }
  assert (T1 := T (fun x _ => x) ltac:(intros; lra)). assert (T2 := T (fun _ y => y) ltac:(intros; lra)).
  assert (T3 := is_lim_seq_plus' _ _ _ _ T1 T2). apply (is_lim_seq_scal_l _ (/ 2)) in T3. simpl in T3.
  replace (/ 2 * (J + J)) with J in T3 by (simpl; lra). revert T3. apply is_lim_seq_ext.
  intros n. cbv beta. rewrite <- (map_map (fun i => L * INR i / INR (S n)) f), <- unif_samples, trapezoid_sums. lra.
Qed.

(** ** t to the power 5/3 *)
Lemma five_thirds_pos t : 0 < t -> 0 < five_thirds t.
Proof. intros H. unfold five_thirds. destruct (Rlt_dec 0 t); [apply exp_pos | lra]. Qed.
Lemma five_thirds_ge0 t : 0 <= five_thirds t.
Proof. unfold five_thirds. destruct (Rlt_dec 0 t); [left; apply exp_pos | lra]. Qed.
Lemma ln_le0 t : 0 < t <= 1 -> ln t <= 0.
Proof. intros H. rewrite <- ln_1. destruct (Req_dec t 1) as [-> | N]; [lra|]. left. apply ln_increasing; lra. Qed.
Lemma Rpower_pow1 t : 0 < t -> t = exp (ln t).
Proof. intros. symmetry. apply exp_ln. auto. Qed.
Lemma five_thirds_below t : 0 <= t <= 1 -> t * t <= five_thirds t <= t.
Proof.
  intros [H0 H1]. unfold five_thirds. destruct (Rlt_dec 0 t) as [H | H]; [|replace t with 0 by lra; lra].
  assert (E := Rpower_pow1 t H). assert (L := ln_le0 t ltac:(lra)).
  unfold Rpower. split.
  - rewrite E at 1 2. rewrite <- exp_plus. apply exp_le. lra.
  - rewrite E at 2. apply exp_le. lra.
Qed.
Lemma five_thirds_below_sq t : 1 <= t -> five_thirds t <= t * t.
Proof.
  intros H. unfold five_thirds. destruct (Rlt_dec 0 t) as [H0 | H0]; [|lra].
  assert (E := Rpower_pow1 t H0). assert (L : 0 <= ln t).
  { rewrite <- ln_1. destruct (Req_dec t 1) as [-> | N]; [lra|]. left. apply ln_increasing; lra. }
  unfold Rpower. rewrite E at 2 3. rewrite <- exp_plus. apply exp_le. lra.
Qed.
Lemma five_thirds_mul a t : 0 < a -> five_thirds (a * t) = Rpower a (5 / 3) * five_thirds t.
Proof.
  intros Ha. unfold five_thirds. destruct (Rlt_dec 0 (a * t)) as [H | H], (Rlt_dec 0 t) as [H' | H'].
  - symmetry. apply Rpower_mult_distr; lra.
  - exfalso. nra.
  - exfalso. apply H. apply Rmult_lt_0_compat; lra.
  - ring.
Qed.
Lemma five_thirds_cont t : continuous five_thirds t.
Proof.
  destruct (Rtotal_order t 0) as [H | [-> | H]].
  - apply continuous_ext_loc with (fun _ => 0); [|apply continuous_const].
    exists (mkposreal (- t) ltac:(lra)). intros y Hy. unfold ball in Hy. simpl in Hy. unfold AbsRing_ball, abs, minus, plus, opp in Hy. simpl in Hy.
    apply Rabs_def2 in Hy. unfold five_thirds. destruct (Rlt_dec 0 y); [lra | reflexivity].
  - unfold continuous. apply (filterlim_locally (F := locally 0)). intros e.
    assert (M : 0 < Rmin e 1) by (apply Rmin_glb_lt; [apply cond_pos | lra]).
    exists (mkposreal _ M). intros y Hy. unfold ball in *. simpl in *. unfold AbsRing_ball, abs, minus, plus, opp in *. simpl in *.
    assert (Z : five_thirds 0 = 0) by (unfold five_thirds; destruct (Rlt_dec 0 0); lra). rewrite Z.
    apply Rabs_def2 in Hy. assert (A := Rmin_l e 1). assert (B := Rmin_r e 1). assert (P := cond_pos e).
    apply Rabs_def1.
    + destruct (Rle_lt_dec 0 y) as [C | C]; [generalize (five_thirds_below y ltac:(lra)); lra|].
      unfold five_thirds. destruct (Rlt_dec 0 y); lra.
    + generalize (five_thirds_ge0 y). lra.
  - apply continuous_ext_loc with (fun y => Rpower y (5 / 3)).
    + exists (mkposreal t H). intros y Hy. unfold ball in Hy. simpl in Hy. unfold AbsRing_ball, abs, minus, plus, opp in Hy. simpl in Hy.
      apply Rabs_def2 in Hy. unfold five_thirds. destruct (Rlt_dec 0 y); [reflexivity | lra].
    + apply (ex_derive_continuous (K := R_AbsRing) (V := R_NormedModule)). unfold Rpower. auto_derive. exact H.
Qed.

(** ** Fine sampling *)
Lemma integrand_cont (cn2 : R -> R) L z : 0 < L -> continuous cn2 z -> continuous (fun z => cn2 z * five_thirds (z / L)) z.
Proof.
  intros HL C. apply (continuous_mult (K := R_AbsRing)); [exact C|].
  apply continuous_comp; [|apply five_thirds_cont].
  apply (continuous_scal_l (K := R_AbsRing) (V := R_NormedModule) (fun z => z) (/ L)). apply continuous_id.
Qed.
Lemma fine_sampling lam L (cn2 : R -> R) : 0 < lam -> 0 < L ->
  (forall z, 0 <= z <= L -> continuous cn2 z /\ 0 < cn2 z) ->
  exists (r : nat -> R) (J : R), is_RInt (fun z => cn2 z * five_thirds (z / L)) 0 L J /\ 0 < J /\
    (forall n, (1 <= n)%nat ->
       coherence_diameter lam (map (fun i => Fin (L * INR i / INR n)) (seq 0 (S n)))
                              (map (fun i => Fin (cn2 (L * INR i / INR n))) (seq 0 (S n))) = Ok (Fin (r n))) /\
    is_lim_seq r (Rpower (0.423 * (2 * PI / lam) ^ 2 * J) (- (3 / 5))).
Proof.
  intros Hl HL Hc. set (f := fun z => cn2 z * five_thirds (z / L)).
  assert (X : ex_RInt f 0 L).
  { apply (ex_RInt_continuous (V := R_CompleteNormedModule)). intros z Hz. rewrite Rmin_left, Rmax_right in Hz by lra. apply integrand_cont; [exact HL | apply Hc; exact Hz]. }
  destruct X as [J I].
  assert (PJ : 0 < J).
  { rewrite <- (is_RInt_unique f 0 L J I). apply RInt_gt_0; [exact HL | |].
    - intros z Hz. apply Rmult_lt_0_compat; [apply Hc; lra|]. apply five_thirds_pos, Rdiv_lt_0_compat; lra.
    - intros z Hz. apply integrand_cont; [exact HL | apply Hc; exact Hz]. }
  set (q := 0.423 * (2 * PI / lam) ^ 2).
  assert (Q : 0 < q).
  { unfold q. apply Rmult_lt_0_compat; [lra|]. apply pow_lt. generalize PI_RGT_0. intros. apply Rdiv_lt_0_compat; lra. }
  set (T := fun n => trapezoid (map (fun i => f (L * INR i / INR n)) (seq 0 (S n))) (map (fun i => L * INR i / INR n) (seq 0 (S n)))).
  exists (fun n => Rpower (q * T n) (- (3 / 5))), J. split; [exact I|]. split; [exact PJ|].
  assert (B : forall n i, (1 <= n)%nat -> (i <= n)%nat -> 0 <= L * INR i / INR n <= L).
  { intros n i Hn Hi. assert (0 < INR n) by (apply lt_0_INR; lia). assert (0 <= INR i) by apply pos_INR. assert (INR i <= INR n) by (apply le_INR; lia).
    split; [apply Rmult_le_pos; [apply Rmult_le_pos; lra | left; apply Rinv_0_lt_compat; lra]|].
    apply Rmult_le_reg_r with (INR n); [lra|]. unfold Rdiv. rewrite Rmult_assoc, Rinv_l by lra. rewrite Rmult_1_r. apply Rmult_le_compat_l; lra. }
  split.
  - intros n Hn. assert (N0 : 0 < INR n) by (apply lt_0_INR; lia).
    destruct (coherence_finite (fun i => L * INR i / INR n) (fun i => cn2 (L * INR i / INR n)) (S n) lam n) as (r & E & P); [exact Hl | | | | lia | |].
    + change (INR 0) with 0. unfold Rdiv. rewrite Rmult_0_r, Rmult_0_l. lra.
    + intros j Hj. rewrite S_INR. unfold Rdiv. apply Rmult_lt_compat_r; [apply Rinv_0_lt_compat; exact N0|]. apply Rmult_lt_compat_l; lra.
    + intros j Hj. left. apply Hc. apply B; lia.
    + apply Hc, B; lia.
    + rewrite E. do 2 f_equal. apply coherence_formula in E; [|exact Hl | lia | |].
      * destruct E as [_ E]. replace (q * T n) with (Rpower r (- (5 / 3))).
        { rewrite Rpower_mult. replace (- (5 / 3) * - (3 / 5)) with 1 by field. rewrite Rpower_1; [reflexivity | exact P]. }
        rewrite E. unfold q, T, f. f_equal; try (f_equal; apply map_ext; intros i). 
        f_equal. f_equal. replace (S n - 1)%nat with n by lia. field. split; lra.
      * change (INR 0) with 0. unfold Rdiv. rewrite Rmult_0_r, Rmult_0_l. lra.
      * intros j Hj. rewrite S_INR. unfold Rdiv. apply Rmult_lt_compat_r; [apply Rinv_0_lt_compat; exact N0|]. apply Rmult_lt_compat_l; lra.
  - apply is_lim_seq_incr_1. unfold T. assert (TT := trapezoid_tends f L J HL I).
    apply (is_lim_seq_continuous (fun t => Rpower (q * t) (- (3 / 5)))) in TT; [exact TT|].
    apply continuity_pt_filterlim. change (continuous (fun t : R => Rpower (q * t) (- (3 / 5))) J).
    apply (ex_derive_continuous (K := R_AbsRing) (V := R_NormedModule)). unfold Rpower. auto_derive. apply Rmult_lt_0_compat; assumption.
Qed.
