(** * Proof_F64RadDemo: functions of the kind assumed in Spec_F64Rad exist; a camera to which the statements apply *)
From Coq Require Import Reals ZArith Lia Lra Psatz List Permutation Floats.
From Flocq Require Import Core IEEE754.BinarySingleNaN IEEE754.PrimFloat.
From Verif Require Import Base_XR Base_Np Model_Rad Model_F64 Model_F64Rad Spec_F64 Spec_F64Rad Proof_Round Num_LnF64 Proof_F64Libm Proof_F64Rel Proof_F64Rad.
Import ListNotations.
Open Scope R_scope.

(* correctly rounded exponential and powers *)
Definition exp_f (x : float) : float := if Rle_dec 710 (value x) then infinity else to_float (exp (value x)).
Definition pow_f (x y : float) : float :=
  match Prim2B x with
  | B754_infinity _ => 0%float
  | _ => if PrimFloat.eqb y 2 then to_float (value x ^ 2) else if PrimFloat.eqb y 5 then to_float (value x ^ 5) else to_float (/ value x)
  end.
Lemma pow_f_fin x y r : stands_for x r ->
  pow_f x y = if PrimFloat.eqb y 2 then to_float (r ^ 2) else if PrimFloat.eqb y 5 then to_float (r ^ 5) else to_float (/ r).
Proof.
  intros S. rewrite <- (value_ok x r S). destruct S as [F _]. unfold pow_f. destruct (Prim2B x); try reflexivity. discriminate.
Qed.
Lemma close_to_float y : 0 < y -> -620 <= ln y <= 620 -> close (/ 2 ^ 50) (to_float y) y.
Proof.
  intros Y L. exists (rnd y). split; [apply to_float_ok; now apply ln_900|]. rewrite (Rabs_pos_eq y) by lra.
  eapply Rle_trans; [apply rnd_rel; assumption|]. apply Rmult_le_compat_r; [lra|].
  replace (2 ^ 53) with 9007199254740992 by ring. replace (2 ^ 50) with 1125899906842624 by ring. lra.
Qed.
Lemma exp_f_good : good_exp exp_f.
Proof.
  intros x r S H. unfold exp_f. rewrite (value_ok x r S). destruct (Rle_dec 710 r); [lra|]. apply close_to_float; [apply exp_pos|]. rewrite ln_exp. lra.
Qed.
Lemma range40 r : / 10 ^ 40 <= r <= 10 ^ 40 -> 0 < r /\ -92.4 <= ln r <= 92.4.
Proof.
  intros H. assert (0 < 10 ^ 40) by (apply pow_lt; lra). assert (0 < / 10 ^ 40) by now apply Rinv_0_lt_compat.
  split; [lra|]. destruct ln_1e40 as [A B]. generalize ln_10_num. intros N. split.
  - apply Rle_trans with (ln (/ 10 ^ 40)); [lra|apply ln_le_mono; lra].
  - apply Rle_trans with (ln (10 ^ 40)); [apply ln_le_mono; lra|lra].
Qed.
Lemma pow_f_good : good_pow pow_f.
Proof.
  unfold good_pow. parts; intros x r S H.
  - rewrite (pow_f_fin x _ r S). change (close (/ 2 ^ 50) (to_float (r ^ 2)) (r ^ 2)). destruct (range40 r H) as [R0 L].
    apply close_to_float; [now apply pow_lt|]. rewrite ln_pow by exact R0. simpl INR. lra.
  - rewrite (pow_f_fin x _ r S). change (close (/ 2 ^ 50) (to_float (r ^ 5)) (r ^ 5)). destruct (range40 r H) as [R0 L].
    apply close_to_float; [now apply pow_lt|]. rewrite ln_pow by exact R0. simpl INR. lra.
  - rewrite (pow_f_fin x _ r S). change (close (/ 2 ^ 50) (to_float (/ r)) (/ r)).
    assert (0 <= ln r <= 462).
    { split; [rewrite <- ln_1; apply ln_le_mono; lra|]. apply Rle_trans with (ln (10 ^ 200)); [apply ln_le_mono; lra|].
      rewrite ln_pow by lra. generalize ln_10_num. replace (INR 200) with 200 by (rewrite INR_IZR_INZ; reflexivity). lra. }
    apply close_to_float; [apply Rinv_0_lt_compat; lra|]. rewrite ln_Rinv by lra. lra.
Qed.
Lemma exp_f_over : exp_overflows exp_f.
Proof. intros x r S H. unfold exp_f. rewrite (value_ok x r S). destruct (Rle_dec 710 r); [reflexivity|contradiction]. Qed.
Lemma pow_f_inf : pow_of_infinity pow_f. Proof. reflexivity. Qed.
(* adding from left to right, starting from zero *)
Lemma left_tree l : forall t n, (depth t <= n)%nat -> exists t', fold_left PrimFloat.add l (tree_sum t) = tree_sum t' /\
  Permutation (leaves t') (leaves t ++ l) /\ (depth t' <= n + length l)%nat.
Proof.
  induction l as [|x l IH]; intros t n D; simpl.
  - exists t. rewrite app_nil_r. parts; [reflexivity|apply Permutation_refl|lia].
  - destruct (IH (Node t (Leaf x)) (S n)) as (t' & E & P & D'); [simpl; lia|]. exists t'. simpl in E, P. parts; [exact E| |lia].
    rewrite <- app_assoc in P. exact P.
Qed.
Lemma left_good : good_sum f_sum.
Proof. intros l. destruct (left_tree l Zero 0%nat) as (t & E & P & D); [simpl; lia|]. exists t. parts; [exact E|exact P|exact D]. Qed.

(** ** a long-wave camera with three samples *)
Definition demo_row (l : float) : arow_f64 := {| f_wl := l; f_trans := 0.5; f_path := 1000000; f_scat := 0; f_grnd := 4096 |}.
Definition demo_rows : list arow_f64 := map demo_row [0x1.4p-17; 0x1.41p-17; 0x1.42p-17]%float.
Lemma d_half : stands_for 0.5%float 0.5. Proof. apply f_value; [reflexivity|]. cbn. unfold Defs.F2R. simpl. lra. Qed.
Lemma d_mega : stands_for 1000000%float 1000000. Proof. apply f_value; [reflexivity|]. cbn. unfold Defs.F2R. simpl. lra. Qed.
Lemma d_zero : stands_for 0%float 0. Proof. apply f_value; reflexivity. Qed.
Lemma d_4096 : stands_for 4096%float 4096. Proof. apply f_value; [reflexivity|]. cbn. unfold Defs.F2R. simpl. lra. Qed.
Lemma d_300 : stands_for 300%float 300. Proof. apply f_value; [reflexivity|]. cbn. unfold Defs.F2R. simpl. lra. Qed.
Lemma d_w0 : stands_for 0x1.4p-17%float (1.25 / 131072). Proof. apply f_value; [reflexivity|]. cbn. unfold Defs.F2R. simpl. lra. Qed.
Lemma d_w1 : stands_for 0x1.41p-17%float (1.25390625 / 131072). Proof. apply f_value; [reflexivity|]. cbn. unfold Defs.F2R. simpl. lra. Qed.
Lemma d_w2 : stands_for 0x1.42p-17%float (1.2578125 / 131072). Proof. apply f_value; [reflexivity|]. cbn. unfold Defs.F2R. simpl. lra. Qed.
Lemma d_pix : stands_for 0x1p-16%float (/ 65536). Proof. apply f_value; [reflexivity|]. cbn. unfold Defs.F2R. simpl. lra. Qed.
Lemma demo_ok :
  fraction 0.5%float /\ (exists t, stands_for 300%float t) /\ Forall (good_row (value 300)) demo_rows /\ spaced (map f_wl demo_rows) /\
  sized 0.5%float /\ sized 1000000%float /\ sized 0%float /\ length_like 0.5%float /\ length_like 4096%float /\ length_like 0x1p-16%float.
Proof.
  assert (S5 : sized 0.5%float) by (exists 0.5; split; [exact d_half|lra]).
  assert (S6 : sized 1000000%float) by (exists 1000000; split; [exact d_mega|lra]).
  assert (S0 : sized 0%float) by (exists 0; split; [exact d_zero|now left]).
  assert (S4 : sized 4096%float) by (exists 4096; split; [exact d_4096|lra]).
  parts; try assumption.
  - exists 0.5. split; [exact d_half|lra].
  - exists 300. exact d_300.
  - rewrite (value_ok _ _ d_300).
    assert (G : forall l r, stands_for l r -> / 10 ^ 5 * 0.9 <= r <= / 10 ^ 5 -> good_row 300 (demo_row l)).
    { intros l r S H. unfold good_row, demo_row; simpl. rewrite (value_ok l r S). parts; try assumption; try lra. exists r. split; [exact S|lra]. }
    constructor; [apply (G _ _ d_w0); lra|constructor; [apply (G _ _ d_w1); lra|constructor; [apply (G _ _ d_w2); lra|constructor]]].
  - simpl. rewrite (value_ok _ _ d_w0), (value_ok _ _ d_w1), (value_ok _ _ d_w2). parts; try exact I; lra.
  - exists 0.5. split; [exact d_half|lra].
  - exists 4096. split; [exact d_4096|lra].
  - exists (/ 65536). split; [exact d_pix|lra].
Qed.
Lemma zeros_ok : stands_for 0%float 0 /\ stands_for (-0)%float 0.
Proof. split; apply f_value; reflexivity. Qed.
