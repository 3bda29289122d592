(** * Proof_F64Size: sizes computed in binary64 *)
From Coq Require Import Reals ZArith Lia Lra Psatz Floats.
From Flocq Require Import Core Relative IEEE754.BinarySingleNaN IEEE754.PrimFloat.
From Verif Require Import Base_XR Model_F64 Spec_F64 Proof_Round Model_F64Size.
Open Scope R_scope.

Lemma lt_div_l a b c : 0 < c -> a < b * c -> a / c < b.
Proof. intros C H. apply Rmult_lt_reg_r with c; [exact C|]. unfold Rdiv. rewrite Rmult_assoc, Rinv_l by lra. lra. Qed.
Lemma lt_div_r a b c : 0 < c -> a * c < b -> a < b / c.
Proof. intros C H. apply Rmult_lt_reg_r with c; [exact C|]. unfold Rdiv. rewrite Rmult_assoc, Rinv_l by lra. lra. Qed.

(** ** int and int(np.round(.)) of a finite number *)
Lemma sf_den_pos e : (0 < sf_den e)%Z.
Proof. destruct e; simpl; try lia. Qed.
Lemma sf_value s m e : F2R (Float radix2 (cond_Zopp s (Zpos m)) e) = IZR (sf_num (sf_signed s m) e) / IZR (sf_den e).
Proof.
  replace (cond_Zopp s (Zpos m)) with (sf_signed s m) by (destruct s; reflexivity).
  generalize (sf_signed s m). intros z. unfold F2R, Fnum, Fexp. destruct e as [|p|p].
  - simpl. rewrite Z.mul_1_r. field.
  - unfold sf_num, sf_den. rewrite mult_IZR. change 2%Z with (radix_val radix2) at 1. rewrite IZR_Zpower by lia. field.
  - unfold sf_num, sf_den. change 2%Z with (radix_val radix2) at 1. rewrite IZR_Zpower by lia.
    change (Zneg p) with (- Zpos p)%Z. rewrite bpow_opp. reflexivity.
Qed.
Lemma z_round_ok n d : (0 < d)%Z -> z_round n d = ZnearestE (IZR n / IZR d).
Proof.
  intros D. assert (Dr : 0 < IZR d) by (apply IZR_lt; exact D).
  assert (F : Zfloor (IZR n / IZR d) = (n / d)%Z) by (apply Zfloor_div; lia).
  assert (M : IZR n / IZR d - IZR (n / d) = IZR (n mod d) / IZR d).
  { rewrite (Z.div_mod n d) at 1 by lia. rewrite plus_IZR, mult_IZR. field. lra. }
  generalize (Z.mod_pos_bound n d D). intros B.
  assert (C : (0 < n mod d)%Z -> Zceil (IZR n / IZR d) = (n / d + 1)%Z).
  { intros P. apply Zceil_imp. replace (n / d + 1 - 1)%Z with (n / d)%Z by ring. rewrite plus_IZR.
    assert (0 < IZR (n mod d) / IZR d) by (apply Rdiv_lt_0_compat; [apply IZR_lt; lia|lra]).
    assert (IZR (n mod d) / IZR d < 1) by (apply lt_div_l; [lra|]; rewrite Rmult_1_l; apply IZR_lt; lia). lra. }
  unfold z_round, Znearest. cbv zeta. rewrite F, M.
  assert (Q : Rcompare (IZR (n mod d) / IZR d) (/ 2) = Z.compare (2 * (n mod d)) d).
  { destruct (Z.compare_spec (2 * (n mod d)) d) as [E|E|E].
    - apply Rcompare_Eq. apply (f_equal IZR) in E. rewrite mult_IZR in E. rewrite <- E. field. lra.
    - apply Rcompare_Lt. apply IZR_lt in E. rewrite mult_IZR in E. apply lt_div_l; lra.
    - apply Rcompare_Gt. apply IZR_lt in E. rewrite mult_IZR in E. apply lt_div_r; lra. }
  rewrite Q. destruct (Z.compare_spec (2 * (n mod d)) d) as [E|E|E].
  - rewrite C by lia. destruct (Z.even (n / d)); reflexivity.
  - reflexivity.
  - rewrite C by lia. reflexivity.
Qed.
Lemma f_int_ok x r : stands_for x r -> f_int x = Ok (Ztrunc r).
Proof.
  intros [F E]. unfold f_int. rewrite <- B2SF_Prim2B. destruct (Prim2B x) as [s| | |s m e B]; try discriminate.
  - simpl in E. rewrite <- E. simpl. now rewrite Ztrunc_IZR.
  - simpl B2SF. simpl B2R in E. rewrite sf_value in E. rewrite <- E. f_equal. symmetry. apply Ztrunc_div.
    generalize (sf_den_pos e). lia.
Qed.
Lemma f_int_round_ok x r : stands_for x r -> f_int_round x = Ok (ZnearestE r).
Proof.
  intros [F E]. unfold f_int_round. rewrite <- B2SF_Prim2B. destruct (Prim2B x) as [s| | |s m e B]; try discriminate.
  - simpl in E. rewrite <- E. simpl. f_equal. symmetry. apply (Zrnd_IZR ZnearestE 0).
  - simpl B2SF. simpl B2R in E. rewrite sf_value in E. rewrite <- E. f_equal. apply z_round_ok. apply sf_den_pos.
Qed.

(** ** multiplicative closeness: within k roundings *)
Definition cc : R := 1 + bpow radix2 (-52).
Definition near (k : nat) (a b : R) : Prop := b <= a * cc ^ k /\ a <= b * cc ^ k.
Lemma cc_gt : 1 < cc.
Proof. unfold cc. generalize (bpow_gt_0 radix2 (-52)). lra. Qed.
Lemma cc_pow k : 1 <= cc ^ k.
Proof. apply pow_R1_Rle. left. apply cc_gt. Qed.
Lemma near_refl a : near 0 a a.
Proof. split; simpl; lra. Qed.
Lemma near_pos k a b : near k a b -> 0 < b -> 0 < a.
Proof.
  intros [H _] B. generalize (cc_pow k). intros P. apply Rmult_lt_reg_r with (cc ^ k); [lra|]. rewrite Rmult_0_l. lra.
Qed.
Lemma near_le k k' a b : (k <= k')%nat -> 0 < a -> 0 < b -> near k a b -> near k' a b.
Proof.
  intros K A B [H1 H2]. assert (cc ^ k <= cc ^ k') by (apply Rle_pow; [left; apply cc_gt|exact K]).
  split; [apply Rle_trans with (1 := H1)|apply Rle_trans with (1 := H2)]; apply Rmult_le_compat_l; lra.
Qed.
Lemma near_trans k k' a b c : near k a b -> near k' b c -> near (k + k') a c.
Proof.
  intros [A1 A2] [B1 B2]. rewrite <- (Nat.add_comm k'). unfold near. rewrite !pow_add. generalize (cc_pow k) (cc_pow k'). intros P P'. split.
  - apply Rle_trans with (1 := B1). replace (a * (cc ^ k' * cc ^ k)) with (a * cc ^ k * cc ^ k') by ring. apply Rmult_le_compat_r; lra.
  - apply Rle_trans with (1 := A2). replace (c * (cc ^ k' * cc ^ k)) with (c * cc ^ k' * cc ^ k) by ring. apply Rmult_le_compat_r; lra.
Qed.
Lemma near_mul k k' a b a' b' : 0 < b -> 0 < b' -> near k a b -> near k' a' b' -> near (k + k') (a * a') (b * b').
Proof.
  intros B B' N N'. assert (A := near_pos _ _ _ N B). assert (A' := near_pos _ _ _ N' B'). destruct N as [A1 A2], N' as [B1 B2].
  unfold near. rewrite pow_add. split.
  - replace (a * a' * (cc ^ k * cc ^ k')) with ((a * cc ^ k) * (a' * cc ^ k')) by ring. apply Rmult_le_compat; lra.
  - replace (b * b' * (cc ^ k * cc ^ k')) with ((b * cc ^ k) * (b' * cc ^ k')) by ring. apply Rmult_le_compat; lra.
Qed.
Lemma near_inv k a b : 0 < b -> near k a b -> near k (/ a) (/ b).
Proof.
  intros B N. assert (A := near_pos _ _ _ N B). destruct N as [A1 A2]. generalize (cc_pow k). intros P. split.
  - apply Rmult_le_reg_l with (a * b); [apply Rmult_lt_0_compat; lra|].
    replace (a * b * / b) with a by (field; lra). replace (a * b * (/ a * cc ^ k)) with (b * cc ^ k) by (field; lra). exact A2.
  - apply Rmult_le_reg_l with (a * b); [apply Rmult_lt_0_compat; lra|].
    replace (a * b * / a) with b by (field; lra). replace (a * b * (/ b * cc ^ k)) with (a * cc ^ k) by (field; lra). exact A1.
Qed.
Lemma near_div k k' a b a' b' : 0 < b -> 0 < b' -> near k a b -> near k' a' b' -> near (k + k') (a / a') (b / b').
Proof. intros B B' N N'. apply near_mul; auto; [apply Rinv_0_lt_compat; exact B'|]. apply near_inv; auto. Qed.
Lemma near_sqrt k a b : 0 < b -> near k (a * a) (b * b) -> 0 < a -> near k a b.
Proof.
  intros B [H1 H2] A. generalize (cc_pow k). intros P.
  assert (Q : cc ^ k <= cc ^ k * cc ^ k) by nra. split.
  - apply Rsqr_incr_0_var; [unfold Rsqr|nra]. apply Rle_trans with (1 := H1).
    replace (a * cc ^ k * (a * cc ^ k)) with (a * a * (cc ^ k * cc ^ k)) by ring. apply Rmult_le_compat_l; nra.
  - apply Rsqr_incr_0_var; [unfold Rsqr|nra]. apply Rle_trans with (1 := H2).
    replace (b * cc ^ k * (b * cc ^ k)) with (b * b * (cc ^ k * cc ^ k)) by ring. apply Rmult_le_compat_l; nra.
Qed.
(* one rounding *)
Lemma near_rnd x : bpow radix2 (-1000) <= x -> near 1 (rnd x) x.
Proof.
  intros H. assert (P : 0 < x) by (generalize (bpow_gt_0 radix2 (-1000)); lra).
  destruct (relative_error_N_FLT_ex radix2 (-1074) 53 ltac:(reflexivity) (fun x => negb (Z.even x)) x) as (e & E & Q).
  { rewrite Rabs_pos_eq by lra. apply Rle_trans with (2 := H). apply bpow_le. lia. }
  assert (U : / 2 * bpow radix2 (- (53) + 1) = bpow radix2 (-53)) by (simpl; lra). rewrite U in E.
  change (round radix2 (FLT_exp (-1074) 53) ZnearestE x) with (rnd x) in Q. rewrite Q.
  assert (V : cc = 1 + 2 * bpow radix2 (-53)) by (unfold cc; simpl; lra).
  assert (S : 0 < bpow radix2 (-53) <= / 4) by (simpl; lra).
  apply Rabs_le_inv in E. unfold near. rewrite pow_1, V. set (u := bpow radix2 (-53)) in *. clearbody u. split.
  - rewrite Rmult_assoc. rewrite <- (Rmult_1_r x) at 1. apply Rmult_le_compat_l; [lra|]. nra.
  - apply Rmult_le_compat_l; lra.
Qed.
Lemma cc_pow_le k : (k <= 32)%nat -> cc ^ k <= 1 + INR k * bpow radix2 (-52) + bpow radix2 (-90).
Proof.
  intros K. apply Rle_trans with (1 + INR k * bpow radix2 (-52) + INR k * bpow radix2 (-95)).
  - induction k as [|k IH]; [simpl; lra|]. specialize (IH ltac:(lia)).
    assert (C : INR k <= 32) by (replace 32 with (INR 32) by (simpl; lra); apply le_INR; lia).
    rewrite S_INR, <- tech_pow_Rmult. unfold cc at 1. generalize (pos_INR k). intros P.
    assert (0 < bpow radix2 (-52)) by apply bpow_gt_0. assert (B : bpow radix2 (-95) = bpow radix2 (-52) * bpow radix2 (-43)) by (rewrite <- bpow_plus; reflexivity).
    set (v := bpow radix2 (-52)) in *. set (w := bpow radix2 (-43)) in *. rewrite B in *.
    assert (W : w = / 8796093022208) by reflexivity. assert (V : v = / 4503599627370496) by reflexivity.
    apply Rle_trans with ((1 + v) * (1 + INR k * v + INR k * (v * w))).
    + apply Rmult_le_compat_l; lra.
    + assert (v * (INR k * v + INR k * (v * w)) <= v * w).
      { apply Rmult_le_compat_l; [lra|]. rewrite <- Rmult_plus_distr_l. 
        apply Rle_trans with (32 * (v + v * w)); [apply Rmult_le_compat_r; [rewrite V, W; lra|exact C]|]. rewrite V, W. lra. }
      replace ((1 + v) * (1 + INR k * v + INR k * (v * w))) with
        (1 + INR k * v + INR k * (v * w) + v + v * (INR k * v + INR k * (v * w))) by ring. lra.
  - apply Rplus_le_compat_l. replace (bpow radix2 (-90)) with (32 * bpow radix2 (-95)) by (simpl; lra).
    apply Rmult_le_compat_r; [apply bpow_ge_0|]. replace 32 with (INR 32) by (simpl; lra). apply le_INR. exact K.
Qed.
(* a number within k roundings of an integer *)
Lemma near_int k a n : near k a (IZR n) -> (k <= 32)%nat -> (0 < n)%Z -> (2 * Z.of_nat k * n < 2 ^ 52 - 2 ^ 16)%Z ->
  Rabs (a - IZR n) < / 2.
Proof.
  intros N K P B. assert (Pr : 1 <= IZR n) by (apply IZR_le; lia). assert (A := near_pos _ _ _ N ltac:(lra)).
  generalize (cc_pow_le k K) (cc_pow k). intros C C'. destruct N as [H1 H2].
  assert (B' : 2 * INR k * IZR n <= 4503599627370496 - 65536).
  { rewrite INR_IZR_INZ, <- !mult_IZR, <- minus_IZR. apply IZR_le. lia. }
  assert (Nn : (n <= 2 ^ 52)%Z \/ k = 0%nat) by (destruct k; [right; reflexivity|left; lia]).
  destruct Nn as [Nn| ->].
  2:{ simpl in *. replace a with (IZR n) by lra. rewrite Rminus_eq_0, Rabs_R0. lra. }
  assert (Nr : IZR n <= 4503599627370496) by (apply IZR_le in Nn; exact Nn).
  set (w := bpow radix2 (-90)) in *. assert (W : w = / 1237940039285380274899124224) by reflexivity.
  set (v := bpow radix2 (-52)) in *. assert (V : v = / 4503599627370496) by reflexivity.
  assert (Q : IZR n * (cc ^ k - 1) < / 2).
  { apply Rle_lt_trans with (IZR n * (INR k * v + w)); [apply Rmult_le_compat_l; lra|].
    rewrite Rmult_plus_distr_l. assert (IZR n * w <= 4503599627370496 * w) by (apply Rmult_le_compat_r; [apply bpow_ge_0|exact Nr]).
    assert (IZR n * (INR k * v) <= (4503599627370496 - 65536) / 2 * v).
    { replace (IZR n * (INR k * v)) with (2 * INR k * IZR n / 2 * v) by field. apply Rmult_le_compat_r; [apply bpow_ge_0|lra]. }
    apply Rle_lt_trans with ((4503599627370496 - 65536) / 2 * v + 4503599627370496 * w); [lra|]. rewrite V, W. lra. }
  apply Rabs_def1; [nra|].
  destruct (Rle_or_lt a (IZR n)) as [L|L]; [|lra].
  assert (a * (cc ^ k - 1) <= IZR n * (cc ^ k - 1)) by (apply Rmult_le_compat_r; lra). lra.
Qed.

(** ** the operations *)
Lemma f_int_lit n : (0 <= n <= 2 ^ 53)%Z -> stands_for (f_of_Z n) (IZR n).
Proof.
  intros H. destruct n as [|p|p]; [|clear -H|lia].
  { apply f_value; [vm_compute; reflexivity|]. vm_compute Prim2SF. reflexivity. }
  unfold f_of_Z, stands_for. 
  generalize (of_int63_equiv (Uint63.of_Z (Zpos p))). intros E. rewrite E.
  rewrite Uint63.of_Z_spec. rewrite Z.mod_small by (change Uint63.wB with (2 ^ 63)%Z; lia).
  generalize (binary_normalize_correct prec emax Hprec Hmax mode_NE (Zpos p) 0 false). cbv zeta.
  replace (F2R (Float radix2 (Zpos p) 0)) with (IZR (Zpos p)) by (unfold F2R; simpl; ring).
  change (round radix2 (SpecFloat.fexp prec emax) (round_mode mode_NE) (IZR (Zpos p))) with (rnd (IZR (Zpos p))).
  rewrite rnd_int by (rewrite Z.abs_eq; lia). rewrite Rlt_bool_true.
  - intros (A & B & _). split; [exact B|exact A].
  - rewrite <- abs_IZR, Z.abs_eq by lia. apply Rle_lt_trans with (IZR (2 ^ 53)); [apply IZR_le; lia|].
    change (IZR (2 ^ 53)) with (bpow radix2 53). apply bpow_lt. reflexivity.
Qed.

(* positive numbers of moderate size *)
Definition mid (j : Z) (x : R) : Prop := bpow radix2 (- j) <= x <= bpow radix2 j.
Lemma mid_pos j x : mid j x -> 0 < x.
Proof. intros [H _]. generalize (bpow_gt_0 radix2 (- j)). lra. Qed.
Lemma mid_le j k x : (j <= k)%Z -> mid j x -> mid k x.
Proof.
  intros H [A B]. split; [apply Rle_trans with (2 := A)|apply Rle_trans with (1 := B)]; apply bpow_le; lia.
Qed.
Lemma mid_mul j k x y : mid j x -> mid k y -> mid (j + k) (x * y).
Proof.
  intros X Y. assert (P := mid_pos _ _ X). assert (Q := mid_pos _ _ Y). destruct X as [A B], Y as [C D].
  unfold mid. rewrite Z.opp_add_distr, !bpow_plus. generalize (bpow_ge_0 radix2 (- j)) (bpow_ge_0 radix2 (- k)). intros.
  split; apply Rmult_le_compat; lra.
Qed.
Lemma mid_inv j x : mid j x -> mid j (/ x).
Proof.
  intros X. assert (P := mid_pos _ _ X). destruct X as [A B]. split.
  - rewrite bpow_opp. apply Rinv_le; lra.
  - replace (bpow radix2 j) with (/ bpow radix2 (- j)) by (rewrite bpow_opp, Rinv_inv; reflexivity).
    apply Rinv_le; [apply bpow_gt_0|lra].
Qed.
Lemma mid_div j k x y : mid j x -> mid k y -> mid (j + k) (x / y).
Proof. intros X Y. apply mid_mul; [exact X|apply mid_inv; exact Y]. Qed.
Lemma cc_le k : (k <= 32)%nat -> cc ^ k <= 2.
Proof.
  intros K. apply Rle_trans with (1 := cc_pow_le k K).
  assert (INR k <= 32) by (replace 32 with (INR 32) by (simpl; lra); apply le_INR; exact K).
  assert (INR k * bpow radix2 (-52) <= 32 * bpow radix2 (-52)) by (apply Rmult_le_compat_r; [apply bpow_ge_0|exact H]).
  assert (bpow radix2 (-52) <= / 100) by (simpl; lra). assert (bpow radix2 (-90) <= / 100) by (simpl; lra). lra.
Qed.
Lemma mid_near j k x y : mid j y -> near k x y -> (k <= 32)%nat -> mid (j + 1) x.
Proof.
  intros M N K. assert (X := near_pos _ _ _ N (mid_pos _ _ M)). generalize (cc_le k K) (cc_pow k). intros C C'.
  destruct M as [A B], N as [N1 N2]. unfold mid. rewrite Z.opp_add_distr, !bpow_plus. change (bpow radix2 1) with 2. change (bpow radix2 (- (1))) with (/ 2).
  generalize (bpow_gt_0 radix2 j) (bpow_gt_0 radix2 (- j)). intros. split.
  - apply Rmult_le_reg_r with (cc ^ k); [lra|]. apply Rle_trans with (2 := N1). apply Rle_trans with (2 := A).
    replace (bpow radix2 (- j) * / 2 * cc ^ k) with (bpow radix2 (- j) * (cc ^ k / 2)) by field.
    apply Rle_trans with (bpow radix2 (- j) * 1); [apply Rmult_le_compat_l; lra|lra].
  - apply Rle_trans with (1 := N2). apply Rmult_le_compat; lra.
Qed.
Lemma mid_lt j x : mid j x -> (j < 900)%Z -> Rabs x < bpow radix2 900.
Proof.
  intros M J. rewrite Rabs_pos_eq by (left; apply (mid_pos _ _ M)). apply Rle_lt_trans with (1 := proj2 M). apply bpow_lt. exact J.
Qed.
Lemma mid_int n j : (1 <= n <= 2 ^ j)%Z -> (0 <= j)%Z -> mid j (IZR n).
Proof.
  intros H J. split.
  - apply Rle_trans with 1; [|apply IZR_le; lia]. change 1 with (bpow radix2 0). apply bpow_le. lia.
  - rewrite <- IZR_Zpower by exact J. apply IZR_le. change (radix_val radix2) with 2%Z. lia.
Qed.

(* x carries a number within k roundings of v, itself of moderate size *)
Definition about (k : nat) (j : Z) (x : PrimFloat.float) (v : R) : Prop := exists a, stands_for x a /\ near k a v /\ mid j v.
Lemma about_exact j x v : stands_for x v -> mid j v -> about 0 j x v.
Proof. intros S M. exists v. split; [exact S|]. split; [apply near_refl|exact M]. Qed.
Lemma about_mul k k' j j' x y v w : about k j x v -> about k' j' y w -> (k + k' <= 30)%nat -> (j + j' < 890)%Z ->
  about (k + k' + 1) (j + j') (x * y)%float (v * w).
Proof.
  intros (a & Sa & Na & Ma) (b & Sb & Nb & Mb) K J.
  assert (N := near_mul _ _ _ _ _ _ (mid_pos _ _ Ma) (mid_pos _ _ Mb) Na Nb). assert (M := mid_mul _ _ _ _ Ma Mb).
  assert (M' := mid_near _ _ _ _ M N ltac:(lia)). exists (rnd (a * b)). split; [|split; [|exact M]].
  - apply f_mul; auto. apply mid_lt with (1 := M'). lia.
  - rewrite Nat.add_comm. apply near_trans with (a * b); [|exact N]. apply near_rnd. apply Rle_trans with (2 := proj1 M'). apply bpow_le. lia.
Qed.
Lemma about_div k k' j j' x y v w : about k j x v -> about k' j' y w -> (k + k' <= 30)%nat -> (j + j' < 890)%Z ->
  about (k + k' + 1) (j + j') (x / y)%float (v / w).
Proof.
  intros (a & Sa & Na & Ma) (b & Sb & Nb & Mb) K J.
  assert (N := near_div _ _ _ _ _ _ (mid_pos _ _ Ma) (mid_pos _ _ Mb) Na Nb). assert (M := mid_div _ _ _ _ Ma Mb).
  assert (M' := mid_near _ _ _ _ M N ltac:(lia)). exists (rnd (a / b)). split; [|split; [|exact M]].
  - apply f_div; auto; [|apply mid_lt with (1 := M'); lia]. apply Rgt_not_eq. apply (near_pos _ _ _ Nb (mid_pos _ _ Mb)).
  - rewrite Nat.add_comm. apply near_trans with (a / b); [|exact N]. apply near_rnd. apply Rle_trans with (2 := proj1 M'). apply bpow_le. lia.
Qed.
Lemma about_add k j x y v w : about k j x v -> about k j y w -> (k <= 30)%nat -> (0 <= j < 890)%Z ->
  about (k + 1) (j + 1) (x + y)%float (v + w).
Proof.
  intros (a & Sa & Na & Ma) (b & Sb & Nb & Mb) K J.
  assert (Pv := mid_pos _ _ Ma). assert (Pw := mid_pos _ _ Mb).
  assert (M : mid (j + 1) (v + w)).
  { destruct Ma as [A B], Mb as [C D]. split.
    - apply Rle_trans with (bpow radix2 (- j)); [apply bpow_le; lia|lra].
    - rewrite bpow_plus. simpl (bpow radix2 1). lra. }
  assert (N : near k (a + b) (v + w)) by (destruct Na as [A B], Nb as [C D]; split; rewrite Rmult_plus_distr_r; lra).
  assert (M' := mid_near _ _ _ _ M N ltac:(lia)). exists (rnd (a + b)). split; [|split; [|exact M]].
  - apply f_add; auto. apply mid_lt with (1 := M'). lia.
  - rewrite Nat.add_comm. apply near_trans with (a + b); [|exact N]. apply near_rnd. apply Rle_trans with (2 := proj1 M'). apply bpow_le. lia.
Qed.
Lemma about_add0 k j x v : about k j x v -> (k <= 30)%nat -> (0 <= j < 890)%Z -> about (k + 1) j (x + 0 * 0)%float v.
Proof.
  intros (a & Sa & Na & Ma) K J. assert (M' := mid_near _ _ _ _ Ma Na ltac:(lia)).
  exists (rnd (a + 0)). assert (M0 : mid (j + 1) (a + 0)) by (rewrite Rplus_0_r; exact M'). split; [|split; [|exact Ma]].
  - apply f_add; [exact Sa| |apply mid_lt with (1 := M0); lia].
    change (0 * 0)%float with 0%float. apply f_value; [vm_compute; reflexivity|]. vm_compute Prim2SF. reflexivity.
  - rewrite Rplus_0_r in *. rewrite Nat.add_comm. apply near_trans with a; [|exact Na]. apply near_rnd. apply Rle_trans with (2 := proj1 M'). apply bpow_le. lia.
Qed.
Lemma about_sqrt k j x v : about k (j + j) x (v * v) -> 0 < v -> mid j v -> (k <= 30)%nat -> (0 <= j < 400)%Z -> about (k + 1) j (PrimFloat.sqrt x) v.
Proof.
  intros (a & Sa & Na & Ma) P M K J. assert (A := near_pos _ _ _ Na (mid_pos _ _ Ma)).
  assert (S := sqrt_lt_R0 _ A). assert (Q : near k (R_sqrt.sqrt a * R_sqrt.sqrt a) (v * v)) by (rewrite sqrt_sqrt by lra; exact Na).
  assert (N := near_sqrt _ _ _ P Q S). assert (M' := mid_near _ _ _ _ M N ltac:(lia)).
  exists (rnd (R_sqrt.sqrt a)). split; [|split; [|exact M]].
  - apply f_sqrt; [exact Sa|lra].
  - rewrite Nat.add_comm. apply near_trans with (R_sqrt.sqrt a); [|exact N]. apply near_rnd. apply Rle_trans with (2 := proj1 M'). apply bpow_le. lia.
Qed.
Lemma about_same k j x v w : v = w -> about k j x v -> about k j x w.
Proof. intros ->. auto. Qed.

(** ** rounding and cutting *)
Lemma about_round k j x n : about k j x (IZR n) -> (k <= 32)%nat -> (0 < n)%Z -> (2 * Z.of_nat k * n < 2 ^ 52 - 2 ^ 16)%Z -> f_int_round x = Ok n.
Proof.
  intros (a & S & N & _) K P B. rewrite (f_int_round_ok _ _ S). f_equal. apply Znearest_imp. apply (near_int k); assumption.
Qed.
(* close to an integer, or far from one *)
Lemma near_abs k a q m : near k a q -> 0 < q -> (k <= 16)%nat -> q <= IZR m + 1 -> (0 <= m <= 2 ^ 40)%Z -> Rabs (a - q) < / 200.
Proof.
  intros N Q K L B. assert (A := near_pos _ _ _ N Q).
  assert (Bm : q <= 1099511627777) by (apply Rle_trans with (1 := L); rewrite <- plus_IZR; apply IZR_le; lia).
  generalize (cc_pow_le k ltac:(lia)) (cc_pow k). intros C C'. destruct N as [N1 N2].
  assert (INR k <= 16) by (replace 16 with (INR 16) by (simpl; lra); apply le_INR; exact K).
  assert (D : cc ^ k - 1 <= / 250000000000000).
  { assert (INR k * bpow radix2 (-52) <= 16 * bpow radix2 (-52)) by (apply Rmult_le_compat_r; [apply bpow_ge_0|lra]).
    assert (16 * bpow radix2 (-52) + bpow radix2 (-90) <= / 250000000000000) by (simpl; lra). lra. }
  assert (E : q * (cc ^ k - 1) <= 1099511627777 * / 250000000000000) by (apply Rmult_le_compat; lra).
  apply Rabs_def1; [lra|]. destruct (Rle_or_lt a q) as [T|T]; [|lra].
  assert (a * (cc ^ k - 1) <= q * (cc ^ k - 1)) by (apply Rmult_le_compat_r; lra). lra.
Qed.
Lemma f_one : stands_for 1 1.
Proof. apply f_value; [vm_compute; reflexivity|]. vm_compute Prim2SF. unfold SF2R, F2R. simpl. lra. Qed.
Lemma about_one : about 0 0 1%float 1.
Proof. apply about_exact; [apply f_one|]. split; simpl; lra. Qed.
Lemma about_int n j : (1 <= n <= 2 ^ j)%Z -> (0 <= j <= 53)%Z -> about 0 j (f_of_Z n) (IZR n).
Proof.
  intros H J. apply about_exact; [|apply mid_int; lia]. apply f_int_lit. generalize (Z.pow_le_mono_r 2 j 53). lia.
Qed.
Lemma div_self x : 0 < x -> forall n, n * x / x = n.
Proof. intros. field. lra. Qed.

Lemma mid_pow k x : / 2 ^ k <= x <= 2 ^ k -> mid (Z.of_nat k) x.
Proof. intros H. unfold mid. rewrite bpow_opp, <- pow2_bpow. exact H. Qed.

Lemma resample_size_near n m d e v w : (1 <= n <= 2 ^ 40)%Z -> (1 <= m <= 2 ^ 40)%Z ->
  stands_for d v -> stands_for e w -> / 2 ^ 400 <= v <= 2 ^ 400 -> / 2 ^ 400 <= w <= 2 ^ 400 ->
  Rabs (IZR n * v / w - IZR m) <= 49 / 100 -> resample_size_f64 n d e = Ok m.
Proof.
  intros N M Sv Sw Bv Bw C. apply mid_pow in Bv, Bw. change (Z.of_nat 400) with 400%Z in *.
  assert (A := about_mul _ _ _ _ _ _ _ _ (about_int n 40 N ltac:(lia)) (about_exact _ _ _ Sv Bv) ltac:(lia) ltac:(lia)).
  assert (B := about_div _ _ _ _ _ _ _ _ A (about_exact _ _ _ Sw Bw) ltac:(lia) ltac:(lia)).
  destruct B as (a & S & Na & Ma). unfold resample_size_f64. rewrite (f_int_round_ok _ _ S). f_equal.
  apply Znearest_imp. apply Rabs_le_inv in C.
  generalize (near_abs _ _ _ m Na (mid_pos _ _ Ma) ltac:(lia) ltac:(lra) ltac:(lia)). intros D. apply Rabs_def2 in D. apply Rabs_def1; lra.
Qed.
Lemma resample_size_own n d v : (1 <= n <= 2 ^ 49)%Z -> stands_for d v -> / 2 ^ 400 <= v <= 2 ^ 400 -> resample_size_f64 n d d = Ok n.
Proof.
  intros N Sv Bv. apply mid_pow in Bv. change (Z.of_nat 400) with 400%Z in *.
  assert (A := about_mul _ _ _ _ _ _ _ _ (about_int n 49 N ltac:(lia)) (about_exact _ _ _ Sv Bv) ltac:(lia) ltac:(lia)).
  assert (B := about_div _ _ _ _ _ _ _ _ A (about_exact _ _ _ Sv Bv) ltac:(lia) ltac:(lia)).
  unfold resample_size_f64. apply about_same with (w := IZR n) in B; [|apply div_self; apply (mid_pos _ _ Bv)].
  apply (about_round _ _ _ _ B); lia.
Qed.

(** otf_to_psf *)
Lemma psf_quotient rows n df dx f x j : (1 <= rows <= 2 ^ j)%Z -> (1 <= n <= 2 ^ j)%Z -> (0 <= j <= 49)%Z ->
  stands_for df f -> stands_for dx x -> mid 300 f -> mid 300 x ->
  about 4 (j + (0 + (j + 300)) + 300) (f_of_Z n * psf_spacing_f64 rows df / dx)%float (IZR n * (1 / (IZR rows * f)) / x).
Proof.
  intros R N J Sf Sx Bf Bx. unfold psf_spacing_f64.
  assert (A := about_mul _ _ _ _ _ _ _ _ (about_int rows j R ltac:(lia)) (about_exact _ _ _ Sf Bf) ltac:(lia) ltac:(lia)).
  assert (B := about_div _ _ _ _ _ _ _ _ about_one A ltac:(lia) ltac:(lia)).
  assert (C := about_mul _ _ _ _ _ _ _ _ (about_int n j N ltac:(lia)) B ltac:(lia) ltac:(lia)).
  exact (about_div _ _ _ _ _ _ _ _ C (about_exact _ _ _ Sx Bx) ltac:(lia) ltac:(lia)).
Qed.
Lemma trunc_at m a : 0 <= a -> IZR m <= a < IZR (m + 1) -> Ztrunc a = m.
Proof. intros P H. rewrite Ztrunc_floor by exact P. apply Zfloor_imp. exact H. Qed.
Lemma psf_size_inside rows n m df dx f x : (1 <= rows <= 2 ^ 40)%Z -> (1 <= n <= 2 ^ 40)%Z -> (0 <= m <= 2 ^ 40)%Z ->
  stands_for df f -> stands_for dx x -> / 2 ^ 300 <= f <= 2 ^ 300 -> / 2 ^ 300 <= x <= 2 ^ 300 ->
  IZR m + 1 / 100 <= IZR n * (1 / (IZR rows * f)) / x <= IZR m + 99 / 100 ->
  psf_size_f64 rows n df dx = Ok (Z.max 1 m).
Proof.
  intros R N M Sf Sx Bf Bx H. apply mid_pow in Bf, Bx. change (Z.of_nat 300) with 300%Z in *.
  destruct (psf_quotient rows n df dx f x 40 R N ltac:(lia) Sf Sx Bf Bx) as (a & S & Na & Ma).
  unfold psf_size_f64. rewrite (f_int_ok _ _ S). cbn [bind]. f_equal. f_equal.
  generalize (near_abs _ _ _ m Na (mid_pos _ _ Ma) ltac:(lia) ltac:(lra) ltac:(lia)). intros D. apply Rabs_def2 in D.
  assert (0 <= IZR m) by (apply IZR_le; lia). apply trunc_at; [lra|]. rewrite plus_IZR. lra.
Qed.
(* the spacing the function itself has *)
Lemma psf_size_own n df f : (1 <= n <= 2 ^ 49)%Z -> stands_for df f -> / 2 ^ 300 <= f <= 2 ^ 300 ->
  psf_size_f64 n n df (psf_spacing_f64 n df) = Ok n \/ psf_size_f64 n n df (psf_spacing_f64 n df) = Ok (Z.max 1 (n - 1)).
Proof.
  intros N Sf Bf. apply mid_pow in Bf. change (Z.of_nat 300) with 300%Z in *.
  assert (A := about_mul _ _ _ _ _ _ _ _ (about_int n 49 N ltac:(lia)) (about_exact _ _ _ Sf Bf) ltac:(lia) ltac:(lia)).
  assert (B := about_div _ _ _ _ _ _ _ _ about_one A ltac:(lia) ltac:(lia)). fold (psf_spacing_f64 n df) in B.
  destruct B as (v & Sv & Nv & Mv). assert (Bv := mid_near _ _ _ _ Mv Nv ltac:(lia)).
  assert (C := about_mul _ _ _ _ _ _ _ _ (about_int n 49 N ltac:(lia)) (about_exact _ _ _ Sv Bv) ltac:(lia) ltac:(lia)).
  assert (D := about_div _ _ _ _ _ _ _ _ C (about_exact _ _ _ Sv Bv) ltac:(lia) ltac:(lia)).
  apply about_same with (w := IZR n) in D; [|apply div_self; apply (mid_pos _ _ Bv)].
  destruct D as (a & S & Na & Ma). unfold psf_size_f64. rewrite (f_int_ok _ _ S). cbn [bind].
  assert (E := near_int _ _ _ Na ltac:(lia) ltac:(lia) ltac:(lia)). apply Rabs_def2 in E.
  assert (1 <= IZR n) by (apply IZR_le; lia).
  destruct (Rle_or_lt (IZR n) a) as [L|L].
  - left. rewrite (trunc_at n); [f_equal; lia|lra|rewrite plus_IZR; lra].
  - right. rewrite (trunc_at (n - 1)); [reflexivity|lra|]. replace (n - 1 + 1)%Z with n by ring. rewrite minus_IZR. lra.
Qed.

(** the camera estimated for a reference picture *)
Definition pitch_value : R := SF2R radix2 (Prim2SF capture_pitch_f64).
Lemma pitch_stands : stands_for capture_pitch_f64 pitch_value.
Proof. apply f_value; [vm_compute; reflexivity|reflexivity]. Qed.
Lemma pitch_mid : mid 20 pitch_value.
Proof.
  unfold pitch_value. let y := eval vm_compute in (Prim2SF capture_pitch_f64) in change (Prim2SF capture_pitch_f64) with y.
  unfold mid, SF2R, F2R. simpl. lra.
Qed.
Lemma f_two : stands_for 2 2.
Proof. apply f_value; [vm_compute; reflexivity|]. vm_compute Prim2SF. unfold SF2R, F2R. simpl. lra. Qed.
Lemma capture_size_own n g h gv hv : (1 <= n <= 2 ^ 47)%Z -> stands_for g gv -> stands_for h hv ->
  / 2 ^ 60 <= gv <= 2 ^ 60 -> / 2 ^ 60 <= hv <= 2 ^ 60 -> capture_size_f64 n g h = Ok n.
Proof.
  intros N Sg Sh Bg Bh. apply mid_pow in Bg, Bh. change (Z.of_nat 60) with 60%Z in *.
  assert (G := about_exact _ _ _ Sg Bg). assert (H := about_exact _ _ _ Sh Bh).
  assert (P := about_exact _ _ _ pitch_stands pitch_mid).
  assert (T : about 0 1 2%float 2) by (apply about_exact; [apply f_two|split; simpl; lra]).
  assert (HH := about_mul _ _ _ _ _ _ _ _ H H ltac:(lia) ltac:(lia)).
  apply about_add0 in HH; [|lia|lia].
  assert (S := about_sqrt _ 60 _ hv HH (mid_pos _ _ Bh) Bh ltac:(lia) ltac:(lia)).
  assert (D := about_div _ _ _ _ _ _ _ _ G S ltac:(lia) ltac:(lia)).
  assert (F := about_div _ _ _ _ _ _ _ _ (about_mul _ _ _ _ _ _ _ _ H P ltac:(lia) ltac:(lia)) G ltac:(lia) ltac:(lia)).
  assert (PP := about_add _ _ _ _ _ _ P P ltac:(lia) ltac:(lia)).
  assert (Q := about_div _ _ _ _ _ _ _ _ (about_div _ _ _ _ _ _ _ _ PP T ltac:(lia) ltac:(lia)) F ltac:(lia) ltac:(lia)).
  assert (X := about_div _ _ _ _ _ _ _ _ (about_mul _ _ _ _ _ _ _ _ (about_int n 47 N ltac:(lia)) D ltac:(lia) ltac:(lia)) Q ltac:(lia) ltac:(lia)).
  assert (Pg := mid_pos _ _ Bg). assert (Ph := mid_pos _ _ Bh). assert (Pp := mid_pos _ _ pitch_mid).
  apply about_same with (w := IZR n) in X; [|field; repeat split; lra].
  unfold capture_size_f64, resample_size_f64, capture_focal_f64, slant_flat_f64.
  apply (about_round _ _ _ _ X); lia.
Qed.


(** a power of two: every step after the spacing is exact *)
Lemma rnd_scale x v j : stands_for x v -> (0 <= j)%Z -> rnd (bpow radix2 j * v) = bpow radix2 j * v.
Proof.
  intros [_ E] J. apply round_generic; [apply valid_rnd_N|].
  assert (G : generic_format radix2 fx v) by (rewrite <- E; apply (generic_format_B2R prec emax)).
  apply FLT_format_generic in G; [|reflexivity]. destruct G as [[m e] V M X]. simpl in M, X.
  apply generic_format_FLT. exists (Float radix2 m (j + e)); simpl; [|exact M|lia].
  rewrite V. unfold F2R. simpl. rewrite bpow_plus. ring.
Qed.
Lemma psf_size_power j df f : (0 <= j <= 49)%Z -> stands_for df f -> / 2 ^ 300 <= f <= 2 ^ 300 ->
  psf_size_f64 (2 ^ j) (2 ^ j) df (psf_spacing_f64 (2 ^ j) df) = Ok (2 ^ j)%Z.
Proof.
  intros J Sf Bf. apply mid_pow in Bf. change (Z.of_nat 300) with 300%Z in *.
  assert (P2 := Z.pow_pos_nonneg 2 j ltac:(lia) ltac:(lia)). assert (L2 := Z.pow_le_mono_r 2 j 49 ltac:(lia) ltac:(lia)).
  set (n := (2 ^ j)%Z) in *. assert (N : (1 <= n <= 2 ^ 49)%Z) by lia.
  assert (A := about_mul _ _ _ _ _ _ _ _ (about_int n 49 N ltac:(lia)) (about_exact _ _ _ Sf Bf) ltac:(lia) ltac:(lia)).
  assert (B := about_div _ _ _ _ _ _ _ _ about_one A ltac:(lia) ltac:(lia)). fold (psf_spacing_f64 n df) in B.
  destruct B as (v & Sv & Nv & Mv). assert (Bv := mid_near _ _ _ _ Mv Nv ltac:(lia)). assert (Pv := mid_pos _ _ Bv).
  assert (Sn := f_int_lit n ltac:(lia)). assert (Mn := mid_int n 49 N ltac:(lia)).
  assert (En : IZR n = bpow radix2 j) by (unfold n; change 2%Z with (radix_val radix2); apply IZR_Zpower; lia).
  assert (C := f_mul _ _ _ _ Sn Sv (mid_lt _ _ (mid_mul _ _ _ _ Mn Bv) ltac:(lia))).
  rewrite En, (rnd_scale _ _ j Sv ltac:(lia)), <- En in C.
  assert (Q : IZR n * v / v = IZR n) by (field; lra).
  assert (D := f_div _ _ _ _ C Sv ltac:(lra) ltac:(rewrite Q; apply (mid_lt _ _ Mn); lia)).
  rewrite Q, rnd_int in D by (rewrite Z.abs_eq; lia).
  unfold psf_size_f64. rewrite (f_int_ok _ _ D). cbn [bind]. rewrite Ztrunc_IZR. f_equal. lia.
Qed.

(** the function's own spacing can lose a sample *)
From Coq Require Import List.
From Verif Require Import Spec_F64Size.
Lemma psf_own_refuted : ~ (forall n df f, (1 <= n <= 2 ^ 49)%Z -> stands_for df f -> / 2 ^ 300 <= f <= 2 ^ 300 ->
  psf_size_f64 n n df (psf_spacing_f64 n df) = Ok n).
Proof.
  intros H. specialize (H 1501%Z (f_of_Z 31) 31 ltac:(lia) (f_int_lit 31 ltac:(lia))).
  assert (E : psf_size_f64 1501 1501 (f_of_Z 31) (psf_spacing_f64 1501 (f_of_Z 31)) = Ok 1500%Z) by (vm_compute; reflexivity).
  rewrite E in H. discriminate H. split.
  - apply Rle_trans with 1; [|lra]. rewrite <- Rinv_1. apply Rinv_le; [lra|]. apply pow_R1_Rle. lra.
  - apply Rle_trans with (2 ^ 5); [simpl; lra|]. apply Rle_pow; [lra|lia].
Qed.
Lemma psf_own_count : length (filter (one_short 1501) (map Z.of_nat (seq 1 1000))) = 61%nat
  /\ length (filter (one_short 500) (map Z.of_nat (seq 1 1000))) = 166%nat.
Proof. split; vm_compute; reflexivity. Qed.
