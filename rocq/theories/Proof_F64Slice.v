(** * Proof_F64Slice: the sample positions of slice_otf in binary64 *)
From Coq Require Import Reals ZArith Lia Lra Psatz Floats List.
From Flocq Require Import Core Relative IEEE754.BinarySingleNaN IEEE754.PrimFloat.
From Verif Require Import Base_XR Base_Np Base_Percentile Model_Geo Model_Img Model_F64 Spec_F64 Proof_Round Model_F64Size
  Proof_F64Size Proof_F64Db Proof_NanSpread Model_F64Slice.
Import ListNotations.
Open Scope R_scope.

Lemma f_ceil_ok x r : stands_for x r -> f_ceil x = Ok (Zceil r).
Proof.
  intros [F E]. unfold f_ceil. rewrite <- B2SF_Prim2B. destruct (Prim2B x) as [s| | |s m e B]; try discriminate.
  - simpl in E. rewrite <- E. simpl. now rewrite Zceil_IZR.
  - simpl B2SF. simpl B2R in E. rewrite sf_value in E. rewrite <- E. f_equal. unfold Zceil. f_equal.
    rewrite <- Zfloor_div by (generalize (sf_den_pos e); lia). f_equal. rewrite opp_IZR. unfold Rdiv. ring.
Qed.

Lemma stands_eq x y : x = y -> forall r, stands_for x r -> stands_for y r. Proof. intros ->; auto. Qed.

(* the step *)
Definition k_of (n : Z) : R := IZR (n - 1) / 2.
Definition s1 (n : Z) : R := rnd (2 / IZR (n - 1)).
Definition s2 (n : Z) : R := rnd (s1 n + -1).
Definition s3 (n : Z) : R := rnd (s2 n - -1).

Lemma two_over n : (3 <= n)%Z -> 0 < 2 / IZR (n - 1) <= 1.
Proof.
  intros H. assert (2 <= IZR (n - 1)) by (apply IZR_le; lia).
  split; [apply Rdiv_lt_0_compat; lra|]. apply Rmult_le_reg_r with (IZR (n - 1)); [lra|].
  unfold Rdiv. rewrite Rmult_assoc, Rinv_l by lra. lra.
Qed.
Lemma f_m1 : stands_for (-1)%float (-1).
Proof. apply f_value; [reflexivity|]. vm_compute (Prim2SF (-1)). unfold SF2R. simpl. unfold F2R. simpl. lra. Qed.
Lemma f_0 : stands_for 0%float 0.
Proof. apply f_value; reflexivity. Qed.
Lemma rnd_le x y : x <= y -> rnd x <= rnd y. Proof. apply rnd_mono. Qed.
Lemma s1_range n : (3 <= n)%Z -> 0 <= s1 n <= 1.
Proof.
  intros H. generalize (two_over n H). intros [P Q]. unfold s1.
  rewrite <- (rnd_int 0), <- (rnd_int 1) by lia. split; apply rnd_le; lra.
Qed.
Lemma big x : Rabs x <= 4 -> Rabs x < bpow radix2 900.
Proof. intros H. eapply Rle_lt_trans; [exact H|]. apply Rle_lt_trans with (bpow radix2 2); [simpl; lra|]. apply bpow_lt. lia. Qed.
Lemma s2_range n : (3 <= n)%Z -> -1 <= s2 n <= 0.
Proof.
  intros H. generalize (s1_range n H). intros [P Q]. unfold s2.
  rewrite <- (rnd_int 0) by lia. replace (-1) with (rnd (-1)) at 1 by (apply (rnd_int (-1)); lia). split; apply rnd_le; lra.
Qed.
Lemma s3_range n : (3 <= n)%Z -> 0 <= s3 n <= 1.
Proof.
  intros H. generalize (s2_range n H). intros [P Q]. unfold s3.
  rewrite <- (rnd_int 0), <- (rnd_int 1) by lia. split; apply rnd_le; lra.
Qed.
Lemma step_stands n : (3 <= n <= 2 ^ 25)%Z -> stands_for (slice_step_f64 n) (s3 n).
Proof.
  intros H. unfold slice_step_f64, slice_u_f64.
  replace (Z.eqb 1 (n - 1)) with false by (symmetry; apply Z.eqb_neq; lia).
  replace (Z.eqb 0 (n - 1)) with false by (symmetry; apply Z.eqb_neq; lia).
  assert (B : 2 <= IZR (n - 1)) by (apply IZR_le; lia).
  generalize (two_over n ltac:(lia)) (s1_range n ltac:(lia)) (s2_range n ltac:(lia)). intros T R1 R2.
  assert (D : stands_for ((1 - -1) / f_of_Z (n - 1))%float (s1 n)).
  { unfold s1. replace (1 - -1)%float with (f_of_Z 2) by (vm_compute; reflexivity).
    apply f_div; [apply (f_int_lit 2); lia|apply f_int_lit; lia|lra|]. apply big. rewrite Rabs_pos_eq; lra. }
  assert (D1 : stands_for (f_of_Z 1 * ((1 - -1) / f_of_Z (n - 1)))%float (s1 n)).
  { replace (s1 n) with (rnd (1 * s1 n)).
    - apply f_mul; [apply (f_int_lit 1); lia|exact D|]. apply big. rewrite Rmult_1_l, Rabs_pos_eq; lra.
    - rewrite Rmult_1_l. apply (rnd_self _ _ D). }
  assert (D0 : stands_for (f_of_Z 0 * ((1 - -1) / f_of_Z (n - 1)))%float 0).
  { rewrite <- (rnd_int 0) by lia. replace 0 with (0 * s1 n) by ring.
    apply f_mul; [apply (f_int_lit 0); lia|exact D|]. apply big. rewrite Rmult_0_l, Rabs_R0. lra. }
  unfold s3. apply f_sub.
  - unfold s2. apply f_add; [exact D1|exact f_m1|]. apply big. apply Rabs_le. lra.
  - replace (-1) with (rnd (0 + -1)) by (rewrite Rplus_0_l; apply (rnd_int (-1)); lia).
    apply f_add; [exact D0|exact f_m1|]. apply big. apply Rabs_le. lra.
  - apply big. apply Rabs_le. lra.
Qed.

(** ** how far the computed spacing is from 2 / (n - 1) *)
Definition eps : R := bpow radix2 (-53).
Lemma eps_val : eps = / 9007199254740992. Proof. unfold eps. simpl. lra. Qed.
Lemma err1 x : Rabs x <= 1 -> Rabs (rnd x - x) <= eps.
Proof. intros H. apply (rnd_err x 1); [lia|]. simpl. lra. Qed.
Lemma s3_err n : (3 <= n)%Z -> Rabs (s3 n - 2 / IZR (n - 1)) <= 3 * eps.
Proof.
  intros H. generalize (two_over n H) (s1_range n H) (s2_range n H) (s3_range n H). intros T R1 R2 R3.
  assert (E1 : Rabs (s1 n - 2 / IZR (n - 1)) <= eps) by (apply err1; rewrite Rabs_pos_eq; lra).
  assert (E2 : Rabs (s2 n - (s1 n + -1)) <= eps) by (apply err1; apply Rabs_le; lra).
  assert (E3 : Rabs (s3 n - (s2 n - -1)) <= eps) by (apply err1; apply Rabs_le; lra).
  apply Rabs_le_inv in E1, E2, E3. apply Rabs_le. lra.
Qed.
Lemma k_range n : (3 <= n <= 2 ^ 25)%Z -> 1 <= k_of n <= 16777216.
Proof.
  intros H. unfold k_of. assert (2 <= IZR (n - 1)) by (apply IZR_le; lia).
  assert (IZR (n - 1) <= 33554432) by (apply IZR_le; lia). lra.
Qed.
Lemma k_inv n : (3 <= n)%Z -> 2 / IZR (n - 1) = / k_of n.
Proof. intros H. unfold k_of. assert (2 <= IZR (n - 1)) by (apply IZR_le; lia). field. lra. Qed.
Lemma s3_low n : (3 <= n <= 2 ^ 25)%Z -> / (2 * k_of n) < s3 n.
Proof.
  intros H. generalize (s3_err n ltac:(lia)) (k_range n H). intros E K. rewrite k_inv in E by lia.
  apply Rabs_le_inv in E. rewrite eps_val in E. rewrite Rinv_mult.
  assert (/ 16777216 <= / k_of n) by (apply Rinv_le; lra). lra.
Qed.
Lemma s3_pos n : (3 <= n <= 2 ^ 25)%Z -> 0 < s3 n.
Proof.
  intros H. eapply Rlt_trans; [|apply s3_low; exact H]. apply Rinv_0_lt_compat. generalize (k_range n H). lra.
Qed.
Lemma inv_err n : (3 <= n <= 2 ^ 25)%Z -> Rabs (/ s3 n - k_of n) <= / 5.
Proof.
  intros H. generalize (s3_err n ltac:(lia)) (k_range n H) (s3_pos n H) (s3_low n H). intros E K P L.
  rewrite k_inv in E by lia. set (v := s3 n) in *. set (k := k_of n) in *. apply Rabs_le_inv in E. rewrite eps_val in E.
  assert (V : / v <= 2 * k).
  { rewrite <- (Rinv_inv (2 * k)). apply Rinv_le; [apply Rinv_0_lt_compat; lra|lra]. }
  assert (Q : / v - k = (/ k - v) * k * / v) by (field; lra).
  rewrite Q. rewrite !Rabs_mult, (Rabs_pos_eq k), (Rabs_pos_eq (/ v)) by (left; try apply Rinv_0_lt_compat; lra).
  apply Rle_trans with (3 * / 9007199254740992 * 16777216 * (2 * 16777216)); [|lra].
  apply Rmult_le_compat; [apply Rmult_le_pos; [apply Rabs_pos|lra]|left; apply Rinv_0_lt_compat; lra| |lra].
  apply Rmult_le_compat; [apply Rabs_pos|lra| |lra]. apply Rabs_le. lra.
Qed.
Definition q_of_n (n : Z) : R := rnd (/ s3 n).
Lemma q_err n : (3 <= n <= 2 ^ 25)%Z -> Rabs (q_of_n n - k_of n) <= / 4.
Proof.
  intros H. generalize (inv_err n H) (k_range n H). intros E K. apply Rabs_le_inv in E.
  assert (F : Rabs (q_of_n n - / s3 n) <= bpow radix2 (26 - 54)).
  { apply rnd_err; [lia|]. rewrite Rabs_pos_eq; simpl; lra. }
  apply Rabs_le_inv in F. change (26 - 54)%Z with (-28)%Z in F. simpl in F. apply Rabs_le. lra.
Qed.
Lemma count_q n : (3 <= n <= 2 ^ 25)%Z -> slice_count_f64 n = Ok (Zceil (q_of_n n)).
Proof.
  intros H. unfold slice_count_f64. replace (Z.ltb n 2) with false by (symmetry; apply Z.ltb_ge; lia).
  unfold arange_len. generalize (s3_pos n H) (inv_err n H) (k_range n H) (q_err n H). intros P I K Q.
  assert (S : stands_for ((1 - 0) / slice_step_f64 n)%float (q_of_n n)).
  { replace (1 - 0)%float with (f_of_Z 1) by (vm_compute; reflexivity).
    unfold q_of_n. replace (/ s3 n) with (1 / s3 n) by (field; lra).
    apply f_div; [apply (f_int_lit 1); lia|apply step_stands; exact H|lra|].
    replace (1 / s3 n) with (/ s3 n) by (field; lra). apply Rabs_le_inv in I.
    apply Rlt_trans with (bpow radix2 26); [|apply bpow_lt; lia]. rewrite Rabs_pos_eq; simpl; lra. }
  rewrite (f_ceil_ok _ _ S). simpl bind. f_equal. apply Z.max_r.
  apply Rabs_le_inv in Q. apply le_IZR. eapply Rle_trans; [|apply Zceil_ub]. lra.
Qed.

(** ** even and odd sizes *)
Lemma count_even n : (3 <= n <= 2 ^ 25)%Z -> Z.even n = true -> slice_count_f64 n = Ok (n / 2)%Z.
Proof.
  intros H E. rewrite count_q by exact H. f_equal. generalize (q_err n H). intros Q. apply Rabs_le_inv in Q.
  apply Z.even_spec in E. destruct E as [j ->]. replace (2 * j / 2)%Z with j by (rewrite Z.mul_comm, Z.div_mul; lia).
  unfold k_of in Q. rewrite minus_IZR, mult_IZR in Q. apply Zceil_imp. rewrite minus_IZR. lra.
Qed.
Lemma count_odd n : (3 <= n <= 2 ^ 25)%Z -> Z.odd n = true ->
  slice_count_f64 n = Ok (if Rlt_bool (IZR ((n - 1) / 2)) (q_of_n n) then (n + 1) / 2 else (n - 1) / 2)%Z.
Proof.
  intros H E. rewrite count_q by exact H. f_equal. generalize (q_err n H). intros Q. apply Rabs_le_inv in Q.
  apply Z.odd_spec in E. destruct E as [j ->].
  replace ((2 * j + 1 - 1) / 2)%Z with j by ((replace (2 * j + 1 - 1)%Z with (j * 2)%Z by lia); now rewrite Z.div_mul by lia).
  replace ((2 * j + 1 + 1) / 2)%Z with (j + 1)%Z by ((replace (2 * j + 1 + 1)%Z with ((j + 1) * 2)%Z by lia); now rewrite Z.div_mul by lia).
  unfold k_of in Q. replace (2 * j + 1 - 1)%Z with (2 * j)%Z in Q by lia. rewrite mult_IZR in Q.
  destruct (Rlt_bool_spec (IZR j) (q_of_n (2 * j + 1))) as [L|L]; apply Zceil_imp; rewrite ?minus_IZR, ?plus_IZR; lra.
Qed.

(** ** one more exactly when the computed spacing is too small *)
Lemma s2_grid n : (5 <= n)%Z -> exists m, s2 n = IZR m * bpow radix2 (-53) /\ (- 2 ^ 53 <= m <= - 2 ^ 52)%Z.
Proof.
  intros H. assert (B : 4 <= IZR (n - 1)) by (apply IZR_le; lia).
  assert (T : 0 < 2 / IZR (n - 1) <= / 2).
  { split; [apply Rdiv_lt_0_compat; lra|]. apply Rmult_le_reg_r with (IZR (n - 1)); [lra|].
    unfold Rdiv. rewrite Rmult_assoc, Rinv_l by lra. lra. }
  assert (Hf : rnd (/ 2) = / 2).
  { replace (/ 2) with (IZR 1 * bpow radix2 (-1)) by (simpl; lra). apply rnd_exact; lia. }
  assert (R1 : s1 n <= / 2) by (unfold s1; rewrite <- Hf; apply rnd_le; lra).
  generalize (s1_range n ltac:(lia)) (s2_range n ltac:(lia)). intros R0 R2.
  assert (S2 : s2 n <= - / 2).
  { unfold s2. replace (- / 2) with (rnd (- / 2)).
    - apply rnd_le. lra.
    - replace (- / 2) with (IZR (-1) * bpow radix2 (-1)) by (simpl; lra). apply rnd_exact; lia. }
  assert (G : generic_format radix2 fx (s2 n)) by (apply generic_format_round; [apply fx_valid|apply valid_rnd_N]).
  unfold generic_format in G. set (c := cexp radix2 fx (s2 n)) in *. set (M := Ztrunc (scaled_mantissa radix2 fx (s2 n))) in *.
  assert (C : (-53 <= c)%Z).
  { unfold c, cexp, fx, FLT_exp. assert (0 <= mag radix2 (s2 n))%Z; [|lia].
    assert (Mg : (-1 < mag radix2 (s2 n))%Z); [|lia].
    apply mag_gt_bpow. rewrite Rabs_left by lra. simpl. lra. }
  assert (W : s2 n = IZR (M * 2 ^ (c + 53)) * bpow radix2 (-53)).
  { rewrite G at 1. unfold F2R, Fnum, Fexp. rewrite mult_IZR. change 2%Z with (radix_val radix2).
    rewrite IZR_Zpower by lia. rewrite Rmult_assoc, <- bpow_plus. do 2 f_equal. lia. }
  exists (M * 2 ^ (c + 53))%Z. split; [exact W|]. rewrite W in R2, S2. fold eps in R2, S2. rewrite eps_val in R2, S2.
  split; apply le_IZR; [change (- 2 ^ 53)%Z with (-9007199254740992)%Z|change (- 2 ^ 52)%Z with (-4503599627370496)%Z]; lra.
Qed.

Lemma s3_grid n : (5 <= n)%Z -> exists m, s3 n = IZR m * bpow radix2 (-53) /\ (0 <= m <= 2 ^ 52)%Z.
Proof.
  intros H. destruct (s2_grid n H) as (m & E & B). exists (m + 2 ^ 53)%Z. split; [|lia].
  unfold s3. rewrite E. replace (IZR m * bpow radix2 (-53) - -1) with (IZR (m + 2 ^ 53) * bpow radix2 (-53)).
  - apply rnd_exact; lia.
  - rewrite plus_IZR. change (IZR (2 ^ 53)) with (bpow radix2 53). rewrite Rmult_plus_distr_r, <- bpow_plus. simpl (bpow radix2 (53 + -53)). lra.
Qed.
(* a number a little above the integer j is not rounded down to it *)
Lemma rnd_above j x : (1 <= j <= 2 ^ 25)%Z -> IZR j * (1 + eps) < x -> IZR j < rnd x.
Proof.
  intros J X. assert (J1 : 1 <= IZR j) by (apply IZR_le; lia).
  set (e := Z.log2 j). assert (L : (2 ^ e <= j < 2 ^ Z.succ e)%Z) by (apply Z.log2_spec; lia).
  assert (E0 : (0 <= e)%Z) by apply Z.log2_nonneg.
  assert (E1 : (e <= 25)%Z).
  { replace 25%Z with (Z.log2 (2 ^ 25)) by reflexivity. apply Z.log2_le_mono. lia. }
  set (u := bpow radix2 (e - 52)).
  assert (Hu : bpow radix2 e <= IZR j).
  { rewrite <- IZR_Zpower by exact E0. apply IZR_le. exact (proj1 L). }
  assert (U : u / 2 <= IZR j * eps).
  { unfold u. replace (e - 52)%Z with (e + (1 + -53))%Z by lia. rewrite !bpow_plus. fold eps. simpl (bpow radix2 1).
    generalize (bpow_gt_0 radix2 (-53)). fold eps. intros. nra. }
  assert (Up : 0 < u) by apply bpow_gt_0.
  assert (F : rnd (IZR j + u) = IZR j + u).
  { replace (IZR j + u) with (IZR (j * 2 ^ (52 - e) + 1) * bpow radix2 (e - 52)).
    - apply rnd_exact; [|lia].
      assert (j * 2 ^ (52 - e) < 2 ^ 53)%Z; [|assert (0 <= j * 2 ^ (52 - e))%Z by (apply Z.mul_nonneg_nonneg; [lia|apply Z.pow_nonneg; lia]); lia].
      replace (2 ^ 53)%Z with (2 ^ Z.succ e * 2 ^ (52 - e))%Z by (rewrite <- Z.pow_add_r by lia; f_equal; lia).
      apply Z.mul_lt_mono_pos_r; [apply Z.pow_pos_nonneg; lia|exact (proj2 L)].
    - rewrite plus_IZR, mult_IZR. change 2%Z with (radix_val radix2). rewrite IZR_Zpower by lia.
      rewrite Rmult_plus_distr_r, Rmult_assoc, <- bpow_plus. replace (52 - e + (e - 52))%Z with 0%Z by lia.
      unfold u. simpl (bpow radix2 0). ring. }
  destruct (Rlt_le_dec (IZR j) (rnd x)) as [D|D]; [exact D|exfalso].
  destruct (Rle_lt_dec (IZR j + u) x) as [A|A].
  - apply rnd_le in A. rewrite F in A. lra.
  - destruct (round_N_pt radix2 fx (fun z => negb (Z.even z)) x) as [_ N].
    assert (G : generic_format radix2 fx (IZR j + u)).
    { rewrite <- F. apply generic_format_round; [apply fx_valid|apply valid_rnd_N]. }
    specialize (N _ G). change (round radix2 fx (Znearest (fun z => negb (Z.even z))) x) with (rnd x) in N.
    rewrite (Rabs_pos_eq (IZR j + u - x)) in N by lra. rewrite Rabs_left1 in N by lra. lra.
Qed.
Lemma extra_iff n : (3 <= n <= 2 ^ 25)%Z -> Z.odd n = true ->
  (IZR ((n - 1) / 2) < q_of_n n <-> s3 n * IZR (n - 1) < 2).
Proof.
  intros H E. apply Z.odd_spec in E. destruct E as [j ->].
  replace ((2 * j + 1 - 1) / 2)%Z with j by ((replace (2 * j + 1 - 1)%Z with (j * 2)%Z by lia); now rewrite Z.div_mul by lia).
  replace (2 * j + 1 - 1)%Z with (2 * j)%Z by lia. rewrite mult_IZR.
  generalize (s3_pos _ H). set (n := (2 * j + 1)%Z) in *. intros P.
  assert (J1 : 1 <= IZR j) by (apply IZR_le; lia).
  split.
  - intros Q. destruct (Rlt_le_dec (s3 n * (2 * IZR j)) 2) as [D|D]; [exact D|exfalso].
    assert (/ s3 n <= IZR j).
    { apply Rmult_le_reg_l with (s3 n); [exact P|]. rewrite Rinv_r by lra. lra. }
    apply rnd_le in H0. rewrite (rnd_int j) in H0 by lia. unfold q_of_n in Q. lra.
  - intros Q. unfold q_of_n. apply rnd_above; [lia|].
    destruct (Z.eq_dec j 1) as [J|J].
    + exfalso. subst j. unfold n in Q. simpl IZR in Q.
      assert (A : s3 3 = 1); [|unfold n in *; simpl in Q; lra].
      unfold s3, s2, s1. simpl (3 - 1)%Z. replace (2 / 2) with 1 by field. rewrite (rnd_int 1) by lia.
      replace (1 + -1) with 0 by ring. rewrite (rnd_int 0) by lia. replace (0 - -1) with 1 by ring. apply (rnd_int 1). lia.
    + destruct (s3_grid n ltac:(lia)) as (m & Em & Bm). fold eps in Em.
      assert (Ep : 0 < eps) by (rewrite eps_val; lra).
      assert (Mj : (m * j <= 2 ^ 53 - 1)%Z).
      { assert (m * j < 2 ^ 53)%Z; [|lia]. apply lt_IZR. rewrite mult_IZR. rewrite Em in Q.
        change (IZR (2 ^ 53)) with 9007199254740992. rewrite eps_val in Q. lra. }
      apply IZR_le in Mj. rewrite mult_IZR, minus_IZR in Mj. change (IZR (2 ^ 53)) with 9007199254740992 in Mj.
      apply Rmult_lt_reg_l with (s3 n); [exact P|]. rewrite Rinv_r by lra. rewrite Em.
      replace (IZR m * eps * (IZR j * (1 + eps))) with (IZR m * IZR j * (eps * (1 + eps))) by ring.
      apply Rle_lt_trans with ((9007199254740992 - 1) * (eps * (1 + eps))).
      * apply Rmult_le_compat_r; [nra|lra].
      * rewrite eps_val. lra.
Qed.

(** ** the positions *)
Lemma s3_of n d : (3 <= n <= 2 ^ 25)%Z -> stands_for (slice_step_f64 n) d -> d = s3 n.
Proof. intros H [_ E]. destruct (step_stands n H) as [_ E']. congruence. Qed.
Lemma slice_odd n d : (3 <= n <= 2 ^ 25)%Z -> Z.odd n = true -> stands_for (slice_step_f64 n) d ->
  (d * IZR (n - 1) < 2 -> slice_count_f64 n = Ok ((n + 1) / 2)%Z) /\
  (2 <= d * IZR (n - 1) -> slice_count_f64 n = Ok ((n - 1) / 2)%Z).
Proof.
  intros H E S. rewrite (s3_of n d H S). rewrite (count_odd n H E). generalize (extra_iff n H E). intros X.
  destruct (Rlt_bool_spec (IZR ((n - 1) / 2)) (q_of_n n)) as [L|L]; split; intros D; try reflexivity.
  - apply X in L. lra.
  - apply X in D. lra.
Qed.
Lemma slice_step_near n : (3 <= n <= 2 ^ 25)%Z ->
  exists d, stands_for (slice_step_f64 n) d /\ Rabs (d - 2 / IZR (n - 1)) <= 3 / 2 ^ 53.
Proof.
  intros H. exists (s3 n). split; [apply step_stands; exact H|]. eapply Rle_trans; [apply s3_err; lia|].
  rewrite eps_val. simpl. lra.
Qed.
Lemma slice_positions n c i : (3 <= n <= 2 ^ 25)%Z -> slice_count_f64 n = Ok c -> (0 <= i < c)%Z ->
  exists r, stands_for (slice_radius_f64 n i) r /\ 0 <= r <= 1 /\ Rabs (r - 2 * IZR i / IZR (n - 1)) <= IZR (3 * i + 1) / 2 ^ 53.
Proof.
  intros H C I. rewrite count_q in C by exact H. assert (C' : Zceil (q_of_n n) = c) by congruence. clear C.
  generalize (s3_pos n H) (q_err n H) (k_range n H) (s3_range n ltac:(lia)) (s3_err n ltac:(lia)). intros P Q K V E.
  assert (I0 : 0 <= IZR i) by (apply IZR_le; lia).
  assert (Iq : IZR i < q_of_n n).
  { destruct (Rlt_le_dec (IZR i) (q_of_n n)) as [D|D]; [exact D|exfalso].
    assert (Zceil (q_of_n n) <= i)%Z by (apply Zceil_glb; exact D). lia. }
  assert (Ib : (i <= 2 ^ 53)%Z).
  { apply le_IZR. apply Rabs_le_inv in Q. change (IZR (2 ^ 53)) with 9007199254740992. lra. }
  assert (L : IZR i * s3 n <= 1).
  { destruct (Rle_lt_dec (IZR i * s3 n) 1) as [D|D]; [exact D|exfalso].
    assert (/ s3 n <= IZR i).
    { apply Rmult_le_reg_r with (s3 n); [exact P|]. rewrite Rinv_l by lra. lra. }
    apply rnd_le in H0. rewrite (rnd_int i) in H0 by lia. unfold q_of_n in Iq. lra. }
  assert (M : 0 <= IZR i * s3 n) by (apply Rmult_le_pos; lra).
  assert (A : stands_for (f_of_Z i * slice_step_f64 n)%float (rnd (IZR i * s3 n))).
  { apply f_mul; [apply f_int_lit; lia|apply step_stands; exact H|]. apply big. rewrite Rabs_pos_eq; lra. }
  assert (B : 0 <= rnd (IZR i * s3 n) <= 1).
  { rewrite <- (rnd_int 0), <- (rnd_int 1) by lia. split; apply rnd_le; lra. }
  exists (rnd (IZR i * s3 n)). split; [|split; [exact B|]].
  - unfold slice_radius_f64. replace (rnd (IZR i * s3 n)) with (rnd (0 + rnd (IZR i * s3 n))).
    + apply f_add; [exact f_0|exact A|]. apply big. rewrite Rplus_0_l, Rabs_pos_eq; lra.
    + rewrite Rplus_0_l. apply (rnd_self _ _ A).
  - assert (F : Rabs (rnd (IZR i * s3 n) - IZR i * s3 n) <= eps) by (apply err1; rewrite Rabs_pos_eq; lra).
    replace (2 * IZR i / IZR (n - 1)) with (IZR i * (2 / IZR (n - 1))) by (unfold Rdiv; ring).
    replace (rnd (IZR i * s3 n) - IZR i * (2 / IZR (n - 1))) with ((rnd (IZR i * s3 n) - IZR i * s3 n) + IZR i * (s3 n - 2 / IZR (n - 1))) by ring.
    eapply Rle_trans; [apply Rabs_triang|]. rewrite Rabs_mult, (Rabs_pos_eq (IZR i)) by exact I0.
    rewrite plus_IZR, mult_IZR. assert (IZR i * Rabs (s3 n - 2 / IZR (n - 1)) <= IZR i * (3 * eps)) by (apply Rmult_le_compat_l; lra).
    replace (2 ^ 53) with 9007199254740992 by (simpl; lra). rewrite eps_val in F, H0. lra.
Qed.

(** ** against the exact-arithmetic slice *)
Lemma exact_len m : (2 <= m)%nat -> Z.to_nat (Zceil (1 / (2 / INR (m - 1)))) = (m / 2)%nat.
Proof.
  intros H. assert (P : 0 < INR (m - 1)) by (apply lt_0_INR; lia).
  replace (1 / (2 / INR (m - 1))) with (INR (m - 1) / 2) by (field; lra).
  rewrite INR_IZR_INZ in *.
  generalize (Nat.div_mod m 2 ltac:(lia)) (Nat.mod_upper_bound m 2 ltac:(lia)). intros D U.
  set (q := (m / 2)%nat) in *. set (t := (m mod 2)%nat) in *.
  replace (Zceil (IZR (Z.of_nat (m - 1)) / 2)) with (Z.of_nat q); [apply Nat2Z.id|]. symmetry. apply Zceil_imp.
  assert (Tc : t = 0%nat \/ t = 1%nat) by lia.
  destruct Tc as [Tc|Tc]; rewrite Tc in D.
  - replace (Z.of_nat (m - 1)) with (2 * Z.of_nat q - 1)%Z by lia. rewrite !minus_IZR, mult_IZR. lra.
  - replace (Z.of_nat (m - 1)) with (2 * Z.of_nat q)%Z by lia. rewrite !minus_IZR, mult_IZR. lra.
Qed.
Lemma slice_against_exact otf ang l n : slice_otf otf ang = Ok l -> n = Z.of_nat (rows otf) -> (3 <= n <= 2 ^ 25)%Z ->
  slice_count_f64 n = Ok (Z.of_nat (length l)) \/ (Z.odd n = true /\ slice_count_f64 n = Ok (Z.of_nat (length l) + 1)%Z).
Proof.
  intros S N H. unfold slice_otf in S. destruct (Nat.ltb (rows otf) 2) eqn:A; [discriminate|].
  destruct (negb (rows otf =? cols otf)%nat); [discriminate|].
  assert (L : length l = (rows otf / 2)%nat).
  { injection S as <-. rewrite map2_len, !sortR_length, !map_length. unfold arange01. rewrite map_length, seq_length.
    rewrite exact_len by lia. lia. }
  rewrite L. generalize (Nat.div_mod (rows otf) 2 ltac:(lia)) (Nat.mod_upper_bound (rows otf) 2 ltac:(lia)).
  set (q := (rows otf / 2)%nat) in *. set (t := (rows otf mod 2)%nat) in *. intros D U.
  assert (Tc : t = 0%nat \/ t = 1%nat) by lia. destruct Tc as [Tc|Tc]; rewrite Tc in D.
  - left. rewrite count_even; [|exact H|apply Z.even_spec; exists (Z.of_nat q); lia].
    f_equal. replace n with (Z.of_nat q * 2)%Z by lia. apply Z.div_mul. lia.
  - assert (O : Z.odd n = true) by (apply Z.odd_spec; exists (Z.of_nat q); lia).
    rewrite (count_odd n H O). destruct (Rlt_bool (IZR ((n - 1) / 2)) (q_of_n n)); [right; split; [exact O|]|left]; f_equal.
    + replace (n + 1)%Z with ((Z.of_nat q + 1) * 2)%Z by lia. apply Z.div_mul. lia.
    + replace (n - 1)%Z with (Z.of_nat q * 2)%Z by lia. apply Z.div_mul. lia.
Qed.

(** ** how often *)
Definition one_more (n : Z) : bool := match slice_count_f64 n with Ok c => Z.eqb c ((n + 1) / 2) | Err _ => false end.
Definition odd_sizes : list Z := map (fun j => 2 * Z.of_nat j + 1)%Z (seq 1 1000).
Lemma one_more_count : length (filter one_more odd_sizes) = 535%nat.
Proof. vm_compute. reflexivity. Qed.
Lemma slice_1501 : slice_count_f64 1501 = Ok 751%Z. Proof. vm_compute. reflexivity. Qed.
Lemma slice_101 : slice_count_f64 101 = Ok 50%Z. Proof. vm_compute. reflexivity. Qed.
Definition seven : img := {| rows := 7; cols := 7; px := fun i j => INR (i + j) |}.
Lemma seven_slice : exists l, slice_otf seven 0 = Ok l /\ slice_count_f64 7 = Ok (Z.of_nat (length l) + 1)%Z.
Proof.
  eexists. split; [reflexivity|].
  rewrite map2_len, !sortR_length, !map_length. unfold arange01. rewrite map_length, seq_length.
  rewrite exact_len by (simpl; lia). vm_compute. reflexivity.
Qed.
Lemma slice_edge_refuted : ~ forall n, (3 <= n <= 2 ^ 25)%Z -> Z.odd n = true -> slice_count_f64 n = Ok ((n - 1) / 2)%Z.
Proof. intros H. specialize (H 1501%Z ltac:(lia) eq_refl). rewrite slice_1501 in H. discriminate H. Qed.
Lemma slice_small : (forall n, (n < 2)%Z -> slice_count_f64 n = Err IndexError) /\
  slice_count_f64 2 = Ok 1%Z /\ stands_for (slice_step_f64 2) 2.
Proof.
  split; [|split].
  - intros n H. unfold slice_count_f64. apply Z.ltb_lt in H. now rewrite H.
  - vm_compute. reflexivity.
  - replace (slice_step_f64 2) with (f_of_Z 2) by (vm_compute; reflexivity). apply (f_int_lit 2). lia.
Qed.
