(** * Proof_Round: binary64 operations as rounded real operations (Flocq) *)
From Coq Require Import Reals ZArith Lia Lra Psatz Floats.
From Flocq Require Import Core IEEE754.BinarySingleNaN IEEE754.PrimFloat.
From Verif Require Import Spec_F64.
Open Scope R_scope.

Definition fx : Z -> Z := FLT_exp (-1074) 53.
Definition rnd (x : R) : R := round radix2 fx ZnearestE x.
Global Instance fx_valid : Valid_exp fx.
Proof. apply FLT_exp_valid. reflexivity. Qed.

Lemma pow2_bpow n : 2 ^ n = bpow radix2 (Z.of_nat n).
Proof. rewrite bpow_powerRZ. simpl (IZR radix2). now rewrite <- pow_powerRZ. Qed.

Lemma rnd_exact m e : (Z.abs m <= 2 ^ 53)%Z -> (-1074 <= e)%Z -> rnd (IZR m * bpow radix2 e) = IZR m * bpow radix2 e.
Proof.
  intros M E. apply round_generic; [apply valid_rnd_N|].
  destruct (Z.eq_dec (Z.abs m) (2 ^ 53)) as [H|H].
  - assert (G : generic_format radix2 fx (bpow radix2 (53 + e))).
    { apply generic_format_bpow. unfold fx, FLT_exp. lia. }
    assert (X : IZR m * bpow radix2 e = bpow radix2 (53 + e) \/ IZR m * bpow radix2 e = - bpow radix2 (53 + e)).
    { rewrite bpow_plus. replace (bpow radix2 53) with (IZR (2 ^ 53)) by (simpl; lra).
      destruct (Z.abs_eq_or_opp m) as [Q|Q]; rewrite Q in H; [left|right].
      - rewrite H. reflexivity.
      - replace m with (- 2 ^ 53)%Z by lia. rewrite opp_IZR. ring. }
    destruct X as [-> | ->]; [exact G|apply generic_format_opp; exact G].
  - apply generic_format_FLT. exists (Float radix2 m e); [reflexivity| |exact E]. simpl Fnum.
    change (Z.pow radix2 53) with (2 ^ 53)%Z. lia.
Qed.
Lemma rnd_int m : (Z.abs m <= 2 ^ 53)%Z -> rnd (IZR m) = IZR m.
Proof. intros H. generalize (rnd_exact m 0 H ltac:(lia)). simpl bpow. now rewrite Rmult_1_r. Qed.

Lemma rnd_err x k : (-1021 <= k)%Z -> Rabs x < bpow radix2 k -> Rabs (rnd x - x) <= bpow radix2 (k - 54).
Proof.
  intros K H. destruct (Req_dec x 0) as [->|N].
  { unfold rnd. rewrite round_0 by apply valid_rnd_N. rewrite Rminus_0_r, Rabs_R0. apply bpow_ge_0. }
  eapply Rle_trans; [apply error_le_half_ulp; apply fx_valid|].
  rewrite ulp_neq_0 by exact N. unfold cexp, fx, FLT_exp.
  assert (M : (mag radix2 x <= k)%Z) by (apply mag_le_bpow; auto).
  replace (k - 54)%Z with (-1 + (k - 53))%Z by lia. rewrite bpow_plus. simpl (bpow radix2 (-1)).
  apply Rmult_le_compat_l; [lra|]. apply bpow_le. lia.
Qed.
Lemma rnd_small x k : (-1021 <= k < 1000)%Z -> Rabs x < bpow radix2 k -> Rabs (rnd x) < bpow radix2 1024.
Proof.
  intros K H. generalize (rnd_err x k ltac:(lia) H). intros E.
  assert (bpow radix2 (k - 54) <= bpow radix2 k) by (apply bpow_le; lia).
  assert (bpow radix2 (1 + k) < bpow radix2 1024) by (apply bpow_lt; lia).
  rewrite bpow_plus in H1. simpl (bpow radix2 1) in H1.
  replace (rnd x) with ((rnd x - x) + x) by ring. eapply Rle_lt_trans; [apply Rabs_triang|]. lra.
Qed.
Lemma bounded_ok x : Rabs x < bpow radix2 900 -> Rlt_bool (Rabs (rnd x)) (bpow radix2 1024) = true.
Proof. intros H. apply Rlt_bool_true. apply rnd_small with 900%Z; [lia|exact H]. Qed.

Lemma f_add x y a b : stands_for x a -> stands_for y b -> Rabs (a + b) < bpow radix2 900 -> stands_for (x + y)%float (rnd (a + b)).
Proof.
  intros [Fx Ex] [Fy Ey] B. unfold stands_for. rewrite add_equiv.
  generalize (Bplus_correct prec emax Hprec Hmax mode_NE (Prim2B x) (Prim2B y) Fx Fy).
  rewrite Ex, Ey. change (round radix2 (fexp prec emax) (round_mode mode_NE) (a + b)) with (rnd (a + b)).
  change (bpow radix2 emax) with (bpow radix2 1024). rewrite bounded_ok by exact B. tauto.
Qed.
Lemma f_sub x y a b : stands_for x a -> stands_for y b -> Rabs (a - b) < bpow radix2 900 -> stands_for (x - y)%float (rnd (a - b)).
Proof.
  intros [Fx Ex] [Fy Ey] B. unfold stands_for. rewrite sub_equiv.
  generalize (Bminus_correct prec emax Hprec Hmax mode_NE (Prim2B x) (Prim2B y) Fx Fy).
  rewrite Ex, Ey. change (round radix2 (fexp prec emax) (round_mode mode_NE) (a - b)) with (rnd (a - b)).
  change (bpow radix2 emax) with (bpow radix2 1024). rewrite bounded_ok by exact B. tauto.
Qed.
Lemma f_mul x y a b : stands_for x a -> stands_for y b -> Rabs (a * b) < bpow radix2 900 -> stands_for (x * y)%float (rnd (a * b)).
Proof.
  intros [Fx Ex] [Fy Ey] B. unfold stands_for. rewrite mul_equiv.
  generalize (Bmult_correct prec emax Hprec Hmax mode_NE (Prim2B x) (Prim2B y)).
  rewrite Ex, Ey, Fx, Fy. change (round radix2 (fexp prec emax) (round_mode mode_NE) (a * b)) with (rnd (a * b)).
  change (bpow radix2 emax) with (bpow radix2 1024). rewrite bounded_ok by exact B. simpl andb. tauto.
Qed.
Lemma f_div x y a b : stands_for x a -> stands_for y b -> b <> 0 -> Rabs (a / b) < bpow radix2 900 -> stands_for (x / y)%float (rnd (a / b)).
Proof.
  intros [Fx Ex] [Fy Ey] Z B. unfold stands_for. rewrite div_equiv.
  generalize (Bdiv_correct prec emax Hprec Hmax mode_NE (Prim2B x) (Prim2B y)).
  rewrite Ex, Ey, Fx. change (round radix2 (fexp prec emax) (round_mode mode_NE) (a / b)) with (rnd (a / b)).
  change (bpow radix2 emax) with (bpow radix2 1024). rewrite bounded_ok by exact B. tauto.
Qed.
Lemma f_sqrt x a : stands_for x a -> 0 <= a -> stands_for (PrimFloat.sqrt x) (rnd (R_sqrt.sqrt a)).
Proof.
  intros [Fx Ex] P. unfold stands_for. rewrite sqrt_equiv.
  destruct (Bsqrt_correct prec emax Hprec Hmax mode_NE (Prim2B x)) as (E & F & _). rewrite Ex in E. split; [|exact E].
  rewrite F. destruct (Prim2B x) as [s| | |s m e B]; try discriminate; [reflexivity|].
  destruct s; [|reflexivity]. exfalso. simpl in Ex. rewrite <- Ex in P.
  assert (F2R (Float radix2 (Zneg m) e) < 0) by (apply F2R_lt_0; reflexivity). simpl in H. lra.
Qed.
(* a number is determined by its value unless that is zero *)
Lemma stands_inj x y a : stands_for x a -> stands_for y a -> a <> 0 -> x = y.
Proof.
  intros [Fx Ex] [Fy Ey] N. apply Prim2B_inj. apply B2R_inj; [| |congruence].
  - destruct (Prim2B x); try discriminate; [exfalso; apply N; rewrite <- Ex; reflexivity|reflexivity].
  - destruct (Prim2B y); try discriminate; [exfalso; apply N; rewrite <- Ey; reflexivity|reflexivity].
Qed.
Lemma f_lt x y a b : stands_for x a -> stands_for y b -> (PrimFloat.ltb x y = true <-> a < b).
Proof.
  intros [Fx Ex] [Fy Ey]. rewrite ltb_equiv, Bltb_correct by assumption. rewrite Ex, Ey.
  destruct (Rlt_bool_spec a b); split; intros; try lra; discriminate.
Qed.

(** exact operations on multiples of a power of two *)
Definition dy (m e : Z) : R := IZR m * bpow radix2 e.
Lemma dy_small m e : (Z.abs m <= 2 ^ 53)%Z -> (e <= 800)%Z -> Rabs (dy m e) < bpow radix2 900.
Proof.
  intros M E. unfold dy. rewrite Rabs_mult, <- abs_IZR, (Rabs_pos_eq (bpow radix2 e)) by apply bpow_ge_0.
  apply Rle_lt_trans with (bpow radix2 53 * bpow radix2 e).
  - apply Rmult_le_compat_r; [apply bpow_ge_0|]. change (bpow radix2 53) with (IZR (2 ^ 53)). apply IZR_le. exact M.
  - rewrite <- bpow_plus. apply bpow_lt. lia.
Qed.
Lemma f_add_z x y m n e : stands_for x (dy m e) -> stands_for y (dy n e) -> (Z.abs (m + n) <= 2 ^ 53)%Z -> (-1074 <= e <= 800)%Z ->
  stands_for (x + y)%float (dy (m + n) e).
Proof.
  intros X Y M E. replace (dy (m + n) e) with (rnd (dy m e + dy n e)).
  - apply f_add; auto. replace (dy m e + dy n e) with (dy (m + n) e) by (unfold dy; rewrite plus_IZR; ring). apply dy_small; lia.
  - replace (dy m e + dy n e) with (dy (m + n) e) by (unfold dy; rewrite plus_IZR; ring). apply rnd_exact; lia.
Qed.
Lemma f_sub_z x y m n e : stands_for x (dy m e) -> stands_for y (dy n e) -> (Z.abs (m - n) <= 2 ^ 53)%Z -> (-1074 <= e <= 800)%Z ->
  stands_for (x - y)%float (dy (m - n) e).
Proof.
  intros X Y M E. replace (dy (m - n) e) with (rnd (dy m e - dy n e)).
  - apply f_sub; auto. replace (dy m e - dy n e) with (dy (m - n) e) by (unfold dy; rewrite minus_IZR; ring). apply dy_small; lia.
  - replace (dy m e - dy n e) with (dy (m - n) e) by (unfold dy; rewrite minus_IZR; ring). apply rnd_exact; lia.
Qed.
Lemma f_mul_z x y m n e e' : stands_for x (dy m e) -> stands_for y (dy n e') -> (Z.abs (m * n) <= 2 ^ 53)%Z -> (-1074 <= e + e' <= 800)%Z ->
  stands_for (x * y)%float (dy (m * n) (e + e')).
Proof.
  intros X Y M E.
  assert (Q : dy m e * dy n e' = dy (m * n) (e + e')) by (unfold dy; rewrite mult_IZR, bpow_plus; ring).
  replace (dy (m * n) (e + e')) with (rnd (dy m e * dy n e')).
  - apply f_mul; auto. rewrite Q. apply dy_small; lia.
  - rewrite Q. apply rnd_exact; lia.
Qed.
Lemma f_sqrt_z x m e : stands_for x (dy (m * m) (e + e)) -> (0 <= m <= 2 ^ 53)%Z -> (-1074 <= e)%Z -> stands_for (PrimFloat.sqrt x) (dy m e).
Proof.
  intros X M E. assert (P : 0 <= dy m e) by (apply Rmult_le_pos; [apply IZR_le; lia|apply bpow_ge_0]).
  assert (Q : dy (m * m) (e + e) = dy m e * dy m e) by (unfold dy; rewrite mult_IZR, bpow_plus; ring).
  replace (dy m e) with (rnd (R_sqrt.sqrt (dy (m * m) (e + e)))).
  - apply f_sqrt; auto. rewrite Q. apply Rmult_le_pos; exact P.
  - rewrite Q, sqrt_square by exact P. apply rnd_exact; lia.
Qed.
(* constants *)
Lemma f_value x r : is_finite (Prim2B x) = true -> SF2R radix2 (Prim2SF x) = r -> stands_for x r.
Proof. intros F E. split; [exact F|]. rewrite <- E, <- B2SF_Prim2B, SF2R_B2SF. reflexivity. Qed.
