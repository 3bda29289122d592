(** * Proof_IntErrors: sizes that are no numbers (C69, C72, C74, C115) *)
From Coq Require Import Reals ZArith Lia Lra List Floats.
From Flocq Require Import Core IEEE754.BinarySingleNaN IEEE754.PrimFloat.
From Verif Require Import Base_XR Base_Np Model_Geo Model_Sensor Model_Rad Model_Otf Model_Img Model_F64 Model_F64Size Spec_F64 Spec_Img Proof_Round Proof_F64Size Proof_Psf.
Open Scope R_scope.

(** ** real numbers with infinities *)
Lemma psf_numpy otf dx : (0 < crows otf)%nat -> (0 < ccols otf)%nat -> 0 < dx ->
  otf_to_psf otf Np 0 (Fin dx) = Err OverflowError /\ otf_to_psf otf Np 0 (Fin (- dx)) = Err OverflowError /\
  forall kd df, df <> 0 -> otf_to_psf otf kd df NaN = Err ValueError.
Proof.
  intros Hn Hm Hd. rewrite !otf_to_psf_eq.
  assert (Pn : 0 < INR (crows otf)) by (apply lt_0_INR; exact Hn). assert (Pm : 0 < INR (ccols otf)) by (apply lt_0_INR; exact Hm).
  assert (E : (Nat.eqb (crows otf) 0 || Nat.eqb (ccols otf) 0)%bool = false).
  { replace (Nat.eqb (crows otf) 0) with false by (symmetry; apply Nat.eqb_neq; lia). apply Nat.eqb_neq. lia. }
  rewrite E. change (cols (psf_raw otf)) with (ccols otf). rewrite !Rmult_0_r.
  assert (I : xdiv (Fin 1) (Fin 0) = PInf).
  { unfold xdiv, inf_sgn. replace (Reqb 0 0) with true by (symmetry; apply Reqb_true; reflexivity). replace (Rltb 0 1) with true by (symmetry; apply Rltb_true; lra). reflexivity. }
  assert (J : xmul (Fin (INR (ccols otf))) PInf = PInf).
  { unfold xmul, inf_sgn. replace (Rltb 0 (INR (ccols otf))) with true by (symmetry; apply Rltb_true; lra). reflexivity. }
  split; [|split].
  - cbv zeta. unfold qdiv. rewrite I. cbn [bind]. change (cols (psf_raw otf)) with (ccols otf). rewrite J. unfold xdiv. replace (Rltb dx 0) with false by (symmetry; apply Rltb_false; lra). reflexivity.
  - cbv zeta. unfold qdiv. rewrite I. cbn [bind]. change (cols (psf_raw otf)) with (ccols otf). rewrite J. unfold xdiv. replace (Rltb (- dx) 0) with true by (symmetry; apply Rltb_true; lra). reflexivity.
  - intros kd df Hf. rewrite otf_to_psf_eq, E. cbv zeta. assert (Q : INR (crows otf) * df <> 0) by (apply Rmult_integral_contrapositive_currified; lra).
    assert (D : qdiv kd (Fin 1) (Fin (INR (crows otf) * df)) = Ok (xdiv (Fin 1) (Fin (INR (crows otf) * df)))).
    { unfold qdiv. destruct kd; [|reflexivity]. replace (Reqb (INR (crows otf) * df) 0) with false by (symmetry; apply Reqb_false; exact Q). reflexivity. }
    rewrite D. cbn [bind]. rewrite xdiv_fin by exact Q. rewrite xmul_fin. reflexivity.
Qed.
Lemma resample_nan a : resample_2D Np a (Fin 0) (Fin 0) = Err ValueError.
Proof.
  unfold resample_2D, qdiv. cbn [bind]. rewrite xmul_fin, Rmult_0_r. unfold xdiv at 1, inf_sgn. replace (Reqb 0 0) with true by (symmetry; apply Reqb_true; reflexivity).
  replace (Rltb 0 0) with false by (symmetry; apply Rltb_false; lra). reflexivity.
Qed.
Lemma apply_nan img otf kd df ki ifov : (0 < crows otf)%nat -> (0 < ccols otf)%nat -> df <> 0 ->
  apply_otf_to_image img 0 Np 0 otf kd df ki ifov = Err ValueError.
Proof.
  intros Hn Hm Hf. unfold apply_otf_to_image. cbn [qdiv bind]. replace (0 / 2) with 0 by lra.
  assert (N : xdiv (Fin 0) (Fin 0) = NaN).
  { unfold xdiv, inf_sgn. replace (Reqb 0 0) with true by (symmetry; apply Reqb_true; reflexivity). replace (Rltb 0 0) with false by (symmetry; apply Rltb_false; lra). reflexivity. }
  rewrite N. change (xmul (Fin 2) (xatan NaN)) with NaN. destruct (psf_numpy otf 1 Hn Hm Rlt_0_1) as (_ & _ & Q). rewrite (Q kd df Hf). reflexivity.
Qed.

(** ** binary64 *)
Lemma round_by_zero x : f_int_round (x / 0)%float = match Prim2SF x with S754_zero _ | S754_nan => Err ValueError | _ => Err OverflowError end.
Proof. unfold f_int_round. rewrite div_spec. destruct (Prim2SF x); reflexivity. Qed.
Lemma int_by_zero x : f_int (x / 0)%float = match Prim2SF x with S754_zero _ | S754_nan => Err ValueError | _ => Err OverflowError end.
Proof. unfold f_int. rewrite div_spec. destruct (Prim2SF x); reflexivity. Qed.
Lemma stands_finite x r : stands_for x r -> r <> 0 -> exists s m e, Prim2SF x = S754_finite s m e.
Proof.
  intros [F E] N. rewrite <- B2SF_Prim2B. destruct (Prim2B x) as [s|s| |s m e B]; try discriminate F.
  - exfalso. apply N. rewrite <- E. reflexivity.
  - exists s, m, e. reflexivity.
Qed.
Lemma sizes_by_zero n d v : (1 <= n <= 2 ^ 40)%Z -> stands_for d v -> / 2 ^ 400 <= v <= 2 ^ 400 ->
  resample_size_f64 n d 0 = Err OverflowError /\ resample_size_f64 n 0 0 = Err ValueError /\
  (forall rows, (1 <= rows <= 2 ^ 40)%Z -> psf_size_f64 rows n d 0 = Err OverflowError /\ psf_size_f64 rows n 0 d = Err OverflowError).
Proof.
  intros N Sv Bv. apply mid_pow in Bv. change (Z.of_nat 400) with 400%Z in *.
  assert (A := about_mul _ _ _ _ _ _ _ _ (about_int n 40 N ltac:(lia)) (about_exact _ _ _ Sv Bv) ltac:(lia) ltac:(lia)).
  assert (Z0 : forall k, (1 <= k <= 2 ^ 40)%Z -> exists s m e, Prim2SF (f_of_Z k) = S754_finite s m e /\ s = false).
  { intros k K. assert (S := f_int_lit k ltac:(lia)). destruct S as [F E]. rewrite <- B2SF_Prim2B. destruct (Prim2B (f_of_Z k)) as [s|s| |s m e B]; try discriminate F.
    - exfalso. assert (0 < IZR k) by (apply IZR_lt; lia). rewrite <- E in H. cbn in H. lra.
    - exists s, m, e. split; [reflexivity|]. destruct s; [|reflexivity]. exfalso. assert (0 < IZR k) by (apply IZR_lt; lia). rewrite <- E in H.
      assert (F2R (Float radix2 (Z.neg m) e) < 0) by (apply F2R_lt_0; reflexivity). cbn in H. lra. }
  split; [|split].
  - unfold resample_size_f64. rewrite round_by_zero. destruct A as (a & S & Na & Ma). assert (P := near_pos _ _ _ Na (mid_pos _ _ Ma)).
    destruct (stands_finite _ _ S ltac:(lra)) as (s & m & e & ->). reflexivity.
  - unfold resample_size_f64. rewrite round_by_zero, mul_spec. destruct (Z0 n N) as (s & m & e & -> & _). reflexivity.
  - intros rows Hr. split.
    + assert (B := about_mul _ _ _ _ _ _ _ _ (about_int rows 40 Hr ltac:(lia)) (about_exact _ _ _ Sv Bv) ltac:(lia) ltac:(lia)).
      assert (C := about_div _ _ _ _ _ _ _ _ about_one B ltac:(lia) ltac:(lia)).
      assert (D := about_mul _ _ _ _ _ _ _ _ (about_int n 40 N ltac:(lia)) C ltac:(lia) ltac:(lia)).
      unfold psf_size_f64, psf_spacing_f64. rewrite int_by_zero. destruct D as (a & S & Na & Ma). assert (P := near_pos _ _ _ Na (mid_pos _ _ Ma)).
      destruct (stands_finite _ _ S ltac:(lra)) as (s & m & e & ->). reflexivity.
    + unfold psf_size_f64, psf_spacing_f64. unfold f_int. rewrite div_spec, mul_spec, div_spec, mul_spec.
      destruct (Z0 rows Hr) as (s & m & e & -> & ->). destruct (Z0 n N) as (s' & m' & e' & -> & ->).
      destruct (stands_finite _ _ Sv ltac:(generalize (mid_pos _ _ Bv); lra)) as (t & m'' & e'' & ->). destruct t; reflexivity.
Qed.

(* a transfer function for the examples *)
Definition flat_otf : cimg := {| crows := 20; ccols := 30; re := fun _ _ => 1; im := fun _ _ => 0 |}.
