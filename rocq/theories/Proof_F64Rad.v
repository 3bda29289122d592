(** * Proof_F64Rad: accuracy of the photoelectron rate in binary64 *)
From Coq Require Import Reals ZArith Lia Lra Psatz List Permutation Floats.
From Flocq Require Import Core IEEE754.BinarySingleNaN IEEE754.PrimFloat.
From Verif Require Import Base_XR Base_Np Model_Rad Model_F64Aperture Model_F64Rad Spec_F64 Spec_F64Aperture Spec_F64Rad Spec_Rad
  Proof_Round Num_LnF64 Num_PiF64 Proof_F64Aper3 Proof_F64Rel Proof_Rad.
Import ListNotations.
Open Scope R_scope.

(** ** constants *)
Lemma near_const x v r a b : stands_for x v -> 0 < r -> Rabs (v - r) <= / 9007199254740992 * r -> a <= ln r <= b -> near 1 a b x r.
Proof.
  intros S R0 E B. destruct (ln_close v r (/ 9007199254740992) R0) as [V L].
  - replace (2 ^ 40) with 1099511627776 by ring. lra.
  - exact E.
  - exists v. parts; try assumption; try lra. rewrite q_val. lra.
Qed.
Lemma near_hc : near 1 (-76.5) (-76.3) hc_f64 hc.
Proof.
  apply (near_const _ (7747209770023393 / 2 ^ 163)).
  - apply f_value; [reflexivity|]. change (SF2R radix2 (Prim2SF hc_f64)) with (IZR 7747209770023393 * bpow radix2 (-163)).
    change (-163)%Z with (- (163))%Z. rewrite bpow_opp, <- (pow2_bpow 163 : 2 ^ 163 = bpow radix2 163). reflexivity.
  - unfold hc. lra.
  - unfold hc. apply Rabs_le. lra.
  - exact ln_hc.
Qed.
Lemma near_kc : near 1 (-52.7) (-52.6) kc_f64 kc.
Proof.
  apply (near_const _ (4698103462714906 / 2 ^ 128)).
  - apply f_value; [reflexivity|]. change (SF2R radix2 (Prim2SF kc_f64)) with (IZR 4698103462714906 * bpow radix2 (-128)).
    change (-128)%Z with (- (128))%Z. rewrite bpow_opp, <- (pow2_bpow 128 : 2 ^ 128 = bpow radix2 128). reflexivity.
  - unfold kc. lra.
  - unfold kc. apply Rabs_le. lra.
  - exact ln_kc.
Qed.
Lemma near_cc : near 0 19.5 19.6 cc_f64 cc.
Proof.
  apply near_val.
  - apply f_value; [reflexivity|]. unfold cc. cbn. unfold Defs.F2R. simpl. lra.
  - unfold cc. lra.
  - exact ln_cc.
Qed.
Lemma near_2 : near 0 0.69 0.70 2%float 2.
Proof. apply near_val; [|lra|exact ln_2_num]. apply f_value; [reflexivity|]. cbn. unfold Defs.F2R. simpl. lra. Qed.
Lemma near_4 : near 0 1.38 1.39 4%float 4.
Proof. apply near_val; [|lra|exact ln_4_num]. apply f_value; [reflexivity|]. cbn. unfold Defs.F2R. simpl. lra. Qed.
Lemma stands_1 : stands_for 1%float 1.
Proof. apply f_value; [reflexivity|]. cbn. unfold Defs.F2R. simpl. lra. Qed.
Lemma near_1 : near 0 0 0 1%float 1.
Proof. apply near_val; [exact stands_1|lra|]. rewrite ln_1. lra. Qed.
Lemma near_pi : near 1 1.1 1.2 pi_f64 PI.
Proof.
  generalize pi_below_near. unfold pi_below. intros P. apply (near_const _ pi_below).
  - apply f_value; [reflexivity|]. unfold pi_below. cbn. unfold Defs.F2R. simpl. lra.
  - exact PI_RGT_0.
  - unfold pi_below. apply Rabs_le. generalize PI2_3_2. lra.
  - exact ln_pi_num.
Qed.
Lemma near_015 : near 1 (-1.9) (-1.8) db_reflectance_f64 0.15.
Proof.
  apply (near_const _ (5404319552844595 / 2 ^ 55)).
  - apply f_value; [reflexivity|]. change (SF2R radix2 (Prim2SF db_reflectance_f64)) with (IZR 5404319552844595 * bpow radix2 (-55)).
    change (-55)%Z with (- (55))%Z. rewrite bpow_opp, <- (pow2_bpow 55 : 2 ^ 55 = bpow radix2 55). reflexivity.
  - lra.
  - apply Rabs_le. lra.
  - exact ln_015.
Qed.

(** ** exponential, minus one, powers *)
Lemma p50 : 0 <= / 2 ^ 50 <= / 2 ^ 40.
Proof. replace (2 ^ 50) with 1125899906842624 by ring. replace (2 ^ 40) with 1099511627776 by ring. lra. Qed.
Lemma near_close x v w r t t' a b : close (/ 2 ^ 50) x w -> 0 < w -> Rabs (ln w - v) <= t * q -> ln r = v -> 0 < r -> a <= ln r <= b ->
  t + 9 <= t' -> near t' a b x r.
Proof.
  intros C W E <- R0 B T. destruct C as (u & S & H). rewrite (Rabs_pos_eq w) in H by lra.
  destruct (ln_close u w (/ 2 ^ 50) W p50 H) as [U L]. exists u. parts; try assumption; try lra.
  apply abs_le in E, L. replace (2 ^ 50) with 1125899906842624 in L by ring. generalize q_val. intros Q.
  assert (9 * q <= t' * q - t * q) by (rewrite <- Rmult_minus_distr_r; apply Rmult_le_compat_r; [left; exact q_pos|lra]).
  apply Rabs_le. rewrite Q in *. lra.
Qed.
Lemma near_exp fexp x r t a b X : good_exp fexp -> near t a b x r -> 0 <= t <= 900000 -> r <= X -> X <= 299 ->
  near (2 * X * t + 9) 0 X (fexp x) (exp r).
Proof.
  intros G (v & S & V & R0 & E & B) T HX H299. generalize (tq t ltac:(lra)). intros Q. apply abs_le in E.
  (* v - r is small *)
  assert (D : Rabs (v - r) <= 2 * X * t * q).
  { assert (HV : v / r = exp (ln v - ln r)).
    { unfold Rminus. rewrite exp_plus, exp_Ropp, !exp_ln by assumption. reflexivity. }
    set (d := ln v - ln r) in *. assert (HD : - (t * q) <= d <= t * q) by lra.
    assert (Ed : 1 - 2 * (t * q) <= exp d <= 1 + 2 * (t * q)).
    { split; [apply Rle_trans with (1 + d); [lra|apply exp_ineq1_le]|].
      apply Rle_trans with (exp (t * q)); [apply exp_le_mono; lra|].
      generalize (exp_ineq1_le (- (t * q))). rewrite exp_Ropp. intros I. assert (P : 0 < exp (t * q)) by apply exp_pos.
      apply (Rmult_le_compat_r (exp (t * q))) in I; [|lra]. rewrite Rinv_l in I by lra. nra. }
    replace v with (r * (v / r)) by (field; lra). rewrite HV. replace (r * exp d - r) with (r * (exp d - 1)) by ring.
    rewrite Rabs_mult, (Rabs_pos_eq r) by lra. replace (2 * X * t * q) with (X * (2 * (t * q))) by ring.
    apply Rmult_le_compat; [lra|apply Rabs_pos|lra|]. apply Rabs_le. lra. }
  apply (near_close _ r (exp v) _ (2 * X * t)).
  - apply G; [exact S|]. apply abs_le in D. assert (2 * X * t * q <= 2 * X * / 1000) by (replace (2 * X * t * q) with (2 * X * (t * q)) by ring; apply Rmult_le_compat_l; lra). lra.
  - apply exp_pos.
  - rewrite ln_exp. exact D.
  - apply ln_exp.
  - apply exp_pos.
  - rewrite ln_exp. lra.
  - lra.
Qed.
Lemma near_minus1 x e t b : near t 0 b x e -> 2.1 <= e -> 0 <= t <= 400000 -> b <= 610 -> near (2 * t + 1) 0.05 b (x - 1)%float (e - 1).
Proof.
  intros (v & S & V & R0 & E & B) H T Hb. generalize (tq t ltac:(lra)). intros Q. apply abs_le in E.
  set (Z := exp (t * q)). assert (Z1 : 1 <= Z) by (unfold Z; rewrite <- exp_0; apply exp_le_mono; lra).
  assert (Z2 : Z <= 1.01).
  { unfold Z. generalize (exp_ineq1_le (- (t * q))). rewrite exp_Ropp. intros I. assert (P : 0 < exp (t * q)) by apply exp_pos.
    apply (Rmult_le_compat_r (exp (t * q))) in I; [|lra]. rewrite Rinv_l in I by lra. nra. }
  assert (U : v <= e * Z) by (rewrite <- (exp_ln v V), <- (exp_ln e R0); unfold Z; rewrite <- exp_plus; apply exp_le_mono; lra).
  assert (L : e <= v * Z) by (rewrite <- (exp_ln v V), <- (exp_ln e R0); unfold Z; rewrite <- exp_plus; apply exp_le_mono; lra).
  assert (V2 : 2 <= v) by nra.
  assert (K : Rabs (ln (v - 1) - ln (e - 1)) <= 2 * t * q).
  { assert (ZZ : ln (Z * Z) = 2 * t * q) by (rewrite ln_mult by lra; unfold Z; rewrite !ln_exp; ring).
    assert (A1 : v - 1 <= (e - 1) * (Z * Z)).
    { assert (0 <= (Z - 1) * ((e - 1) * Z - 1)) by (apply Rmult_le_pos; nra). nra. }
    assert (A2 : e - 1 <= (v - 1) * (Z * Z)).
    { assert (e * Z <= v * (Z * Z)) by nra. assert (0 <= (Z - 1) * (e - Z - 1)) by (apply Rmult_le_pos; nra).  nra. }
    apply ln_le_mono in A1, A2; try lra. rewrite ln_mult in A1, A2 by nra. apply Rabs_le. lra. }
  assert (L1 : 0.05 <= ln (e - 1)) by (apply Rle_trans with (ln 1.1); [exact ln_1_1|apply ln_le_mono; lra]).
  assert (L2 : ln (e - 1) <= b) by (apply Rle_trans with (ln e); [apply ln_le_mono; lra|lra]).
  assert (N : -620 <= ln (v - 1) <= 620) by (apply abs_le in K; lra).
  apply (near_rnd _ (v - 1)); try assumption; try lra.
  apply f_sub; [exact S|exact stands_1|]. apply rnd_ln; [lra|exact N].
Qed.
Lemma ln_1e40 : ln (10 ^ 40) = 40 * ln 10 /\ ln (/ 10 ^ 40) = - (40 * ln 10).
Proof. rewrite ln_Rinv by (apply pow_lt; lra). rewrite ln_pow by lra. simpl INR. split; ring. Qed.
Lemma in_1e40 v : 0 < v -> -92 <= ln v <= 92 -> / 10 ^ 40 <= v <= 10 ^ 40.
Proof.
  intros V L. destruct ln_1e40 as [A B]. generalize ln_10_num. intros N.
  assert (0 < 10 ^ 40) by (apply pow_lt; lra). assert (0 < / 10 ^ 40) by now apply Rinv_0_lt_compat.
  split.
  - rewrite <- (exp_ln (/ 10 ^ 40)), <- (exp_ln v V) by assumption. apply exp_le_mono. lra.
  - rewrite <- (exp_ln (10 ^ 40)), <- (exp_ln v V) by assumption. apply exp_le_mono. lra.
Qed.
Lemma near_sqr fpow x r t a b : good_pow fpow -> near t a b x r -> 0 <= t <= 100000 -> -91 <= a -> b <= 91 ->
  near (2 * t + 9) (2 * a) (2 * b) (fpow x 2%float) (r ^ 2).
Proof.
  intros (G & _) (v & S & V & R0 & E & B) T Ha Hb. generalize (tq t ltac:(lra)). intros Q. apply abs_le in E.
  apply (near_close _ (2 * ln r) (v ^ 2) _ (2 * t)).
  - apply G; [exact S|]. apply in_1e40; [exact V|lra].
  - now apply pow_lt.
  - rewrite ln_pow by exact V. simpl INR. apply Rabs_le. lra.
  - rewrite ln_pow by exact R0. simpl INR. ring.
  - now apply pow_lt.
  - rewrite ln_pow by exact R0. simpl INR. lra.
  - lra.
Qed.
Lemma near_fifth fpow x r t a b : good_pow fpow -> near t a b x r -> 0 <= t <= 100000 -> -91 <= a -> b <= 91 ->
  near (5 * t + 9) (5 * a) (5 * b) (fpow x 5%float) (r ^ 5).
Proof.
  intros (_ & G & _) (v & S & V & R0 & E & B) T Ha Hb. generalize (tq t ltac:(lra)). intros Q. apply abs_le in E.
  apply (near_close _ (5 * ln r) (v ^ 5) _ (5 * t)).
  - apply G; [exact S|]. apply in_1e40; [exact V|lra].
  - now apply pow_lt.
  - rewrite ln_pow by exact V. simpl INR. apply Rabs_le. lra.
  - rewrite ln_pow by exact R0. simpl INR. ring.
  - now apply pow_lt.
  - rewrite ln_pow by exact R0. simpl INR. lra.
  - lra.
Qed.
Lemma near_inv fpow x r t a b : good_pow fpow -> near t a b x r -> 0 <= t <= 100000 -> 0.05 <= a -> b <= 400 ->
  near (t + 9) (- b) (- a) (fpow x (-1)%float) (/ r).
Proof.
  intros (_ & _ & G) (v & S & V & R0 & E & B) T Ha Hb. generalize (tq t ltac:(lra)). intros Q. apply abs_le in E.
  apply (near_close _ (- ln r) (/ v) _ t).
  - apply G; [exact S|]. split.
    + rewrite <- (exp_ln v V), <- exp_0. apply exp_le_mono. lra.
    + rewrite <- (exp_ln v V), <- (exp_ln (10 ^ 200)) by (apply pow_lt; lra). apply exp_le_mono. rewrite ln_pow by lra. generalize ln_10_num.
      replace (INR 200) with 200 by (rewrite INR_IZR_INZ; reflexivity). lra.
  - now apply Rinv_0_lt_compat.
  - rewrite ln_Rinv by exact V. apply Rabs_le. lra.
  - rewrite ln_Rinv by exact R0. ring.
  - now apply Rinv_0_lt_compat.
  - rewrite ln_Rinv by exact R0. lra.
  - lra.
Qed.

(** ** blackbody_radiance *)
Lemma near_range x r lo hi a b : stands_for x r -> 0 < lo -> lo <= r <= hi -> a <= ln lo -> ln hi <= b -> near 0 a b x r.
Proof.
  intros S P H A B. apply near_val; [exact S|lra|].
  split; [apply Rle_trans with (ln lo)|apply Rle_trans with (ln hi)]; try assumption; apply ln_le_mono; lra.
Qed.
Definition wavelength (x : float) (l : R) : Prop := stands_for x l /\ / 10 ^ 7 <= l <= / 10 ^ 4.
Lemma near_wl x l : wavelength x l -> near 0 (-16.2) (-9.2) x l.
Proof. intros [S H]. apply (near_range x l (/ 10 ^ 7) (/ 10 ^ 4)); try apply ln_lam; try assumption. lra. Qed.
Lemma near_bb fexp fpow lam T l t : good_exp fexp -> good_pow fpow -> wavelength lam l -> stands_for T t -> 6 / 10 ^ 5 <= l * t <= 19 / 10 ^ 3 ->
  near 6200 (-260) 60 (blackbody_f64 fexp fpow lam T) (planck l t).
Proof.
  intros GE GP HL HT LT. assert (NL := near_wl lam l HL). destruct HL as [SL Hl].
  assert (T0 : 0.5 <= t <= 200000).
  { split.
    - apply (Rmult_le_reg_l l); [lra|]. apply Rle_trans with (/ 10 ^ 4 * 0.5); [apply Rmult_le_compat_r; lra|lra].
    - apply (Rmult_le_reg_l l); [lra|]. apply Rle_trans with (/ 10 ^ 7 * 200000); [lra|apply Rmult_le_compat_r; lra]. }
  assert (NT : near 0 (-1) 13 T t) by (apply (near_range T t 0.5 200000); try assumption; try lra; apply ln_temp).
  assert (D1 := near_mul _ _ _ _ _ _ _ _ _ _ near_hc near_cc ltac:(lra) ltac:(lra) ltac:(lra) ltac:(lra) ltac:(lra)).
  assert (D2 := near_mul _ _ _ _ _ _ _ _ _ _ NL near_kc ltac:(lra) ltac:(lra) ltac:(lra) ltac:(lra) ltac:(lra)).
  assert (D3 := near_mul _ _ _ _ _ _ _ _ _ _ D2 NT ltac:(lra) ltac:(lra) ltac:(lra) ltac:(lra) ltac:(lra)).
  assert (D4 := near_div _ _ _ _ _ _ _ _ _ _ D1 D3 ltac:(lra) ltac:(lra) ltac:(lra) ltac:(lra) ltac:(lra)).
  set (x := hc * cc / (l * kc * t)) in *.
  assert (X : 0.75 <= x <= 240).
  { assert (E : x = hc * cc / kc / (l * t)) by (unfold x, kc; field; lra). rewrite E.
    assert (0.01438 <= hc * cc / kc <= 0.01439) by (unfold hc, cc, kc; lra).
    set (c := hc * cc / kc) in *. clearbody c. set (m := l * t) in *. clearbody m.
    assert (Q : c / m * m = c) by (field; lra). set (z := c / m) in *. clearbody z. split; nra. }
  assert (D5 := near_exp fexp _ _ _ _ _ 240 GE D4 ltac:(lra) ltac:(lra) ltac:(lra)).
  assert (E21 : 2.1 <= exp x) by (apply Rle_trans with (exp 0.75); [exact exp_075|apply exp_le_mono; lra]).
  assert (D6 := near_minus1 _ _ _ _ D5 E21 ltac:(lra) ltac:(lra)).
  assert (D7 := near_inv fpow _ _ _ _ _ GP D6 ltac:(lra) ltac:(lra) ltac:(lra)).
  assert (D8 := near_mul _ _ _ _ _ _ _ _ _ _ near_2 near_hc ltac:(lra) ltac:(lra) ltac:(lra) ltac:(lra) ltac:(lra)).
  assert (D9 := near_sqr fpow _ _ _ _ _ GP near_cc ltac:(lra) ltac:(lra) ltac:(lra)).
  assert (D10 := near_mul _ _ _ _ _ _ _ _ _ _ D8 D9 ltac:(lra) ltac:(lra) ltac:(lra) ltac:(lra) ltac:(lra)).
  assert (D11 := near_fifth fpow _ _ _ _ _ GP NL ltac:(lra) ltac:(lra) ltac:(lra)).
  assert (D12 := near_div _ _ _ _ _ _ _ _ _ _ D10 D11 ltac:(lra) ltac:(lra) ltac:(lra) ltac:(lra) ltac:(lra)).
  assert (D13 := near_mul _ _ _ _ _ _ _ _ _ _ D12 D7 ltac:(lra) ltac:(lra) ltac:(lra) ltac:(lra) ltac:(lra)).
  unfold blackbody_f64.
  replace (planck l t) with (2 * hc * cc ^ 2 / l ^ 5 * / (exp x - 1)).
  - eapply near_weaken; [exact D13| | |]; lra.
  - unfold planck. destruct (Req_EM_T t 0) as [Z|_]; [lra|]. reflexivity.
Qed.

(** ** total_radiance *)
Lemma near0_val x r a b : stands_for x r -> (r = 0 \/ 0 < r /\ a <= ln r <= b) -> near0 0 a b x r.
Proof. intros S [->|[P B]]; [left; now split|right; now apply near_val]. Qed.
Lemma sized_near x : sized x -> near0 0 (-27.7) 27.7 x (value x).
Proof.
  intros (r & S & H). assert (value x = r) by apply S. rewrite H0. apply near0_val; [exact S|]. destruct H as [->|H]; [now left|right].
  split; [lra|]. generalize ln_1e12. intros [A B].
  split; [apply Rle_trans with (ln (/ 10 ^ 12))|apply Rle_trans with (ln (10 ^ 12))]; try assumption; apply ln_le_mono; lra.
Qed.
Lemma length_near x : length_like x -> near 0 (-18.5) 18.5 x (value x).
Proof.
  intros (r & S & H). assert (E : value x = r) by apply S. rewrite E. generalize ln_1e8. intros [A B].
  apply (near_range x r (/ 10 ^ 8) (10 ^ 8)); try assumption; lra.
Qed.
Lemma fraction_near x : fraction x -> near0 0 (-27.7) 0 x (value x) /\ near0 1 (-37) 0 (1 - x)%float (1 - value x).
Proof.
  intros (r & S & H). assert (E : value x = r) by apply S. rewrite E. generalize ln_1e12. intros [_ A]. split.
  - apply near0_val; [exact S|]. destruct H as [->|H]; [now left|right]. split; [lra|]. split.
    + apply Rle_trans with (ln (/ 10 ^ 12)); [exact A|apply ln_le_mono; lra].
    + rewrite <- ln_1. apply ln_le_mono; lra.
  - assert (H01 : 0 <= r <= 1) by (destruct H; lra).
    assert (SD : stands_for (1 - x)%float (rnd (1 - r))).
    { apply f_sub; [exact stands_1|exact S|]. apply Rle_lt_trans with (bpow radix2 0); [rewrite Rabs_pos_eq by lra; simpl; lra|apply bpow_lt; lia]. }
    destruct (Req_dec r 1) as [->|N].
    + left. split; [ring|]. rewrite Rminus_eq_0, rnd_0 in SD. exact SD.
    + right. assert (F : r <= pred radix2 fx 1).
      { apply pred_ge_gt; [exact fx_valid| | |lra].
        - destruct S as [_ <-]. apply generic_format_B2R.
        - change 1 with (bpow radix2 0). apply generic_format_bpow. unfold fx, FLT_exp. lia. }
      change 1 with (bpow radix2 0) in F at 1. rewrite pred_bpow in F. change (fx 0) with (-53)%Z in F.
      change (-53)%Z with (- Z.of_nat 53)%Z in F. rewrite bpow_opp, <- pow2_bpow in F. replace (2 ^ 53) with 9007199254740992 in F by ring. simpl in F.
      assert (L : -37 <= ln (1 - r)) by (apply Rle_trans with (ln (/ 9007199254740992)); [exact ln_2m53|apply ln_le_mono; lra]).
      assert (U : ln (1 - r) <= 0) by (rewrite <- ln_1; apply ln_le_mono; lra).
      replace 1 with (0 + 1) at 1 by ring. apply (near_rnd _ (1 - r)); try assumption; try lra.
      rewrite Rminus_eq_0, Rabs_R0. lra.
Qed.
Lemma optical_wl x : optical x -> wavelength x (value x).
Proof. intros (l & S & H). assert (E : value x = l) by apply S. rewrite E. now split. Qed.

Lemma value_ok x r : stands_for x r -> value x = r. Proof. intros [_ H]. exact H. Qed.
Lemma near_total fexp fpow rho T t a : good_exp fexp -> good_pow fpow -> fraction rho -> stands_for T t -> good_row t a ->
  exists r, total_radiance1 (value rho) t (row_of a) = Fin r /\ near0 6206 (-325) 90 (total_radiance_f64 fexp fpow rho T a) r.
Proof.
  intros GE GP HR HT (W & LT & S1 & S2 & S3 & S4). apply optical_wl in W.
  assert (B := near_bb fexp fpow _ T _ t GE GP W HT LT). destruct (fraction_near rho HR) as [R0 R1].
  apply sized_near in S1, S2, S3, S4.
  assert (D1 := near0_mul _ _ _ _ _ _ _ _ _ _ R1 (or_intror B) ltac:(lra) ltac:(lra) ltac:(lra) ltac:(lra) ltac:(lra)).
  assert (D2 := near0_mul _ _ _ _ _ _ _ _ _ _ D1 S1 ltac:(lra) ltac:(lra) ltac:(lra) ltac:(lra) ltac:(lra)).
  assert (D2' : near0 6203 (-325) 87.8 (((1 - rho) * blackbody_f64 fexp fpow (f_wl a) T) * f_trans a)%float
                  ((1 - value rho) * planck (value (f_wl a)) t * value (f_trans a))) by (eapply near0_weaken; [exact D2| | |]; lra).
  assert (S2' : near0 6203 (-325) 87.8 (f_path a) (value (f_path a))) by (eapply near0_weaken; [exact S2| | |]; lra).
  assert (D3 := near0_add' _ _ _ _ _ _ _ S2' D2' ltac:(lra) ltac:(lra) ltac:(lra)).
  assert (S3' : near0 (6203 + 1) (-325) (87.8 + 0.7) (f_scat a) (value (f_scat a))) by (eapply near0_weaken; [exact S3| | |]; lra).
  assert (D4 := near0_add' _ _ _ _ _ _ _ D3 S3' ltac:(lra) ltac:(lra) ltac:(lra)).
  assert (D5 := near0_div _ _ _ _ _ _ _ _ _ _ R0 near_015 ltac:(lra) ltac:(lra) ltac:(lra) ltac:(lra) ltac:(lra)).
  assert (D6 := near0_mul _ _ _ _ _ _ _ _ _ _ S4 D5 ltac:(lra) ltac:(lra) ltac:(lra) ltac:(lra) ltac:(lra)).
  assert (D6' : near0 (6203 + 1 + 1) (-325) (87.8 + 0.7 + 0.7) (f_grnd a * (rho / db_reflectance_f64))%float (value (f_grnd a) * (value rho / 0.15)))
    by (eapply near0_weaken; [exact D6| | |]; lra).
  assert (D7 := near0_add' _ _ _ _ _ _ _ D4 D6' ltac:(lra) ltac:(lra) ltac:(lra)).
  eexists. split.
  - unfold total_radiance1, row_of; simpl. destruct W as [_ W]. rewrite bb_fin by lra. simpl. unfold db_reflectance. reflexivity.
  - unfold total_radiance_f64. eapply near0_weaken; [exact D7| | |]; lra.
Qed.

(** ** lists *)
Lemma F2_len {A B} (P : A -> B -> Prop) l m : Forall2 P l m -> length l = length m.
Proof. intros H. induction H; simpl; congruence. Qed.
Definition fin_near (t a b : R) (f : float) (x : xr) : Prop := exists r, x = Fin r /\ near0 t a b f r.
Lemma F2_map2 {A A' B B' C C'} (P : A -> A' -> Prop) (Q : B -> B' -> Prop) (S : C -> C' -> Prop) f f' :
  (forall a a' b b', P a a' -> Q b b' -> S (f a b) (f' a' b')) ->
  forall l l', Forall2 P l l' -> forall m m', Forall2 Q m m' -> Forall2 S (map2 f l m) (map2 f' l' m').
Proof.
  intros H l l' L. induction L as [|a a' l l' X L IH]; intros m m' M; [constructor|].
  destruct M as [|b b' m m' Y M]; [constructor|]. simpl. constructor; [now apply H|now apply IH].
Qed.
Lemma F2_map {A A' C C'} (P : A -> A' -> Prop) (S : C -> C' -> Prop) f f' :
  (forall a a', P a a' -> S (f a) (f' a')) -> forall l l', Forall2 P l l' -> Forall2 S (map f l) (map f' l').
Proof. intros H l l' L. induction L; simpl; constructor; auto. Qed.
Lemma F2_bmap2 {A A' B B' C C'} (P : A -> A' -> Prop) (Q : B -> B' -> Prop) (S : C -> C' -> Prop) f f' :
  (forall a a' b b', P a a' -> Q b b' -> S (f a b) (f' a' b')) ->
  forall l l' m m', Forall2 P l l' -> Forall2 Q m m' -> length l = length m ->
  exists r r', bmap2 f l m = Ok r /\ bmap2 f' l' m' = Ok r' /\ Forall2 S r r' /\ length r = length l.
Proof.
  intros H l l' m m' L M E. exists (map2 f l m), (map2 f' l' m').
  assert (E' : length l' = length m') by (rewrite <- (F2_len _ _ _ L), <- (F2_len _ _ _ M); exact E).
  unfold bmap2. rewrite E, E', !Nat.eqb_refl. parts; try reflexivity; [now apply (F2_map2 P Q)|].
  clear - E. revert m E. induction l as [|a l IH]; intros [|b m] E; try discriminate; simpl; [reflexivity|]. f_equal. apply IH. now injection E.
Qed.
Lemma F2_tl {A B} (P : A -> B -> Prop) l l' : Forall2 P l l' -> Forall2 P (tl l) (tl l').
Proof. intros H. destruct H; simpl; [constructor|assumption]. Qed.
Lemma F2_value (P : float -> Prop) (S : float -> R -> Prop) l : (forall x, P x -> S x (value x)) -> Forall P l -> Forall2 S l (map value l).
Proof. intros H L. induction L; simpl; constructor; auto. Qed.
Lemma len_map2 {A B C} (f : A -> B -> C) l m : length (map2 f l m) = Nat.min (length l) (length m).
Proof. revert m. induction l as [|a l IH]; intros [|b m]; simpl; try reflexivity. now rewrite IH. Qed.

(** ** np.sum in any order *)
Lemma Rsum_app l m : Rsum (l ++ m) = Rsum l + Rsum m.
Proof. unfold Rsum. induction l as [|x l IH]; simpl; [ring|]. rewrite IH. ring. Qed.
Lemma Rsum_perm l m : Permutation l m -> Rsum l = Rsum m.
Proof. intros H. unfold Rsum. induction H; simpl; try lra. Qed.
Lemma Rsum_bound t a b l rs : Forall2 (near0 t a b) l rs -> 0 <= Rsum rs <= INR (length rs) * exp b.
Proof.
  intros H. unfold Rsum. induction H as [|x r l rs X H IH]; [simpl; lra|]. cbn [length fold_right]. rewrite S_INR. apply near0_le in X. lra.
Qed.
Lemma tree_near T a b : 0 <= T <= 10000 -> -619 <= a -> b <= 600 -> forall t rs,
  Forall2 (near0 T a b) (leaves t) rs -> (length rs <= 2000)%nat -> (depth t <= 2000)%nat ->
  near0 (T + INR (depth t)) a (b + 8) (tree_sum t) (Rsum rs).
Proof.
  intros HT Ha Hb t. induction t as [|x|t1 IH1 t2 IH2]; intros rs F L D; cbn [leaves depth tree_sum] in *.
  - inversion F. left. split; [reflexivity|]. apply f_value; reflexivity.
  - inversion F as [|? r ? ? X F']; subst. inversion F'; subst. unfold Rsum; simpl. rewrite !Rplus_0_r.
    eapply near0_weaken; [exact X| | |]; lra.
  - destruct (Forall2_app_inv_l _ _ F) as (r1 & r2 & F1 & F2 & ->). rewrite app_length in L. rewrite Rsum_app.
    assert (DR : forall d, (d <= Nat.max (depth t1) (depth t2))%nat -> 0 <= INR d <= INR (Nat.max (depth t1) (depth t2))) by (intros d Hd; split; [apply pos_INR|now apply le_INR]).
    assert (D2 : INR (Nat.max (depth t1) (depth t2)) <= 2000) by (replace 2000 with (INR 2000) by (rewrite INR_IZR_INZ; reflexivity); apply le_INR; lia).
    generalize (DR (depth t1) ltac:(lia)), (DR (depth t2) ltac:(lia)). intros DA DB.
    set (N := INR (Nat.max (depth t1) (depth t2))) in *.
    assert (G1 : near0 (T + N) a (b + 8) (tree_sum t1) (Rsum r1)) by (eapply near0_weaken; [apply IH1; [exact F1|lia|lia]| | |]; lra).
    assert (G2 : near0 (T + N) a (b + 8) (tree_sum t2) (Rsum r2)) by (eapply near0_weaken; [apply IH2; [exact F2|lia|lia]| | |]; lra).
    rewrite S_INR. fold N. rewrite <- Rplus_assoc. apply (near0_add (T + N) a (b + 8)); try assumption; try lra.
    intros P. apply Rle_trans with (ln (2000 * exp b)).
    + apply ln_le_mono; [exact P|]. generalize (Rsum_bound _ _ _ _ _ F1), (Rsum_bound _ _ _ _ _ F2). intros B1 B2.
      apply Rle_trans with (INR (length r1 + length r2) * exp b); [rewrite plus_INR; lra|].
      apply Rmult_le_compat_r; [left; apply exp_pos|]. replace 2000 with (INR 2000) by (rewrite INR_IZR_INZ; reflexivity). now apply le_INR.
    + rewrite ln_mult, ln_exp by (try apply exp_pos; lra). generalize ln_2000. lra.
Qed.
Lemma sum_near fsum T a b l rs : good_sum fsum -> 0 <= T <= 10000 -> -619 <= a -> b <= 600 ->
  Forall2 (near0 T a b) l rs -> (length l <= 2000)%nat -> near0 (T + 2000) a (b + 8) (fsum l) (Rsum rs).
Proof.
  intros G HT Ha Hb F L. destruct (G l) as (t & -> & P & D).
  destruct (Permutation_Forall2 (Permutation_sym P) F) as (rs' & P' & F').
  rewrite (Rsum_perm _ _ P'). eapply near0_weaken; [apply (tree_near T a b HT Ha Hb t rs' F')| | |]; try lra; try lia.
  - rewrite <- (F2_len _ _ _ F'), (Permutation_length P). exact L.
  - apply Rplus_le_compat_l. replace 2000 with (INR 2000) by (rewrite INR_IZR_INZ; reflexivity). apply le_INR. lia.
Qed.

(** ** signal_rate *)
Lemma diff_near x y : optical x -> optical y -> value x + / 10 ^ 12 <= value y -> near 1 (-27.7) (-9.2) (y - x)%float (value y - value x).
Proof.
  intros (l & S & H) (m & S' & H') D. assert (E : value x = l) by apply S. assert (E' : value y = m) by apply S'. rewrite E, E' in *.
  generalize ln_1e12 ln_lam. intros [_ A] [_ B].
  assert (L : -27.7 <= ln (m - l)) by (apply Rle_trans with (ln (/ 10 ^ 12)); [exact A|apply ln_le_mono; lra]).
  assert (U : ln (m - l) <= -9.2) by (apply Rle_trans with (ln (/ 10 ^ 4)); [apply ln_le_mono; lra|exact B]).
  replace 1 with (0 + 1) by ring. apply (near_rnd _ (m - l)); try lra.
  - apply f_sub; [exact S'|exact S|]. apply rnd_ln; lra.
  - rewrite Rminus_eq_0, Rabs_R0. lra.
Qed.
Lemma diffs_near wl : Forall optical wl -> spaced wl ->
  Forall2 (fin_near 1 (-27.7) (-9.2)) (diff_f64 wl) (xdiff (map Fin (map value wl))).
Proof.
  intros F A. unfold diff_f64, xdiff. induction wl as [|x wl IH]; [constructor|]. destruct wl as [|y wl]; [constructor|].
  cbn [tl map map2] in *. inversion F as [|? ? X F']; subst. inversion F' as [|? ? Y F'']; subst. destruct A as [A1 A2]. constructor.
  - exists (value y - value x). split; [reflexivity|]. right. now apply diff_near.
  - now apply IH.
Qed.
Lemma fin_near_weaken t t' a a' b b' f x : fin_near t a b f x -> t <= t' -> a' <= a -> b <= b' -> fin_near t' a' b' f x.
Proof. intros (r & E & H) T A B. exists r. split; [exact E|]. now apply (near0_weaken t t' a a' b b'). Qed.
Lemma cone_near fpow D f : good_pow fpow -> length_like D -> length_like f ->
  near 13 (-73) 77 (1 + 4 * fpow (f / D) 2)%float (1 + 4 * (value f / value D * (value f / value D))).
Proof.
  intros G HD Hf. apply length_near in HD, Hf.
  assert (D1 := near_div _ _ _ _ _ _ _ _ _ _ Hf HD ltac:(lra) ltac:(lra) ltac:(lra) ltac:(lra) ltac:(lra)).
  assert (D2 := near_sqr fpow _ _ _ _ _ G D1 ltac:(lra) ltac:(lra) ltac:(lra)).
  assert (D3 := near_mul _ _ _ _ _ _ _ _ _ _ near_4 D2 ltac:(lra) ltac:(lra) ltac:(lra) ltac:(lra) ltac:(lra)).
  set (z := value f / value D) in *. replace (z * z) with (z ^ 2) by ring.
  assert (D3' : near 12 (-73) 76 (4 * fpow (f / D) 2)%float (4 * z ^ 2)) by (eapply near_weaken; [exact D3| | |]; lra).
  assert (N1 : near 12 (-73) 76 1%float 1) by (eapply near_weaken; [exact near_1| | |]; lra).
  destruct (near0_add' _ _ _ _ _ _ _ (or_intror N1) (or_intror D3') ltac:(lra) ltac:(lra) ltac:(lra)) as [[E _]|E].
  - destruct D3' as (_ & _ & _ & P & _). lra.
  - eapply near_weaken; [exact E| | |]; lra.
Qed.
Lemma fin_near_list t a b l xs : Forall2 (fin_near t a b) l xs -> exists rs, Forall2 (near0 t a b) l rs /\ xs = map Fin rs.
Proof.
  intros H. induction H as [|f x l xs (r & -> & R) H (rs & IH & ->)]; [now exists []|]. exists (r :: rs). split; [now constructor|reflexivity].
Qed.
Lemma xsum_fin' l : xsum (map Fin l) = Fin (Rsum l).
Proof. induction l as [|x l IH]; [reflexivity|]. unfold xsum, Rsum in *. cbn [map fold_right]. rewrite IH. reflexivity. Qed.

Lemma signal_near fpow fsum wl L xs opt D f wx wy qe oth dark :
  good_pow fpow -> good_sum fsum -> (length wl <= 2000)%nat ->
  Forall optical wl -> spaced wl -> Forall2 (fin_near 6206 (-325) 90) L xs ->
  Forall sized opt -> Forall sized qe -> Forall sized oth -> length_like D -> length_like f -> length_like wx -> length_like wy -> sized dark ->
  length L = length wl -> length opt = length wl -> length qe = length wl -> length oth = length wl ->
  exists x s E N, signal_rate_f64 fpow fsum wl L opt D f wx wy qe oth dark = Ok x /\
    signal_rate (map value wl) xs (map value opt) (value D) (value f) (value wx) (value wy) (map value qe) (map Fin (map value oth)) (value dark) = Ok (Fin s, E, N) /\
    near0 8300 (-485) 310 x s.
Proof.
  intros GP GS HN HW HA HL HO HQ HI HD Hf Hx Hy Hd LL LO LQ LI.
  assert (HDv : 0 < value D) by (destruct HD as (d & S & B); assert (E : value D = d) by apply S; rewrite E; lra).
  assert (ND : PrimFloat.eqb D 0 = false).
  { destruct HD as (d & S & B). destruct (PrimFloat.eqb D 0) eqn:Q; [|reflexivity]. exfalso.
    rewrite eqb_equiv in Q. destruct S as [S1 S2]. assert (Z : stands_for 0%float 0) by (apply f_value; reflexivity). destruct Z as [Z1 Z2].
    generalize (Beqb_correct prec emax (Prim2B D) (Prim2B 0) S1 Z1). rewrite Q, S2, Z2. intros Hq. symmetry in Hq.
    revert Hq. unfold Req_bool. destruct (Rcompare_spec d 0); intros; try discriminate; lra. }
  assert (C := cone_near fpow D f GP HD Hf). set (cone := 1 + 4 * (value f / value D * (value f / value D))) in *.
  set (conef := (1 + 4 * fpow (f / D) 2)%float) in *.
  assert (C0 : cone <> 0) by (destruct C as (_ & _ & _ & P & _); lra).
  (* irradiance *)
  assert (E0 : Forall2 (fin_near 6222 (-401) 165) (map (fun l => (l * pi_f64 / conef)%float) L) (map (fun l => xdiv (xmul l (Fin PI)) (Fin cone)) xs)).
  { apply (F2_map (fin_near 6206 (-325) 90)); [|exact HL]. intros l x (r & -> & R).
    assert (D1 := near0_mul _ _ _ _ _ _ _ _ _ _ R (or_intror near_pi) ltac:(lra) ltac:(lra) ltac:(lra) ltac:(lra) ltac:(lra)).
    assert (D2 := near0_div _ _ _ _ _ _ _ _ _ _ D1 C ltac:(lra) ltac:(lra) ltac:(lra) ltac:(lra) ltac:(lra)).
    exists (r * PI / cone). split; [now apply xdiv_fin|].
    eapply near0_weaken; [exact D2| | |]; lra. }
  assert (HO' : Forall2 (near0 0 (-27.7) 27.7) opt (map value opt)) by (apply (F2_value sized); [exact sized_near|exact HO]).
  assert (HQ' : Forall2 (near0 0 (-27.7) 27.7) qe (map value qe)) by (apply (F2_value sized); [exact sized_near|exact HQ]).
  assert (HI' : Forall2 (fin_near 0 (-27.7) 27.7) oth (map Fin (map value oth))).
  { rewrite map_map. clear - HI. induction HI as [|x l X H IH]; simpl; constructor; [|exact IH]. exists (value x). split; [reflexivity|now apply sized_near]. }
  assert (HW' : Forall2 (near 0 (-16.2) (-9.2)) wl (map value wl)) by (apply (F2_value optical); [intros x X; now apply near_wl, optical_wl|exact HW]).
  destruct (F2_bmap2 (near0 0 (-27.7) 27.7) (fin_near 6222 (-401) 165) (fin_near 6224 (-429) 194) PrimFloat.mul (fun t e => xmul (Fin t) e)) with
    (2 := HO') (3 := E0) as (e1 & e1' & Q1 & Q1' & F1 & N1).
  { intros o o' e e' O (r & -> & R). exists (o' * r). split; [reflexivity|].
    eapply near0_weaken; [apply (near0_mul _ _ _ _ _ _ _ _ _ _ O R)| | |]; lra. }
  { rewrite map_length. congruence. }
  destruct (F2_bmap2 (fin_near 6224 (-429) 194) (fin_near 0 (-27.7) 27.7) (fin_near 6225 (-429) 195) PrimFloat.add xadd) with
    (2 := F1) (3 := HI') as (e2 & e2' & Q2 & Q2' & F2 & N2).
  { intros e e' o o' (r & -> & R) (s & -> & S). exists (r + s). split; [reflexivity|].
    assert (S' : near0 6224 (-429) 194 o s) by (eapply near0_weaken; [exact S| | |]; lra).
    eapply near0_weaken; [apply (near0_add' _ _ _ _ _ _ _ R S')| | |]; lra. }
  { rewrite N1. congruence. }
  (* photoelectrons *)
  assert (HH := near_mul _ _ _ _ _ _ _ _ _ _ near_hc near_cc ltac:(lra) ltac:(lra) ltac:(lra) ltac:(lra) ltac:(lra)).
  destruct (F2_bmap2 (near 0 (-16.2) (-9.2)) (near0 0 (-27.7) 27.7) (near0 4 12 76) (fun l q => (l / (hc_f64 * cc_f64) * q)%float) (fun l q => l / (hc * cc) * q)) with
    (2 := HW') (3 := HQ') as (a & a' & Q3 & Q3' & F3 & N3).
  { intros l l' g g' W G. 
    assert (D1 := near_div _ _ _ _ _ _ _ _ _ _ W HH ltac:(lra) ltac:(lra) ltac:(lra) ltac:(lra) ltac:(lra)).
    eapply near0_weaken; [apply (near0_mul _ _ _ _ _ _ _ _ _ _ (or_intror D1) G)| | |]; lra. }
  { congruence. }
  apply length_near in Hx, Hy.
  destruct (F2_bmap2 (near0 4 12 76) (fin_near 6225 (-429) 195) (fin_near 6232 (-454) 309) (fun x e => (x * wx * wy * e)%float) (fun x e => xmul (Fin (x * value wx * value wy)) e)) with
    (2 := F3) (3 := F2) as (y & y' & Q4 & Q4' & F4 & N4).
  { intros u u' e e' U (r & -> & R). exists (u' * value wx * value wy * r). split; [reflexivity|].
    assert (D1 := near0_mul _ _ _ _ _ _ _ _ _ _ U (or_intror Hx) ltac:(lra) ltac:(lra) ltac:(lra) ltac:(lra) ltac:(lra)).
    assert (D2 := near0_mul _ _ _ _ _ _ _ _ _ _ D1 (or_intror Hy) ltac:(lra) ltac:(lra) ltac:(lra) ltac:(lra) ltac:(lra)).
    eapply near0_weaken; [apply (near0_mul _ _ _ _ _ _ _ _ _ _ D2 R)| | |]; lra. }
  { rewrite N3, N2, N1. congruence. }
  (* trapezoids *)
  assert (HP : Forall2 (fin_near 6233 (-454) 310) (pairs_f64 y) (xmids y')).
  { unfold pairs_f64, xmids. apply (F2_map2 (fin_near 6232 (-454) 309) (fin_near 6232 (-454) 309)); [|now apply F2_tl|exact F4].
    intros u u' v v' (r & -> & R) (s & -> & S). exists (r + s). split; [reflexivity|].
    eapply near0_weaken; [apply (near0_add' _ _ _ _ _ _ _ R S)| | |]; lra. }
  assert (LD : length (diff_f64 wl) = length (pairs_f64 y)).
  { unfold diff_f64, pairs_f64. rewrite !len_map2. assert (length y = length wl) by (rewrite N4, N3; congruence).
    destruct y, wl; simpl in *; try discriminate; congruence. }
  assert (HDf := diffs_near wl HW HA).
  (* the float version halves inside *)
  assert (F5 : Forall2 (fin_near 6236 (-483) 301) (map2 (fun d s => (d * s / 2)%float) (diff_f64 wl) (pairs_f64 y))
                 (map (fun t => xdiv t (Fin 2)) (map2 xmul (xdiff (map Fin (map value wl))) (xmids y')))).
  { assert (G : forall A B C E (g : C -> E) (h : A -> B -> C) l m, map g (map2 h l m) = map2 (fun a b => g (h a b)) l m).
    { intros A B C0' E g h l. induction l as [|u l IH]; intros [|v m]; simpl; try reflexivity. now rewrite IH. }
    rewrite G. apply (F2_map2 (fin_near 1 (-27.7) (-9.2)) (fin_near 6233 (-454) 310)); [|exact HDf|exact HP].
    intros u u' v v' (r & -> & R) (s & -> & S). exists (r * s / 2).
    split; [apply xdiv_fin; lra|].
    assert (D1 := near0_mul _ _ _ _ _ _ _ _ _ _ R S ltac:(lra) ltac:(lra) ltac:(lra) ltac:(lra) ltac:(lra)).
    eapply near0_weaken; [apply (near0_div _ _ _ _ _ _ _ _ _ _ D1 near_2)| | |]; lra. }
  destruct (fin_near_list _ _ _ _ _ F5) as (rs & F6 & E6).
  assert (SN := sum_near fsum 6236 (-483) 301 _ rs GS ltac:(lra) ltac:(lra) ltac:(lra) F6).
  assert (LP : (length (map2 (fun d s => (d * s / 2)%float) (diff_f64 wl) (pairs_f64 y)) <= 2000)%nat).
  { rewrite len_map2. unfold diff_f64. rewrite len_map2. lia. }
  specialize (SN LP).
  apply sized_near in Hd. assert (Hd' : near0 (6236 + 2000) (-483) (301 + 8) dark (value dark)) by (eapply near0_weaken; [exact Hd| | |]; lra).
  assert (FIN := near0_add' _ _ _ _ _ _ _ SN Hd' ltac:(lra) ltac:(lra) ltac:(lra)).
  eexists _, _, _, _. split; [|split].
  - unfold signal_rate_f64, focal_plane_f64. rewrite ND. fold conef. cbn [bind]. rewrite Q1. cbn [bind]. rewrite Q2. cbn [bind].
    unfold detection_rate_f64. rewrite Q3. cbn [bind]. rewrite Q4. cbn [bind]. unfold trapz_f64, bmap2 at 1. rewrite LD, Nat.eqb_refl. cbn [bind]. reflexivity.
  - unfold signal_rate, at_focal_plane_irradiance, pydiv. rewrite (proj2 (Reqb_false (value D) 0)) by lra. cbn [bind]. fold cone. rewrite Q1'. cbn [bind]. rewrite Q2'. cbn [bind].
    unfold photon_detection_rate. rewrite Q3'. cbn [bind]. rewrite Q4'. cbn [bind]. unfold trapz, bmap2 at 1.
    rewrite <- (F2_len _ _ _ HDf), <- (F2_len _ _ _ HP), LD, Nat.eqb_refl. cbn [bind]. rewrite E6, xsum_fin'. cbn [xadd]. reflexivity.
  - eapply near0_weaken; [exact FIN| | |]; lra.
Qed.

(** ** the statements *)
Lemma bb_f64 fexp fpow lam T : good_exp fexp -> good_pow fpow -> optical lam -> (exists t, stands_for T t) ->
  6 / 10 ^ 5 <= value lam * value T <= 19 / 10 ^ 3 ->
  exists b, blackbody_radiance1 (value lam) (value T) = Fin b /\ 0 < b /\ close (/ 10 ^ 12) (blackbody_f64 fexp fpow lam T) b.
Proof.
  intros GE GP HL (t & HT) LT. rewrite (value_ok T t HT) in *. apply optical_wl in HL.
  assert (N := near_bb fexp fpow _ _ _ _ GE GP HL HT LT). exists (planck (value lam) t). destruct HL as [_ HL]. rewrite bb_fin by lra.
  parts; [reflexivity|now destruct N as (_ & _ & _ & P & _)|]. apply (near0_close 6200 (-260) 60); [now right|lra].
Qed.
Lemma total_f64 fexp fpow rho T rows : good_exp fexp -> good_pow fpow -> fraction rho -> (exists t, stands_for T t) ->
  Forall (good_row (value T)) rows ->
  Forall2 (fun f x => exists r, x = Fin r /\ close (/ 10 ^ 12) f r) (map (total_radiance_f64 fexp fpow rho T) rows)
    (total_radiance (map row_of rows) (value rho) (value T)).
Proof.
  intros GE GP HR (t & HT) F. rewrite (value_ok T t HT) in *. unfold total_radiance. rewrite map_map.
  induction F as [|a rows G F IH]; simpl; constructor; [|exact IH].
  destruct (near_total fexp fpow rho T t a GE GP HR HT G) as (r & E & N). exists r. split; [exact E|]. apply (near0_close 6206 (-325) 90); [exact N|lra].
Qed.
Lemma signal_f64 fexp fpow fsum rho T rows opt D f wx wy qe oth dark :
  good_exp fexp -> good_pow fpow -> good_sum fsum -> fraction rho -> (exists t, stands_for T t) ->
  (length rows <= 2000)%nat -> Forall (good_row (value T)) rows -> spaced (map f_wl rows) ->
  length opt = length rows -> length qe = length rows -> length oth = length rows ->
  Forall sized opt -> Forall sized qe -> Forall sized oth -> length_like D -> length_like f -> length_like wx -> length_like wy -> sized dark ->
  exists x s E N,
    signal_rate_f64 fpow fsum (map f_wl rows) (map (total_radiance_f64 fexp fpow rho T) rows) opt D f wx wy qe oth dark = Ok x /\
    signal_rate (map a_wl (map row_of rows)) (total_radiance (map row_of rows) (value rho) (value T)) (map value opt)
      (value D) (value f) (value wx) (value wy) (map value qe) (map Fin (map value oth)) (value dark) = Ok (Fin s, E, N) /\
    close (/ 10 ^ 12) x s.
Proof.
  intros GE GP GS HR (t & HT) HN F HA LO LQ LI HO HQ HI HD Hf Hx Hy Hd. rewrite (value_ok T t HT) in *.
  replace (map a_wl (map row_of rows)) with (map value (map f_wl rows)) by (rewrite !map_map; reflexivity).
  destruct (signal_near fpow fsum (map f_wl rows) (map (total_radiance_f64 fexp fpow rho T) rows) (total_radiance (map row_of rows) (value rho) t)
    opt D f wx wy qe oth dark) as (x & s & E & N & H1 & H2 & H3); try assumption; try (rewrite ?map_length; assumption).
  - clear - F. induction F as [|a rows G F IH]; simpl; constructor; [apply G|exact IH].
  - unfold total_radiance. rewrite map_map. clear - GE GP HR HT F. induction F as [|a rows G F IH]; simpl; constructor; [|exact IH].
    exact (near_total fexp fpow rho T t a GE GP HR HT G).
  - now rewrite !map_length.
  - exists x, s, E, N. parts; try assumption. apply (near0_close 8300 (-485) 310); [exact H3|lra].
Qed.
(* for radiances that are given as numbers *)
Lemma rate_f64 fpow fsum wl L opt D f wx wy qe oth dark :
  good_pow fpow -> good_sum fsum -> (length wl <= 2000)%nat -> Forall optical wl -> spaced wl ->
  length L = length wl -> length opt = length wl -> length qe = length wl -> length oth = length wl ->
  Forall sized L -> Forall sized opt -> Forall sized qe -> Forall sized oth -> length_like D -> length_like f -> length_like wx -> length_like wy -> sized dark ->
  exists x s E N, signal_rate_f64 fpow fsum wl L opt D f wx wy qe oth dark = Ok x /\
    signal_rate (map value wl) (map Fin (map value L)) (map value opt)
      (value D) (value f) (value wx) (value wy) (map value qe) (map Fin (map value oth)) (value dark) = Ok (Fin s, E, N) /\
    close (/ 10 ^ 12) x s.
Proof.
  intros GP GS HN HW HA LL LO LQ LI HL HO HQ HI HD Hf Hx Hy Hd.
  destruct (signal_near fpow fsum wl L (map Fin (map value L)) opt D f wx wy qe oth dark) as (x & s & E & N & H1 & H2 & H3); try assumption.
  - rewrite map_map. clear - HL. induction HL as [|x l X H IH]; simpl; constructor; [|exact IH]. exists (value x). split; [reflexivity|].
    eapply near0_weaken; [now apply sized_near| | |]; lra.
  - exists x, s, E, N. parts; try assumption. apply (near0_close 8300 (-485) 310); [exact H3|lra].
Qed.
(* very cold or very short: the exponential overflows *)
Lemma cold_f64 fexp fpow lam T t : good_pow fpow -> exp_overflows fexp -> pow_of_infinity fpow -> optical lam -> stands_for T t -> / 10 ^ 12 <= t ->
  value lam * t <= 2 / 10 ^ 5 ->
  stands_for (blackbody_f64 fexp fpow lam T) 0 /\ exists b, blackbody_radiance1 (value lam) t = Fin b /\ 0 < b.
Proof.
  intros GP OE PI0 HL HT Ht LT. apply optical_wl in HL. assert (NL := near_wl _ _ HL). destruct HL as [SL Hl]. set (l := value lam) in *.
  assert (T1 : t <= 200000).
  { apply (Rmult_le_reg_l l); [lra|]. apply Rle_trans with (/ 10 ^ 7 * 200000); [lra|apply Rmult_le_compat_r; lra]. }
  assert (NT : near 0 (-27.7) 13 T t) by (apply (near_range T t (/ 10 ^ 12) 200000); try assumption; try lra; [apply ln_1e12|apply ln_temp]).
  assert (D1 := near_mul _ _ _ _ _ _ _ _ _ _ near_hc near_cc ltac:(lra) ltac:(lra) ltac:(lra) ltac:(lra) ltac:(lra)).
  assert (D2 := near_mul _ _ _ _ _ _ _ _ _ _ NL near_kc ltac:(lra) ltac:(lra) ltac:(lra) ltac:(lra) ltac:(lra)).
  assert (D3 := near_mul _ _ _ _ _ _ _ _ _ _ D2 NT ltac:(lra) ltac:(lra) ltac:(lra) ltac:(lra) ltac:(lra)).
  assert (D4 := near_div _ _ _ _ _ _ _ _ _ _ D1 D3 ltac:(lra) ltac:(lra) ltac:(lra) ltac:(lra) ltac:(lra)).
  set (x := hc * cc / (l * kc * t)) in *.
  assert (P0 : 0 < l * t) by (apply Rmult_lt_0_compat; lra).
  assert (X : 719 <= x).
  { assert (E : x = hc * cc / kc / (l * t)) by (unfold x, kc; field; lra). rewrite E.
    assert (0.01438 <= hc * cc / kc) by (unfold hc, cc, kc; lra).
    set (c := hc * cc / kc) in *. clearbody c. set (m := l * t) in *. clearbody m.
    assert (Q : c / m * m = c) by (field; lra). set (z := c / m) in *. clearbody z. nra. }
  assert (O : fexp (hc_f64 * cc_f64 / (lam * kc_f64 * T))%float = infinity).
  { destruct D4 as (v & S & V & R0 & E & _). apply (OE _ v S). apply abs_le in E. rewrite q_val in E.
    assert (L : ln x - / 1000 <= ln v) by lra. rewrite <- (exp_ln v V). apply Rle_trans with (exp (ln x - / 1000)); [|now apply exp_le_mono].
    unfold Rminus. rewrite exp_plus, exp_ln by lra. assert (1 - / 1000 <= exp (- / 1000)) by (generalize (exp_ineq1_le (- / 1000)); lra). nra. }
  assert (D8 := near_mul _ _ _ _ _ _ _ _ _ _ near_2 near_hc ltac:(lra) ltac:(lra) ltac:(lra) ltac:(lra) ltac:(lra)).
  assert (D9 := near_sqr fpow _ _ _ _ _ GP near_cc ltac:(lra) ltac:(lra) ltac:(lra)).
  assert (D10 := near_mul _ _ _ _ _ _ _ _ _ _ D8 D9 ltac:(lra) ltac:(lra) ltac:(lra) ltac:(lra) ltac:(lra)).
  assert (D11 := near_fifth fpow _ _ _ _ _ GP NL ltac:(lra) ltac:(lra) ltac:(lra)).
  assert (D12 := near_div _ _ _ _ _ _ _ _ _ _ D10 D11 ltac:(lra) ltac:(lra) ltac:(lra) ltac:(lra) ltac:(lra)).
  split.
  - unfold blackbody_f64. rewrite O. change (infinity - 1)%float with infinity. rewrite PI0.
    destruct D12 as (v & S & _). assert (Z : stands_for 0%float 0) by (apply f_value; reflexivity).
    rewrite <- rnd_0. replace 0 with (v * 0) by ring. apply f_mul; [exact S|exact Z|]. rewrite Rmult_0_r. exact zero_900.
  - exists (planck l t). rewrite bb_fin by lra. split; [reflexivity|]. unfold planck. destruct (Req_EM_T t 0) as [Z|_]; [lra|].
    change (h_planck * c_light / (l * k_boltz * t)) with x. assert (1 < exp x) by (rewrite <- exp_0; apply exp_increasing; lra).
    assert (0 < l ^ 5) by (apply pow_lt; lra). apply Rdiv_lt_0_compat; [|lra]. apply Rdiv_lt_0_compat; [|assumption]. unfold h_planck, c_light. lra.
Qed.
(* no aperture *)
Lemma aperture_f64 fpow fsum wl L opt D f wx wy qe oth dark xs : stands_for D 0 ->
  signal_rate_f64 fpow fsum wl L opt D f wx wy qe oth dark = Err ZeroDivisionError /\
  signal_rate (map value wl) xs (map value opt) (value D) (value f) (value wx) (value wy) (map value qe) (map Fin (map value oth)) (value dark) = Err ZeroDivisionError.
Proof.
  intros S. rewrite (value_ok D 0 S). split.
  - unfold signal_rate_f64, focal_plane_f64. replace (PrimFloat.eqb D 0) with true; [reflexivity|]. symmetry.
    rewrite eqb_equiv. assert (Z : stands_for 0%float 0) by (apply f_value; reflexivity). destruct S as [S1 S2], Z as [Z1 Z2].
    rewrite (Beqb_correct prec emax (Prim2B D) (Prim2B 0) S1 Z1), S2, Z2. now apply Req_bool_true.
  - unfold signal_rate, at_focal_plane_irradiance, pydiv. rewrite (proj2 (Reqb_true 0 0)) by reflexivity. reflexivity.
Qed.
