(** * Proof_Otf: the elementwise transfer functions. *)
From Coq Require Import Reals Lra Psatz Bool List ZArith Lia.
From Flocq Require Import Core.Raux.
From Coquelicot Require Import Coquelicot.
From Verif Require Import Base_XR Base_Int Base_Np Model_Geo Model_Otf Spec_Otf Proof_Aper.
Import ListNotations.
Open Scope R_scope.

Lemma exp_le_1 x : x <= 0 -> 0 < exp x <= 1.
Proof.
  intros H. split; [apply exp_pos|]. rewrite <- exp_0.
  destruct (Req_dec x 0) as [-> | N]; [lra|]. left. apply exp_increasing. lra.
Qed.
Lemma exp_le x y : x <= y -> exp x <= exp y.
Proof.
  intros H. destruct (Req_dec x y) as [-> | N]; [lra|]. left. apply exp_increasing. lra.
Qed.
Lemma sq_pos x : 0 <= x * x.
Proof. apply Rle_0_sqr. Qed.

(** ** cte_OTF *)
Definition ctex (n pu ph e f : R) : R := exp (- (ph * n * (1 - e)) * (1 - cos (2 * PI * pu / f))).
Lemma cte_xy_fin n pu ph e f : f <> 0 -> cte_OTF_xy n (Fin pu) ph e f = Fin (ctex n pu ph e f).
Proof.
  intros H. unfold cte_OTF_xy, ctex. rewrite xmul_fin, xdiv_fin by auto. simpl. f_equal. f_equal. ring.
Qed.
Lemma cte_fin u v px py nx ny ph e f : f <> 0 ->
  cte_OTF u v px py nx ny ph e f = Fin (ctex nx (px * u) ph e f * ctex ny (py * v) ph e f).
Proof. intros H. unfold cte_OTF. rewrite !cte_xy_fin by auto. reflexivity. Qed.
Lemma ctex_range n pu ph e f : 0 <= ph * n -> e <= 1 -> 0 < ctex n pu ph e f <= 1.
Proof.
  intros H E. apply exp_le_1. generalize (COS_bound (2 * PI * pu / f)); intros.
  assert (0 <= ph * n * (1 - e)) by (apply Rmult_le_pos; lra). nra.
Qed.
Lemma ctex_0 n ph e f : ctex n 0 ph e f = 1.
Proof.
  unfold ctex. replace (2 * PI * 0 / f) with 0 by (unfold Rdiv; ring).
  rewrite cos_0. replace (1 - 1) with 0 by ring. rewrite Rmult_0_r. apply exp_0.
Qed.
Lemma ctex_perfect n pu ph f : ctex n pu ph 1 f = 1.
Proof. unfold ctex. replace (- (ph * n * (1 - 1))) with 0 by ring. rewrite Rmult_0_l. apply exp_0. Qed.

Lemma cte_range u v px py nx ny ph e f :
  f <> 0 -> 0 <= ph * nx -> 0 <= ph * ny -> e <= 1 ->
  exists h, cte_OTF u v px py nx ny ph e f = Fin h /\ 0 < h <= 1
    /\ (u = 0 -> v = 0 -> h = 1) /\ (e = 1 -> h = 1).
Proof.
  intros Hf Hx Hy He. rewrite cte_fin by auto. eexists; split; [reflexivity|].
  generalize (ctex_range nx (px * u) ph e f Hx He) (ctex_range ny (py * v) ph e f Hy He).
  intros A B. repeat split.
  - apply Rmult_lt_0_compat; lra.
  - nra.
  - intros -> ->. rewrite !Rmult_0_r, !ctex_0. ring.
  - intros ->. rewrite !ctex_perfect. ring.
Qed.

Lemma cos_period_Z x (m : Z) : cos (x + 2 * PI * IZR m) = cos x.
Proof.
  destruct m as [|p|p].
  - rewrite Rmult_0_r, Rplus_0_r. reflexivity.
  - rewrite <- (cos_period x (Pos.to_nat p)). f_equal.
    rewrite INR_IZR_INZ, positive_nat_Z. ring.
  - rewrite <- (cos_period (x + 2 * PI * IZR (Z.neg p)) (Pos.to_nat p)). f_equal.
    rewrite INR_IZR_INZ, positive_nat_Z. change (Z.neg p) with (- Z.pos p)%Z. rewrite opp_IZR. ring.
Qed.

Lemma cte_periodic u v px py nx ny ph e f (m1 m2 : Z) :
  f <> 0 -> px <> 0 -> py <> 0 ->
  cte_OTF (u + IZR m1 * (f / px)) (v + IZR m2 * (f / py)) px py nx ny ph e f
  = cte_OTF u v px py nx ny ph e f.
Proof.
  intros Hf Hx Hy. rewrite !cte_fin by auto. f_equal. unfold ctex.
  replace (2 * PI * (px * (u + IZR m1 * (f / px))) / f) with (2 * PI * (px * u) / f + 2 * PI * IZR m1) by (field; auto).
  replace (2 * PI * (py * (v + IZR m2 * (f / py))) / f) with (2 * PI * (py * v) / f + 2 * PI * IZR m2) by (field; auto).
  rewrite !cos_period_Z. reflexivity.
Qed.

Lemma cte_compose u v px py nx1 ny1 nx2 ny2 ph e f : f <> 0 ->
  cte_OTF u v px py (nx1 + nx2) (ny1 + ny2) ph e f
  = xmul (cte_OTF u v px py nx1 ny1 ph e f) (cte_OTF u v px py nx2 ny2 ph e f).
Proof.
  intros Hf. rewrite !cte_fin by auto. rewrite xmul_fin. f_equal. unfold ctex.
  rewrite <- !exp_plus. f_equal. ring.
Qed.

(** ** Gaussian-shaped OTFs: exp(-(a u^2 + b v^2)) *)
Lemma gauss_range a b u v : 0 <= a -> 0 <= b -> 0 < exp (- (a * (u * u) + b * (v * v))) <= 1.
Proof. intros. apply exp_le_1. generalize (sq_pos u) (sq_pos v); intros. nra. Qed.
Lemma gauss_mono a b u v u' v' : 0 <= a -> 0 <= b -> Rabs u <= Rabs u' -> Rabs v <= Rabs v' ->
  exp (- (a * (u' * u') + b * (v' * v'))) <= exp (- (a * (u * u) + b * (v * v))).
Proof.
  intros Ha Hb Hu Hv. apply exp_le.
  generalize (Rsqr_le_abs_1 _ _ Hu) (Rsqr_le_abs_1 _ _ Hv). unfold Rsqr. intros. nra.
Qed.
Lemma gauss_strict a b u u' v : 0 < a -> Rabs u < Rabs u' ->
  exp (- (a * (u' * u') + b * (v * v))) < exp (- (a * (u * u) + b * (v * v))).
Proof.
  intros Ha Hu. apply exp_increasing.
  generalize (Rsqr_lt_abs_1 _ _ Hu). unfold Rsqr. intros. nra.
Qed.

Lemma jitter_fin u v sx sy :
  jitter_OTF u v sx sy
  = Fin (exp (- (2 * (PI * PI) * (sx * sx) * (u * u) + 2 * (PI * PI) * (sy * sy) * (v * v)))).
Proof. unfold jitter_OTF. rewrite xexp_fin. do 2 f_equal. ring. Qed.
Lemma two_pi2_sq s : 0 <= 2 * (PI * PI) * (s * s).
Proof. apply Rmult_le_pos; [generalize (sq_pos PI); lra | apply sq_pos]. Qed.
Lemma two_pi2_sq_pos s : s <> 0 -> 0 < 2 * (PI * PI) * (s * s).
Proof.
  intros H. generalize PI_RGT_0; intros. apply Rmult_lt_0_compat; [nra|]. nra.
Qed.

Lemma jitter_mtf u v u' v' sx sy : Rabs u <= Rabs u' -> Rabs v <= Rabs v' ->
  exists h h', jitter_OTF u v sx sy = Fin h /\ jitter_OTF u' v' sx sy = Fin h'
    /\ 0 < h <= 1 /\ h' <= h /\ (u = 0 -> v = 0 -> h = 1)
    /\ (sx <> 0 -> Rabs u < Rabs u' -> v = v' -> h' < h)
    /\ jitter_OTF (- u) v sx sy = Fin h /\ jitter_OTF u (- v) sx sy = Fin h.
Proof.
  intros Hu Hv. rewrite !jitter_fin. do 2 eexists. split; [reflexivity|]. split; [reflexivity|].
  split; [apply gauss_range; apply two_pi2_sq|].
  split; [apply gauss_mono; auto; apply two_pi2_sq|].
  split; [intros -> ->; rewrite !Rmult_0_r, Rplus_0_r, Ropp_0; apply exp_0|].
  split; [intros Hs Hl ->; apply gauss_strict; auto; apply two_pi2_sq_pos; auto|].
  split; do 2 f_equal; ring.
Qed.

Lemma sqrt_sumsq a b : sqrt (a * a + b * b) * sqrt (a * a + b * b) = a * a + b * b.
Proof. apply sqrt_sqrt. generalize (sq_pos a) (sq_pos b). lra. Qed.

Lemma jitter_rss u v sx1 sy1 sx2 sy2 :
  xmul (jitter_OTF u v sx1 sy1) (jitter_OTF u v sx2 sy2)
  = jitter_OTF u v (sqrt (sx1 * sx1 + sx2 * sx2)) (sqrt (sy1 * sy1 + sy2 * sy2)).
Proof.
  rewrite !jitter_fin, xmul_fin, <- exp_plus, !sqrt_sumsq. do 2 f_equal. ring.
Qed.

Lemma jitter_curvature v sx sy :
  exists h, (forall u, jitter_OTF u v sx sy = Fin (h u))
    /\ (v = 0 -> is_derive_n h 2 0 (- (4 * (PI * PI) * (sx * sx)))).
Proof.
  eexists (fun u => _). split; [intros u; apply jitter_fin|]. intros ->.
  set (a := 2 * (PI * PI) * (sx * sx)). set (b := 2 * (PI * PI) * (sy * sy)).
  apply (is_derive_ext (fun u => - (2 * a * u) * exp (- (a * (u * u))))).
  - intros t. simpl. symmetry. apply is_derive_unique.
    auto_derive; [exact I|]. rewrite !Rmult_0_r, Rplus_0_r. ring.
  - auto_derive; [exact I|]. rewrite !Rmult_0_r, Ropp_0, exp_0. unfold a. ring.
Qed.

Lemma gaussian_fin u v bx byy : bx <> 0 -> byy <> 0 ->
  gaussian_OTF u v bx byy = Ok (Fin (exp (- (PI * (bx * bx) * (u * u) + PI * (byy * byy) * (v * v))))).
Proof.
  intros Hx Hy. unfold gaussian_OTF. rewrite !pydiv_ok by auto. cbn [bind].
  rewrite !xdiv_fin by (unfold Rdiv; rewrite Rmult_1_l; apply Rinv_neq_0_compat; auto).
  rewrite !xsq_fin, xadd_fin, xmul_fin, xexp_fin. do 3 f_equal. field. auto.
Qed.
Lemma pi_sq s : 0 <= PI * (s * s).
Proof. generalize PI_RGT_0 (sq_pos s); intros. nra. Qed.
Lemma pi_sq_pos s : s <> 0 -> 0 < PI * (s * s).
Proof. intros. generalize PI_RGT_0; intros. apply Rmult_lt_0_compat; nra. Qed.

Lemma gaussian_mtf u v u' v' bx byy : bx <> 0 -> byy <> 0 -> Rabs u <= Rabs u' -> Rabs v <= Rabs v' ->
  exists h h', gaussian_OTF u v bx byy = Ok (Fin h) /\ gaussian_OTF u' v' bx byy = Ok (Fin h')
    /\ 0 < h <= 1 /\ h' <= h /\ (u = 0 -> v = 0 -> h = 1)
    /\ (Rabs u < Rabs u' -> v = v' -> h' < h)
    /\ gaussian_OTF (- u) v bx byy = Ok (Fin h) /\ gaussian_OTF u (- v) bx byy = Ok (Fin h)
    /\ (u = 1 / bx -> v = 0 -> h = exp (- PI)).
Proof.
  intros Hx Hy Hu Hv. rewrite !gaussian_fin by auto. do 2 eexists. split; [reflexivity|]. split; [reflexivity|].
  split; [apply gauss_range; apply pi_sq|].
  split; [apply gauss_mono; auto; apply pi_sq|].
  split; [intros -> ->; rewrite !Rmult_0_r, Rplus_0_r, Ropp_0; apply exp_0|].
  split; [intros Hl ->; apply gauss_strict; auto; apply pi_sq_pos; auto|].
  split; [do 3 f_equal; ring|]. split; [do 3 f_equal; ring|].
  intros -> ->. f_equal. field. auto.
Qed.
Lemma gaussian_zero_blur u v b : gaussian_OTF u v 0 b = Err ZeroDivisionError
  /\ (b <> 0 -> gaussian_OTF u v b 0 = Err ZeroDivisionError).
Proof.
  unfold gaussian_OTF. split; [rewrite pydiv_zero; reflexivity|].
  intros H. rewrite pydiv_ok by auto. cbn [bind]. rewrite pydiv_zero. reflexivity.
Qed.

Lemma defocus_gauss_fin u v D wx wy :
  defocus_OTF u v D wx wy
  = Fin (exp (- (PI * PI / 4 * (wx * wx) * (u * u) + PI * PI / 4 * (wy * wy) * (v * v)))).
Proof. unfold defocus_OTF. rewrite xexp_fin. do 2 f_equal. field. Qed.
Lemma pi2_sq s : 0 <= PI * PI / 4 * (s * s).
Proof. apply Rmult_le_pos; [generalize (sq_pos PI); lra | apply sq_pos]. Qed.
Lemma pi2_sq_pos s : s <> 0 -> 0 < PI * PI / 4 * (s * s).
Proof. intros. generalize PI_RGT_0; intros. apply Rmult_lt_0_compat; nra. Qed.
Lemma defocus_gauss_mtf u v u' v' D wx wy : Rabs u <= Rabs u' -> Rabs v <= Rabs v' ->
  exists h h', defocus_OTF u v D wx wy = Fin h /\ defocus_OTF u' v' D wx wy = Fin h'
    /\ 0 < h <= 1 /\ h' <= h /\ (u = 0 -> v = 0 -> h = 1)
    /\ (wx <> 0 -> Rabs u < Rabs u' -> v = v' -> h' < h)
    /\ defocus_OTF (- u) v D wx wy = Fin h /\ defocus_OTF u (- v) D wx wy = Fin h
    /\ (wx <> 0 -> u = 2 / (PI * wx) -> v = 0 -> h = exp (- 1)).
Proof.
  intros Hu Hv. rewrite !defocus_gauss_fin. do 2 eexists. split; [reflexivity|]. split; [reflexivity|].
  split; [apply gauss_range; apply pi2_sq|].
  split; [apply gauss_mono; auto; apply pi2_sq|].
  split; [intros -> ->; rewrite !Rmult_0_r, Rplus_0_r, Ropp_0; apply exp_0|].
  split; [intros Hs Hl ->; apply gauss_strict; auto; apply pi2_sq_pos; auto|].
  split; [do 2 f_equal; ring|]. split; [do 2 f_equal; ring|].
  intros Hw -> ->. f_equal. generalize PI_RGT_0; intros. field. split; lra.
Qed.

(** ** Box transforms *)
Lemma smear_sinc a x : a <> 0 -> smear_ft a x = Rsinc (a * x).
Proof.
  intros Ha. unfold smear_ft. generalize PI_RGT_0; intros P.
  destruct (Req_dec x 0) as [-> | N].
  - rewrite (Rmult_0_r a), Rsinc_0. rewrite (ri_ext _ (fun _ => 1)).
    + rewrite ri_const. field. exact Ha.
    + intros t _. rewrite Rmult_0_r, Rmult_0_l. apply cos_0.
  - rewrite Rsinc_nz by (apply Rmult_integral_contrapositive_currified; auto).
    rewrite (ri_deriv (fun t => sin (2 * PI * x * t) / (2 * PI * x))).
    + replace (2 * PI * x * (a / 2)) with (PI * (a * x)) by field.
      replace (2 * PI * x * (- a / 2)) with (- (PI * (a * x))) by field.
      rewrite sin_neg. field. repeat split; auto; lra.
    + intros t. auto_derive; [exact I|]. field. split; [exact N | lra].
    + cont_tac.
Qed.

Lemma detector_fin u v wx wy f : f <> 0 ->
  detector_OTF u v wx wy f = Fin (Rsinc (wx * u / f) * Rsinc (wy * v / f)).
Proof. intros H. unfold detector_OTF. rewrite !xdiv_fin by auto. reflexivity. Qed.

Lemma abs_mul_le_1 a b : Rabs a <= 1 -> Rabs b <= 1 -> Rabs (a * b) <= 1.
Proof. intros. rewrite Rabs_mult. generalize (Rabs_pos a) (Rabs_pos b). nra. Qed.

Lemma detector_is_pixel_ft u v wx wy f : f <> 0 -> wx <> 0 -> wy <> 0 ->
  detector_OTF u v wx wy f = Fin (smear_ft (wx / f) u * smear_ft (wy / f) v).
Proof.
  intros Hf Hx Hy. rewrite detector_fin by auto.
  rewrite !smear_sinc by (unfold Rdiv; apply Rmult_integral_contrapositive_currified; auto; apply Rinv_neq_0_compat; auto).
  do 2 f_equal; f_equal; field; auto.
Qed.

Lemma detector_bounds u v wx wy f : f <> 0 ->
  exists h, detector_OTF u v wx wy f = Fin h /\ Rabs h <= 1
    /\ (u = 0 -> v = 0 -> h = 1)
    /\ (forall m : Z, wx <> 0 -> m <> 0%Z -> u = IZR m * (f / wx) -> h = 0)
    /\ (forall m : Z, wy <> 0 -> m <> 0%Z -> v = IZR m * (f / wy) -> h = 0).
Proof.
  intros Hf. rewrite detector_fin by auto. eexists; split; [reflexivity|].
  split; [apply abs_mul_le_1; apply Rsinc_bound|].
  split.
  { intros -> ->. replace (wx * 0 / f) with 0 by (unfold Rdiv; ring).
    replace (wy * 0 / f) with 0 by (unfold Rdiv; ring). rewrite Rsinc_0. ring. }
  split; intros m Hw Hm ->.
  - replace (wx * (IZR m * (f / wx)) / f) with (IZR m) by (field; auto).
    rewrite Rsinc_int_zero by auto. ring.
  - replace (wy * (IZR m * (f / wy)) / f) with (IZR m) by (field; auto).
    rewrite Rsinc_int_zero by auto. ring.
Qed.

Lemma detector_f0 u v wx wy : ~ is_fin (detector_OTF u v wx wy 0).
Proof.
  assert (N : forall a, xsinc (xdiv (Fin a) (Fin 0)) = NaN).
  { intros a. unfold xdiv. replace (Reqb 0 0) with true by (symmetry; apply Reqb_true; reflexivity).
    unfold inf_sgn. repeat rcase; reflexivity. }
  unfold detector_OTF. rewrite !N. intros [r E]. discriminate E.
Qed.

Lemma drift_fin u v ax ay : drift_OTF u v ax ay = Fin (Rsinc (ax * u) * Rsinc (ay * v)).
Proof. reflexivity. Qed.
Lemma drift_is_smear_ft u v ax ay : ax <> 0 -> ay <> 0 ->
  drift_OTF u v ax ay = Fin (smear_ft ax u * smear_ft ay v).
Proof. intros Hx Hy. rewrite drift_fin, !smear_sinc by auto. reflexivity. Qed.
Lemma drift_one_axis u v ax : ax <> 0 ->
  drift_OTF u v ax 0 = Fin (smear_ft ax u) /\ drift_OTF u v 0 ax = Fin (smear_ft ax v).
Proof.
  intros H. rewrite !drift_fin, !smear_sinc by auto. rewrite !Rmult_0_l, Rsinc_0.
  split; f_equal; ring.
Qed.
Lemma drift_bounds u v ax ay :
  exists h, drift_OTF u v ax ay = Fin h /\ Rabs h <= 1
    /\ (ax = 0 -> ay = 0 -> h = 1) /\ (u = 0 -> v = 0 -> h = 1)
    /\ (ax <> 0 -> u = 1 / ax -> h = 0) /\ (ay <> 0 -> v = 1 / ay -> h = 0).
Proof.
  rewrite drift_fin. eexists; split; [reflexivity|].
  split; [apply abs_mul_le_1; apply Rsinc_bound|].
  split; [intros -> ->; rewrite !Rmult_0_l, Rsinc_0; ring|].
  split; [intros -> ->; rewrite !Rmult_0_r, Rsinc_0; ring|].
  split; intros H ->.
  - replace (ax * (1 / ax)) with (IZR 1) by (field; auto). rewrite Rsinc_int_zero by discriminate. ring.
  - replace (ay * (1 / ay)) with (IZR 1) by (field; auto). rewrite Rsinc_int_zero by discriminate. ring.
Qed.

(** ** Aggregation *)
Definition aggR (n : nat) (y : R) : R :=
  Rsum (map (fun i => cos (2 * PI * (INR i * y - (INR n - 1) * y / 2))) (seq 0 n)).

Lemma fold_left_xadd {A} (g : A -> R) l acc :
  fold_left (fun acc i => xadd acc (Fin (g i))) l (Fin acc) = Fin (acc + Rsum (map g l)).
Proof.
  revert acc. induction l as [|x l IH]; intros acc; simpl.
  - f_equal. ring.
  - rewrite IH. f_equal. ring.
Qed.

Lemma agg_sum_fin n p x f : f <> 0 -> agg_sum n p x f = Fin (aggR n (p * x / f)).
Proof.
  intros Hf. unfold agg_sum, aggR.
  assert (E : forall l, fold_left (fun acc i => xadd acc (xcos (agg_phase n i p x f))) l (Fin 0)
     = fold_left (fun acc i => xadd acc (Fin (cos (2 * PI * (INR i * (p * x / f) - (INR n - 1) * (p * x / f) / 2))))) l (Fin 0)).
  { intros l. generalize (Fin 0). induction l as [|i l IH]; intros acc; simpl; [reflexivity|].
    rewrite IH. do 2 f_equal. unfold agg_phase. rewrite (xdiv_fin _ 2) by lra.
    rewrite !xdiv_fin by auto. rewrite xsub_fin, xmul_fin. simpl. do 3 f_equal. field. auto. }
  rewrite E, fold_left_xadd. f_equal. ring.
Qed.

Lemma Rsum_app l1 l2 : Rsum (l1 ++ l2) = Rsum l1 + Rsum l2.
Proof. induction l1 as [|x l IH]; simpl; [ring | rewrite IH; ring]. Qed.
Lemma Rsum_map_le_len {A} (g : A -> R) l c : (forall x, g x <= c) -> Rsum (map g l) <= c * INR (length l).
Proof.
  intros H. induction l as [|x l IH].
  - simpl. lra.
  - change (length (x :: l)) with (S (length l)). rewrite S_INR. simpl. generalize (H x). lra.
Qed.
Lemma Rsum_map_ge_len {A} (g : A -> R) l c : (forall x, c <= g x) -> c * INR (length l) <= Rsum (map g l).
Proof.
  intros H. induction l as [|x l IH].
  - simpl. lra.
  - change (length (x :: l)) with (S (length l)). rewrite S_INR. simpl. generalize (H x). lra.
Qed.

Lemma aggR_bound n y : Rabs (aggR n y) <= INR n.
Proof.
  unfold aggR. apply Rabs_le. rewrite <- (seq_length n 0) at 1 4. split.
  - replace (- INR (length (seq 0 n))) with (-1 * INR (length (seq 0 n))) by ring.
    apply Rsum_map_ge_len. intros i. apply COS_bound.
  - rewrite <- (Rmult_1_l (INR (length (seq 0 n)))).
    apply Rsum_map_le_len. intros i. apply COS_bound.
Qed.

(* Dirichlet kernel by telescoping *)
Lemma dirichlet_tel y c m :
  2 * sin (PI * y) * Rsum (map (fun i => cos (2 * PI * (INR i * y - c))) (seq 0 m))
  = sin (2 * PI * (INR m * y - c) - PI * y) + sin (2 * PI * c + PI * y).
Proof.
  induction m as [|m IH].
  - simpl. rewrite Rmult_0_r, Rmult_0_l.
    replace (2 * PI * (0 - c) - PI * y) with (- (2 * PI * c + PI * y)) by ring. rewrite sin_neg. ring.
  - rewrite seq_S, map_app, Rsum_app, Rmult_plus_distr_l, IH. cbn [map Rsum fold_right plus].
    set (t := 2 * PI * (INR m * y - c)).
    replace (2 * PI * (INR (S m) * y - c) - PI * y) with (t + PI * y) by (unfold t; rewrite S_INR; ring).
    rewrite (sin_minus t), (sin_plus t). change (0 + m)%nat with m. fold t. ring.
Qed.
Lemma dirichlet n y : sin (PI * y) * aggR n y = sin (PI * (INR n * y)).
Proof.
  unfold aggR.
  assert (H := dirichlet_tel y ((INR n - 1) * y / 2) n).
  replace (2 * PI * (INR n * y - (INR n - 1) * y / 2) - PI * y) with (PI * (INR n * y)) in H by field.
  replace (2 * PI * ((INR n - 1) * y / 2) + PI * y) with (PI * (INR n * y)) in H by field.
  lra.
Qed.
Lemma agg_sinc n y : (0 < n)%nat -> aggR n y / INR n * Rsinc y = Rsinc (INR n * y).
Proof.
  intros Hn. assert (Hn' : INR n <> 0) by (apply not_0_INR; lia).
  destruct (Req_dec y 0) as [-> | N].
  - rewrite Rmult_0_r, Rsinc_0. unfold aggR.
    assert (E : forall l, Rsum (map (fun i => cos (2 * PI * (INR i * 0 - (INR n - 1) * 0 / 2))) l) = INR (length l)).
    { induction l as [|i l IH]; [reflexivity|]. change (length (i :: l)) with (S (length l)). rewrite S_INR.
      simpl. rewrite IH. replace (2 * PI * (INR i * 0 - (INR n - 1) * 0 / 2)) with 0 by field.
      rewrite cos_0. ring. }
    rewrite E, seq_length. field. exact Hn'.
  - generalize PI_RGT_0; intros P. rewrite !Rsinc_nz; auto.
    rewrite <- dirichlet. field. repeat split; auto; lra.
Qed.

Lemma agg_fin u v wx wy px py f n : f <> 0 -> (0 < n)%nat ->
  detector_OTF_with_aggregation u v wx wy px py f n
  = Ok (Fin ((aggR n (px * u / f) / INR n * Rsinc (wx * u / f))
             * (aggR n (py * v / f) / INR n * Rsinc (wy * v / f)))).
Proof.
  intros Hf Hn. assert (Hn' : INR n <> 0) by (apply not_0_INR; lia).
  unfold detector_OTF_with_aggregation. rewrite !agg_sum_fin by auto. rewrite xmul_fin.
  rewrite kdiv_ok by (apply Rmult_integral_contrapositive_currified; auto).
  cbn [bind]. rewrite !xdiv_fin by auto. rewrite !xsinc_fin, !xmul_fin. do 2 f_equal. field. auto.
Qed.

Lemma agg_one u v wx wy px py f : f <> 0 ->
  detector_OTF_with_aggregation u v wx wy px py f 1 = Ok (detector_OTF u v wx wy f).
Proof.
  intros Hf. rewrite agg_fin, detector_fin by auto. do 2 f_equal.
  assert (E : forall y, aggR 1 y = 1).
  { intros y. unfold aggR. simpl. replace (2 * PI * (0 * y - (1 - 1) * y / 2)) with 0 by field.
    rewrite cos_0. ring. }
  rewrite !E. simpl. field.
Qed.
Lemma agg_full_fill u v wx wy f n : f <> 0 -> (0 < n)%nat ->
  detector_OTF_with_aggregation u v wx wy wx wy f n
  = Ok (detector_OTF u v (INR n * wx) (INR n * wy) f).
Proof.
  intros Hf Hn. rewrite agg_fin, detector_fin by auto. rewrite !agg_sinc by auto.
  do 2 f_equal. f_equal; f_equal; field; auto.
Qed.
Lemma agg_bound u v wx wy px py f n : f <> 0 -> (0 < n)%nat ->
  exists h, detector_OTF_with_aggregation u v wx wy px py f n = Ok (Fin h) /\ Rabs h <= 1
   /\ (u = 0 -> v = 0 -> h = 1).
Proof.
  intros Hf Hn. rewrite agg_fin by auto. eexists; split; [reflexivity|].
  assert (Hn' : 0 < INR n) by (apply lt_0_INR; lia).
  assert (A : forall y, Rabs (aggR n y / INR n) <= 1).
  { intros y. unfold Rdiv. rewrite Rabs_mult, Rabs_inv, (Rabs_right (INR n)) by lra.
    apply Rmult_le_reg_r with (INR n); [lra|]. rewrite Rmult_assoc, Rinv_l by lra.
    generalize (aggR_bound n y). lra. }
  split.
  - apply abs_mul_le_1; apply abs_mul_le_1; try apply A; apply Rsinc_bound.
  - intros -> ->. assert (Z : forall w, w * 0 / f = 0) by (intros; unfold Rdiv; ring).
    rewrite !Z, !agg_sinc by auto. rewrite Rmult_0_r, Rsinc_0. ring.
Qed.
Lemma agg_zero u v wx wy px py f :
  detector_OTF_with_aggregation u v wx wy px py f 0 = Err ZeroDivisionError.
Proof.
  unfold detector_OTF_with_aggregation, kdiv. simpl. rewrite Rmult_0_l.
  replace (Reqb 0 0) with true by (symmetry; apply Reqb_true; reflexivity). reflexivity.
Qed.

(** ** Diffusion *)
Definition dpar (al alpha ald : R) : R := 1 - exp (- alpha * ald) / (1 + alpha * al).
Lemma diffusion_fin u v alpha ald al0 f : f <> 0 -> 0 < al0 -> 0 < alpha -> 0 < ald ->
  let al := sqrt (1 / (1 / (al0 * al0) + 2 * PI * sqrt (u * u + v * v) / f * (2 * PI * sqrt (u * u + v * v) / f))) in
  diffusion_OTF u v alpha ald al0 f = Ok (Fin (dpar al alpha ald / dpar al0 alpha ald))
  /\ 0 < al <= al0 /\ 0 < dpar al0 alpha ald.
Proof.
  intros Hf Ha Hal Hd al.
  assert (A2 : 0 < al0 * al0) by nra.
  set (z := 2 * PI * sqrt (u * u + v * v) / f) in *.
  assert (Q : 0 < 1 / (al0 * al0)) by (apply Rdiv_lt_0_compat; lra).
  assert (S : 0 < 1 / (al0 * al0) + z * z) by (generalize (sq_pos z); lra).
  assert (I : 0 < 1 / (1 / (al0 * al0) + z * z)) by (apply Rdiv_lt_0_compat; lra).
  assert (Pal : 0 < al) by (apply sqrt_lt_R0; exact I).
  assert (Lal : al <= al0).
  { apply Rle_trans with (sqrt (al0 * al0)); [|rewrite sqrt_square; lra]. apply sqrt_le_1_alt.
    apply Rle_trans with (/ (/ (al0 * al0))); [|rewrite Rinv_inv; lra].
    unfold Rdiv. rewrite !Rmult_1_l.
    apply Rinv_le_contravar; [apply Rinv_0_lt_compat; lra|]. generalize (sq_pos z); lra. }
  assert (E1 : 0 < exp (- alpha * ald) < 1).
  { split; [apply exp_pos|]. rewrite <- exp_0. apply exp_increasing. nra. }
  assert (P0 : 0 < dpar al0 alpha ald).
  { unfold dpar. assert (exp (- alpha * ald) / (1 + alpha * al0) < 1); [|lra].
    apply Rmult_lt_reg_r with (1 + alpha * al0); [nra|]. unfold Rdiv. rewrite Rmult_assoc, Rinv_l by nra. nra. }
  split; [|split; [lra | exact P0]].
  unfold diffusion_OTF. rewrite radial_fin, pydiv_ok by lra. cbn [bind].
  rewrite xmul_fin, (xdiv_fin _ f) by auto. fold z. rewrite xsq_fin, xadd_fin.
  rewrite (xdiv_fin 1) by lra. rewrite xsqrt_fin by lra. fold al.
  unfold diffusion_OTF_params. rewrite !xexp_fin, !xmul_fin, !xadd_fin.
  rewrite !(xdiv_fin (exp _)) by nra. rewrite !xsub_fin.
  fold (dpar al alpha ald) (dpar al0 alpha ald). rewrite xdiv_fin by lra. reflexivity.
Qed.
Lemma dpar_mono a b alpha ald : 0 < alpha -> 0 < a <= b -> dpar a alpha ald <= dpar b alpha ald.
Proof.
  intros H [Ha Hb]. unfold dpar.
  assert (exp (- alpha * ald) / (1 + alpha * b) <= exp (- alpha * ald) / (1 + alpha * a)); [|lra].
  apply Rmult_le_compat_l; [left; apply exp_pos|]. apply Rinv_le_contravar; nra.
Qed.

Lemma diffusion_mtf u v u' v' alpha ald al0 f :
  f <> 0 -> 0 < al0 -> 0 < alpha -> 0 < ald -> u * u + v * v <= u' * u' + v' * v' ->
  exists h h', diffusion_OTF u v alpha ald al0 f = Ok (Fin h)
    /\ diffusion_OTF u' v' alpha ald al0 f = Ok (Fin h')
    /\ 0 < h <= 1 /\ (u = 0 -> v = 0 -> h = 1) /\ h' <= h.
Proof.
  intros Hf H0 Ha Hd Hr.
  destruct (diffusion_fin u v alpha ald al0 f Hf H0 Ha Hd) as (E & B & P).
  destruct (diffusion_fin u' v' alpha ald al0 f Hf H0 Ha Hd) as (E' & B' & _).
  cbv zeta in *.
  set (al := sqrt (1 / (1 / (al0 * al0) + 2 * PI * sqrt (u * u + v * v) / f * (2 * PI * sqrt (u * u + v * v) / f)))) in *.
  set (al' := sqrt (1 / (1 / (al0 * al0) + 2 * PI * sqrt (u' * u' + v' * v') / f * (2 * PI * sqrt (u' * u' + v' * v') / f)))) in *.
  rewrite E, E'. do 2 eexists. split; [reflexivity|]. split; [reflexivity|].
  assert (Pal : 0 < dpar al alpha ald).
  { unfold dpar. assert (exp (- alpha * ald) / (1 + alpha * al) < 1); [|lra].
    assert (exp (- alpha * ald) < 1) by (rewrite <- exp_0; apply exp_increasing; nra).
    apply Rmult_lt_reg_r with (1 + alpha * al); [nra|]. unfold Rdiv. rewrite Rmult_assoc, Rinv_l by nra. nra. }
  split; [|split].
  - split; [apply Rdiv_lt_0_compat; lra|].
    apply Rmult_le_reg_r with (dpar al0 alpha ald); [lra|]. unfold Rdiv. rewrite Rmult_assoc, Rinv_l by lra.
    generalize (dpar_mono al al0 alpha ald Ha ltac:(lra)). lra.
  - intros Hu Hv. assert (Eal : al = al0).
    { unfold al. rewrite Hu, Hv. replace (0 * 0 + 0 * 0) with 0 by ring. rewrite sqrt_0.
      replace (1 / (1 / (al0 * al0) + 2 * PI * 0 / f * (2 * PI * 0 / f))) with (al0 * al0) by (field; nra).
      apply sqrt_square. lra. }
    rewrite Eal. field. lra.
  - apply Rmult_le_compat_r; [left; apply Rinv_0_lt_compat; lra|].
    apply dpar_mono; [lra|]. split; [lra|].
    unfold al, al'. apply sqrt_le_1_alt.
    assert (A2 : 0 < / (al0 * al0)) by (apply Rinv_0_lt_compat; nra).
    unfold Rdiv. rewrite !Rmult_1_l. apply Rinv_le_contravar.
    + generalize (sq_pos (2 * PI * sqrt (u * u + v * v) * / f)). lra.
    + apply Rplus_le_compat_l.
      replace (2 * PI * sqrt (u * u + v * v) * / f * (2 * PI * sqrt (u * u + v * v) * / f))
        with (4 * (PI * PI) * (/ f * / f) * (sqrt (u * u + v * v) * sqrt (u * u + v * v))) by ring.
      replace (2 * PI * sqrt (u' * u' + v' * v') * / f * (2 * PI * sqrt (u' * u' + v' * v') * / f))
        with (4 * (PI * PI) * (/ f * / f) * (sqrt (u' * u' + v' * v') * sqrt (u' * u' + v' * v'))) by ring.
      rewrite !sqrt_sumsq. apply Rmult_le_compat_l; [|lra].
      apply Rmult_le_pos; [generalize (sq_pos PI); lra | apply sq_pos].
Qed.
