(** * Proof_Giqe: the image quality equations *)
From Coq Require Import Reals Lra Lia ZArith Psatz.
From Verif Require Import Base_XR Model_Met Spec_Met.
Open Scope R_scope.

Lemma ln10_pos : 0 < ln 10. Proof. rewrite <- ln_1. apply ln_increasing; lra. Qed.
Lemma log10_lt x y : 0 < x -> x < y -> log10 x < log10 y.
Proof. intros H H1. unfold log10. apply Rmult_lt_compat_r; [apply Rinv_0_lt_compat, ln10_pos|]. now apply ln_increasing. Qed.
Lemma log10_le x y : 0 < x -> x <= y -> log10 x <= log10 y.
Proof. intros H [H1| ->]; [left; now apply log10_lt|lra]. Qed.
Lemma log10_1 : log10 1 = 0. Proof. unfold log10. rewrite ln_1. unfold Rdiv. ring. Qed.
Lemma log10_mult x y : 0 < x -> 0 < y -> log10 (x * y) = log10 x + log10 y.
Proof. intros. unfold log10. rewrite ln_mult by auto. unfold Rdiv. ring. Qed.
Lemma log10_inv x : 0 < x -> log10 (/ x) = - log10 x.
Proof. intros. unfold log10. rewrite ln_Rinv by auto. unfold Rdiv. ring. Qed.
Lemma log10_div x y : 0 < x -> 0 < y -> log10 (x / y) = log10 x - log10 y.
Proof. intros. unfold Rdiv. rewrite log10_mult, log10_inv; auto. now apply Rinv_0_lt_compat. Qed.
Lemma log10_pow x p : log10 (Rpower x p) = p * log10 x.
Proof. unfold log10. rewrite ln_Rpower. unfold Rdiv. ring. Qed.
Lemma inch_pos : 0 < inch. Proof. unfold inch; lra. Qed.
Lemma in_inches g : 0 < g -> 0 < g / inch. Proof. intros. apply Rdiv_lt_0_compat; auto. apply inch_pos. Qed.

(** ** GIQE 3 *)
Lemma giqe3_value r g e n s : 0 < r -> 0 < g -> s <> 0 ->
  giqe3 (Fin r) (Fin g) (Fin e) (Fin n) (Fin s) =
  Fin (11.81 + 3.32 * (log10 r - log10 (g / inch)) - 1.48 * e - n / s).
Proof.
  intros Hr Hg Hs. unfold giqe3. pose proof (in_inches g Hg). pose proof inch_pos.
  rewrite (xdiv_fin g 0.0254) by lra. fold inch. rewrite (xdiv_fin r) by lra. rewrite (xdiv_fin n s) by auto.
  rewrite xlog10_fin by (now apply Rdiv_lt_0_compat). fold (log10 (r / (g / inch))).
  rewrite log10_div by auto. reflexivity.
Qed.
Lemma ratio_le n1 n2 s1 s2 : 0 <= n2 -> n2 <= n1 -> 0 < s1 -> s1 <= s2 -> n2 / s2 <= n1 / s1.
Proof.
  intros. apply Rmult_le_compat; auto; [left; apply Rinv_0_lt_compat; lra|apply Rinv_le_contravar; lra].
Qed.
Lemma ratio_lt n1 n2 s1 s2 : 0 <= n2 -> n2 <= n1 -> 0 < s1 -> s1 <= s2 -> (n2 < n1 \/ (0 < n1 /\ s1 < s2)) -> n2 / s2 < n1 / s1.
Proof.
  intros A B C D [H|[H1 H2]].
  - apply Rle_lt_trans with (n2 / s1).
    + apply Rmult_le_compat_l; auto. apply Rinv_le_contravar; lra.
    + apply Rmult_lt_compat_r; auto. now apply Rinv_0_lt_compat.
  - apply Rle_lt_trans with (n1 / s2).
    + apply Rmult_le_compat_r; auto. left; apply Rinv_0_lt_compat; lra.
    + apply Rmult_lt_compat_l; auto. apply Rinv_lt_contravar; auto. apply Rmult_lt_0_compat; lra.
Qed.
Lemma giqe3_mono r1 r2 g1 g2 e1 e2 n1 n2 s1 s2 :
  0 < r1 <= r2 -> 0 < g2 <= g1 -> e2 <= e1 -> 0 <= n2 <= n1 -> 0 < s1 <= s2 ->
  exists v1 v2, giqe3 (Fin r1) (Fin g1) (Fin e1) (Fin n1) (Fin s1) = Fin v1 /\
    giqe3 (Fin r2) (Fin g2) (Fin e2) (Fin n2) (Fin s2) = Fin v2 /\ v1 <= v2 /\
    (r1 < r2 \/ g2 < g1 \/ e2 < e1 \/ n2 < n1 \/ (0 < n1 /\ s1 < s2) -> v1 < v2).
Proof.
  intros Hr Hg He Hn Hs. do 2 eexists.
  rewrite !giqe3_value by lra. do 2 (split; [reflexivity|]).
  assert (A : log10 r1 <= log10 r2) by (apply log10_le; lra).
  assert (Gi : g2 / inch <= g1 / inch).
  { apply Rmult_le_compat_r; [left; apply Rinv_0_lt_compat, inch_pos|lra]. }
  assert (B : log10 (g2 / inch) <= log10 (g1 / inch)) by (apply log10_le; auto; apply in_inches; lra).
  assert (C : n2 / s2 <= n1 / s1) by (apply ratio_le; lra).
  split; [lra|]. intros [H|[H|[H|H]]].
  - assert (log10 r1 < log10 r2) by (apply log10_lt; lra). lra.
  - assert (log10 (g2 / inch) < log10 (g1 / inch)).
    { apply log10_lt; [apply in_inches; lra|]. apply Rmult_lt_compat_r; auto. apply Rinv_0_lt_compat, inch_pos. }
    lra.
  - lra.
  - assert (n2 / s2 < n1 / s1) by (apply ratio_lt; lra). lra.
Qed.
Lemma giqe3_double r g e n s k : 0 < r -> 0 < g -> s <> 0 -> 0 < k ->
  exists v v', giqe3 (Fin r) (Fin g) (Fin e) (Fin n) (Fin s) = Fin v /\
    giqe3 (Fin r) (Fin (k * g)) (Fin e) (Fin n) (Fin s) = Fin v' /\ v' = v - 3.32 * log10 k /\
    giqe3 (Fin (k * r)) (Fin (k * g)) (Fin e) (Fin n) (Fin s) = Fin v.
Proof.
  intros Hr Hg Hs Hk. assert (0 < k * g) by now apply Rmult_lt_0_compat. assert (0 < k * r) by now apply Rmult_lt_0_compat.
  do 2 eexists. rewrite !giqe3_value by auto.
  assert (E : log10 (k * g / inch) = log10 k + log10 (g / inch)).
  { unfold Rdiv. rewrite Rmult_assoc. apply log10_mult; auto. now apply in_inches. }
  do 2 (split; [reflexivity|]). rewrite E. split; [lra|]. rewrite (log10_mult k r) by auto. f_equal. lra.
Qed.
(* a vanishing or negative edge response *)
Lemma giqe3_blurred g e n s : 0 < g -> s <> 0 ->
  giqe3 (Fin 0) (Fin g) (Fin e) (Fin n) (Fin s) = NInf /\
  forall r, r < 0 -> giqe3 (Fin r) (Fin g) (Fin e) (Fin n) (Fin s) = NaN.
Proof.
  intros Hg Hs. pose proof (in_inches g Hg) as Hi. pose proof inch_pos as I.
  assert (D : forall r, giqe3 (Fin r) (Fin g) (Fin e) (Fin n) (Fin s) =
    xsub (xsub (xadd (Fin 11.81) (xmul (Fin 3.32) (xlog10 (Fin (r / (g / inch)))))) (Fin (1.48 * e))) (Fin (n / s))).
  { intros r. unfold giqe3. rewrite (xdiv_fin g 0.0254) by lra. fold inch.
    rewrite (xdiv_fin r), (xdiv_fin n) by lra. reflexivity. }
  split.
  - rewrite D. replace (0 / (g / inch)) with 0 by (field; lra). unfold xlog10.
    repeat rcase; try lra. simpl. unfold inf_sgn. repeat rcase; try lra; reflexivity.
  - intros r Hr. rewrite D.
    assert (r / (g / inch) < 0) by (apply Rmult_lt_reg_r with (g / inch); auto; unfold Rdiv at 1; rewrite Rmult_assoc, Rinv_l; lra).
    unfold xlog10. repeat rcase; try lra. reflexivity.
Qed.

(** ** GIQE 4 *)
Definition k1 (r : R) : R := if Rleb 0.9 r then 3.32 else 3.16.
Definition k2 (r : R) : R := if Rleb 0.9 r then 1.559 else 2.817.
Definition v4 (r gp e n s : R) : R :=
  10.251 - k1 r * log10 (gp / inch) + k2 r * log10 r - 0.656 * e - 0.334 * n / s.
Lemma giqe4_value r g e n s a : 0 < r -> 0 < g -> s <> 0 -> 0 < sin a ->
  giqe4 (Fin r) (Fin g) (Fin e) (Fin n) (Fin s) (Fin a) =
  (Fin (v4 r (g / sqrt (sin a)) e n s), Fin (g / sqrt (sin a))).
Proof.
  intros Hr Hg Hs Ha. unfold giqe4. rewrite xle_fin. pose proof (sqrt_lt_R0 _ Ha) as Sq. pose proof inch_pos.
  assert (E : xdiv (Fin g) (xpow (xsin (Fin a)) 0.5) = Fin (g / sqrt (sin a))).
  { cbn [xsin]. rewrite xpow_fin by auto. replace 0.5 with (/ 2) by lra. rewrite Rpower_sqrt by auto. now rewrite xdiv_fin by lra. }
  assert (G : 0 < g / sqrt (sin a)) by now apply Rdiv_lt_0_compat.
  unfold v4, k1, k2. destruct (Rleb 0.9 r).
  - rewrite E. rewrite (xdiv_fin (g / sqrt (sin a))) by lra. fold inch. rewrite !xlog10_fin by (auto; now apply in_inches).
    rewrite !xmul_fin. rewrite (xdiv_fin _ s) by auto. reflexivity.
  - rewrite E. rewrite (xdiv_fin (g / sqrt (sin a))) by lra. fold inch. rewrite !xlog10_fin by (auto; now apply in_inches).
    rewrite !xmul_fin. rewrite (xdiv_fin _ s) by auto. reflexivity.
Qed.
Lemma k1_pos r : 3 < k1 r. Proof. unfold k1. destruct (Rleb 0.9 r); lra. Qed.
Lemma k2_pos r : 0 < k2 r. Proof. unfold k2. destruct (Rleb 0.9 r); lra. Qed.
Lemma sin_quarter a b : 0 < a -> a <= b -> b <= PI / 2 -> 0 < sin a <= sin b.
Proof.
  intros Ha Hab Hb. pose proof PI_RGT_0. split; [apply sin_gt_0; lra|]. apply sin_incr_1; lra.
Qed.
Lemma gp_le g1 g2 p1 p2 : 0 < g2 -> g2 <= g1 -> 0 < p1 -> p1 <= p2 -> 0 < g2 / p2 <= g1 / p1.
Proof.
  intros. split; [apply Rdiv_lt_0_compat; lra|]. apply Rmult_le_compat; try lra.
  - left; apply Rinv_0_lt_compat; lra.
  - apply Rinv_le_contravar; lra.
Qed.
Lemma gp_lt g1 g2 p1 p2 : 0 < g2 -> g2 < g1 -> 0 < p1 -> p1 <= p2 -> g2 / p2 < g1 / p1.
Proof.
  intros. apply Rle_lt_trans with (g2 / p1).
  - apply Rmult_le_compat_l; [lra|]. apply Rinv_le_contravar; lra.
  - apply Rmult_lt_compat_r; auto. now apply Rinv_0_lt_compat.
Qed.
Lemma log_inch_le x y : 0 < x -> x <= y -> log10 (x / inch) <= log10 (y / inch).
Proof. intros. apply log10_le; [now apply in_inches|]. apply Rmult_le_compat_r; auto. left; apply Rinv_0_lt_compat, inch_pos. Qed.
Lemma log_inch_lt x y : 0 < x -> x < y -> log10 (x / inch) < log10 (y / inch).
Proof. intros. apply log10_lt; [now apply in_inches|]. apply Rmult_lt_compat_r; auto. apply Rinv_0_lt_compat, inch_pos. Qed.

Lemma giqe4_mono r g1 g2 e1 e2 n1 n2 s1 s2 a1 a2 :
  0 < r -> 0 < g2 <= g1 -> e2 <= e1 -> 0 <= n2 <= n1 -> 0 < s1 <= s2 -> 0 < a1 <= a2 -> a2 <= PI / 2 ->
  exists v1 v2 p1 p2,
    giqe4 (Fin r) (Fin g1) (Fin e1) (Fin n1) (Fin s1) (Fin a1) = (Fin v1, Fin p1) /\
    giqe4 (Fin r) (Fin g2) (Fin e2) (Fin n2) (Fin s2) (Fin a2) = (Fin v2, Fin p2) /\
    v1 <= v2 /\ p2 <= p1 /\ g1 <= p1 /\
    (g2 < g1 \/ e2 < e1 \/ n2 < n1 \/ (0 < n1 /\ s1 < s2) -> v1 < v2).
Proof.
  intros Hr Hg He Hn Hs Ha Hp. destruct (sin_quarter a1 a2) as [S1 S2]; try lra.
  do 4 eexists. rewrite !giqe4_value by lra. do 2 (split; [reflexivity|]).
  pose proof (sqrt_lt_R0 _ S1) as Q1. assert (Q2 : sqrt (sin a1) <= sqrt (sin a2)) by (apply sqrt_le_1_alt; lra).
  destruct (gp_le g1 g2 (sqrt (sin a1)) (sqrt (sin a2))) as [P1 P2]; try lra.
  pose proof (log_inch_le _ _ P1 P2) as L. pose proof (k1_pos r) as K1.
  assert (C : 0.334 * n2 / s2 <= 0.334 * n1 / s1).
  { unfold Rdiv. rewrite !Rmult_assoc. apply Rmult_le_compat_l; [lra|]. apply ratio_le; lra. }
  unfold v4.
  assert (KL : k1 r * log10 (g2 / sqrt (sin a2) / inch) <= k1 r * log10 (g1 / sqrt (sin a1) / inch)) by (apply Rmult_le_compat_l; lra).
  split; [lra|]. split; [lra|]. split.
  - assert (sqrt (sin a1) <= 1). { rewrite <- sqrt_1. apply sqrt_le_1_alt. apply SIN_bound. }
    apply Rmult_le_reg_r with (sqrt (sin a1)); auto. unfold Rdiv. rewrite Rmult_assoc, Rinv_l by lra. nra.
  - intros [H|[H|H]].
    + assert (k1 r * log10 (g2 / sqrt (sin a2) / inch) < k1 r * log10 (g1 / sqrt (sin a1) / inch)).
      { apply Rmult_lt_compat_l; [lra|]. apply log_inch_lt; auto. apply gp_lt; lra. }
      lra.
    + lra.
    + assert (0.334 * n2 / s2 < 0.334 * n1 / s1).
      { unfold Rdiv. rewrite !Rmult_assoc. apply Rmult_lt_compat_l; [lra|]. apply ratio_lt; lra. }
      lra.
Qed.
Lemma giqe4_overhead r g e n s : 0 < r -> 0 < g -> s <> 0 ->
  exists v, giqe4 (Fin r) (Fin g) (Fin e) (Fin n) (Fin s) (Fin (PI / 2)) = (Fin v, Fin g).
Proof.
  intros. eexists. rewrite giqe4_value; auto; [|rewrite sin_PI2; lra].
  rewrite sin_PI2, sqrt_1. f_equal. f_equal. field.
Qed.
(* on either side of 0.9 the rating grows with the edge response *)
Lemma giqe4_rer r1 r2 g e n s a : 0 < r1 -> r1 < r2 -> (r2 < 0.9 \/ 0.9 <= r1) -> 0 < g -> s <> 0 -> 0 < a < PI ->
  exists v1 v2 p, giqe4 (Fin r1) (Fin g) (Fin e) (Fin n) (Fin s) (Fin a) = (Fin v1, Fin p) /\
    giqe4 (Fin r2) (Fin g) (Fin e) (Fin n) (Fin s) (Fin a) = (Fin v2, Fin p) /\ v1 < v2.
Proof.
  intros H1 H2 H3 Hg Hs Ha. assert (0 < sin a) by (apply sin_gt_0; lra).
  do 3 eexists. rewrite !giqe4_value by lra. do 2 (split; [reflexivity|]). unfold v4.
  assert (L : log10 r1 < log10 r2) by (apply log10_lt; lra).
  assert (K : k1 r1 = k1 r2 /\ k2 r1 = k2 r2).
  { unfold k1, k2. destruct H3; repeat rcase; try lra; auto. }
  destruct K as [-> ->]. pose proof (k2_pos r2). assert (k2 r2 * log10 r1 < k2 r2 * log10 r2) by (now apply Rmult_lt_compat_l). lra.
Qed.
(* crossing 0.9 *)
Lemma jump r gp e n s : r < 0.9 -> v4 0.9 gp e n s - v4 r gp e n s =
  2.817 * (log10 0.9 - log10 r) + 1.258 * log10 (10 / 9) - 0.16 * log10 (gp / inch).
Proof.
  intros Hr. unfold v4, k1, k2.
  rewrite (proj2 (Rleb_true 0.9 0.9)) by lra. rewrite (proj2 (Rleb_false 0.9 r)) by lra.
  assert (E : log10 0.9 = - log10 (10 / 9)).
  { rewrite <- log10_inv by lra. f_equal. lra. }
  lra.
Qed.

(** ** GIQE 5 *)
Definition mean5 (x y : R) : R := Rpower (Rmax x y * (Rmin x y * Rmin x y)) (1 / 3).
Definition f5 (L s : R) : R := 3.32 * (1 - exp (-1.9 / s)) * L - 2 * L ^ 4.
Definition v5 (x y gw s : R) : R := 9.57 - 3.32 * log10 (gw / inch) + f5 (log10 (mean5 x y)) s - 1.8 / s.
Lemma mean5_pos x y : 0 < mean5 x y. Proof. apply exp_pos. Qed.
Lemma minmax_pos x y : 0 < x -> 0 < y -> 0 < Rmin x y /\ 0 < Rmax x y.
Proof. intros. split; [now apply Rmin_pos|]. pose proof (Rmax_l x y). lra. Qed.
Lemma giqe5_value x y g s a : 0 < x -> 0 < y -> 0 < g -> s <> 0 -> 0 < sin a ->
  giqe5 (Fin x) (Fin y) (Fin g) (Fin s) (Fin a) =
  (Fin (v5 x y (g / Rpower (sin a) (1 / 4)) s), Fin (g / Rpower (sin a) (1 / 4)), Fin (mean5 x y)).
Proof.
  intros Hx Hy Hg Hs Ha. unfold giqe5. destruct (minmax_pos x y Hx Hy) as [M1 M2].
  assert (0 < Rpower (sin a) (1 / 4)) by apply exp_pos. pose proof inch_pos.
  assert (G : 0 < g / Rpower (sin a) (1 / 4)) by now apply Rdiv_lt_0_compat.
  assert (E : xdiv (Fin g) (xpow (xsin (Fin a)) 0.25) = Fin (g / Rpower (sin a) (1 / 4))).
  { cbn [xsin]. rewrite xpow_fin by auto. replace 0.25 with (1 / 4) by lra. now rewrite xdiv_fin by lra. }
  rewrite E. rewrite xmax_fin, xmin_fin, xsq_fin, xmul_fin.
  rewrite xpow_fin by (apply Rmult_lt_0_compat; auto; now apply Rmult_lt_0_compat).
  fold (mean5 x y). rewrite (xdiv_fin _ 0.0254) by lra. fold inch.
  rewrite !xlog10_fin by (try apply mean5_pos; now apply in_inches).
  fold (log10 (g / Rpower (sin a) (1 / 4) / inch)). fold (log10 (mean5 x y)).
  rewrite !(xdiv_fin _ s) by auto. rewrite xexp_fin, xpown_fin. f_equal. f_equal.
  rewrite ?xsub_fin, ?xmul_fin, ?xadd_fin, ?xsub_fin, ?xmul_fin, ?xadd_fin, ?xsub_fin. f_equal. unfold v5, f5. lra.
Qed.
Lemma cube_root x : 0 < x -> Rpower (x * (x * x)) (1 / 3) = x.
Proof.
  intros H. replace (x * (x * x)) with (x ^ 3) by ring. rewrite <- (Rpower_pow 3) by auto. rewrite Rpower_mult.
  replace (INR 3 * (1 / 3)) with 1 by (simpl; lra). now apply Rpower_1.
Qed.
Lemma mean5_between x y : 0 < x -> 0 < y -> Rmin x y <= mean5 x y <= Rmax x y.
Proof.
  intros Hx Hy. destruct (minmax_pos x y Hx Hy) as [M1 M2]. pose proof (Rminmax x y) as MM. unfold mean5.
  set (m := Rmin x y) in *. set (M := Rmax x y) in *.
  assert (0 < m * m) by now apply Rmult_lt_0_compat.
  split.
  - rewrite <- (cube_root m) at 1 by auto. apply Rle_Rpower_l; [lra|]. split; [now apply Rmult_lt_0_compat|]. now apply Rmult_le_compat_r; [lra|].
  - rewrite <- (cube_root M) at 2 by auto. apply Rle_Rpower_l; [lra|]. split; [now apply Rmult_lt_0_compat|].
    apply Rmult_le_compat_l; [lra|]. apply Rmult_le_compat; lra.
Qed.
Lemma mean5_same x : 0 < x -> mean5 x x = x.
Proof. intros H. unfold mean5. rewrite Rmin_left, Rmax_left by lra. now apply cube_root. Qed.
Lemma mean5_comm x y : mean5 x y = mean5 y x.
Proof. unfold mean5. now rewrite Rmin_comm, Rmax_comm. Qed.
Lemma mean5_mono x y x' y' : 0 < x <= x' -> 0 < y <= y' -> mean5 x y <= mean5 x' y'.
Proof.
  intros Hx Hy. destruct (minmax_pos x y) as [M1 M2]; try lra. unfold mean5.
  assert (A : Rmin x y <= Rmin x' y') by (apply Rmin_glb; [apply Rle_trans with x; [apply Rmin_l|lra]|apply Rle_trans with y; [apply Rmin_r|lra]]).
  assert (B : Rmax x y <= Rmax x' y') by (apply Rmax_lub; [apply Rle_trans with x'; [lra|apply Rmax_l]|apply Rle_trans with y'; [lra|apply Rmax_r]]).
  assert (0 < Rmin x y * Rmin x y) by now apply Rmult_lt_0_compat.
  apply Rle_Rpower_l; [lra|]. split; [now apply Rmult_lt_0_compat|].
  apply Rmult_le_compat; try lra. apply Rmult_le_compat; lra.
Qed.
Lemma giqe5_sym x y g s a : giqe5 (Fin x) (Fin y) g s a = giqe5 (Fin y) (Fin x) g s a.
Proof. unfold giqe5. rewrite !xmax_fin, !xmin_fin. now rewrite (Rmax_comm x y), (Rmin_comm x y). Qed.
Lemma giqe5_mean x y g s a : 0 < x -> 0 < y -> 0 < g -> s <> 0 -> 0 < a < PI ->
  exists v gw r, giqe5 (Fin x) (Fin y) (Fin g) (Fin s) (Fin a) = (Fin v, Fin gw, Fin r) /\
    Rmin x y <= r <= Rmax x y /\ r ^ 3 = Rmax x y * (Rmin x y) ^ 2 /\ g <= gw /\ (a = PI / 2 -> gw = g).
Proof.
  intros Hx Hy Hg Hs Ha. assert (Sa : 0 < sin a) by (apply sin_gt_0; lra).
  do 3 eexists. split; [now apply giqe5_value|]. split; [now apply mean5_between|].
  destruct (minmax_pos x y Hx Hy) as [M1 M2].
  assert (Q : 0 < Rmax x y * (Rmin x y * Rmin x y)) by (apply Rmult_lt_0_compat; auto; now apply Rmult_lt_0_compat).
  split; [|split].
  - unfold mean5. rewrite <- (Rpower_pow 3) by apply exp_pos. rewrite Rpower_mult.
    replace (1 / 3 * INR 3) with 1 by (simpl; lra). rewrite Rpower_1 by auto. ring.
  - assert (P : Rpower (sin a) (1 / 4) <= 1).
    { destruct (SIN_bound a) as [_ U]. unfold Rpower. apply Rle_trans with (exp 0); [|rewrite exp_0; lra]. destruct U as [U|U].
      - assert (ln (sin a) < 0) by (rewrite <- ln_1; apply ln_increasing; lra). left. apply exp_increasing. lra.
      - rewrite U, ln_1, Rmult_0_r. lra. }
    assert (0 < Rpower (sin a) (1 / 4)) by apply exp_pos.
    set (q := Rpower (sin a) (1 / 4)) in *. apply Rmult_le_reg_r with q; auto. unfold Rdiv. rewrite Rmult_assoc, Rinv_l by lra. nra.
  - intros ->. rewrite sin_PI2. unfold Rpower. rewrite ln_1, Rmult_0_r, exp_0. field.
Qed.
Lemma exp_ratio_le s s' : 0 < s -> s <= s' -> exp (-1.9 / s) <= exp (-1.9 / s') /\ exp (-1.9 / s') < 1.
Proof.
  intros H H'. assert (D : / s' <= / s) by (apply Rinv_le_contravar; lra). assert (0 < / s') by (apply Rinv_0_lt_compat; lra).
  assert (A : -1.9 / s <= -1.9 / s') by (unfold Rdiv; lra). assert (B : -1.9 / s' < 0) by (unfold Rdiv; lra). split.
  - destruct A as [A|A]; [left; now apply exp_increasing|rewrite A; lra].
  - rewrite <- exp_0. now apply exp_increasing.
Qed.
Lemma pow4_anti L L' : L <= L' -> L' <= 0 -> L' ^ 4 <= L ^ 4.
Proof.
  intros H H0. replace (L' ^ 4) with ((- L') ^ 4) by ring. replace (L ^ 4) with ((- L) ^ 4) by ring. apply pow_incr. lra.
Qed.
Lemma f5_mono L L' s s' : L <= L' -> L' <= 0 -> 0 < s -> s <= s' -> f5 L s <= f5 L' s'.
Proof.
  intros H H0 Hs Hs'. destruct (exp_ratio_le s s' Hs Hs') as [A B]. unfold f5. pose proof (pow4_anti L L' H H0) as P.
  set (u := exp (-1.9 / s)) in *. set (u' := exp (-1.9 / s')) in *.
  assert ((1 - u) * L <= (1 - u) * L') by (apply Rmult_le_compat_l; lra).
  assert ((1 - u) * L' <= (1 - u') * L') by nra. lra.
Qed.
Lemma giqe5_gsd x y g1 g2 s a1 a2 : 0 < x -> 0 < y -> 0 < g2 <= g1 -> s <> 0 -> 0 < a1 <= a2 -> a2 <= PI / 2 ->
  exists v1 w1 v2 w2 r, giqe5 (Fin x) (Fin y) (Fin g1) (Fin s) (Fin a1) = (Fin v1, Fin w1, Fin r) /\
    giqe5 (Fin x) (Fin y) (Fin g2) (Fin s) (Fin a2) = (Fin v2, Fin w2, Fin r) /\
    v1 <= v2 /\ (g2 < g1 \/ a1 < a2 -> v1 < v2).
Proof.
  intros Hx Hy Hg Hs Ha Hp. destruct (sin_quarter a1 a2) as [S1 S2]; try lra.
  do 5 eexists. rewrite !giqe5_value by lra. do 2 (split; [reflexivity|]).
  assert (Q1 : 0 < Rpower (sin a1) (1 / 4)) by apply exp_pos.
  assert (Q2 : Rpower (sin a1) (1 / 4) <= Rpower (sin a2) (1 / 4)) by (apply Rle_Rpower_l; lra).
  destruct (gp_le g1 g2 _ _ ltac:(lra) ltac:(lra) Q1 Q2) as [P1 P2]. pose proof (log_inch_le _ _ P1 P2). unfold v5.
  split; [lra|]. intros H1.
  assert (P3 : g2 / Rpower (sin a2) (1 / 4) < g1 / Rpower (sin a1) (1 / 4)).
  { destruct H1 as [H1|H1]; [apply gp_lt; lra|].
    assert (sin a1 < sin a2) by (pose proof PI_RGT_0; apply sin_increasing_1; lra).
    assert (Rpower (sin a1) (1 / 4) < Rpower (sin a2) (1 / 4)).
    { unfold Rpower. apply exp_increasing. apply Rmult_lt_compat_l; [lra|]. apply ln_increasing; lra. }
    apply Rlt_le_trans with (g2 / Rpower (sin a1) (1 / 4)).
    - apply Rmult_lt_compat_l; [lra|]. apply Rinv_lt_contravar; auto. apply Rmult_lt_0_compat; lra.
    - apply Rmult_le_compat_r; [left; now apply Rinv_0_lt_compat|lra]. }
  pose proof (log_inch_lt _ _ P1 P3). lra.
Qed.
Lemma giqe5_mono x y x' y' g1 g2 s1 s2 a1 a2 : 0 < x <= x' -> 0 < y <= y' -> x' <= 1 -> y' <= 1 -> 0 < g2 <= g1 ->
  0 < s1 <= s2 -> 0 < a1 <= a2 -> a2 <= PI / 2 ->
  exists v1 w1 r1 v2 w2 r2, giqe5 (Fin x) (Fin y) (Fin g1) (Fin s1) (Fin a1) = (Fin v1, Fin w1, Fin r1) /\
    giqe5 (Fin x') (Fin y') (Fin g2) (Fin s2) (Fin a2) = (Fin v2, Fin w2, Fin r2) /\
    v1 <= v2 /\ w2 <= w1 /\ r1 <= r2.
Proof.
  intros Hx Hy X1 Y1 Hg Hs Ha Hp. destruct (sin_quarter a1 a2) as [S1 S2]; try lra.
  do 6 eexists. rewrite !giqe5_value by lra. do 2 (split; [reflexivity|]).
  assert (Q1 : 0 < Rpower (sin a1) (1 / 4)) by apply exp_pos.
  assert (Q2 : Rpower (sin a1) (1 / 4) <= Rpower (sin a2) (1 / 4)) by (apply Rle_Rpower_l; lra).
  destruct (gp_le g1 g2 _ _ ltac:(lra) ltac:(lra) Q1 Q2) as [P1 P2]. pose proof (log_inch_le _ _ P1 P2).
  assert (M := mean5_mono x y x' y' Hx Hy).
  assert (M1 : mean5 x' y' <= 1).
  { apply Rle_trans with (Rmax x' y'); [apply mean5_between; lra|apply Rmax_lub; lra]. }
  assert (L : log10 (mean5 x y) <= log10 (mean5 x' y')) by (apply log10_le; auto; apply mean5_pos).
  assert (L0 : log10 (mean5 x' y') <= 0) by (rewrite <- log10_1; apply log10_le; auto; apply mean5_pos).
  pose proof (f5_mono _ _ s1 s2 L L0 ltac:(lra) ltac:(lra)) as F.
  assert (1.8 / s2 <= 1.8 / s1) by (apply ratio_le; lra).
  unfold v5. split; [lra|]. split; lra.
Qed.

(** ** Forms used by the property theorems *)
Lemma giqe4_formula r g e n s a : 0 < r -> 0 < g -> s <> 0 -> 0 < sin a -> let gp := g / sqrt (sin a) in
  giqe4 (Fin r) (Fin g) (Fin e) (Fin n) (Fin s) (Fin a) =
  (Fin (10.251 - (if Rle_dec 0.9 r then 3.32 else 3.16) * log10 (gp / inch)
        + (if Rle_dec 0.9 r then 1.559 else 2.817) * log10 r - 0.656 * e - 0.334 * n / s), Fin gp).
Proof.
  intros H1 H2 H3 H4. cbv zeta. rewrite giqe4_value by auto. do 2 f_equal. unfold v4, k1, k2.
  destruct (Rle_dec 0.9 r) as [L|L]; [rewrite (proj2 (Rleb_true _ _) L); reflexivity|].
  destruct (Rleb 0.9 r) eqn:E; [apply Rleb_true in E; contradiction | reflexivity].
Qed.
Lemma giqe5_formula x g s a : 0 < x -> 0 < g -> s <> 0 -> 0 < sin a -> let gw := g / Rpower (sin a) (1 / 4) in
  giqe5 (Fin x) (Fin x) (Fin g) (Fin s) (Fin a) =
  (Fin (9.57 - 3.32 * log10 (gw / inch) + 3.32 * (1 - exp (-1.9 / s)) * log10 x - 2 * log10 x ^ 4 - 1.8 / s), Fin gw, Fin x).
Proof.
  intros H1 H2 H3 H4. cbv zeta. rewrite giqe5_value by auto. unfold v5, f5. rewrite !mean5_same by auto. do 3 f_equal. ring.
Qed.
