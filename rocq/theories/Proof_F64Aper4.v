(** * Proof_F64Aper4: the cross term of circular_aperture_OTF in double precision *)
From Coq Require Import Reals ZArith Lia Lra Psatz Floats.
From Flocq Require Import Core IEEE754.BinarySingleNaN IEEE754.PrimFloat.
From Verif Require Import Base_XR Model_F64 Spec_F64 Spec_F64Aperture Proof_Round Model_F64Size Proof_F64Size Proof_F64Db Proof_F64Slice
  Model_F64Aperture Proof_Aper Proof_F64Aper1 Proof_F64Aper2 Num_PiF64 Proof_F64Aper3.
Open Scope R_scope.

Definition eps : R := / 1099511627776. (* 2^-40 *)
Lemma eps_pow : / 2 ^ 40 = eps. Proof. unfold eps. f_equal. ring. Qed.

(** ** arctan of a large argument *)
Lemma atan_mvt a b : a < b -> exists c, a <= c <= b /\ atan b - atan a = (b - a) / (1 + c * c).
Proof.
  intros H. destruct (MVT_cor2 atan (fun x => / (1 + x ^ 2)) a b H) as (c & E & B).
  - intros c _. exact (derivable_pt_lim_atan c).
  - exists c. split; [lra|]. rewrite E. unfold Rdiv. replace (c ^ 2) with (c * c) by ring. ring.
Qed.
Lemma atan_rel a b r t : 0 <= a -> 0 <= b -> 0 <= r <= / 4 -> 0 <= t <= / 4 -> Rabs (b - a) <= r * a + t -> Rabs (atan b - atan a) <= 2 * r + t.
Proof.
  intros A B R T H. 
  assert (K : forall c, (a <= c \/ b <= c) -> 0 <= c -> (r * a + t) / (1 + c * c) <= 2 * r + t).
  { intros c C C0. assert (0 <= c * c) by nra. apply Rmult_le_reg_r with (1 + c * c); [lra|]. unfold Rdiv. rewrite Rmult_assoc, Rinv_l, Rmult_1_r by lra.
    assert (C2 : a * 0.75 - t <= c) by (apply Rabs_le_inv in H; assert (r * a <= / 4 * a) by (apply Rmult_le_compat_r; lra); destruct C; lra).
    assert (Q : a <= 2 * (1 + c * c)) by nra.
    assert (r * a <= r * (2 * (1 + c * c))) by (apply Rmult_le_compat_l; lra).
    assert (t * 1 <= t * (1 + c * c)) by (apply Rmult_le_compat_l; lra). lra. }
  destruct (Rtotal_order a b) as [L|[L|L]].
  - destruct (atan_mvt a b L) as (c & C & E). rewrite E. assert (0 < 1 + c * c) by nra.
    unfold Rdiv. rewrite Rabs_mult, (Rabs_pos_eq (/ (1 + c * c))) by (left; apply Rinv_0_lt_compat; lra).
    eapply Rle_trans; [apply Rmult_le_compat_r; [left; apply Rinv_0_lt_compat; lra|exact H]|]. apply K; lra.
  - subst. rewrite Rminus_diag_eq by reflexivity. rewrite Rabs_R0. lra.
  - destruct (atan_mvt b a L) as (c & C & E). rewrite Rabs_minus_sym, E. assert (0 < 1 + c * c) by nra.
    unfold Rdiv. rewrite Rabs_mult, (Rabs_pos_eq (/ (1 + c * c))) by (left; apply Rinv_0_lt_compat; lra).
    rewrite Rabs_minus_sym. eapply Rle_trans; [apply Rmult_le_compat_r; [left; apply Rinv_0_lt_compat; lra|exact H]|]. apply K; lra.
Qed.
(* tan stays below 2^60 on the arguments that occur *)
Lemma tan_below y : 0 <= y <= pi_below / 2 -> 0 <= tan y <= bpow radix2 60.
Proof.
  intros Y. generalize pi_below_near pi_3. intros P P3. assert (Hc : 0 < cos y) by (apply cos_gt_0; lra).
  assert (S0 : 0 <= sin y <= 1) by (split; [apply sin_ge_0; lra|apply SIN_bound]).
  assert (C : bpow radix2 (-60) <= cos y).
  { rewrite <- sin_shift. set (d := PI / 2 - y). apply Rle_trans with (d / 2); [|apply sin_half; unfold d; lra].
    apply Rle_trans with (/ 9007199254740992 / 4); [|unfold d; lra].
    change (/ 9007199254740992) with (bpow radix2 (-53)). replace (bpow radix2 (-53) / 4) with (bpow radix2 (-53) * bpow radix2 (-2)) by (simpl (bpow radix2 (-2)); lra).
    rewrite <- bpow_plus. apply bpow_le. lia. }
  unfold tan. split; [apply div_pos; lra|]. apply Rle_trans with (1 * / bpow radix2 (-60)).
  - unfold Rdiv. apply Rmult_le_compat; try lra; [left; apply Rinv_0_lt_compat; lra|]. apply Rinv_le; [apply bpow_gt_0|exact C].
  - change (-60)%Z with (- (60))%Z. rewrite bpow_opp, Rinv_inv. lra.
Qed.
(* a product and a quotient with relative errors *)
Lemma prod_rel m mh t v : 1 <= m <= 2 -> Rabs (mh - m) <= 4 * mu -> 0 <= t -> 0 <= v -> Rabs (v - t) <= eps * t ->
  Rabs (mh * v - m * t) <= (m * t) * (1.1 * eps) /\ 0 <= mh * v <= 4 * t.
Proof.
  intros M Mh T V E. generalize mu_small. intros Mu. apply Rabs_le_inv in Mh, E. 
  assert (V2 : v <= 2 * t) by (unfold eps in E; lra).
  assert (A : Rabs ((mh - m) * v) <= 4 * mu * (2 * t)).
  { rewrite Rabs_mult, (Rabs_pos_eq v) by lra. apply Rmult_le_compat; auto using Rabs_pos. apply Rabs_le; lra. }
  assert (B : Rabs (m * (v - t)) <= m * (eps * t)).
  { rewrite Rabs_mult, (Rabs_pos_eq m) by lra. apply Rmult_le_compat_l; [lra|]. apply Rabs_le; lra. }
  apply Rabs_le_inv in A, B.
  assert (C : 8 * mu * t <= 0.1 * eps * (m * t)).
  { replace (0.1 * eps * (m * t)) with (0.1 * eps * m * t) by ring. apply Rmult_le_compat_r; [exact T|]. unfold mu, eps; lra. }
  split.
  - replace (mh * v - m * t) with ((mh - m) * v + m * (v - t)) by ring. apply Rabs_le. lra.
  - assert (0 <= mh <= 2.1 - 0.1 + 0.0001) by lra. split; [apply Rmult_le_pos; lra|]. 
    apply Rle_trans with (2.0001 * (1.001 * t)); [|lra]. apply Rmult_le_compat; unfold eps in E; lra.
Qed.
Lemma quot_rel n nh P p : 0.1 <= n <= 1 -> Rabs (nh - n) <= 4 * mu -> 0 <= P -> 0 <= p -> Rabs (p - P) <= P * (1.2 * eps) + tn ->
  0 < nh /\ Rabs (p / nh - P / n) <= (P / n) * (1.4 * eps) + 20 * tn /\ 0 <= p / nh <= 40 * P + 20 * tn.
Proof.
  intros N Nh P0 p0 E. generalize mu_small tn_pos. intros Mu Tn. apply Rabs_le_inv in Nh.
  assert (Nh0 : 0.09 <= nh) by lra. split; [lra|].
  assert (I0 : 0 < / nh) by (apply Rinv_0_lt_compat; lra).
  assert (I1 : / nh <= 12) by (replace 12 with (/ (/ 12)) by lra; apply Rinv_le; lra).
  assert (J0 : 0 < / n) by (apply Rinv_0_lt_compat; lra).
  assert (J1 : / n <= 10) by (replace 10 with (/ (/ 10)) by lra; apply Rinv_le; lra).
  assert (K : / nh <= 1.01 * / n).
  { apply Rmult_le_reg_r with nh; [lra|]. rewrite Rinv_l by lra. apply Rmult_le_reg_r with n; [lra|].
    replace (1.01 * / n * nh * n) with (1.01 * nh * (/ n * n)) by ring. rewrite Rinv_l by lra. lra. }
  assert (A : Rabs ((p - P) * / nh) <= (P * (1.2 * eps)) * (1.01 * / n) + 12 * tn).
  { rewrite Rabs_mult, (Rabs_pos_eq (/ nh)) by lra.
    apply Rle_trans with ((P * (1.2 * eps) + tn) * / nh); [apply Rmult_le_compat_r; lra|].
    rewrite Rmult_plus_distr_r. apply Rplus_le_compat.
    - apply Rmult_le_compat_l; [apply Rmult_le_pos; [lra|unfold eps; lra]|exact K].
    - rewrite Rmult_comm. apply Rmult_le_compat_r; lra. }
  assert (B : Rabs (P * / n * ((n - nh) * / nh)) <= P * / n * (48 * mu)).
  { assert (Q : 0 <= P * / n) by (apply Rmult_le_pos; lra). rewrite Rabs_mult, (Rabs_pos_eq (P * / n)) by exact Q.
    apply Rmult_le_compat_l; [exact Q|]. rewrite Rabs_mult, (Rabs_pos_eq (/ nh)) by lra.
    apply Rle_trans with (4 * mu * 12); [|lra]. apply Rmult_le_compat; auto using Rabs_pos; try lra. apply Rabs_le; lra. }
  assert (C : p / nh - P / n = (p - P) * / nh + P * / n * ((n - nh) * / nh)) by (field; lra).
  assert (D : P * / n * (48 * mu) <= P * / n * (0.01 * eps)) by (apply Rmult_le_compat_l; [apply Rmult_le_pos; lra|unfold mu, eps; lra]).
  assert (F : 0 <= P * / n) by (apply Rmult_le_pos; lra).
  replace ((P * (1.2 * eps)) * (1.01 * / n)) with ((P * / n) * (1.212 * eps)) in A by lra.
  assert (G : Rabs (p / nh - P / n) <= P / n * (1.4 * eps) + 20 * tn).
  { rewrite C. eapply Rle_trans; [apply Rabs_triang|]. unfold Rdiv.
    assert ((P * / n) * (1.212 * eps) + P * / n * (0.01 * eps) <= P * / n * (1.4 * eps)).
    { rewrite <- Rmult_plus_distr_l. apply Rmult_le_compat_l; [exact F|unfold eps; lra]. }
    lra. }
  split; [exact G|]. split; [apply div_pos; lra|]. apply Rabs_le_inv in G.
  assert (P / n <= P * 10) by (unfold Rdiv; apply Rmult_le_compat_l; lra).
  assert (P / n * (1.4 * eps) <= P / n * 1) by (apply Rmult_le_compat_l; [exact F|unfold eps; lra]). lra.
Qed.
Lemma near_lit f e : stands_for f e -> 0.1 <= e <= 0.9 ->
  (exists m, stands_for (1 + f)%float m /\ Rabs (m - (1 + e)) <= 4 * mu) /\ (exists n, stands_for (1 - f)%float n /\ Rabs (n - (1 - e)) <= 4 * mu).
Proof.
  intros H E. generalize tn_mu mumu mu_small. intros T MM M.
  assert (Z : forall x, 0 <= x <= 2 -> Rabs (rnd x - x) <= 4 * mu).
  { intros x X. eapply Rle_trans; [apply rnd_mix|]. fold mu tn. rewrite Rabs_pos_eq by lra.
    assert (mu * x <= mu * 2) by (apply Rmult_le_compat_l; lra). lra. }
  split.
  - exists (rnd (1 + e)). split; [|apply Z; lra]. apply f_add; auto using f_one. apply lt_900. rewrite Rabs_pos_eq; lra.
  - exists (rnd (1 - e)). split; [|apply Z; lra]. apply f_sub; auto using f_one. apply lt_900. rewrite Rabs_pos_eq; lra.
Qed.
(* arctan((1 + eta) tan(phi / 2) / (1 - eta)) *)
Lemma atan_ok facos fsin ftan fatan f e h y : good_libm facos fsin ftan fatan -> stands_for f e -> 0.1 <= e <= 0.9 -> stands_for h y -> 0 <= y <= pi_below / 2 ->
  ap (fatan ((1 + f) * ftan h / (1 - f))%float) (atan ((1 + e) * tan y / (1 - e))) (6 * eps).
Proof.
  intros L H E Hh Y. generalize tn_mu mumu mu_small tn_pos. intros T MM M Tn.
  destruct (near_lit f e H E) as [(m & Hm & Em) (n & Hn & En)]. generalize (tan_below y Y). intros TB.
  destruct (tan_in _ _ _ _ L h y Hh Y) as (v & Hv & Ev). set (t := tan y) in *.
  assert (Ev' : Rabs (v - t) <= eps * t) by (eapply Rle_trans; [exact Ev|]; unfold Rdiv; rewrite eps_pow; lra).
  assert (V0 : 0 <= v) by (apply Rabs_le_inv in Ev'; unfold eps in Ev'; lra).
  destruct (prod_rel (1 + e) m t v ltac:(lra) Em ltac:(lra) V0 Ev') as [Ep Bp].
  assert (B60 : bpow radix2 60 <= 2000000000000000000) by (simpl; lra).
  assert (Q900 : 2000000000000000000 * 1000 < bpow radix2 900).
  { apply Rlt_trans with (bpow radix2 80); [simpl; lra|apply bpow_lt; lia]. }
  set (P := (1 + e) * t) in *. assert (P0 : 0 <= P) by (apply Rmult_le_pos; lra).
  assert (Pt : t <= P) by (unfold P; nra). assert (P2 : P <= 2 * t) by (unfold P; nra).
  set (p := rnd (m * v)). assert (p0 : 0 <= p) by (apply rnd_pos; lra).
  assert (Hp : stands_for ((1 + f) * ftan h)%float p).
  { apply f_mul; auto. rewrite Rabs_pos_eq; lra. }
  assert (Eq : Rabs (p - P) <= P * (1.2 * eps) + tn).
  { generalize (rnd_mix (m * v)). fold mu tn p. rewrite (Rabs_pos_eq (m * v)) by lra. intros R.
    replace (p - P) with ((p - m * v) + (m * v - P)) by ring. eapply Rle_trans; [apply Rabs_triang|].
    assert (mu * (m * v) <= mu * (4 * P)) by (apply Rmult_le_compat_l; lra).
    assert (mu * (4 * P) <= 0.1 * eps * P) by (replace (mu * (4 * P)) with (4 * mu * P) by ring; apply Rmult_le_compat_r; [lra|unfold mu, eps; lra]). lra. }
  destruct (quot_rel (1 - e) n P p ltac:(lra) En P0 p0 Eq) as (N0 & Ed & Bd).
  set (K := P / (1 - e)) in *. set (k := rnd (p / n)). assert (k0 : 0 <= k) by (apply rnd_pos; lra).
  assert (Hk : stands_for ((1 + f) * ftan h / (1 - f))%float k).
  { apply f_div; auto; [lra|]. rewrite Rabs_pos_eq by lra. lra. }
  assert (K0 : 0 <= K) by (apply div_pos; lra).
  assert (Ek : Rabs (k - K) <= 1.5 * eps * K + eps).
  { generalize (rnd_mix (p / n)). fold mu tn k. rewrite (Rabs_pos_eq (p / n)) by lra. intros R.
    replace (k - K) with ((k - p / n) + (p / n - K)) by ring. eapply Rle_trans; [apply Rabs_triang|].
    assert (p / n <= 2 * K + 20 * tn).
    { apply Rabs_le_inv in Ed. assert (K * (1.4 * eps) <= K * 1) by (apply Rmult_le_compat_l; [exact K0|unfold eps; lra]). lra. }
    assert (mu * (p / n) <= mu * (2 * K + 20 * tn)) by (apply Rmult_le_compat_l; lra).
    assert (mu * (2 * K) <= 0.1 * eps * K) by (replace (mu * (2 * K)) with (2 * mu * K) by ring; apply Rmult_le_compat_r; [lra|unfold mu, eps; lra]).
    assert (mu * (20 * tn) <= 20 * tn) by (rewrite <- (Rmult_1_l (20 * tn)) at 2; apply Rmult_le_compat_r; lra).
    assert (100 * tn <= eps) by (unfold eps, mu in *; lra). lra. }
  destruct (atan_in _ _ _ _ L _ k Hk k0) as (s & Hs & Es). exists s. split; [exact Hs|]. rewrite eps_pow in Es.
  generalize (atan_rel K k (1.5 * eps) eps K0 k0 ltac:(unfold eps; lra) ltac:(unfold eps; lra) Ek). intros A.
  replace (s - atan K) with ((s - atan k) + (atan k - atan K)) by ring. eapply Rle_trans; [apply Rabs_triang|]. assert (0 < eps) by (unfold eps; lra). lra.
Qed.

(** ** the cross term *)
Lemma half_rnd s : 0 <= s <= pi_below -> 0 <= rnd (s / 2) <= pi_below / 2 /\ Rabs (rnd (s / 2) - s / 2) <= 2 * mu.
Proof.
  intros S. split; [split; [apply rnd_pos; lra|]|].
  - assert (H : pi_below / 2 = IZR 884279719003555 * bpow radix2 (-49)) by (unfold pi_below; simpl; lra).
    rewrite H, <- (rnd_exact 884279719003555 (-49)) by lia. apply rnd_mono. rewrite <- H. lra.
  - eapply Rle_trans; [apply rnd_mix|]. fold mu tn. rewrite Rabs_pos_eq by lra. generalize tn_mu mumu mu_small. unfold pi_below in S. intros.
    assert (mu * (s / 2) <= mu * 1.6) by (apply Rmult_le_compat_l; lra). lra.
Qed.
Lemma eps_one : one_rnd = / 64 * eps /\ 0 < eps < / 1000000000. Proof. unfold one_rnd, eps. lra. Qed.
Lemma ring_in facos fsin ftan fatan q Q f e : good_libm facos fsin ftan fatan -> stands_for f e -> 0.1 <= e <= 0.9 -> stands_for q Q -> -1 <= Q <= 1 ->
  ap (2 * f * fsin (facos q) / pi_f64 + (1 + f * f) * facos q / pi_f64 - 2 * (f * f)
      - 2 * (1 - f * f) / pi_f64 * fatan ((1 + f) * ftan (facos q / 2) / (1 - f)))%float (ring_angle e (acos Q)) (20 * eps).
Proof.
  intros L H E HQ BQ. destruct (acos_in _ _ _ _ L q Q HQ BQ) as (s & Hs & Bs & Es). rewrite eps_pow in Es.
  set (phi := facos q) in *. destruct (half_rnd s Bs) as [By Ey]. set (y := rnd (s / 2)) in *.
  assert (Hy : stands_for (phi / 2)%float y).
  { apply f_div; [exact Hs|exact f_two|lra|]. apply lt_900. unfold pi_below in Bs. rewrite Rabs_pos_eq; lra. }
  set (s' := 2 * y). generalize pi_below_near pi_3 eps_one mu_small (sq_bounds e E). intros PB P3 [W EP] M S2.
  assert (Ms : 4 * mu <= 0.1 * eps) by (unfold mu, eps; lra).
  assert (Ds : Rabs (s' - s) <= 0.1 * eps).
  { replace (s' - s) with (2 * (y - s / 2)) by (unfold s'; field). rewrite Rabs_mult, (Rabs_pos_eq 2) by lra. lra. }
  assert (Bs' : 0 <= s' < PI) by (unfold s'; lra).
  assert (A0 : ap phi s' (0.1 * eps)) by (exists s; split; [exact Hs|rewrite Rabs_minus_sym; exact Ds]).
  destruct (sin_in _ _ _ _ L phi s Hs Bs) as (v & Hv & Ev). rewrite eps_pow in Ev.
  assert (A1 : ap (fsin phi) (sin s') (1.1 * eps)).
  { exists v. split; [exact Hv|]. replace (v - sin s') with ((v - sin s) + (sin s - sin s')) by ring.
    eapply Rle_trans; [apply Rabs_triang|]. generalize (sin_lip s s'). rewrite (Rabs_minus_sym s s'). lra. }
  assert (B1 : Rabs (sin s') <= 1) by (apply Rabs_le, SIN_bound).
  assert (A2 : ap (2 * f)%float (2 * e) one_rnd).
  { eapply ap_w; [apply ap_two with (e := 0); [apply ap_of; exact H|rewrite Rabs_pos_eq; lra|lra]|lra]. }
  assert (A3 : ap (2 * f * fsin phi)%float (2 * e * sin s') (3 * eps)).
  { apply ap_w with (2 * (1.1 * eps) + 1 * one_rnd + one_rnd * (1.1 * eps) + one_rnd).
    - apply ap_mul; auto; try (rewrite Rabs_pos_eq; lra); try lra. rewrite W. unfold eps; lra.
    - rewrite W. unfold eps; lra. }
  assert (B3 : Rabs (2 * e * sin s') <= 2).
  { rewrite Rabs_mult, (Rabs_pos_eq (2 * e)) by lra. apply Rle_trans with (2 * 1); [apply Rmult_le_compat; auto using Rabs_pos; lra|lra]. }
  assert (A4 : ap (2 * f * fsin phi / pi_f64)%float (2 * e * sin s' / PI) (2 * eps)).
  { eapply ap_w; [apply ap_div_pi; [exact A3| |]; lra|]. lra. }
  assert (A5 : ap ((1 + f * f) * phi)%float ((1 + e * e) * s') (eps)).
  { apply ap_w with (2 * (0.1 * eps) + 3.2 * (2 * one_rnd) + 2 * one_rnd * (0.1 * eps) + one_rnd).
    - apply ap_mul; auto using ap_one_add; try (rewrite Rabs_pos_eq; lra); try lra. rewrite W. unfold eps; lra.
    - rewrite W. unfold eps; lra. }
  assert (B5 : 0 <= (1 + e * e) * s' <= 6.4) by (split; [apply Rmult_le_pos; lra|]; apply Rle_trans with (2 * 3.2); [apply Rmult_le_compat; lra|lra]).
  assert (A6 : ap ((1 + f * f) * phi / pi_f64)%float ((1 + e * e) * s' / PI) eps).
  { eapply ap_w; [apply ap_div_pi; [exact A5|rewrite Rabs_pos_eq; lra|lra]|]. lra. }
  assert (DV : forall a b, Rabs a <= b -> Rabs (a / PI) <= b).
  { intros a b Ha. unfold Rdiv. rewrite Rabs_mult, (Rabs_pos_eq (/ PI)) by (left; apply Rinv_0_lt_compat; lra).
    apply Rle_trans with (b * 1); [|lra]. apply Rmult_le_compat; [apply Rabs_pos|left; apply Rinv_0_lt_compat; lra|exact Ha|].
    rewrite <- Rinv_1. apply Rinv_le; lra. }
  assert (D1 : Rabs (2 * e * sin s' / PI) <= 2) by (apply DV; exact B3).
  assert (D2 : Rabs ((1 + e * e) * s' / PI) <= 6.4) by (apply DV; rewrite Rabs_pos_eq; lra).
  assert (A7 : ap (2 * f * fsin phi / pi_f64 + (1 + f * f) * phi / pi_f64)%float (2 * e * sin s' / PI + (1 + e * e) * s' / PI) (4 * eps)).
  { apply ap_w with (2 * eps + eps + one_rnd); [|lra]. apply ap_add; auto; [|lra]. eapply Rle_trans; [apply Rabs_triang|]. lra. }
  assert (A8 : ap (2 * (f * f))%float (2 * (e * e)) (3 * one_rnd)).
  { eapply ap_w; [apply ap_two; [apply ap_sq; eauto|rewrite Rabs_pos_eq; lra|lra]|lra]. }
  apply Rabs_le_inv in D1, D2.
  assert (A9 : ap (2 * f * fsin phi / pi_f64 + (1 + f * f) * phi / pi_f64 - 2 * (f * f))%float
     (2 * e * sin s' / PI + (1 + e * e) * s' / PI - 2 * (e * e)) (5 * eps)).
  { apply ap_w with (4 * eps + 3 * one_rnd + one_rnd); [|lra]. apply ap_sub; auto; [|lra]. apply Rabs_le. lra. }
  assert (C1 : ap (2 * (1 - f * f) / pi_f64)%float (2 * (1 - e * e) / PI) (11 * one_rnd)).
  { eapply ap_w; [apply ap_div_pi with (e := 2 * (2 * one_rnd) + one_rnd)|].
    - apply ap_two; [apply ap_one_sub; auto|rewrite Rabs_pos_eq; lra|lra].
    - rewrite Rabs_pos_eq; lra.
    - lra.
    - lra. }
  generalize (atan_ok _ _ _ _ f e (phi / 2)%float y L H E Hy By). intros C2.
  set (K := (1 + e) * tan y / (1 - e)) in *. assert (BK : Rabs (atan K) <= 2) by (generalize (atan_bound K); intros; apply Rabs_le; lra).
  assert (BC : 0 <= 2 * (1 - e * e) / PI <= 1).
  { split; [apply div_pos; lra|]. apply Rmult_le_reg_r with PI; [lra|]. unfold Rdiv. rewrite Rmult_assoc, Rinv_l by lra. lra. }
  assert (C3 : ap (2 * (1 - f * f) / pi_f64 * fatan ((1 + f) * ftan (phi / 2) / (1 - f)))%float (2 * (1 - e * e) / PI * atan K) (8 * eps)).
  { apply ap_w with (1 * (6 * eps) + 2 * (11 * one_rnd) + 11 * one_rnd * (6 * eps) + one_rnd).
    - apply ap_mul; auto; try (rewrite Rabs_pos_eq; lra); try lra. rewrite W. unfold eps; lra.
    - rewrite W. unfold eps; lra. }
  assert (BC3 : Rabs (2 * (1 - e * e) / PI * atan K) <= 2).
  { rewrite Rabs_mult, (Rabs_pos_eq (2 * (1 - e * e) / PI)) by lra. apply Rle_trans with (1 * 2); [apply Rmult_le_compat; auto using Rabs_pos; lra|lra]. }
  assert (C4 : ap (2 * f * fsin phi / pi_f64 + (1 + f * f) * phi / pi_f64 - 2 * (f * f)
      - 2 * (1 - f * f) / pi_f64 * fatan ((1 + f) * ftan (phi / 2) / (1 - f)))%float
      (2 * e * sin s' / PI + (1 + e * e) * s' / PI - 2 * (e * e) - 2 * (1 - e * e) / PI * atan K) (14 * eps)).
  { apply ap_w with (5 * eps + 8 * eps + one_rnd); [|lra]. apply Rabs_le_inv in BC3. apply ap_sub; auto; [|lra]. apply Rabs_le. lra. }
  assert (Fy : s' / 2 = y) by (unfold s'; field).
  assert (R : 2 * e * sin s' / PI + (1 + e * e) * s' / PI - 2 * (e * e) - 2 * (1 - e * e) / PI * atan K = ring_angle e s').
  { unfold K. rewrite <- Fy. apply ring_code; lra. }
  rewrite R in C4. destruct C4 as (w & Hw & Ew). exists w. split; [exact Hw|].
  replace (w - ring_angle e (acos Q)) with ((w - ring_angle e s') + (ring_angle e s' - ring_angle e (acos Q))) by ring.
  eapply Rle_trans; [apply Rabs_triang|]. generalize (ring_lip e s' (acos Q) ltac:(lra)). intros LP.
  assert (Rabs (s' - acos Q) <= 1.1 * eps).
  { replace (s' - acos Q) with ((s' - s) + (s - acos Q)) by ring. eapply Rle_trans; [apply Rabs_triang|]. lra. }
  lra.
Qed.
