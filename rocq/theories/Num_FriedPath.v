(** * Num_FriedPath: the coherence diameter of the Hufnagel-Valley 5/7 profile on the ten thousand samples the code takes *)
From Coq Require Import Reals Lra Lia List Arith Psatz.
From Coquelicot Require Import Coquelicot.
From Interval Require Import Tactic.
From Verif Require Import Base_XR Base_Np Model_Geo Model_Otf Spec_Rad Spec_Chain Proof_Otf Proof_Turb Proof_Weight Proof_SystemX Proof_Fried Proof_FriedBv Num_Fried.
Import ListNotations.
Open Scope R_scope.

Lemma coherence_even lam L n (cn2 : R -> R) : 0 < lam -> 0 < L -> (1 <= n)%nat -> (forall z, 0 <= z <= L -> 0 < cn2 z) ->
  let T := trapezoid (map (fun i => cn2 (L * INR i / INR n) * five_thirds (L * INR i / INR n / L)) (seq 0 (S n))) (map (fun i => L * INR i / INR n) (seq 0 (S n))) in
  exists r, coherence_diameter lam (map (fun i => Fin (L * INR i / INR n)) (seq 0 (S n))) (map (fun i => Fin (cn2 (L * INR i / INR n))) (seq 0 (S n))) = Ok (Fin r)
    /\ 0 < r /\ r = Rpower (0.423 * (2 * PI / lam) ^ 2 * T) (- (3 / 5)).
Proof.
  intros Hl HL Hn Hc T. assert (N0 : 0 < INR n) by (apply lt_0_INR; lia).
  assert (B : forall i, (i <= n)%nat -> 0 <= L * INR i / INR n <= L).
  { intros i Hi. assert (0 <= INR i) by apply pos_INR. assert (INR i <= INR n) by (apply le_INR; lia).
    split; [apply Rmult_le_pos; [apply Rmult_le_pos; lra | left; apply Rinv_0_lt_compat; lra]|].
    apply Rmult_le_reg_r with (INR n); [lra|]. unfold Rdiv. rewrite Rmult_assoc, Rinv_l by lra. rewrite Rmult_1_r. apply Rmult_le_compat_l; lra. }
  assert (Z : 0 <= L * INR 0 / INR n) by (simpl; unfold Rdiv; rewrite Rmult_0_r, Rmult_0_l; lra).
  assert (I : forall j, (S j < S n)%nat -> L * INR j / INR n < L * INR (S j) / INR n).
  { intros j _. rewrite S_INR. unfold Rdiv. apply Rmult_lt_compat_r; [apply Rinv_0_lt_compat; exact N0|]. apply Rmult_lt_compat_l; lra. }
  destruct (coherence_finite (fun i => L * INR i / INR n) (fun i => cn2 (L * INR i / INR n)) (S n) lam n) as (r & E & P);
    [exact Hl | exact Z | exact I | intros j Hj; left; apply Hc, B; lia | lia | apply Hc, B; lia|].
  exists r. split; [exact E|]. split; [exact P|]. apply coherence_formula in E; [|exact Hl | lia | exact Z | exact I].
  destruct E as [_ E].
  replace (0.423 * (2 * PI / lam) ^ 2 * T) with (Rpower r (- (5 / 3))).
  { rewrite Rpower_mult. replace (- (5 / 3) * - (3 / 5)) with 1 by field. rewrite Rpower_1; [reflexivity | exact P]. }
  rewrite E. unfold T. f_equal. f_equal. apply map_ext. intros i. f_equal. f_equal. replace (S n - 1)%nat with n by lia. field. split; lra.
Qed.

(** ** Variation of the integrands, heights in kilometres *)
Definition c1 : R := 5.94 / 10 ^ 8 * (21 / 27 * (21 / 27)).
Lemma c1_val : 3.59 / 10 ^ 8 <= c1 <= 3.6 / 10 ^ 8.
Proof. unfold c1. lra. Qed.
Lemma pow_ln x n : 0 < x -> x ^ n = exp (INR n * ln x).
Proof. intros H. rewrite <- Rpower_pow by exact H. reflexivity. Qed.
Lemma varies_scal f V a L : 0 <= a -> varies f V L -> varies (fun x => a * f x) (fun x => a * V x) L.
Proof.
  intros Ha B u x Hu Hx HL. specialize (B u x Hu Hx HL). replace (a * f x - a * f u) with (a * (f x - f u)) by ring.
  replace (a * V x - a * V u) with (a * (V x - V u)) by ring. rewrite Rabs_mult, (Rabs_pos_eq a) by exact Ha. apply Rmult_le_compat_l; lra.
Qed.
Lemma varies_ext f g V L : (forall x, 0 <= x -> f x = g x) -> varies f V L -> varies g V L.
Proof. intros E B u x Hu Hx HL. rewrite <- !E by lra. apply B; assumption. Qed.
Lemma bump_varies p s L : 0 < p -> 0 < s -> varies (bump p s) (hill_var (bump p s) (p / s)) L.
Proof.
  intros Hp Hs. apply varies_hill; [left; apply Rdiv_lt_0_compat; lra | intros; apply bump_up; assumption | intros; apply bump_down; assumption].
Qed.
Lemma bump_total p s L : 0 < p -> 0 < s -> 0 <= L -> hill_var (bump p s) (p / s) L - hill_var (bump p s) (p / s) 0 <= 2 * bump p s (p / s).
Proof. intros Hp Hs HL. apply hill_total; [left; apply Rdiv_lt_0_compat; lra | apply bump_ge0 | intros; apply bump_up; assumption | exact HL]. Qed.
Lemma bump_top p s : 0 < p -> 0 < s -> bump p s (p / s) = exp (p * ln (p / s) - p).
Proof.
  intros Hp Hs. unfold bump. destruct (Rlt_dec 0 (p / s)) as [H | H]; [|exfalso; apply H, Rdiv_lt_0_compat; lra].
  f_equal. f_equal. field. lra.
Qed.
Definition down_var (x : R) : R :=
  c1 * hill_var (bump (35 / 3) 1) (35 / 3 / 1) x + 0.27 * hill_var (bump (5 / 3) (2 / 3)) (5 / 3 / (2 / 3)) x + 17 * hill_var (bump (5 / 3) 10) (5 / 3 / 10) x.
Lemma down_bumps x : 0 <= x -> c1 * bump (35 / 3) 1 x + 0.27 * bump (5 / 3) (2 / 3) x + 17 * bump (5 / 3) 10 x = km x * five_thirds x.
Proof.
  intros Hx. unfold bump, five_thirds, km. fold c1. destruct (Rlt_dec 0 x) as [H | H]; [|ring].
  unfold Rpower. rewrite (pow_ln x 10) by exact H. replace (INR 10) with 10 by (simpl; lra).
  replace (- (x / 1.5)) with (- (2 / 3 * x)) by lra.
  replace (35 / 3 * ln x - 1 * x) with (10 * ln x + - x + 5 / 3 * ln x) by field.
  replace (5 / 3 * ln x - 2 / 3 * x) with (- (2 / 3 * x) + 5 / 3 * ln x) by ring. replace (5 / 3 * ln x - 10 * x) with (- (x * 10) + 5 / 3 * ln x) by ring.
  rewrite !exp_plus. ring.
Qed.
Lemma down_varies L : varies (fun x => km x * five_thirds x) down_var L.
Proof.
  apply varies_ext with (fun x => c1 * bump (35 / 3) 1 x + 0.27 * bump (5 / 3) (2 / 3) x + 17 * bump (5 / 3) 10 x); [exact down_bumps|].
  assert (C := c1_val). unfold down_var. repeat apply varies_plus; apply varies_scal; try lra; apply bump_varies; lra.
Qed.
Lemma down_total L : 0 <= L -> down_var L - down_var 0 <= 2.56.
Proof.
  intros HL. unfold down_var. assert (C := c1_val).
  assert (A1 := bump_total (35 / 3) 1 L ltac:(lra) ltac:(lra) HL). assert (A2 := bump_total (5 / 3) (2 / 3) L ltac:(lra) ltac:(lra) HL). assert (A3 := bump_total (5 / 3) 10 L ltac:(lra) ltac:(lra) HL).
  rewrite bump_top in A1, A2, A3 by lra.
  assert (B1 : exp (35 / 3 * ln (35 / 3 / 1) - 35 / 3) <= 2.43 * 10 ^ 7) by interval.
  assert (B2 : exp (5 / 3 * ln (5 / 3 / (2 / 3)) - 5 / 3) <= 0.88) by interval.
  assert (B3 : exp (5 / 3 * ln (5 / 3 / 10) - 5 / 3) <= 0.0096) by interval.
  set (v1 := hill_var (bump (35 / 3) 1) (35 / 3 / 1) L) in *. set (w1 := hill_var (bump (35 / 3) 1) (35 / 3 / 1) 0) in *.
  assert (c1 * (v1 - w1) <= 3.6 / 10 ^ 8 * (2 * (2.43 * 10 ^ 7))).
  { apply Rle_trans with (c1 * (2 * (2.43 * 10 ^ 7))); [apply Rmult_le_compat_l; lra | apply Rmult_le_compat_r; lra]. }
  lra.
Qed.

(** ** The camera above the target *)
Lemma varies_metres f g V c L : 0 <= c -> (forall x, 0 <= x <= L / 1000 -> f (1000 * x) = c * g x) -> varies g V (L / 1000) ->
  varies f (fun z => c * V (z / 1000)) L.
Proof.
  intros Hc E B u x Hu Hx HL. replace u with (1000 * (u / 1000)) at 1 by field. replace x with (1000 * (x / 1000)) at 1 by field.
  rewrite !E by lra. assert (Q := varies_scal g V c _ Hc B (u / 1000) (x / 1000) ltac:(lra) ltac:(lra) ltac:(lra)). exact Q.
Qed.
Lemma n9999 : INR 9999 = 9999.
Proof. rewrite INR_IZR_INZ. reflexivity. Qed.
Lemma down_code k L : 60000 <= L <= 10 ^ 6 ->
  exists zp hp r, altitude_along_slant_path k 0 L L = Ok (zp, hp) /\
    coherence_diameter (5 / 10 ^ 7) zp (map (fun h => hufnagel_valley_turbulence_profile h 21 (1.7 / 10 ^ 14)) hp) = Ok (Fin r) /\
    2.16 / 10 ^ 5 * L <= r <= 2.23 / 10 ^ 5 * L.
Proof.
  intros [L0 L1]. assert (VP := vertical_path k 0 L ltac:(lra) ltac:(lra) ltac:(lra)).
  rewrite Rminus_0_r, Rabs_pos_eq in VP by lra. eexists; eexists.
  destruct (coherence_even (5 / 10 ^ 7) L 9999 cn57) as (r & E & P & F); [lra | lra | apply le_n_S, Nat.le_0_l | intros; apply cn57_good|].
  exists r. split; [exact VP|]. split.
  { rewrite <- E, !map_map, n9999. f_equal. apply map_ext. intros i. rewrite Rplus_0_l, hv_fin. reflexivity. }
  rewrite F. clear E F P. set (f := fun z => cn57 z * five_thirds (z / L)).
  set (c := / 10 ^ 10 * Rpower L (- (5 / 3))).
  assert (PL := exp_pos (- (5 / 3) * ln L)). fold (Rpower L (- (5 / 3))) in PL.
  assert (C0 : 0 < c) by (unfold c; apply Rmult_lt_0_compat; lra).
  assert (CF : forall x, continuous f x) by (intros; apply integrand_cont; [lra | apply cn57_good]).
  assert (SC : forall x, 0 <= x <= L / 1000 -> f (1000 * x) = c * (km x * five_thirds x)).
  { intros x Hx. unfold f, c. rewrite cn57_km. replace (1000 * x / L) with (1000 * (/ L * x)) by (field; lra).
    rewrite five_thirds_mul, thousand_53 by lra. rewrite five_thirds_mul by (apply Rinv_0_lt_compat; lra).
    replace (Rpower (/ L) (5 / 3)) with (Rpower L (- (5 / 3))) by (unfold Rpower; rewrite ln_Rinv by lra; f_equal; ring). lra. }
  assert (VF := varies_metres f _ down_var c L ltac:(lra) SC (down_varies (L / 1000))).
  assert (TE := trapezoid_error f _ L 9999 CF VF ltac:(lra) ltac:(apply le_n_S, Nat.le_0_l)).
  rewrite (scale_integral f (fun x => km x * five_thirds x) c L ltac:(lra) CF iso_cont) in TE by (intros x Hx; apply SC; lra).
  assert (K := iso_km (L / 1000) ltac:(lra)). set (K0 := RInt _ 0 (L / 1000)) in *. clearbody K0.
  assert (DT := down_total (L / 1000) ltac:(lra)). replace (0 / 1000) with 0 in TE by field.
  change (trapezoid (map (fun i => cn57 (L * INR i / INR 9999) * five_thirds (L * INR i / INR 9999 / L)) (seq 0 10000)) (map (fun i => L * INR i / INR 9999) (seq 0 10000)))
    with (trapezoid (map (fun i => f (L * INR i / INR 9999)) (seq 0 10000)) (map (fun i => L * INR i / INR 9999) (seq 0 10000))).
  set (T := trapezoid _ _) in *. clearbody T. rewrite n9999 in TE.
  assert (TB : 1000 * c * 8.57 <= T <= 1000 * c * 8.84).
  { apply Rabs_le_between in TE. 
    assert (B : L / 9999 / 2 * (c * down_var (L / 1000) - c * down_var 0) <= 1000 * c * 0.1281).
    { rewrite <- Rmult_minus_distr_l. set (d := down_var (L / 1000) - down_var 0) in *.
      replace (L / 9999 / 2 * (c * d)) with (c * (L / 9999 / 2 * d)) by ring. rewrite (Rmult_comm 1000 c), Rmult_assoc. apply Rmult_le_compat_l; [lra|].
      apply Rle_trans with (L / 9999 / 2 * 2.56); [apply Rmult_le_compat_l; lra | lra]. }
    assert (1000 * c * 8.70 <= 1000 * c * K0) by (apply Rmult_le_compat_l; lra).
    assert (1000 * c * K0 <= 1000 * c * 8.71) by (apply Rmult_le_compat_l; lra). lra. }
  assert (Q : 0 < 0.423 * (2 * PI / (5 / 10 ^ 7)) ^ 2) by interval. set (q := 0.423 * (2 * PI / (5 / 10 ^ 7)) ^ 2) in *.
  assert (G : forall y, 0 < y -> Rpower (q * (1000 * c * y)) (- (3 / 5)) = L * Rpower (q * (y / 10 ^ 7)) (- (3 / 5))).
  { intros y Hy. unfold c. replace (q * (1000 * (/ 10 ^ 10 * Rpower L (- (5 / 3))) * y)) with (Rpower L (- (5 / 3)) * (q * (y / 10 ^ 7))) by field.
    rewrite <- Rpower_mult_distr by (try apply exp_pos; apply Rmult_lt_0_compat; lra).
    rewrite Rpower_mult. replace (- (5 / 3) * - (3 / 5)) with 1 by field. rewrite Rpower_1 by lra. reflexivity. }
  split.
  - apply Rle_trans with (Rpower (q * (1000 * c * 8.84)) (- (3 / 5))).
    + rewrite G by lra. rewrite (Rmult_comm _ L). apply Rmult_le_compat_l; [lra|]. unfold q, Rpower. interval.
    + apply Rpower_neg_le; [apply Rmult_lt_0_compat; lra | apply Rmult_le_compat_l; lra | lra].
  - apply Rle_trans with (Rpower (q * (1000 * c * 8.57)) (- (3 / 5))).
    + apply Rpower_neg_le; [apply Rmult_lt_0_compat; lra | apply Rmult_le_compat_l; lra | lra].
    + rewrite G by lra. rewrite (Rmult_comm _ L). apply Rmult_le_compat_l; [lra|]. unfold q, Rpower. interval.
Qed.

(** ** The camera on the ground *)
Lemma up_weighted : 2.19 <= RInt (fun x => km x * (1 - x / 50)) 0 60.
Proof. unfold km. integral with (i_fuel 2000, i_degree 10, i_relwidth 20). Qed.
Lemma weight_range X x : 0 < X -> 0 <= x <= X -> 0 <= 1 - x / X <= 1.
Proof.
  intros HX Hx. assert (0 <= x / X <= 1); [|lra]. split; [apply Rmult_le_pos; [lra | left; apply Rinv_0_lt_compat; lra]|].
  apply Rmult_le_reg_r with X; [lra|]. unfold Rdiv. rewrite Rmult_assoc, Rinv_l by lra. lra.
Qed.
Lemma up_cont X : 0 < X -> forall x, continuous (fun x => km x * five_thirds (1 - x / X)) x.
Proof.
  intros HX x. apply (continuous_mult (K := R_AbsRing)); [apply km_cont|]. apply continuous_comp; [|apply five_thirds_cont].
  apply (ex_derive_continuous (K := R_AbsRing) (V := R_NormedModule)). auto_derive. lra.
Qed.
Lemma up_km_near X : 100 <= X -> 2.19 <= RInt (fun x => km x * five_thirds (1 - x / X)) 0 X <= 2.238.
Proof.
  intros HX. set (g := fun x => km x * five_thirds (1 - x / X)).
  assert (EX : forall a b, ex_RInt g a b) by (intros; apply (ex_RInt_continuous (V := R_CompleteNormedModule)); intros; apply up_cont; lra).
  assert (EK : forall a b, ex_RInt km a b) by (intros; apply (ex_RInt_continuous (V := R_CompleteNormedModule)); intros; apply km_cont).
  split.
  - rewrite <- (RInt_Chasles g 0 60 X (EX _ _) (EX _ _)). unfold plus; simpl.
    assert (T : 0 <= RInt g 60 X).
    { apply RInt_ge_0; [lra | apply EX|]. intros x Hx. apply Rmult_le_pos; [left; apply km_pos | apply five_thirds_ge0]. }
    assert (W := up_weighted). enough (RInt (fun x => km x * (1 - x / 50)) 0 60 <= RInt g 0 60) by lra.
    apply RInt_le; [lra | | apply EX|].
    + apply (ex_RInt_continuous (V := R_CompleteNormedModule)). intros x _. apply (continuous_mult (K := R_AbsRing)); [apply km_cont|].
      apply (ex_derive_continuous (K := R_AbsRing) (V := R_NormedModule)). auto_derive. auto.
    + intros x Hx. unfold g. apply Rmult_le_compat_l; [left; apply km_pos|].
      assert (B := five_thirds_below (1 - x / X) (weight_range X x ltac:(lra) ltac:(lra))).
      assert (Y : 0 <= x / X <= x / 100).
      { split; [apply Rmult_le_pos; [lra | left; apply Rinv_0_lt_compat; lra]|]. apply Rmult_le_compat_l; [lra|]. apply Rinv_le_contravar; lra. }
      nra.
  - apply Rle_trans with (RInt km 0 X).
    + apply RInt_le; [lra | apply EX | apply EK|]. intros x Hx. unfold g. destruct (weight_range X x ltac:(lra) ltac:(lra)) as [W0 W1].
      assert (B := five_thirds_below (1 - x / X) (conj W0 W1)). assert (P := km_pos x). nra.
    + rewrite <- (RInt_Chasles km 0 60 X (EK _ _) (EK _ _)). unfold plus; simpl. assert (W := whole_60).
      assert (T := integral_tail km X ltac:(lra) km_cont). destruct T as [T1 T2]; [|lra].
      intros x Hx. split; [left; apply km_pos | apply km_below; exact Hx].
Qed.
Lemma five_thirds_mono a b : a <= b -> five_thirds a <= five_thirds b.
Proof.
  intros H. unfold five_thirds. destruct (Rlt_dec 0 a) as [A | A], (Rlt_dec 0 b) as [B | B]; try lra; [|left; apply exp_pos].
  unfold Rpower. apply exp_le. apply Rmult_le_compat_l; [lra|]. destruct (Req_dec a b) as [-> | N]; [lra | left; apply ln_increasing; lra].
Qed.
Lemma weight_falls X u x : 0 < X -> u <= x -> five_thirds (1 - x / X) <= five_thirds (1 - u / X).
Proof. intros HX H. apply five_thirds_mono. assert (u / X <= x / X) by (apply Rmult_le_compat_r; [left; apply Rinv_0_lt_compat; lra | exact H]). lra. Qed.
Definition up_var (X x : R) : R :=
  c1 * hill_var (bump 10 1) (10 / 1) x - 0.0165 * five_thirds (1 - x / X) + - (0.27 * exp (- (x / 1.5)) * five_thirds (1 - x / X)) + - (17 * exp (- (x * 10)) * five_thirds (1 - x / X)).
Lemma bump_under p s x : 0 < p -> 0 < s -> 0 <= x -> bump p s x <= bump p s (p / s).
Proof.
  intros Hp Hs Hx. destruct (Rle_lt_dec x (p / s)) as [H | H]; [apply bump_up; lra | apply bump_down; lra].
Qed.
Lemma up_varies X : 0 < X -> varies (fun x => km x * five_thirds (1 - x / X)) (up_var X) X.
Proof.
  intros HX. assert (C := c1_val).
  apply varies_ext with (fun x => c1 * bump 10 1 x * five_thirds (1 - x / X) + 0.27 * exp (- (x / 1.5)) * five_thirds (1 - x / X) + 17 * exp (- (x * 10)) * five_thirds (1 - x / X)).
  { intros x Hx. unfold km. fold c1. unfold bump. destruct (Rlt_dec 0 x) as [H | H].
    - rewrite (pow_ln x 10) by exact H. replace (INR 10) with 10 by (simpl; lra). replace (10 * ln x - 1 * x) with (10 * ln x + - x) by ring. rewrite exp_plus. ring.
    - replace x with 0 by lra. rewrite pow_i by lia. ring. }
  assert (D : forall a b u x, 0 <= a -> 0 <= b -> u <= x -> a * exp (- (x * b)) * five_thirds (1 - x / X) <= a * exp (- (u * b)) * five_thirds (1 - u / X)).
  { intros a b u x Ha Hb H. assert (E1 := exp_pos (- (x * b))). assert (W := weight_falls X u x HX H). assert (W0 := five_thirds_ge0 (1 - x / X)).
    assert (E2 : exp (- (x * b)) <= exp (- (u * b))) by (apply exp_le; nra).
    apply Rmult_le_compat; [apply Rmult_le_pos; lra | exact W0 | apply Rmult_le_compat_l; lra | exact W]. }
  unfold up_var. repeat apply varies_plus.
  - apply varies_weight; [apply varies_scal; [lra | apply bump_varies; lra] | | |].
    + intros x Hx. assert (B := bump_ge0 10 1 x). assert (U := bump_under 10 1 x ltac:(lra) ltac:(lra) ltac:(lra)). rewrite bump_top in U by lra.
      assert (M : exp (10 * ln (10 / 1) - 10) <= 4.55 * 10 ^ 5) by interval. split; [apply Rmult_le_pos; lra|].
      apply Rle_trans with (3.6 / 10 ^ 8 * (4.55 * 10 ^ 5)); [apply Rmult_le_compat; lra | lra].
    + intros x Hx. split; [apply five_thirds_ge0|]. assert (W := weight_range X x HX Hx). assert (B := five_thirds_below _ W). lra.
    + intros u x Hu H _. apply weight_falls; assumption.
  - apply varies_decreasing. intros u x _ H _. assert (Q := D 0.27 (/ 1.5) u x ltac:(lra) ltac:(lra) H). exact Q.
  - apply varies_decreasing. intros u x _ H _. apply D; lra.
Qed.
Lemma up_total X : 0 < X -> up_var X X - up_var X 0 <= 17.33.
Proof.
  intros HX. unfold up_var. assert (C := c1_val). assert (B := bump_total 10 1 X ltac:(lra) ltac:(lra) ltac:(lra)). rewrite bump_top in B by lra.
  assert (M : exp (10 * ln (10 / 1) - 10) <= 4.55 * 10 ^ 5) by interval.
  replace (1 - X / X) with 0 by (field; lra). replace (1 - 0 / X) with 1 by (field; lra).
  replace (five_thirds 0) with 0 by (unfold five_thirds; destruct (Rlt_dec 0 0); lra).
  replace (five_thirds 1) with 1 by (unfold five_thirds; destruct (Rlt_dec 0 1); [unfold Rpower; rewrite ln_1, Rmult_0_r, exp_0; reflexivity | lra]).
  replace (- (0 / 1.5)) with 0 by lra. replace (- (0 * 10)) with 0 by ring. rewrite exp_0.
  set (v := hill_var (bump 10 1) (10 / 1) X) in *. set (w := hill_var (bump 10 1) (10 / 1) 0) in *.
  assert (c1 * (v - w) <= 3.6 / 10 ^ 8 * (2 * (4.55 * 10 ^ 5))).
  { apply Rle_trans with (c1 * (2 * (4.55 * 10 ^ 5))); [apply Rmult_le_compat_l; lra | apply Rmult_le_compat_r; lra]. }
  lra.
Qed.
Lemma varies_reflect f V L : varies f V L -> varies (fun z => f (L - z)) (fun z => - V (L - z)) L.
Proof.
  intros B u x Hu Hx HL. specialize (B (L - x) (L - u) ltac:(lra) ltac:(lra) ltac:(lra)). rewrite Rabs_minus_sym. lra.
Qed.
Lemma reflect_integral (f : R -> R) L : (forall x, continuous f x) -> RInt (fun z => f (L - z)) 0 L = RInt f 0 L.
Proof.
  intros C. assert (EX : forall a b, ex_RInt f a b) by (intros; apply (ex_RInt_continuous (V := R_CompleteNormedModule)); intros; apply C).
  assert (Q := RInt_comp_lin (V := R_CompleteNormedModule) f (-1) L 0 L (EX _ _)).
  replace (-1 * 0 + L) with L in Q by ring. replace (-1 * L + L) with 0 in Q by ring.
  rewrite <- (opp_RInt_swap (V := R_CompleteNormedModule) f 0 L (EX _ _)) in Q.
  rewrite (RInt_scal (V := R_CompleteNormedModule)) in Q.
  2:{ apply (ex_RInt_continuous (V := R_CompleteNormedModule)). intros x _. apply continuous_comp; [|apply C].
      apply (ex_derive_continuous (K := R_AbsRing) (V := R_NormedModule)). auto_derive. auto. }
  unfold scal, opp in Q; simpl in Q. unfold mult in Q; simpl in Q.
  rewrite (RInt_ext (fun z => f (L - z)) (fun y => f (-1 * y + L))) by (intros; f_equal; ring). lra.
Qed.
Lemma up_code k L : 100000 <= L <= 120000 ->
  exists zp hp r, altitude_along_slant_path k L 0 L = Ok (zp, hp) /\
    coherence_diameter (5 / 10 ^ 7) zp (map (fun h => hufnagel_valley_turbulence_profile h 21 (1.7 / 10 ^ 14)) hp) = Ok (Fin r) /\
    0.048 <= r <= 0.052.
Proof.
  intros [L0 L1]. assert (VP := vertical_path k L 0 ltac:(lra) ltac:(lra) ltac:(lra)).
  replace (Rabs (0 - L)) with L in VP by (rewrite Rabs_minus_sym, Rminus_0_r, Rabs_pos_eq; lra). eexists; eexists.
  destruct (coherence_even (5 / 10 ^ 7) L 9999 (fun z => cn57 (L - z))) as (r & E & P & F); [lra | lra | apply le_n_S, Nat.le_0_l | intros; apply cn57_good|].
  exists r. split; [exact VP|]. split.
  { rewrite <- E, !map_map, n9999. f_equal. apply map_ext. intros i. rewrite hv_fin. unfold cn57. do 2 f_equal. unfold Rdiv. ring. }
  rewrite F. clear E F P. set (X := L / 1000).
  set (f := fun z => cn57 z * five_thirds ((L - z) / L)).
  assert (CF : forall x, continuous f x).
  { intros x. apply (continuous_mult (K := R_AbsRing)); [apply cn57_good|]. apply continuous_comp; [|apply five_thirds_cont].
    apply (ex_derive_continuous (K := R_AbsRing) (V := R_NormedModule)). auto_derive. lra. }
  assert (SC : forall x, 0 <= x <= L / 1000 -> f (1000 * x) = / 10 ^ 15 * (km x * five_thirds (1 - x / X))).
  { intros x Hx. unfold f, X. rewrite cn57_km. replace ((L - 1000 * x) / L) with (1 - x / (L / 1000)) by (field; lra). lra. }
  assert (XP : 100 <= X <= 120) by (unfold X; lra).
  assert (VF := varies_reflect _ _ _ (varies_metres f _ (up_var X) (/ 10 ^ 15) L ltac:(lra) SC (up_varies X ltac:(lra)))).
  assert (CR : forall x, continuous (fun z => f (L - z)) x).
  { intros x. apply continuous_comp; [|apply CF]. apply (ex_derive_continuous (K := R_AbsRing) (V := R_NormedModule)). auto_derive. auto. }
  assert (TE := trapezoid_error _ _ L 9999 CR VF ltac:(lra) ltac:(apply le_n_S, Nat.le_0_l)).
  rewrite reflect_integral in TE by exact CF.
  rewrite (scale_integral f (fun x => km x * five_thirds (1 - x / X)) (/ 10 ^ 15) L ltac:(lra) CF (up_cont X ltac:(lra))) in TE by (intros x Hx; apply SC; lra).
  fold X in TE.
  assert (K := up_km_near X ltac:(lra)). set (K0 := RInt _ 0 X) in *. clearbody K0.
  assert (DT := up_total X ltac:(lra)). replace (L - L) with 0 in TE by ring. replace (L - 0) with L in TE by ring. replace (0 / 1000) with 0 in TE by field. fold X in TE.
  rewrite (map_ext (fun i => cn57 (L - L * INR i / INR 9999) * five_thirds (L * INR i / INR 9999 / L)) (fun i => f (L - L * INR i / INR 9999))).
  2:{ intros i. unfold f. do 2 f_equal. f_equal. ring. }
  set (T := trapezoid _ _) in *. clearbody T. rewrite n9999 in TE.
  assert (TB : 2.085 / 10 ^ 12 <= T <= 2.343 / 10 ^ 12).
  { apply Rabs_le_between in TE.
    set (d := up_var X X - up_var X 0) in *.
    assert (L / 9999 / 2 * d <= L / 9999 / 2 * 17.33) by (apply Rmult_le_compat_l; lra).
    replace (- (/ 10 ^ 15 * up_var X 0) - - (/ 10 ^ 15 * up_var X X)) with (/ 10 ^ 15 * d) in TE by (unfold d; ring).
    replace (L / 9999 / 2 * (/ 10 ^ 15 * d)) with (/ 10 ^ 15 * (L / 9999 / 2 * d)) in TE by ring.
    set (e := L / 9999 / 2 * d) in *. assert (e <= 104.1) by lra. lra. }
  assert (Q : 0 < 0.423 * (2 * PI / (5 / 10 ^ 7)) ^ 2) by interval. set (q := 0.423 * (2 * PI / (5 / 10 ^ 7)) ^ 2) in *.
  split.
  - apply Rle_trans with (Rpower (q * (2.343 / 10 ^ 12)) (- (3 / 5))); [unfold q, Rpower; interval|].
    apply Rpower_neg_le; [apply Rmult_lt_0_compat; lra | apply Rmult_le_compat_l; lra | lra].
  - apply Rle_trans with (Rpower (q * (2.085 / 10 ^ 12)) (- (3 / 5))); [|unfold q, Rpower; interval].
    apply Rpower_neg_le; [apply Rmult_lt_0_compat; lra | apply Rmult_le_compat_l; lra | lra].
Qed.
