(** * Proof_FriedBv: how far the trapezoidal rule is from the integral; the vertical path; the whole profile *)
From Coq Require Import Reals Lra Lia List Arith Psatz.
From Coquelicot Require Import Coquelicot.
From Verif Require Import Base_XR Base_Np Model_Geo Model_Otf Spec_Geo Spec_Rad Spec_Chain Proof_Geo Proof_Otf Proof_Turb Proof_Weight Proof_SystemX Proof_Fried.
Import ListNotations.
Open Scope R_scope.

(** ** Functions of bounded variation *)
(* V x - V u bounds every change of f between u and x *)
Definition varies (f V : R -> R) (L : R) : Prop := forall u x, 0 <= u -> u <= x -> x <= L -> Rabs (f x - f u) <= V x - V u.
Lemma cell_error (f V : R -> R) L u v : (forall x, continuous f x) -> varies f V L -> 0 <= u -> u <= v -> v <= L ->
  Rabs ((v - u) * (f u + f v) / 2 - RInt f u v) <= (v - u) * (V v - V u) / 2.
Proof.
  intros C B Hu Huv Hv.
  assert (E : is_RInt f u v (RInt f u v)) by (apply (RInt_correct (V := R_CompleteNormedModule)); apply (ex_RInt_continuous (V := R_CompleteNormedModule)); intros; apply C).
  assert (G : forall s, s = 1 \/ s = -1 -> s * (RInt f u v - (v - u) * (f u + f v) / 2) <= (v - u) * (V v - V u) / 2).
  { intros s Hs.
    assert (I1 : is_RInt (fun x => s * (f x - (f u + f v) / 2)) u v (s * (RInt f u v - (v - u) * ((f u + f v) / 2)))).
    { apply (is_RInt_scal (V := R_NormedModule) (fun x => f x - (f u + f v) / 2) u v s (RInt f u v - (v - u) * ((f u + f v) / 2))).
      apply (is_RInt_minus (V := R_NormedModule) f (fun _ => (f u + f v) / 2) u v); [exact E|]. apply (is_RInt_const (V := R_NormedModule)). }
    assert (I2 := is_RInt_const (V := R_NormedModule) u v ((V v - V u) / 2)).
    assert (Q := is_RInt_le _ _ u v _ _ Huv I1 I2). unfold scal in Q; simpl in Q. unfold mult in Q; simpl in Q.
    replace (s * (RInt f u v - (v - u) * (f u + f v) / 2)) with (s * (RInt f u v - (v - u) * ((f u + f v) / 2))) by field.
    replace ((v - u) * (V v - V u) / 2) with ((v - u) * ((V v - V u) / 2)) by field. apply Q.
    intros x Hx. assert (A := B u x Hu ltac:(lra) ltac:(lra)). assert (D := B x v ltac:(lra) ltac:(lra) Hv).
    apply Rabs_le_between in A. apply Rabs_le_between in D. destruct Hs; subst s; lra. }
  apply Rabs_le. generalize (G 1 (or_introl eq_refl)) (G (-1) (or_intror eq_refl)). lra.
Qed.
Lemma first_cell (f g : nat -> R) k :
  trapezoid (map f (seq 0 (S (S k)))) (map g (seq 0 (S (S k))))
  = (g 1%nat - g 0%nat) * (f 0%nat + f 1%nat) / 2 + trapezoid (map (fun i => f (S i)) (seq 0 (S k))) (map (fun i => g (S i)) (seq 0 (S k))).
Proof.
  change (seq 0 (S (S k))) with (0%nat :: seq 1 (S k)). rewrite <- (map_map S f), <- (map_map S g), seq_shift.
  change (seq 1 (S k)) with (1%nat :: seq 2 k). reflexivity.
Qed.
Lemma cells_error (f V : R -> R) L h : (forall x, continuous f x) -> varies f V L -> 0 <= h ->
  forall k a, 0 <= a -> a + h * INR k <= L ->
  Rabs (trapezoid (map (fun i => f (a + h * INR i)) (seq 0 (S k))) (map (fun i => a + h * INR i) (seq 0 (S k))) - RInt f a (a + h * INR k))
  <= h / 2 * (V (a + h * INR k) - V a).
Proof.
  intros C B Hh. induction k as [|k IH]; intros a Ha HL.
  - simpl. rewrite Rmult_0_r, Rplus_0_r, RInt_point. unfold zero; simpl. rewrite Rminus_0_r, Rabs_R0. lra.
  - assert (P : 0 <= INR k) by apply pos_INR.
    assert (HL' := HL). rewrite S_INR in HL'.
    assert (K : 0 <= h * INR k) by (apply Rmult_le_pos; lra).
    assert (E : forall i, a + h * INR (S i) = a + h + h * INR i) by (intros; rewrite S_INR; ring).
    rewrite first_cell. rewrite (map_ext (fun i => f (a + h * INR (S i))) (fun i => f (a + h + h * INR i))) by (intros; rewrite E; reflexivity).
    rewrite (map_ext (fun i => a + h * INR (S i)) (fun i => a + h + h * INR i)) by (intros; apply E).
    replace (a + h * INR 0) with a by (simpl; ring). replace (a + h * INR 1) with (a + h) by (simpl; ring).
    specialize (IH (a + h) ltac:(lra) ltac:(lra)).
    rewrite E. set (T := trapezoid _ _) in *. set (w := a + h + h * INR k) in *.
    assert (CE := cell_error f V L a (a + h) C B Ha ltac:(lra) ltac:(unfold w in *; lra)).
    assert (EX : forall x y, ex_RInt f x y) by (intros; apply (ex_RInt_continuous (V := R_CompleteNormedModule)); intros; apply C).
    rewrite <- (RInt_Chasles f a (a + h) w (EX _ _) (EX _ _)). unfold plus; simpl.
    replace (a + h - a) with h in * by ring.
    apply Rabs_le_between in CE. apply Rabs_le_between in IH. apply Rabs_le. lra.
Qed.
Lemma trapezoid_error (f V : R -> R) L n : (forall x, continuous f x) -> varies f V L -> 0 < L -> (1 <= n)%nat ->
  Rabs (trapezoid (map (fun i => f (L * INR i / INR n)) (seq 0 (S n))) (map (fun i => L * INR i / INR n) (seq 0 (S n))) - RInt f 0 L)
  <= L / INR n / 2 * (V L - V 0).
Proof.
  intros C B HL Hn. assert (N : 0 < INR n) by (apply lt_0_INR; lia).
  assert (Q := cells_error f V L (L / INR n) C B ltac:(left; apply Rdiv_lt_0_compat; lra) n 0 (Rle_refl 0)).
  replace (0 + L / INR n * INR n) with L in Q by (field; lra). specialize (Q (Rle_refl L)).
  rewrite (map_ext (fun i => f (0 + L / INR n * INR i)) (fun i => f (L * INR i / INR n))) in Q by (intros; f_equal; field; lra).
  rewrite (map_ext (fun i => 0 + L / INR n * INR i) (fun i => L * INR i / INR n)) in Q by (intros; field; lra).
  exact Q.
Qed.
Lemma varies_plus f g V W L : varies f V L -> varies g W L -> varies (fun x => f x + g x) (fun x => V x + W x) L.
Proof.
  intros A B u x Hu Hx HL. specialize (A u x Hu Hx HL). specialize (B u x Hu Hx HL).
  apply Rabs_le_between in A. apply Rabs_le_between in B. apply Rabs_le. lra.
Qed.
Lemma varies_decreasing f L : (forall u x, 0 <= u -> u <= x -> x <= L -> f x <= f u) -> varies f (fun x => - f x) L.
Proof. intros D u x Hu Hx HL. specialize (D u x Hu Hx HL). apply Rabs_le. lra. Qed.
(* up to its highest point at c, down afterwards *)
Definition hill_var (f : R -> R) (c x : R) : R := if Rle_dec x c then f x else 2 * f c - f x.
Lemma varies_hill f c L : 0 <= c -> (forall u x, 0 <= u -> u <= x -> x <= c -> f u <= f x) -> (forall u x, c <= u -> u <= x -> f x <= f u) ->
  varies f (hill_var f c) L.
Proof.
  intros Hc Up Dn u x Hu Hx _. unfold hill_var. destruct (Rle_dec x c) as [X | X], (Rle_dec u c) as [U | U]; try lra.
  - specialize (Up u x Hu Hx X). apply Rabs_le. lra.
  - assert (A := Up u c Hu U (Rle_refl c)). assert (B := Dn c x (Rle_refl c) ltac:(lra)). apply Rabs_le. lra.
  - assert (B := Dn u x ltac:(lra) Hx). apply Rabs_le. lra.
Qed.
Lemma hill_total f c L : 0 <= c -> (forall x, 0 <= f x) -> (forall u x, 0 <= u -> u <= x -> x <= c -> f u <= f x) ->
  0 <= L -> hill_var f c L - hill_var f c 0 <= 2 * f c.
Proof.
  intros Hc P Up HL. unfold hill_var. destruct (Rle_dec 0 c) as [_|]; [|lra]. assert (A := P 0). assert (B := P c). assert (D := P L).
  destruct (Rle_dec L c) as [X | X]; [assert (E := Up L c HL X (Rle_refl c)); lra | lra].
Qed.
(* times a decreasing weight between zero and one *)
Lemma varies_weight f V w M L : varies f V L -> (forall x, 0 <= x <= L -> 0 <= f x <= M) -> (forall x, 0 <= x <= L -> 0 <= w x <= 1) ->
  (forall u x, 0 <= u -> u <= x -> x <= L -> w x <= w u) -> varies (fun x => f x * w x) (fun x => V x - M * w x) L.
Proof.
  intros B F W D u x Hu Hx HL. specialize (B u x Hu Hx HL). specialize (D u x Hu Hx HL).
  assert (F1 := F u ltac:(lra)). assert (W1 := W x ltac:(lra)). assert (W2 := W u ltac:(lra)).
  replace (f x * w x - f u * w u) with ((f x - f u) * w x - f u * (w u - w x)) by ring.
  apply Rabs_le_between in B. apply Rabs_le. 
  assert (- (V x - V u) <= (f x - f u) * w x <= V x - V u) by nra.
  assert (0 <= f u * (w u - w x) <= M * (w u - w x)) by (split; [apply Rmult_le_pos; lra | apply Rmult_le_compat_r; lra]). lra.
Qed.

(** ** x to the p times exp (- s x) *)
Definition bump (p s x : R) : R := if Rlt_dec 0 x then exp (p * ln x - s * x) else 0.
Lemma bump_ge0 p s x : 0 <= bump p s x.
Proof. unfold bump. destruct (Rlt_dec 0 x); [left; apply exp_pos | lra]. Qed.
Lemma ln_step u x : 0 < u -> u <= x -> (x - u) / x <= ln x - ln u <= (x - u) / u.
Proof.
  intros Hu Hx.
  assert (A : forall y, 0 < y -> ln y <= y - 1).
  { intros y Hy. assert (Q := exp_ineq1_le (ln y)). rewrite exp_ln in Q by exact Hy. lra. }
  split.
  - assert (Q := A (u / x) ltac:(apply Rdiv_lt_0_compat; lra)). rewrite ln_div in Q by lra.
    replace ((x - u) / x) with (1 - u / x) by (field; lra). lra.
  - assert (Q := A (x / u) ltac:(apply Rdiv_lt_0_compat; lra)). rewrite ln_div in Q by lra.
    replace ((x - u) / u) with (x / u - 1) by (field; lra). lra.
Qed.
Lemma bump_up p s u x : 0 < p -> 0 < s -> 0 <= u -> u <= x -> x <= p / s -> bump p s u <= bump p s x.
Proof.
  intros Hp Hs Hu Hx Hc. unfold bump. destruct (Rlt_dec 0 u) as [U | U]; [|destruct (Rlt_dec 0 x); [left; apply exp_pos | lra]].
  destruct (Rlt_dec 0 x) as [X | X]; [|lra]. apply exp_le.
  destruct (ln_step u x U Hx) as [A _]. assert (s * x <= p).
  { apply Rmult_le_compat_l with (r := s) in Hc; [|lra]. replace (s * (p / s)) with p in Hc by (field; lra). exact Hc. }
  assert (B : s * (x - u) <= p * ((x - u) / x)).
  { apply Rmult_le_reg_r with x; [lra|]. replace (p * ((x - u) / x) * x) with (p * (x - u)) by (field; lra). nra. }
  assert (p * ((x - u) / x) <= p * (ln x - ln u)) by (apply Rmult_le_compat_l; lra). lra.
Qed.
Lemma bump_down p s u x : 0 < p -> 0 < s -> p / s <= u -> u <= x -> bump p s x <= bump p s u.
Proof.
  intros Hp Hs Hc Hx. assert (C0 : 0 < p / s) by (apply Rdiv_lt_0_compat; lra). unfold bump.
  destruct (Rlt_dec 0 u) as [U | U]; [|lra]. destruct (Rlt_dec 0 x) as [X | X]; [|lra]. apply exp_le.
  destruct (ln_step u x U Hx) as [_ A]. assert (p <= s * u).
  { apply Rmult_le_compat_l with (r := s) in Hc; [|lra]. replace (s * (p / s)) with p in Hc by (field; lra). exact Hc. }
  assert (B : p * ((x - u) / u) <= s * (x - u)).
  { apply Rmult_le_reg_r with u; [lra|]. replace (p * ((x - u) / u) * u) with (p * (x - u)) by (field; lra). nra. }
  assert (p * (ln x - ln u) <= p * ((x - u) / u)) by (apply Rmult_le_compat_l; lra). lra.
Qed.

(** ** The vertical path *)
Lemma norm_axis y : 0 <= y -> norm (0, y) = y.
Proof. intros H. unfold norm, dot. simpl. replace (0 * 0 + y * y) with (y * y) by ring. apply sqrt_square. exact H. Qed.
Lemma list_nth_map {A} (l : list A) (d : A) (f : nat -> A) n : length l = n -> (forall i, (i < n)%nat -> nth i l d = f i) -> l = map f (seq 0 n).
Proof.
  intros L H. apply (nth_ext _ _ d d). { rewrite map_length, seq_length. exact L. }
  intros i Hi. rewrite L in Hi. rewrite H by exact Hi. rewrite (nth_indep _ d (f 0%nat)) by (rewrite map_length, seq_length; exact Hi).
  rewrite map_nth, seq_nth by exact Hi. reflexivity.
Qed.
Lemma vertical_path k ht hs : 0 <= ht -> 0 <= hs -> ht <> hs ->
  altitude_along_slant_path k ht hs (Rabs (hs - ht))
  = Ok (map (fun i => Fin (Rabs (hs - ht) * INR i / 9999)) (seq 0 10000), map (fun i => Fin (ht + (hs - ht) * INR i / 9999)) (seq 0 10000)).
Proof.
  intros Ht Hs N. assert (HR : 0 < r_earth) by (unfold r_earth; lra).
  assert (D : dist (0, r_earth + ht) (sensor_pt hs) = Rabs (hs - ht)).
  { unfold dist, vsub, sensor_pt, on_axis, norm, dot. simpl. replace ((0 - 0) * (0 - 0) + (r_earth + ht - (r_earth + hs)) * (r_earth + ht - (r_earth + hs))) with (Rsqr (hs - ht)) by (unfold Rsqr; ring).
    apply sqrt_Rsqr_abs. }
  assert (HH : height r_earth (0, r_earth + ht) = ht) by (unfold height; rewrite norm_axis by lra; ring).
  destruct (path_of_point k hs (0, r_earth + ht)) as (zs & hp & E & Lz & Lh & V); [lra | rewrite D; apply Rabs_pos_lt; lra|].
  rewrite D, HH in E. rewrite E. do 2 f_equal.
  - apply (list_nth_map zs NaN _ 10000 Lz). intros i Hi. destruct (V i Hi) as [-> _]. rewrite D. f_equal. unfold Rdiv. ring.
  - apply (list_nth_map hp NaN _ 10000 Lh). intros i Hi. destruct (V i Hi) as [_ ->]. f_equal.
    unfold height, along, sensor_pt, on_axis. cbn [fst snd].
    assert (I0 : 0 <= INR i / 9999 <= 1).
    { assert (0 <= INR i) by apply pos_INR. assert (INR i <= 9999) by (replace 9999 with (INR 9999) by (rewrite INR_IZR_INZ; reflexivity); apply le_INR; exact (proj1 (Nat.lt_succ_r i 9999) Hi)). lra. }
    replace (0 + INR i / 9999 * (0 - 0)) with 0 by ring. rewrite norm_axis by nra. unfold Rdiv. ring.
Qed.

(** ** The whole profile *)
Fixpoint prim (s : R) (n : nat) (h : R) : R :=
  match n with
  | O => - s * exp (- h / s)
  | S n' => - s * h ^ n * exp (- h / s) + INR n * s * prim s n' h
  end.
Lemma prim_derive s n h : s <> 0 -> is_derive (prim s n) h (h ^ n * exp (- h / s)).
Proof.
  intros Hs. induction n as [|n IH].
  - simpl prim. auto_derive; [exact I|]. simpl. unfold Rdiv. field. exact Hs.
  - change (prim s (S n)) with (fun h => - s * h ^ (S n) * exp (- h / s) + INR (S n) * s * prim s n h).
    evar_last.
    { apply (is_derive_plus (K := R_AbsRing) (V := R_NormedModule) (fun h => - s * h ^ (S n) * exp (- h / s)) (fun h => INR (S n) * s * prim s n h)).
      - auto_derive; [exact I | reflexivity].
      - apply (is_derive_scal (prim s n) h (INR (S n) * s)). exact IH. }
    unfold plus, scal; simpl. unfold mult; simpl. unfold Rdiv. field. exact Hs.
Qed.
Lemma prim_0 s n : s <> 0 -> prim s n 0 = - (INR (fact n) * s ^ (S n)).
Proof.
  intros Hs. induction n as [|n IH].
  - simpl. replace (- 0 / s) with 0 by (field; exact Hs). rewrite exp_0. ring.
  - change (prim s (S n) 0) with (- s * 0 ^ (S n) * exp (- 0 / s) + INR (S n) * s * prim s n 0). rewrite IH, pow_i by lia.
    change (fact (S n)) with (S n * fact n)%nat. rewrite mult_INR. simpl. ring.
Qed.
Lemma power_decays s n : 0 < s -> is_lim (fun h => h ^ n * exp (- h / s)) p_infty 0.
Proof.
  intros Hs. set (c := s * INR (S n)). assert (C : 0 < c) by (apply Rmult_lt_0_compat; [exact Hs | apply lt_0_INR; lia]).
  assert (U : is_lim (fun h => c ^ (S n) * / h) p_infty 0).
  { evar_last. { apply is_lim_scal_l. apply is_lim_inv; [apply is_lim_id | discriminate]. } simpl. f_equal. ring. }
  apply (is_lim_le_le_loc (fun _ => 0) (fun h => c ^ (S n) * / h) _ p_infty 0).
  - exists 0. intros h Hh. split.
    + apply Rmult_le_pos; [apply pow_le; lra | left; apply exp_pos].
    + assert (E : (h / c) ^ (S n) <= exp (h / s)).
      { apply Rle_trans with (exp (h / c) ^ (S n)).
        - apply pow_incr. split; [left; apply Rdiv_lt_0_compat; lra|]. generalize (exp_ineq1_le (h / c)). lra.
        - right. assert (G : forall k y, exp y ^ k = exp (INR k * y)).
          { induction k as [|k IH]; intros y; [simpl; rewrite Rmult_0_l, exp_0; reflexivity|]. rewrite S_INR, Rmult_plus_distr_r, Rmult_1_l, exp_plus, <- IH. simpl. ring. }
          rewrite G. f_equal. unfold c. field. split; [lra | apply not_0_INR; lia]. }
      replace (- h / s) with (- (h / s)) by (field; lra). rewrite exp_Ropp.
      assert (P := exp_pos (h / s)). apply Rmult_le_reg_r with (exp (h / s)); [exact P|]. rewrite Rmult_assoc, Rinv_l, Rmult_1_r by lra.
      apply Rle_trans with (c ^ S n * / h * (h / c) ^ (S n)).
      * right. unfold Rdiv. rewrite Rpow_mult_distr, pow_inv. simpl. field. split; [apply pow_nonzero; lra | lra].
      * apply Rmult_le_compat_l; [|exact E]. apply Rmult_le_pos; [apply pow_le; lra | left; apply Rinv_0_lt_compat; lra].
  - apply is_lim_const.
  - exact U.
Qed.
Lemma lim_scal0 c f : is_lim f p_infty 0 -> is_lim (fun h => c * f h) p_infty 0.
Proof. intros H. evar_last; [apply is_lim_scal_l; exact H|]. simpl. f_equal. ring. Qed.
Lemma prim_decays s n : 0 < s -> is_lim (prim s n) p_infty 0.
Proof.
  intros Hs. induction n as [|n IH].
  - apply is_lim_ext with (fun h => - s * (h ^ 0 * exp (- h / s))); [intros h; simpl; ring|].
    apply lim_scal0, power_decays, Hs.
  - apply is_lim_ext with (fun h => - s * (h ^ (S n) * exp (- h / s)) + INR (S n) * s * prim s n h).
    { intros h. change (prim s (S n) h) with (- s * h ^ (S n) * exp (- h / s) + INR (S n) * s * prim s n h). ring. }
    evar_last; [apply is_lim_plus'; [apply lim_scal0, power_decays, Hs | apply lim_scal0, IH]|]. f_equal. ring.
Qed.
Lemma fact10 : INR (fact 10) = 3628800.
Proof. rewrite !fact_simpl, !mult_INR. change (fact 0) with 1%nat. rewrite !INR_IZR_INZ. cbn [Z.of_nat Pos.of_succ_nat Pos.succ]. lra. Qed.
Lemma whole_profile v a : forall prof, (forall h, hufnagel_valley_turbulence_profile (Fin h) v a = Fin (prof h)) ->
  (forall H, ex_RInt prof 0 H) /\
  is_lim (fun H => RInt prof 0 H) p_infty (5.94 * 3628800 / 10 ^ 20 * (v / 27) ^ 2 + 4.05 / 10 ^ 13 + 100 * a).
Proof.
  intros prof E.
  assert (P : forall h, prof h = hv h v a) by (intros h; specialize (E h); rewrite hv_fin in E; injection E as E; now symmetry).
  set (A := 5.94 / 10 ^ 53 * (v / 27 * (v / 27))).
  set (G := fun h => A * prim 1000 10 h + 2.7 / 10 ^ 16 * prim 1500 0 h + a * prim 100 0 h).
  assert (D : forall h, is_derive G h (prof h)).
  { intros h. rewrite P. unfold G, hv. fold A. evar_last.
    { apply (is_derive_plus (K := R_AbsRing) (V := R_NormedModule) (fun h => A * prim 1000 10 h + 2.7 / 10 ^ 16 * prim 1500 0 h) (fun h => a * prim 100 0 h)).
      - apply (is_derive_plus (K := R_AbsRing) (V := R_NormedModule) (fun h => A * prim 1000 10 h) (fun h => 2.7 / 10 ^ 16 * prim 1500 0 h));
          apply is_derive_scal; apply prim_derive; lra.
      - apply is_derive_scal; apply prim_derive; lra. }
    unfold plus; simpl. ring. }
  assert (C : forall h, continuous prof h).
  { intros h. apply continuous_ext with (fun h => hv h v a); [intros; symmetry; apply P|].
    apply (ex_derive_continuous (K := R_AbsRing) (V := R_NormedModule)). unfold hv. auto_derive. auto. }
  assert (I : forall H, is_RInt prof 0 H (G H - G 0)).
  { intros H. apply (is_RInt_derive (V := R_CompleteNormedModule) G prof); intros x _; [apply D | apply C]. }
  split; [intros H; eexists; apply I|].
  apply is_lim_ext with (fun H => G H + - G 0). { intros H. rewrite (is_RInt_unique _ _ _ _ (I H)). ring. }
  evar_last.
  { apply is_lim_plus'; [|apply is_lim_const]. unfold G. apply is_lim_plus'; [apply is_lim_plus'|]; apply lim_scal0; apply prim_decays; lra. }
  simpl. f_equal. unfold G. rewrite !prim_0 by lra. unfold A. rewrite fact10. change (INR (fact 0)) with 1. simpl. lra.
Qed.
