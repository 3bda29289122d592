(** * Proof_Sample: how well the trapezoidal rule samples thermal emission *)
From Coq Require Import Reals Lra Lia List Psatz.
From Coquelicot Require Import Coquelicot.
From Verif Require Import Base_XR Base_Np Model_Sensor Model_Rad Spec_Rad Spec_Sample Proof_Rad Num_Planck.
Import ListNotations.
Open Scope R_scope.

(** ** one cell *)
Lemma cell_parts (f f1 f2 : R -> R) a b : a <= b ->
  (forall x, a <= x <= b -> is_derive f x (f1 x)) -> (forall x, a <= x <= b -> is_derive f1 x (f2 x)) ->
  (forall x, a <= x <= b -> continuous f2 x) ->
  is_RInt (fun x => (x - a) * (b - x) / 2 * f2 x + f x) a b ((b - a) * (f a + f b) / 2).
Proof.
  intros H D1 D2 C.
  assert (IN : forall x, Rmin a b <= x <= Rmax a b -> a <= x <= b) by (intros x; rewrite Rmin_left, Rmax_right; auto; lra).
  set (P := fun x => (x - a) * (b - x) / 2 * f1 x - ((a + b) / 2 - x) * f x).
  replace ((b - a) * (f a + f b) / 2) with (minus (P b) (P a)) by (unfold minus, plus, opp, P; simpl; field).
  apply (is_RInt_derive P).
  - intros x Hx. apply IN in Hx. unfold P.
    evar_last.
    { apply (is_derive_minus (V := R_NormedModule)).
      - apply (is_derive_mult (fun x => (x - a) * (b - x) / 2) f1).
        + auto_derive; [exact I|reflexivity].
        + now apply D2.
        + intros; apply Rmult_comm.
      - apply (is_derive_mult (fun x => (a + b) / 2 - x) f).
        + auto_derive; [exact I|reflexivity].
        + now apply D1.
        + intros; apply Rmult_comm. }
    unfold minus, plus, opp, mult; simpl. field.
  - intros x Hx. apply IN in Hx.
    apply (continuous_plus (V := R_NormedModule) (fun x => (x - a) * (b - x) / 2 * f2 x) f).
    + apply (continuous_mult (K := R_AbsRing) (fun x => (x - a) * (b - x) / 2) f2); [|now apply C].
      apply (ex_derive_continuous (V := R_NormedModule)). auto_derive. exact I.
    + apply (ex_derive_continuous (V := R_NormedModule)). eexists. now apply D1.
Qed.

Lemma bump a b x : a <= x <= b -> 0 <= (x - a) * (b - x) / 2 <= (b - a) ^ 2 / 8.
Proof. intros H. assert (0 <= (x - a) * (b - x)) by (apply Rmult_le_pos; lra). split; [lra|]. pose proof (pow2_ge_0 (a + b - 2 * x)). nra. Qed.

Lemma cell_near (f f1 f2 : R -> R) a b K J : a <= b -> 0 <= K ->
  (forall x, a <= x <= b -> is_derive f x (f1 x)) -> (forall x, a <= x <= b -> is_derive f1 x (f2 x)) ->
  (forall x, a <= x <= b -> continuous f2 x) -> (forall x, a <= x <= b -> Rabs (f2 x) <= K * f x) ->
  is_RInt f a b J -> Rabs ((b - a) * (f a + f b) / 2 - J) <= K * ((b - a) ^ 2 / 8) * J.
Proof.
  intros H K0 D1 D2 C B HJ. pose proof (cell_parts f f1 f2 a b H D1 D2 C) as P.
  set (e := K * ((b - a) ^ 2 / 8)).
  assert (U : (b - a) * (f a + f b) / 2 <= (1 + e) * J).
  { apply (is_RInt_le (fun x => (x - a) * (b - x) / 2 * f2 x + f x) (fun x => (1 + e) * f x) a b); auto.
    - now apply (is_RInt_scal (V := R_NormedModule) f).
    - intros x Hx. assert (Hx' : a <= x <= b) by lra. pose proof (bump a b x Hx') as [B0 B1].
      pose proof (B x Hx') as Bx. apply Rabs_le_between in Bx. pose proof (Rabs_pos (f2 x)).
      assert ((x - a) * (b - x) / 2 * f2 x <= (x - a) * (b - x) / 2 * (K * f x)) by (apply Rmult_le_compat_l; lra).
      assert ((x - a) * (b - x) / 2 * (K * f x) <= (b - a) ^ 2 / 8 * (K * f x)) by (apply Rmult_le_compat_r; lra).
      unfold e. lra. }
  assert (L : (1 - e) * J <= (b - a) * (f a + f b) / 2).
  { apply (is_RInt_le (fun x => (1 - e) * f x) (fun x => (x - a) * (b - x) / 2 * f2 x + f x) a b); auto.
    - now apply (is_RInt_scal (V := R_NormedModule) f).
    - intros x Hx. assert (Hx' : a <= x <= b) by lra. pose proof (bump a b x Hx') as [B0 B1].
      pose proof (B x Hx') as Bx. apply Rabs_le_between in Bx.
      assert ((x - a) * (b - x) / 2 * (- (K * f x)) <= (x - a) * (b - x) / 2 * f2 x) by (apply Rmult_le_compat_l; lra).
      assert ((x - a) * (b - x) / 2 * (K * f x) <= (b - a) ^ 2 / 8 * (K * f x)) by (apply Rmult_le_compat_r; lra).
      unfold e. lra. }
  apply Rabs_le. lra.
Qed.

Lemma cell_over (f f1 f2 : R -> R) a b J : a <= b ->
  (forall x, a <= x <= b -> is_derive f x (f1 x)) -> (forall x, a <= x <= b -> is_derive f1 x (f2 x)) ->
  (forall x, a <= x <= b -> continuous f2 x) -> (forall x, a <= x <= b -> 0 <= f2 x) ->
  is_RInt f a b J -> J <= (b - a) * (f a + f b) / 2.
Proof.
  intros H D1 D2 C B HJ. pose proof (cell_parts f f1 f2 a b H D1 D2 C) as P.
  apply (is_RInt_le f (fun x => (x - a) * (b - x) / 2 * f2 x + f x) a b); auto.
  intros x Hx. assert (Hx' : a <= x <= b) by lra. pose proof (bump a b x Hx') as [B0 _].
  pose proof (Rmult_le_pos _ _ B0 (B x Hx')). lra.
Qed.

(** ** the photon curve l^-4 / (exp (c/l) - 1) *)
Definition ph (c l : R) : R := / (l ^ 4 * (exp (c / l) - 1)).
Definition ph1 (c l : R) : R := - 4 / (l ^ 5 * (exp (c / l) - 1)) + c * exp (c / l) / (l ^ 6 * (exp (c / l) - 1) ^ 2).
Definition ph2 (c l : R) : R :=
  20 / (l ^ 6 * (exp (c / l) - 1)) - 10 * c * exp (c / l) / (l ^ 7 * (exp (c / l) - 1) ^ 2)
  + c ^ 2 * exp (c / l) * (exp (c / l) + 1) / (l ^ 8 * (exp (c / l) - 1) ^ 3).
Lemma ph_e c l : 0 < c -> 0 < l -> c / l < exp (c / l) - 1.
Proof. intros C L. assert (0 < c / l) by now apply Rdiv_lt_0_compat. pose proof (exp_ineq1 (c / l) ltac:(lra)). lra. Qed.
Lemma ph_e0 c l : 0 < c -> 0 < l -> 0 < exp (c / l) - 1.
Proof. intros C L. assert (0 < c / l) by now apply Rdiv_lt_0_compat. pose proof (ph_e c l C L). lra. Qed.
Ltac nz := repeat apply Rmult_integral_contrapositive_currified; try lra.
Lemma ph_der c l : 0 < c -> 0 < l -> is_derive (ph c) l (ph1 c l).
Proof.
  intros C L. pose proof (ph_e0 c l C L). unfold ph, ph1. auto_derive.
  - unfold Rdiv in H. repeat split; nz.
  - unfold Rdiv. field. unfold Rdiv in H. split; lra.
Qed.
Lemma ph1_der c l : 0 < c -> 0 < l -> is_derive (ph1 c) l (ph2 c l).
Proof.
  intros C L. pose proof (ph_e0 c l C L). unfold ph1, ph2. auto_derive.
  - unfold Rdiv in H. repeat split; nz.
  - unfold Rdiv. field. unfold Rdiv in H. split; lra.
Qed.
Lemma ph2_cont c l : 0 < c -> 0 < l -> continuous (ph2 c) l.
Proof.
  intros C L. pose proof (ph_e0 c l C L). apply (ex_derive_continuous (V := R_NormedModule)). unfold ph2. auto_derive.
  unfold Rdiv in H. repeat split; nz.
Qed.
Lemma ph_pos c l : 0 < c -> 0 < l -> 0 < ph c l.
Proof. intros C L. pose proof (ph_e0 c l C L). apply Rinv_0_lt_compat, Rmult_lt_0_compat; auto. now apply pow_lt. Qed.

(* curvature over height, in terms of x = c/l and r = 1/(e^x - 1) *)
Lemma ph2_ratio c l : 0 < c -> 0 < l -> let x := c / l in let r := / (exp x - 1) in
  ph2 c l = ph c l / l ^ 2 * (20 - 10 * (x * (1 + r)) + x ^ 2 * (1 + r) * (1 + 2 * r)).
Proof.
  intros C L x r. pose proof (ph_e0 c l C L). unfold r. replace c with (x * l) by (unfold x; field; lra). fold x in H.
  unfold ph2, ph. replace (x * l / l) with x by (field; lra). field. lra.
Qed.
Lemma occupation x : 0 < x -> let r := / (exp x - 1) in 0 < r /\ x * r <= 1 /\ 1 <= x * (1 + r).
Proof.
  intros H r. pose proof (exp_ineq1 x ltac:(lra)). assert (P : 0 < exp x - 1) by lra.
  assert (E : r * (exp x - 1) = 1) by (unfold r; field; lra).
  assert (0 < r) by now apply Rinv_0_lt_compat. repeat split; auto.
  - nra.
  - pose proof (exp_ineq1 (- x) ltac:(lra)) as M. rewrite exp_Ropp in M. pose proof (exp_pos x).
    assert (exp x * (1 - x) < 1). { apply (Rmult_lt_compat_l (exp x)) in M; auto. rewrite Rinv_r in M by lra. lra. }
    (* x (1 + r) = x e^x / (e^x - 1) *)
    replace (x * (1 + r)) with (x * exp x * r) by (unfold r; field; lra).
    nra.
Qed.
Lemma ph2_bound c l : 0 < c -> 0 < l -> Rabs (ph2 c l) <= ((c / l + 5) / l) ^ 2 * ph c l.
Proof.
  intros C L. rewrite (ph2_ratio c l C L). set (x := c / l). cbv zeta. set (r := / (exp x - 1)).
  assert (X : 0 < x) by now apply Rdiv_lt_0_compat.
  destruct (occupation x X) as (R0 & R1 & R2). fold r in R0, R1, R2.
  pose proof (ph_pos c l C L) as P. assert (L2 : 0 < l ^ 2) by now apply pow_lt.
  replace (((x + 5) / l) ^ 2 * ph c l) with (ph c l / l ^ 2 * (x + 5) ^ 2) by (field; lra).
  assert (Q0 : 0 <= ph c l / l ^ 2) by (apply Rlt_le, Rdiv_lt_0_compat; auto).
  rewrite Rabs_mult, (Rabs_pos_eq _ Q0). apply Rmult_le_compat_l; auto.
  set (u := x * (1 + r)) in *. assert (U : u <= 1 + x) by (unfold u; lra).
  replace (x ^ 2 * (1 + r) * (1 + 2 * r)) with (u ^ 2 + u * (x * r)) by (unfold u; ring).
  assert (0 <= u * (x * r)) by (apply Rmult_le_pos; [lra|apply Rmult_le_pos; lra]).
  assert (u * (x * r) <= u * 1) by (apply Rmult_le_compat_l; lra).
  apply Rabs_le. split.
  - pose proof (pow2_ge_0 (u - 5)). nra.
  - nra.
Qed.
Lemma ph2_convex c l : 0 < c -> 0 < l -> 7.24 <= c / l -> 0 <= ph2 c l.
Proof.
  intros C L X. rewrite (ph2_ratio c l C L). set (x := c / l) in *. cbv zeta. set (r := / (exp x - 1)).
  destruct (occupation x ltac:(lra)) as (R0 & R1 & R2). fold r in R0, R1, R2.
  pose proof (ph_pos c l C L) as P. assert (L2 : 0 < l ^ 2) by now apply pow_lt.
  apply Rmult_le_pos; [apply Rlt_le, Rdiv_lt_0_compat; auto|].
  set (u := x * (1 + r)) in *. assert (U : x <= u). { unfold u. pose proof (Rmult_le_pos x r ltac:(lra) ltac:(lra)). lra. }
  replace (x ^ 2 * (1 + r) * (1 + 2 * r)) with (u ^ 2 + u * (x * r)) by (unfold u; ring).
  assert (0 <= u * (x * r)) by (apply Rmult_le_pos; [lra|apply Rmult_le_pos; lra]).
  nra.
Qed.

(** ** sampled spectra *)
Definition sampled (F : R -> R) (wl : list R) (e : R) : Prop :=
  exists J, is_RInt F (hd 0 wl) (last wl 0) J /\ 0 <= J /\ Rabs (trapezoid (map F wl) wl - J) <= e * J.
Definition over (F : R -> R) (wl : list R) : Prop :=
  exists J, is_RInt F (hd 0 wl) (last wl 0) J /\ J <= trapezoid (map F wl) wl.

Lemma rint0 a b : is_RInt (fun _ : R => 0) a b 0.
Proof.
  pose proof (is_RInt_const (V := R_NormedModule) a b 0) as H. unfold scal in H. simpl in H. unfold mult in H. simpl in H.
  now rewrite Rmult_0_r in H.
Qed.
Lemma last_ne (x : R) l d : l <> [] -> last (x :: l) d = last l d.
Proof. destruct l; [easy|reflexivity]. Qed.

Lemma sampled_curve (f f1 f2 : R -> R) m h K : 0 <= K ->
  (forall x, m <= x -> is_derive f x (f1 x)) -> (forall x, m <= x -> is_derive f1 x (f2 x)) ->
  (forall x, m <= x -> continuous f2 x) -> (forall x, m <= x -> Rabs (f2 x) <= K * f x) -> (forall x, m <= x -> 0 <= f x) ->
  forall wl, fine h wl -> (forall x, In x wl -> m <= x) -> sampled f wl (K * (h ^ 2 / 8)).
Proof.
  intros K0 D1 D2 C B P wl. induction wl as [|a [|b wl] IH]; intros F M.
  - exists 0. simpl. split; [apply (is_RInt_point (V := R_NormedModule))|]. split; [lra|]. replace (0 - 0) with 0 by ring. rewrite Rabs_R0. lra.
  - exists 0. simpl. split; [apply (is_RInt_point (V := R_NormedModule))|]. split; [lra|]. replace (0 - 0) with 0 by ring. rewrite Rabs_R0. lra.
  - destruct F as [[F0 F1] F]. destruct IH as (J & HJ & J0 & E); auto. { intros x Hx. apply M. now right. }
    assert (Ma : m <= a) by (apply M; now left).
    assert (EX : ex_RInt f a b).
    { apply (ex_RInt_continuous (V := R_CompleteNormedModule)). intros x. rewrite Rmin_left, Rmax_right by lra. intros Hx.
      apply (ex_derive_continuous (V := R_NormedModule)). eexists. apply D1. lra. }
    destruct EX as [I HI]. exists (I + J). split; [|split].
    + rewrite (last_ne a) by easy. apply (is_RInt_Chasles f a b _ I J); auto.
    + enough (0 <= I) by lra. apply (is_RInt_le (fun _ => 0) f a b); auto.
      * apply rint0.
      * intros x Hx. apply P. lra.
    + assert (NI : Rabs ((b - a) * (f a + f b) / 2 - I) <= K * ((b - a) ^ 2 / 8) * I).
      { apply (cell_near f f1 f2); auto; intros x Hx; first [apply D1|apply D2|apply C|apply B]; lra. }
      assert (I0 : 0 <= I).
      { apply (is_RInt_le (fun _ => 0) f a b); auto.
        - apply rint0.
        - intros x Hx. apply P. lra. }
      assert (K * ((b - a) ^ 2 / 8) * I <= K * (h ^ 2 / 8) * I).
      { apply Rmult_le_compat_r; auto. apply Rmult_le_compat_l; auto. assert (0 <= b - a <= h) by lra. nra. }
      change (trapezoid (map f (a :: b :: wl)) (a :: b :: wl)) with ((b - a) * (f a + f b) / 2 + trapezoid (map f (b :: wl)) (b :: wl)).
      apply Rabs_le_between in NI, E. apply Rabs_le. lra.
Qed.

Lemma over_curve (f f1 f2 : R -> R) m n :
  (forall x, m <= x <= n -> is_derive f x (f1 x)) -> (forall x, m <= x <= n -> is_derive f1 x (f2 x)) ->
  (forall x, m <= x <= n -> continuous f2 x) -> (forall x, m <= x <= n -> 0 <= f2 x) ->
  forall wl, ascending wl -> (forall x, In x wl -> m <= x <= n) -> over f wl.
Proof.
  intros D1 D2 C B wl. induction wl as [|a [|b wl] IH]; intros F M.
  - exists 0. simpl. split; [apply (is_RInt_point (V := R_NormedModule))|lra].
  - exists 0. simpl. split; [apply (is_RInt_point (V := R_NormedModule))|lra].
  - destruct F as [F0 F]. destruct IH as (J & HJ & E); auto. { intros x Hx. apply M. now right. }
    assert (Ma : m <= a <= n) by (apply M; now left). assert (Mb : m <= b <= n) by (apply M; right; now left).
    assert (EX : ex_RInt f a b).
    { apply (ex_RInt_continuous (V := R_CompleteNormedModule)). intros x. rewrite Rmin_left, Rmax_right by lra. intros Hx.
      apply (ex_derive_continuous (V := R_NormedModule)). eexists. apply D1. lra. }
    destruct EX as [I HI]. exists (I + J). split.
    + rewrite (last_ne a) by easy. apply (is_RInt_Chasles f a b _ I J); auto.
    + assert (NI : I <= (b - a) * (f a + f b) / 2).
      { apply (cell_over f f1 f2); auto; intros x Hx; first [apply D1|apply D2|apply C|apply B]; lra. }
      change (trapezoid (map f (a :: b :: wl)) (a :: b :: wl)) with ((b - a) * (f a + f b) / 2 + trapezoid (map f (b :: wl)) (b :: wl)).
      lra.
Qed.

(** ** sums of spectra *)
Lemma trap2 a b (f g h : R -> R) wl : (forall l, In l wl -> h l = a * f l + b * g l) ->
  trapezoid (map h wl) wl = a * trapezoid (map f wl) wl + b * trapezoid (map g wl) wl.
Proof. intros H. pose proof (trapezoid_lin a b f g h (fun x => x) wl H) as T. now rewrite map_id in T. Qed.
Lemma rint2 a b (f g : R -> R) u v I J : is_RInt f u v I -> is_RInt g u v J -> is_RInt (fun x => a * f x + b * g x) u v (a * I + b * J).
Proof.
  intros H K. apply (is_RInt_plus (V := R_NormedModule) (fun x => a * f x) (fun x => b * g x));
    [apply (is_RInt_scal (V := R_NormedModule) f)|apply (is_RInt_scal (V := R_NormedModule) g)]; auto.
Qed.
Lemma sampled2 a b f g wl e : 0 <= a -> 0 <= b -> sampled f wl e -> sampled g wl e -> sampled (fun x => a * f x + b * g x) wl e.
Proof.
  intros A B (I & HI & I0 & EI) (J & HJ & J0 & EJ). exists (a * I + b * J). split; [now apply rint2|]. split; [nra|].
  rewrite (trap2 a b f g) by auto. apply Rabs_le_between in EI, EJ. apply Rabs_le. nra.
Qed.
Lemma over2 a b f g wl : 0 <= a -> 0 <= b -> over f wl -> over g wl -> over (fun x => a * f x + b * g x) wl.
Proof.
  intros A B (I & HI & EI) (J & HJ & EJ). exists (a * I + b * J). split; [now apply rint2|].
  rewrite (trap2 a b f g) by auto. nra.
Qed.
(* equal wherever it matters *)
Lemma fine_ends wl m : ascending wl -> (forall x, In x wl -> m < x) -> wl <> [] -> forall x, Rmin (hd 0 wl) (last wl 0) <= x -> m < x.
Proof.
  intros A M N x Hx. assert (In (hd 0 wl) wl) by (destruct wl; [easy|now left]).
  assert (In (last wl 0) wl). { destruct (exists_last N) as (l & y & ->). rewrite last_last. apply in_or_app. right. now left. }
  pose proof (M _ H). pose proof (M _ H0). unfold Rmin in Hx. destruct Rle_dec; lra.
Qed.
Lemma rint_ext (F G : R -> R) wl J : ascending wl -> (forall x, In x wl -> 0 < x) -> (forall l, 0 < l -> F l = G l) ->
  is_RInt F (hd 0 wl) (last wl 0) J -> is_RInt G (hd 0 wl) (last wl 0) J.
Proof.
  intros A P E H. destruct wl as [|a wl].
  - simpl in *. replace J with (@zero R_NormedModule). { apply (is_RInt_point (V := R_NormedModule)). }
    symmetry. eapply (is_RInt_unique (V := R_CompleteNormedModule)) in H. rewrite <- H. apply (RInt_point (V := R_CompleteNormedModule)).
  - apply (is_RInt_ext F G); auto. intros x [Hx _]. apply E. apply (fine_ends (a :: wl) 0 A P ltac:(easy)). lra.
Qed.
Lemma sampled_ext F G wl e : ascending wl -> (forall x, In x wl -> 0 < x) -> (forall l, 0 < l -> F l = G l) ->
  sampled F wl e -> sampled G wl e.
Proof.
  intros A P E (J & H & J0 & B). exists J. split; [now apply (rint_ext F G)|]. split; auto.
  replace (map G wl) with (map F wl); auto. apply map_ext_in. intros l Hl. apply E, P, Hl.
Qed.
Lemma over_ext F G wl : ascending wl -> (forall x, In x wl -> 0 < x) -> (forall l, 0 < l -> F l = G l) -> over F wl -> over G wl.
Proof.
  intros A P E (J & H & B). exists J. split; [now apply (rint_ext F G)|].
  replace (map G wl) with (map F wl); auto. apply map_ext_in. intros l Hl. apply E, P, Hl.
Qed.
Lemma fine_asc h wl : fine h wl -> ascending wl.
Proof. induction wl as [|a [|b wl] IH]; simpl; auto. intros [H F]. split; [lra|]. now apply IH. Qed.

(** ** Planck's law counted in photons *)
Lemma c2_range : 0.01438777 <= c2 <= 0.01438778.
Proof.
  unfold c2. assert (K : 0 < k_boltz) by (unfold k_boltz; lra).
  split; apply (Rmult_le_reg_r k_boltz); auto; unfold Rdiv; try rewrite (Rmult_assoc (h_planck * c_light)), Rinv_l, Rmult_1_r by lra;
    unfold h_planck, c_light, k_boltz; lra.
Qed.
Definition photons (T l : R) : R := planck l T / photon_energy l.
Lemma photons_ph T l : 0 < T -> 0 < l -> photons T l = 2 * c_light * ph (c2 / T) l.
Proof.
  intros HT L. unfold photons, planck, photon_energy, ph. destruct (Req_EM_T T 0); [lra|].
  assert (Hh : 0 < h_planck) by (unfold h_planck; lra). assert (Hc : 0 < c_light) by (unfold c_light; lra).
  assert (Hk : 0 < k_boltz) by (unfold k_boltz; lra).
  replace (h_planck * c_light / (l * k_boltz * T)) with (c2 / T / l) by (unfold c2; field; lra).
  assert (0 < c2 / T). { apply Rdiv_lt_0_compat; auto. pose proof c2_range. lra. }
  pose proof (ph_e0 (c2 / T) l H L). field. lra.
Qed.
Lemma photons_dark l : photons 0 l = 0.
Proof. unfold photons, planck. destruct (Req_EM_T 0 0); [|easy]. unfold Rdiv. ring. Qed.
Lemma photons_sampled T0 T m h wl : 0 < T0 -> T = 0 \/ T0 <= T -> 0 < m -> fine h wl -> (forall x, In x wl -> m <= x) ->
  sampled (photons T) wl (((c2 / (m * T0) + 5) / m) ^ 2 * (h ^ 2 / 8)).
Proof.
  intros H0 [->|HT] M F W.
  { exists 0. split; [|split; [lra|]].
    - apply (rint_ext (fun _ => 0) (photons 0) wl 0); [now apply (fine_asc h)|intros x Hx; specialize (W x Hx); lra|intros l L; now rewrite photons_dark|apply rint0].
    - rewrite (map_ext (photons 0) (fun _ => 0)) by apply photons_dark.
      pose proof (trapezoid_zero (fun x : R => x) wl) as Z. rewrite map_id in Z. rewrite Z.
      replace (0 - 0) with 0 by ring. rewrite Rabs_R0. lra. }
  assert (C : 0 < c2 / T). { apply Rdiv_lt_0_compat; [|lra]. pose proof c2_range. lra. }
  apply (sampled_ext (fun l => 2 * c_light * ph (c2 / T) l + 0 * ph (c2 / T) l)).
  - now apply (fine_asc h).
  - intros x Hx. specialize (W x Hx). lra.
  - intros l L. rewrite photons_ph by lra. ring.
  - assert (S : sampled (ph (c2 / T)) wl (((c2 / (m * T0) + 5) / m) ^ 2 * (h ^ 2 / 8))).
    { apply (sampled_curve _ (ph1 (c2 / T)) (ph2 (c2 / T)) m); auto.
      - apply pow2_ge_0.
      - intros x Hx. apply ph_der; lra.
      - intros x Hx. apply ph1_der; lra.
      - intros x Hx. apply ph2_cont; lra.
      - intros x Hx. eapply Rle_trans; [apply ph2_bound; lra|]. apply Rmult_le_compat_r; [apply Rlt_le, ph_pos; lra|].
        assert (c2 / T / x <= c2 / (m * T0)).
        { replace (c2 / T / x) with (c2 / (x * T)) by (field; lra). apply Rmult_le_compat_l; [pose proof c2_range; lra|].
          apply Rinv_le_contravar; [apply Rmult_lt_0_compat; lra|]. apply Rmult_le_compat; lra. }
        assert (0 < c2 / T / x) by (apply Rdiv_lt_0_compat; lra).
        assert (/ x <= / m) by (apply Rinv_le_contravar; lra). assert (0 < / x) by (apply Rinv_0_lt_compat; lra).
        apply pow_incr. split; [apply Rlt_le, Rdiv_lt_0_compat; lra|]. apply Rmult_le_compat; lra.
      - intros x Hx. apply Rlt_le, ph_pos; lra. }
    apply sampled2; auto; [|lra]. unfold c_light. lra.
Qed.
Lemma photons_over T m wl : 0 <= T -> m * T <= c2 / 7.24 -> ascending wl -> (forall x, In x wl -> 0 < x <= m) ->
  over (photons T) wl.
Proof.
  intros HT M A W. destruct (Req_dec T 0) as [->|NT].
  - exists 0. split.
    + apply (rint_ext (fun _ => 0) (photons 0) wl 0 A); [intros x Hx; apply W, Hx| |].
      * intros l L. unfold photons, planck. destruct (Req_EM_T 0 0); [|easy]. unfold Rdiv. ring.
      * apply rint0.
    + replace (map (photons 0) wl) with (map (fun _ : R => 0) wl).
      * pose proof (trapezoid_zero (fun x : R => x) wl) as Z. rewrite map_id in Z. rewrite Z. lra.
      * apply map_ext. intros l. unfold photons, planck. destruct (Req_EM_T 0 0); [|easy]. unfold Rdiv. ring.
  - assert (C : 0 < c2 / T). { apply Rdiv_lt_0_compat; [|lra]. pose proof c2_range. lra. }
    apply (over_ext (fun l => 2 * c_light * ph (c2 / T) l + 0 * ph (c2 / T) l)); auto.
    + intros x Hx. apply W, Hx.
    + intros l L. rewrite photons_ph by lra. ring.
    + destruct wl as [|a wl]. { exists 0. simpl. split; [apply (is_RInt_point (V := R_NormedModule))|lra]. }
      assert (S : over (ph (c2 / T)) (a :: wl)).
      { pose proof (W a (or_introl eq_refl)) as Wa.
        assert (LO : forall x, In x (a :: wl) -> a <= x).
        { clear - A. revert a A. induction wl as [|b wl IH]; intros a A x [<-|Hx]; try lra; [easy|].
          destruct A as [A0 A]. specialize (IH b A x Hx). lra. }
        apply (over_curve _ (ph1 (c2 / T)) (ph2 (c2 / T)) a m); auto.
        - intros x Hx. apply ph_der; lra.
        - intros x Hx. apply ph1_der; lra.
        - intros x Hx. apply ph2_cont; lra.
        - intros x Hx. apply ph2_convex; try lra. replace (c2 / T / x) with (c2 / (x * T)) by (field; lra).
          assert (0 < x * T) by (apply Rmult_lt_0_compat; lra). apply (Rmult_le_reg_r (x * T)); auto.
          replace (c2 / (x * T) * (x * T)) with c2 by (field; lra). assert (x * T <= m * T) by (apply Rmult_le_compat_r; lra). lra.
        - intros x Hx. split; [now apply LO|apply W, Hx]. }
      apply over2; auto; [|lra]. unfold c_light. lra.
Qed.

(** ** the camera *)
Lemma thermal_parts s t q T l :
  thermal_spectrum s t q T l =
  1 * (q * (s_wx s * s_wy s) * (t * cone (s_D s) (s_f s)) * photons T l
       + q * (s_wx s * s_wy s) * (PI - cone (s_D s) (s_f s)) * photons (s_T_shield s) l)
  + 1 * (q * (s_wx s * s_wy s) * (cone (s_D s) (s_f s) * s_t_filt s * s_e_opt s) * photons (s_T_opt s) l
       + q * (s_wx s * s_wy s) * (cone (s_D s) (s_f s) * s_e_filt s) * photons (s_T_filt s) l).
Proof. unfold thermal_spectrum, self_irradiance, photons, Rdiv. ring. Qed.
Lemma cone_range D f : 0 <= cone D f <= PI.
Proof.
  unfold cone. pose proof PI_RGT_0. assert (0 <= (f / D) ^ 2) by apply pow2_ge_0. set (z := (f / D) ^ 2) in *. split.
  - apply Rlt_le, Rdiv_lt_0_compat; lra.
  - apply (Rmult_le_reg_r (1 + 4 * z)); [lra|]. replace (PI / (1 + 4 * z) * (1 + 4 * z)) with PI by (field; lra). nra.
Qed.

Ltac posm := match goal with |- 0 <= _ * _ => apply Rmult_le_pos; posm | _ => lra end.
Lemma thermal_sampled s t q T T0 m h wl : physical s -> 0 <= t -> 0 <= q -> 0 < T0 -> T0 <= T ->
  (forall U, In U [s_T_shield s; s_T_opt s; s_T_filt s] -> U = 0 \/ T0 <= U) -> 0 < m -> fine h wl -> (forall x, In x wl -> m <= x) ->
  sampled (thermal_spectrum s t q T) wl (((c2 / (m * T0) + 5) / m) ^ 2 * (h ^ 2 / 8)).
Proof.
  intros P Ht Hq H0 HT A M F W. pose proof (cone_range (s_D s) (s_f s)) as CR.
  pose proof (ph_wx _ P). pose proof (ph_wy _ P). pose proof (ph_Ts _ P). pose proof (ph_To _ P). pose proof (ph_Tf _ P).
  pose proof (ph_eo _ P). pose proof (ph_tf _ P). pose proof (ph_ef _ P).
  assert (Q : 0 <= q * (s_wx s * s_wy s)) by (apply Rmult_le_pos; [lra|apply Rmult_le_pos; lra]).
  eapply sampled_ext; [now apply (fine_asc h)|intros x Hx; specialize (W x Hx); lra|intros l L; symmetry; apply thermal_parts|].
  apply sampled2; try lra; apply sampled2; try (apply photons_sampled; auto; apply A; simpl; tauto);
    (apply Rmult_le_pos; [exact Q|posm]).
Qed.
Lemma thermal_over s t q T m wl : physical s -> 0 <= t -> 0 <= q -> 0 <= T -> m * T <= c2 / 7.24 ->
  m * s_T_shield s <= c2 / 7.24 -> m * s_T_opt s <= c2 / 7.24 -> m * s_T_filt s <= c2 / 7.24 -> ascending wl -> (forall x, In x wl -> 0 < x <= m) ->
  over (thermal_spectrum s t q T) wl.
Proof.
  intros P Ht Hq HT A0 A1 A2 A3 F W. pose proof (cone_range (s_D s) (s_f s)) as CR.
  pose proof (ph_wx _ P). pose proof (ph_wy _ P). pose proof (ph_Ts _ P). pose proof (ph_To _ P). pose proof (ph_Tf _ P).
  pose proof (ph_eo _ P). pose proof (ph_tf _ P). pose proof (ph_ef _ P).
  assert (Q : 0 <= q * (s_wx s * s_wy s)) by (apply Rmult_le_pos; [lra|apply Rmult_le_pos; lra]).
  eapply over_ext; [exact F|intros x Hx; apply W, Hx|intros l L; symmetry; apply thermal_parts|].
  apply over2; try lra; apply over2; try (apply (photons_over _ m); auto);
    (apply Rmult_le_pos; [exact Q|posm]).
Qed.

Lemma thermal_rate s t q T wl dark : s_D s <> 0 -> (forall x, In x wl -> 0 < x) ->
  exists other E dN, sensor_other_irradiance s wl = Ok other /\
    signal_rate wl (blackbody_radiance wl T) (map (fun _ => t) wl) (s_D s) (s_f s) (s_wx s) (s_wy s) (map (fun _ => q) wl) other dark
    = Ok (Fin (trapezoid (map (thermal_spectrum s t q T) wl) wl + dark), E, dN).
Proof.
  intros D W. eexists. do 2 eexists. split; [apply sensor_other_fin; auto; intros x Hx; specialize (W x Hx); lra|].
  unfold blackbody_radiance. rewrite (map_ext_in (fun l => blackbody_radiance1 l T) (fun l => Fin (planck l T))).
  2: { intros l Hl. apply bb_fin. specialize (W l Hl). lra. }
  pose proof (signal_rate_maps (fun x : R => x) (fun l => planck l T) (fun _ => t) (fun _ => q) (other_at s) (s_D s) (s_f s) (s_wx s) (s_wy s) dark wl D) as S.
  rewrite !map_id in S. rewrite S. do 4 f_equal. f_equal. f_equal. apply map_ext_in. intros l Hl. specialize (W l Hl).
  unfold dN1, thermal_spectrum, photon_energy. rewrite hc_spec, cc_spec. unfold other_at, self_irradiance.
  pose proof hc_pos. pose proof cc_pos. field. repeat split; lra.
Qed.

Lemma thermal_rate_near s t q T T0 m h wl dark : physical s -> 0 <= t -> 0 <= q -> 0 < T0 -> T0 <= T ->
  (forall U, In U [s_T_shield s; s_T_opt s; s_T_filt s] -> U = 0 \/ T0 <= U) -> 0 < m -> fine h wl -> (forall x, In x wl -> m <= x) ->
  exists other r E dN J, sensor_other_irradiance s wl = Ok other /\
    signal_rate wl (blackbody_radiance wl T) (map (fun _ => t) wl) (s_D s) (s_f s) (s_wx s) (s_wy s) (map (fun _ => q) wl) other dark
    = Ok (Fin r, E, dN) /\
    is_RInt (thermal_spectrum s t q T) (hd 0 wl) (last wl 0) J /\ 0 <= J /\
    Rabs (r - dark - J) <= ((h_planck * c_light / k_boltz / (m * T0) + 5) * h / m) ^ 2 / 8 * J.
Proof.
  intros P Ht Hq H0 HT A M F W.
  destruct (thermal_rate s t q T wl dark) as (o & E & dN & Ho & HS). { apply P. } { intros x Hx. specialize (W x Hx). lra. }
  destruct (thermal_sampled s t q T T0 m h wl P Ht Hq H0 HT A M F W) as (J & HJ & J0 & B).
  exists o, (trapezoid (map (thermal_spectrum s t q T) wl) wl + dark), E, dN, J. repeat (split; [assumption|]).
  replace (trapezoid (map (thermal_spectrum s t q T) wl) wl + dark - dark - J) with (trapezoid (map (thermal_spectrum s t q T) wl) wl - J) by ring.
  eapply Rle_trans; [exact B|]. apply Rmult_le_compat_r; auto. apply Req_le. fold c2. field. lra.
Qed.
Lemma thermal_rate_over s t q T m wl dark : physical s -> 0 <= t -> 0 <= q -> 0 <= T ->
  m * T <= 1.987 / 10 ^ 3 -> m * s_T_shield s <= 1.987 / 10 ^ 3 -> m * s_T_opt s <= 1.987 / 10 ^ 3 -> m * s_T_filt s <= 1.987 / 10 ^ 3 ->
  ascending wl -> (forall x, In x wl -> 0 < x <= m) ->
  exists other r E dN J, sensor_other_irradiance s wl = Ok other /\
    signal_rate wl (blackbody_radiance wl T) (map (fun _ => t) wl) (s_D s) (s_f s) (s_wx s) (s_wy s) (map (fun _ => q) wl) other dark
    = Ok (Fin r, E, dN) /\
    is_RInt (thermal_spectrum s t q T) (hd 0 wl) (last wl 0) J /\ J <= r - dark.
Proof.
  intros P Ht Hq HT A0 A1 A2 A3 F W. assert (C : 1.987 / 10 ^ 3 <= c2 / 7.24) by (pose proof c2_range; lra).
  destruct (thermal_rate s t q T wl dark) as (o & E & dN & Ho & HS). { apply P. } { intros x Hx. apply W, Hx. }
  destruct (thermal_over s t q T m wl P Ht Hq HT) as (J & HJ & B); auto; try lra.
  exists o, (trapezoid (map (thermal_spectrum s t q T) wl) wl + dark), E, dN, J. repeat (split; [assumption|]). lra.
Qed.

Lemma error_num T0 m h e : 0 < T0 -> 0 < m -> 0 <= h -> 0 <= e -> (0.01438778 / (m * T0) + 5) * h / m <= e ->
  ((h_planck * c_light / k_boltz / (m * T0) + 5) * h / m) ^ 2 / 8 <= e ^ 2 / 8.
Proof.
  intros HT M H E B. fold c2. apply Rmult_le_compat_r; [lra|]. pose proof c2_range as [C0 C1].
  assert (I : 0 < / (m * T0)) by (apply Rinv_0_lt_compat, Rmult_lt_0_compat; auto).
  assert (Im : 0 < / m) by now apply Rinv_0_lt_compat.
  assert (A : 0 <= c2 / (m * T0) <= 0.01438778 / (m * T0)). { split; [apply Rmult_le_pos; lra|apply Rmult_le_compat_r; lra]. }
  apply pow_incr. split.
  - apply Rmult_le_pos; [|lra]. apply Rmult_le_pos; lra.
  - eapply Rle_trans; [|exact B]. apply Rmult_le_compat_r; [lra|]. apply Rmult_le_compat_r; lra.
Qed.
Lemma database_near s t q T wl dark : physical s -> 0 <= t -> 0 <= q -> 70 <= T ->
  (forall U, In U [s_T_shield s; s_T_opt s; s_T_filt s] -> U = 0 \/ 70 <= U) ->
  fine (1 / 10 ^ 8) wl -> (forall x, In x wl -> 3 / 10 ^ 6 <= x) ->
  exists other r E dN J, sensor_other_irradiance s wl = Ok other /\
    signal_rate wl (blackbody_radiance wl T) (map (fun _ => t) wl) (s_D s) (s_f s) (s_wx s) (s_wy s) (map (fun _ => q) wl) other dark
    = Ok (Fin r, E, dN) /\
    is_RInt (thermal_spectrum s t q T) (hd 0 wl) (last wl 0) J /\ 0 <= J /\ Rabs (r - dark - J) <= 8 / 10 ^ 3 * J /\
    ((forall x, In x wl -> 8 / 10 ^ 6 <= x) -> Rabs (r - dark - J) <= 2 / 10 ^ 4 * J).
Proof.
  intros P Ht Hq HT A F W.
  destruct (thermal_rate_near s t q T 70 (3 / 10 ^ 6) (1 / 10 ^ 8) wl dark) as (o & r & E & dN & J & Ho & HS & HJ & J0 & B); auto; try lra.
  exists o, r, E, dN, J. repeat (split; [assumption|]). split.
  - eapply Rle_trans; [exact B|]. apply Rmult_le_compat_r; auto.
    eapply Rle_trans; [apply (error_num _ _ _ 0.246); lra|]. lra.
  - intros W8.
    destruct (thermal_rate_near s t q T 70 (8 / 10 ^ 6) (1 / 10 ^ 8) wl dark) as (o' & r' & E' & dN' & J' & Ho' & HS' & HJ' & _ & B'); auto; try lra.
    assert (o' = o) by congruence. subst o'. rewrite HS in HS'. injection HS' as <- <- <-.
    assert (J' = J).
    { transitivity (RInt (thermal_spectrum s t q T) (hd 0 wl) (last wl 0)); [symmetry|]; now apply (is_RInt_unique (V := R_CompleteNormedModule)). }
    subst J'. eapply Rle_trans; [exact B'|]. apply Rmult_le_compat_r; auto.
    eapply Rle_trans; [apply (error_num _ _ _ 0.0385); lra|]. lra.
Qed.
