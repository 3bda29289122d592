(** * Num_Fried: the Hufnagel-Valley profile for 21 m/s and 1.7e-14, integrated over vertical paths *)
From Coq Require Import Reals Lra Lia List Arith Psatz.
From Coquelicot Require Import Coquelicot.
From Interval Require Import Tactic.
From Verif Require Import Base_XR Base_Np Model_Otf Spec_Rad Spec_Chain Proof_Otf Proof_Turb Proof_Weight Proof_SystemX Proof_Fried.
Import ListNotations.
Open Scope R_scope.

(* heights in kilometres, refractive index structure in units of 10^-15 *)
Definition km (x : R) : R := 5.94 / 10 ^ 8 * (21 / 27 * (21 / 27)) * x ^ 10 * exp (- x) + 0.27 * exp (- (x / 1.5)) + 17 * exp (- (x * 10)).
Lemma hv_km x : hv (1000 * x) 21 (1.7 / 10 ^ 14) = km x / 10 ^ 15.
Proof.
  unfold hv, km. replace (- (1000 * x) / 1000) with (- x) by field. replace (- (1000 * x) / 1500) with (- (x / 1.5)) by lra.
  replace (- (1000 * x) / 100) with (- (x * 10)) by field. set (a := exp (- x)). set (b := exp (- (x / 1.5))). set (c := exp (- (x * 10))).
  clearbody a b c. rewrite Rpow_mult_distr. set (y := x ^ 10). clearbody y. lra.
Qed.
Lemma km_pos x : 0 < km x.
Proof.
  unfold km. generalize (exp_pos (- x)) (exp_pos (- (x / 1.5))) (exp_pos (- (x * 10))). intros A B C.
  assert (0 <= x ^ 10) by (replace (x ^ 10) with (x ^ 5 * x ^ 5) by ring; apply Rle_0_sqr).
  assert (0 <= 5.94 / 10 ^ 8 * (21 / 27 * (21 / 27)) * x ^ 10 * exp (- x)) by (apply Rmult_le_pos; [apply Rmult_le_pos; [lra | assumption] | lra]). lra.
Qed.
Lemma km_cont x : continuous km x.
Proof. apply (ex_derive_continuous (K := R_AbsRing) (V := R_NormedModule)). unfold km. auto_derive. auto. Qed.

Lemma exp_pow x n : exp x ^ n = exp (INR n * x).
Proof. induction n as [|n IH]; [simpl; rewrite Rmult_0_l, exp_0; reflexivity|]. rewrite S_INR, Rmult_plus_distr_r, Rmult_1_l, exp_plus, <- IH. simpl. ring. Qed.
(* a power against an exponential, beyond sixty *)
Lemma power_exp n s x : 0 < s -> INR n <= 60 * s -> 60 <= x -> x ^ n * exp (- (s * x)) <= 60 ^ n * exp (- (s * 60)).
Proof.
  intros Hs Hn Hx. set (t := x - 60). replace x with (60 + t) by (unfold t; ring). assert (T : 0 <= t) by (unfold t; lra). clearbody t.
  replace (60 + t) with (60 * (1 + t / 60)) at 1 by field. rewrite Rpow_mult_distr.
  assert (E : (1 + t / 60) ^ n <= exp (s * t)).
  { apply Rle_trans with (exp (t / 60) ^ n).
    - apply pow_incr. split; [lra|]. apply exp_ineq1_le.
    - rewrite exp_pow. apply exp_le. assert (INR n * t <= 60 * s * t) by (apply Rmult_le_compat_r; lra). lra. }
  replace (- (s * (60 + t))) with (- (s * 60) + - (s * t)) by ring. rewrite exp_plus.
  assert (P : 0 < 60 ^ n) by (apply pow_lt; lra). assert (Q := exp_pos (- (s * 60))). assert (W := exp_pos (- (s * t))).
  assert (V : exp (s * t) * exp (- (s * t)) = 1) by (rewrite <- exp_plus; replace (s * t + - (s * t)) with 0 by ring; apply exp_0).
  replace (60 ^ n * (1 + t / 60) ^ n * (exp (- (s * 60)) * exp (- (s * t)))) with (60 ^ n * exp (- (s * 60)) * ((1 + t / 60) ^ n * exp (- (s * t)))) by ring.
  rewrite <- Rmult_1_r. apply Rmult_le_compat_l; [apply Rmult_le_pos; lra|]. apply Rle_trans with (exp (s * t) * exp (- (s * t))); [apply Rmult_le_compat_r; lra | lra].
Qed.
Lemma km_tail x : 60 <= x -> km x * x ^ 4 <= / 10 ^ 8.
Proof.
  intros Hx.
  assert (A := power_exp 14 1 x ltac:(lra) ltac:(simpl; lra) Hx).
  assert (B := power_exp 4 (/ 1.5) x ltac:(lra) ltac:(simpl; lra) Hx).
  assert (C := power_exp 4 10 x ltac:(lra) ltac:(simpl; lra) Hx).
  unfold km. replace (- x) with (- (1 * x)) by ring. replace (x / 1.5) with (/ 1.5 * x) by lra. replace (x * 10) with (10 * x) by ring.
  set (a := exp (- (1 * x))) in *. set (b := exp (- (/ 1.5 * x))) in *. set (c := exp (- (10 * x))) in *.
  replace ((5.94 / 10 ^ 8 * (21 / 27 * (21 / 27)) * x ^ 10 * a + 0.27 * b + 17 * c) * x ^ 4)
    with (5.94 / 10 ^ 8 * (21 / 27 * (21 / 27)) * (x ^ 14 * a) + 0.27 * (x ^ 4 * b) + 17 * (x ^ 4 * c)) by ring.
  assert (A' : 60 ^ 14 * exp (- (1 * 60)) <= 0.07) by interval.
  assert (B' : 60 ^ 4 * exp (- (/ 1.5 * 60)) <= / 10 ^ 10) by interval.
  assert (C' : 60 ^ 4 * exp (- (10 * 60)) <= / 10 ^ 12) by interval.
  lra.
Qed.

(** ** Integrals of functions that vanish fast *)
Lemma integral_tail (g : R -> R) X : 60 <= X -> (forall x, continuous g x) -> (forall x, 60 <= x -> 0 <= g x <= / 10 ^ 8 / (x * x)) ->
  0 <= RInt g 60 X <= / 10 ^ 8.
Proof.
  intros HX C B.
  assert (I1 : ex_RInt g 60 X) by (apply (ex_RInt_continuous (V := R_CompleteNormedModule)); intros; apply C).
  assert (I2 : is_RInt (fun x => / 10 ^ 8 / (x * x)) 60 X (minus (- (/ 10 ^ 8 / X)) (- (/ 10 ^ 8 / 60)))).
  { apply (is_RInt_derive (fun x => - (/ 10 ^ 8 / x))); rewrite Rmin_left, Rmax_right by lra; intros x Hx.
    - auto_derive; [lra|]. field. lra.
    - apply (ex_derive_continuous (K := R_AbsRing) (V := R_NormedModule)). auto_derive. nra. }
  split; [apply RInt_ge_0; [exact HX | exact I1 | intros x Hx; apply B; lra]|].
  apply Rle_trans with (RInt (fun x => / 10 ^ 8 / (x * x)) 60 X).
  - apply RInt_le; [exact HX | exact I1 | eexists; exact I2 | intros x Hx; apply B; lra].
  - rewrite (is_RInt_unique _ _ _ _ I2). unfold minus, plus, opp; simpl.
    assert (0 < / 10 ^ 8 / X) by (apply Rdiv_lt_0_compat; lra). lra.
Qed.
Lemma km_below x : 60 <= x -> km x <= / 10 ^ 8 / (x * x) /\ km x * five_thirds x <= / 10 ^ 8 / (x * x).
Proof.
  intros Hx. assert (T := km_tail x Hx). assert (P := km_pos x). assert (F := five_thirds_below_sq x ltac:(lra)).
  assert (X2 : 3600 <= x * x) by nra.
  assert (E : km x * (x * x) <= / 10 ^ 8 / (x * x)).
  { apply Rmult_le_reg_r with (x * x); [lra|]. unfold Rdiv. rewrite (Rmult_assoc (/ 10 ^ 8)), Rinv_l by lra. rewrite Rmult_1_r.
    replace (km x * (x * x) * (x * x)) with (km x * x ^ 4) by ring. exact T. }
  split; [|apply Rle_trans with (2 := E); apply Rmult_le_compat_l; lra].
  apply Rle_trans with (2 := E). rewrite <- (Rmult_1_r (km x)) at 1. apply Rmult_le_compat_l; lra.
Qed.

(** ** The isoplanatic integral *)
Lemma iso_cont x : continuous (fun x => km x * five_thirds x) x.
Proof. apply (continuous_mult (K := R_AbsRing)); [apply km_cont | apply five_thirds_cont]. Qed.
Lemma iso_middle : 8.701 <= RInt (fun x => km x * exp (5 / 3 * ln x)) 0.001 60 <= 8.703.
Proof. unfold km. integral with (i_fuel 2000, i_degree 10, i_relwidth 20). Qed.
Lemma iso_km X : 60 <= X -> 8.70 <= RInt (fun x => km x * five_thirds x) 0 X <= 8.71.
Proof.
  intros HX. set (g := fun x => km x * five_thirds x).
  assert (EX : forall a b, ex_RInt g a b) by (intros; apply (ex_RInt_continuous (V := R_CompleteNormedModule)); intros; apply iso_cont).
  rewrite <- (RInt_Chasles g 0 0.001 X (EX _ _) (EX _ _)), <- (RInt_Chasles g 0.001 60 X (EX _ _) (EX _ _)).
  unfold plus; simpl.
  assert (M : RInt g 0.001 60 = RInt (fun x => km x * exp (5 / 3 * ln x)) 0.001 60).
  { apply RInt_ext. intros x Hx. rewrite Rmin_left in Hx by lra. unfold g, five_thirds. destruct (Rlt_dec 0 x); [reflexivity | lra]. }
  assert (IM := iso_middle). rewrite <- M in IM.
  assert (T := integral_tail g X HX iso_cont). destruct T as [T1 T2].
  { intros x Hx. split; [apply Rmult_le_pos; [left; apply km_pos | apply five_thirds_ge0] | apply km_below; exact Hx]. }
  assert (S0 : 0 <= RInt g 0 0.001).
  { apply RInt_ge_0; [lra | apply EX|]. intros x Hx. apply Rmult_le_pos; [left; apply km_pos | apply five_thirds_ge0]. }
  assert (S1 : RInt g 0 0.001 <= RInt (fun _ => 0.02) 0 0.001).
  { apply RInt_le; [lra | apply EX | apply ex_RInt_const|]. intros x Hx. unfold g.
    assert (F := five_thirds_below x ltac:(lra)). assert (K : km x <= 18) by (unfold km; interval). assert (P := km_pos x). assert (N := five_thirds_ge0 x). nra. }
  rewrite RInt_const in S1. unfold scal in S1; simpl in S1. unfold mult in S1; simpl in S1. lra.
Qed.

(** ** The whole profile *)
Lemma whole_60 : 2.235 <= RInt km 0 60 <= 2.2375.
Proof. unfold km. integral with (i_fuel 2000, i_degree 10, i_relwidth 20). Qed.
Lemma whole_weighted : 2.23 <= RInt (fun x => km x * (1 - x / 500)) 0 60.
Proof. unfold km. integral with (i_fuel 2000, i_degree 10, i_relwidth 20). Qed.
Lemma up_km X : 1000 <= X -> 2.23 <= RInt (fun x => km x * five_thirds (1 - x / X)) 0 X <= 2.238.
Proof.
  intros HX. set (g := fun x => km x * five_thirds (1 - x / X)).
  assert (C : forall x, continuous g x).
  { intros x. apply (continuous_mult (K := R_AbsRing)); [apply km_cont|]. apply continuous_comp; [|apply five_thirds_cont].
    apply (ex_derive_continuous (K := R_AbsRing) (V := R_NormedModule)). auto_derive. lra. }
  assert (EX : forall a b, ex_RInt g a b) by (intros; apply (ex_RInt_continuous (V := R_CompleteNormedModule)); intros; apply C).
  assert (EK : forall a b, ex_RInt km a b) by (intros; apply (ex_RInt_continuous (V := R_CompleteNormedModule)); intros; apply km_cont).
  assert (Q : forall x, 0 <= x <= X -> 0 <= 1 - x / X <= 1).
  { intros x Hx. assert (0 <= x / X <= 1); [|lra]. split; [apply Rmult_le_pos; [lra | left; apply Rinv_0_lt_compat; lra]|].
    apply Rmult_le_reg_r with X; [lra|]. unfold Rdiv. rewrite Rmult_assoc, Rinv_l by lra. lra. }
  split.
  - rewrite <- (RInt_Chasles g 0 60 X (EX _ _) (EX _ _)). unfold plus; simpl.
    assert (T : 0 <= RInt g 60 X).
    { apply RInt_ge_0; [lra | apply EX|]. intros x Hx. apply Rmult_le_pos; [left; apply km_pos | apply five_thirds_ge0]. }
    assert (W := whole_weighted). enough (RInt (fun x => km x * (1 - x / 500)) 0 60 <= RInt g 0 60) by lra.
    apply RInt_le; [lra | | apply EX|].
    + apply (ex_RInt_continuous (V := R_CompleteNormedModule)). intros x _. apply (continuous_mult (K := R_AbsRing)); [apply km_cont|].
      apply (ex_derive_continuous (K := R_AbsRing) (V := R_NormedModule)). auto_derive. auto.
    + intros x Hx. unfold g. apply Rmult_le_compat_l; [left; apply km_pos|].
      assert (B := five_thirds_below (1 - x / X) (Q x ltac:(lra))).
      assert (Y : 0 <= x / X <= x / 1000).
      { split; [apply Rmult_le_pos; [lra | left; apply Rinv_0_lt_compat; lra]|]. apply Rmult_le_compat_l; [lra|]. apply Rinv_le_contravar; lra. }
      nra.
  - apply Rle_trans with (RInt km 0 X).
    + apply RInt_le; [lra | apply EX | apply EK|]. intros x Hx. unfold g. assert (B := five_thirds_below (1 - x / X) (Q x ltac:(lra))).
      assert (P := km_pos x). destruct (Q x ltac:(lra)). nra.
    + rewrite <- (RInt_Chasles km 0 60 X (EK _ _) (EK _ _)). unfold plus; simpl. assert (W := whole_60).
      assert (T := integral_tail km X ltac:(lra) km_cont). destruct T as [T1 T2]; [|lra].
      intros x Hx. split; [left; apply km_pos | apply km_below; exact Hx].
Qed.

(** ** Vertical paths in metres *)
Definition cn57 (h : R) : R := hv h 21 (1.7 / 10 ^ 14).
Lemma cn57_km x : cn57 (1000 * x) = km x / 10 ^ 15.
Proof. apply hv_km. Qed.
Lemma cn57_good h : continuous cn57 h /\ 0 < cn57 h.
Proof.
  split.
  - apply (ex_derive_continuous (K := R_AbsRing) (V := R_NormedModule)). unfold cn57, hv. auto_derive. auto.
  - replace h with (1000 * (h / 1000)) by field. rewrite cn57_km. apply Rdiv_lt_0_compat; [apply km_pos | lra].
Qed.
Lemma scale_integral (f g : R -> R) c L : 0 < L -> (forall x, continuous f x) -> (forall x, continuous g x) ->
  (forall x, 0 < x < L / 1000 -> f (1000 * x) = c * g x) -> RInt f 0 L = 1000 * c * RInt g 0 (L / 1000).
Proof.
  intros HL CF CG E.
  assert (EX : forall a b, ex_RInt g a b) by (intros; apply (ex_RInt_continuous (V := R_CompleteNormedModule)); intros; apply CG).
  transitivity (RInt f (1000 * 0 + 0) (1000 * (L / 1000) + 0)). { f_equal; field. }
  rewrite <- (RInt_comp_lin (V := R_CompleteNormedModule) f 1000 0) by (apply (ex_RInt_continuous (V := R_CompleteNormedModule)); intros; apply CF).
  change (1000 * c * RInt g 0 (L / 1000)) with (scal (1000 * c) (RInt g 0 (L / 1000))). rewrite <- (RInt_scal (V := R_CompleteNormedModule)) by apply EX.
  apply RInt_ext. intros x Hx. assert (0 < L / 1000) by (apply Rdiv_lt_0_compat; lra). rewrite Rmin_left, Rmax_right in Hx by lra.
  unfold scal; simpl. unfold mult; simpl. rewrite Rplus_0_r, E by exact Hx. ring.
Qed.
Lemma thousand_53 : Rpower 1000 (5 / 3) = 10 ^ 5.
Proof.
  replace 1000 with (Rpower 10 3) by (replace 3 with (INR 3) by (simpl; lra); rewrite Rpower_pow by lra; lra).
  rewrite Rpower_mult. replace (3 * (5 / 3)) with (INR 5) by (simpl; lra). apply Rpower_pow. lra.
Qed.

(* the isoplanatic integral *)
Lemma iso_metres H : 60000 <= H -> 8.70 / 10 ^ 7 <= RInt (fun h => cn57 h * five_thirds h) 0 H <= 8.71 / 10 ^ 7.
Proof.
  intros HH. rewrite (scale_integral _ (fun x => km x * five_thirds x) (/ 10 ^ 10)).
  - assert (K := iso_km (H / 1000) ltac:(lra)). lra.
  - lra.
  - intros x. apply (continuous_mult (K := R_AbsRing)); [apply cn57_good | apply five_thirds_cont].
  - apply iso_cont.
  - intros x Hx. rewrite cn57_km, five_thirds_mul, thousand_53 by lra. lra.
Qed.
Lemma iso_angle H : 60000 <= H ->
  exists J, is_RInt (fun h => cn57 h * five_thirds h) 0 H J /\
    6.85 / 10 ^ 6 <= Rpower (2.914 * (2 * PI / (5 / 10 ^ 7)) ^ 2 * J) (- (3 / 5)) <= 6.95 / 10 ^ 6.
Proof.
  intros HH. exists (RInt (fun h => cn57 h * five_thirds h) 0 H). split.
  - apply (RInt_correct (V := R_CompleteNormedModule)). apply (ex_RInt_continuous (V := R_CompleteNormedModule)). intros x _.
    apply (continuous_mult (K := R_AbsRing)); [apply cn57_good | apply five_thirds_cont].
  - assert (K := iso_metres H HH). set (J := RInt _ 0 H) in *. clearbody J.
    assert (Q : 0 < 2.914 * (2 * PI / (5 / 10 ^ 7)) ^ 2) by interval. set (q := 2.914 * (2 * PI / (5 / 10 ^ 7)) ^ 2) in *.
    split.
    + apply Rle_trans with (Rpower (q * (8.71 / 10 ^ 7)) (- (3 / 5))); [unfold q, Rpower; interval|].
      apply Rpower_neg_le; [apply Rmult_lt_0_compat; lra | apply Rmult_le_compat_l; lra | lra].
    + apply Rle_trans with (Rpower (q * (8.70 / 10 ^ 7)) (- (3 / 5))); [|unfold q, Rpower; interval].
      apply Rpower_neg_le; [apply Rmult_lt_0_compat; lra | apply Rmult_le_compat_l; lra | lra].
Qed.

(* a source far above, the telescope on the ground *)
Lemma looking_up L : 10 ^ 6 <= L ->
  exists r l, (forall n, (1 <= n)%nat ->
      coherence_diameter (5 / 10 ^ 7) (map (fun i => Fin (L * INR i / INR n)) (seq 0 (S n)))
        (map (fun i => hufnagel_valley_turbulence_profile (Fin (L - L * INR i / INR n)) 21 (1.7 / 10 ^ 14)) (seq 0 (S n))) = Ok (Fin (r n)))
    /\ is_lim_seq r (Finite l) /\ 0.0495 <= l <= 0.0498.
Proof.
  intros HL.
  destruct (fine_sampling (5 / 10 ^ 7) L (fun z => cn57 (L - z))) as (r & J & I & PJ & E & T); [lra | lra | |].
  { intros z _. split; [|apply cn57_good]. apply continuous_comp; [|apply cn57_good].
    apply (ex_derive_continuous (K := R_AbsRing) (V := R_NormedModule)). auto_derive. auto. }
  exists r, (Rpower (0.423 * (2 * PI / (5 / 10 ^ 7)) ^ 2 * J) (- (3 / 5))). split; [|split; [exact T|]].
  { intros n Hn. rewrite <- (E n Hn). f_equal. apply map_ext. intros i. rewrite hv_fin. reflexivity. }
  assert (B : 2.23 / 10 ^ 12 <= J <= 2.238 / 10 ^ 12).
  { assert (K := up_km (L / 1000) ltac:(lra)). rewrite <- (is_RInt_unique _ _ _ _ I).
    set (f := fun z => cn57 (L - z) * five_thirds (z / L)).
    set (g := fun x => km x * five_thirds (1 - x / (L / 1000))) in *.
    assert (CF : forall x, continuous f x).
    { intros x. apply integrand_cont; [lra|]. apply continuous_comp; [|apply cn57_good].
      apply (ex_derive_continuous (K := R_AbsRing) (V := R_NormedModule)). auto_derive. auto. }
    assert (CG : forall x, continuous g x).
    { intros x. apply (continuous_mult (K := R_AbsRing)); [apply km_cont|]. apply continuous_comp; [|apply five_thirds_cont].
      apply (ex_derive_continuous (K := R_AbsRing) (V := R_NormedModule)). auto_derive. lra. }
    assert (EG : forall a b, ex_RInt g a b) by (intros; apply (ex_RInt_continuous (V := R_CompleteNormedModule)); intros; apply CG).
    assert (R1 : RInt f 0 L = / 10 ^ 12 * RInt g 0 (L / 1000)).
    { transitivity (RInt f (-1000 * (L / 1000) + L) (-1000 * 0 + L)). { f_equal; field. }
      rewrite <- (RInt_comp_lin (V := R_CompleteNormedModule) f (-1000) L) by (apply (ex_RInt_continuous (V := R_CompleteNormedModule)); intros; apply CF).
      rewrite <- (opp_RInt_swap (V := R_CompleteNormedModule)).
      2:{ apply (ex_RInt_continuous (V := R_CompleteNormedModule)). intros x _. apply (continuous_scal_r (K := R_AbsRing) (V := R_NormedModule)).
          apply continuous_comp; [|apply CF]. apply (ex_derive_continuous (K := R_AbsRing) (V := R_NormedModule)). auto_derive. auto. }
      rewrite <- (RInt_opp (V := R_CompleteNormedModule)).
      2:{ apply (ex_RInt_continuous (V := R_CompleteNormedModule)). intros x _. apply (continuous_scal_r (K := R_AbsRing) (V := R_NormedModule)).
          apply continuous_comp; [|apply CF]. apply (ex_derive_continuous (K := R_AbsRing) (V := R_NormedModule)). auto_derive. auto. }
      change (/ 10 ^ 12 * RInt g 0 (L / 1000)) with (scal (/ 10 ^ 12) (RInt g 0 (L / 1000))). rewrite <- (RInt_scal (V := R_CompleteNormedModule)) by apply EG.
      apply RInt_ext. intros x _. unfold opp, scal; simpl. unfold mult; simpl. unfold f, g.
      replace (L - (-1000 * x + L)) with (1000 * x) by ring. rewrite cn57_km.
      replace ((-1000 * x + L) / L) with (1 - x / (L / 1000)) by (field; lra). set (F := five_thirds _). set (k := km x). clearbody F k. lra. }
    rewrite R1. lra. }
  assert (Q : 0 < 0.423 * (2 * PI / (5 / 10 ^ 7)) ^ 2) by interval. set (q := 0.423 * (2 * PI / (5 / 10 ^ 7)) ^ 2) in *.
  split.
  - apply Rle_trans with (Rpower (q * (2.238 / 10 ^ 12)) (- (3 / 5))); [unfold q, Rpower; interval|].
    apply Rpower_neg_le; [apply Rmult_lt_0_compat; lra | apply Rmult_le_compat_l; lra | lra].
  - apply Rle_trans with (Rpower (q * (2.23 / 10 ^ 12)) (- (3 / 5))); [|unfold q, Rpower; interval].
    apply Rpower_neg_le; [apply Rmult_lt_0_compat; lra | apply Rmult_le_compat_l; lra | lra].
Qed.

(* the camera far above, the target on the ground *)
Lemma looking_down L : 60000 <= L ->
  exists r l, (forall n, (1 <= n)%nat ->
      coherence_diameter (5 / 10 ^ 7) (map (fun i => Fin (L * INR i / INR n)) (seq 0 (S n)))
        (map (fun i => hufnagel_valley_turbulence_profile (Fin (L * INR i / INR n)) 21 (1.7 / 10 ^ 14)) (seq 0 (S n))) = Ok (Fin (r n)))
    /\ is_lim_seq r (Finite l) /\ 2.18 / 10 ^ 5 * L <= l <= 2.21 / 10 ^ 5 * L.
Proof.
  intros HL.
  destruct (fine_sampling (5 / 10 ^ 7) L cn57) as (r & J & I & PJ & E & T); [lra | lra | intros z _; apply cn57_good|].
  exists r, (Rpower (0.423 * (2 * PI / (5 / 10 ^ 7)) ^ 2 * J) (- (3 / 5))). split; [|split; [exact T|]].
  { intros n Hn. rewrite <- (E n Hn). f_equal. apply map_ext. intros i. rewrite hv_fin. reflexivity. }
  assert (K := iso_metres L HL). set (K0 := RInt _ 0 L) in K.
  assert (EJ : J = Rpower L (- (5 / 3)) * K0).
  { rewrite <- (is_RInt_unique _ _ _ _ I). unfold K0. change (Rpower L (- (5 / 3)) * RInt (fun h => cn57 h * five_thirds h) 0 L) with (scal (Rpower L (- (5 / 3))) (RInt (fun h => cn57 h * five_thirds h) 0 L)).
    rewrite <- (RInt_scal (V := R_CompleteNormedModule)).
    2:{ apply (ex_RInt_continuous (V := R_CompleteNormedModule)). intros x _. apply (continuous_mult (K := R_AbsRing)); [apply cn57_good | apply five_thirds_cont]. }
    apply RInt_ext. intros x _. unfold scal; simpl. unfold mult; simpl.
    replace (x / L) with (/ L * x) by (unfold Rdiv; ring). rewrite five_thirds_mul by (apply Rinv_0_lt_compat; lra).
    replace (Rpower (/ L) (5 / 3)) with (Rpower L (- (5 / 3))) by (unfold Rpower; rewrite ln_Rinv by lra; f_equal; ring). ring. }
  clearbody K0. rewrite EJ.
  assert (Q : 0 < 0.423 * (2 * PI / (5 / 10 ^ 7)) ^ 2) by interval. set (q := 0.423 * (2 * PI / (5 / 10 ^ 7)) ^ 2) in *.
  replace (q * (Rpower L (- (5 / 3)) * K0)) with (Rpower L (- (5 / 3)) * (q * K0)) by ring.
  rewrite <- Rpower_mult_distr by (try apply exp_pos; apply Rmult_lt_0_compat; lra).
  rewrite Rpower_mult. replace (- (5 / 3) * - (3 / 5)) with 1 by field. rewrite Rpower_1 by lra.
  rewrite (Rmult_comm _ L), (Rmult_comm _ L). split; apply Rmult_le_compat_l; try lra.
  - apply Rle_trans with (Rpower (q * (8.71 / 10 ^ 7)) (- (3 / 5))); [unfold q, Rpower; interval|].
    apply Rpower_neg_le; [apply Rmult_lt_0_compat; lra | apply Rmult_le_compat_l; lra | lra].
  - apply Rle_trans with (Rpower (q * (8.70 / 10 ^ 7)) (- (3 / 5))); [|unfold q, Rpower; interval].
    apply Rpower_neg_le; [apply Rmult_lt_0_compat; lra | apply Rmult_le_compat_l; lra | lra].
Qed.
Lemma iso_angle_of H prof : 60000 <= H ->
  (forall h, hufnagel_valley_turbulence_profile (Fin h) 21 (1.7 / 10 ^ 14) = Fin (prof h)) ->
  exists J, is_RInt (fun h => prof h * five_thirds h) 0 H J /\
    6.85 / 10 ^ 6 <= Rpower (2.914 * (2 * PI / (5 / 10 ^ 7)) ^ 2 * J) (- (3 / 5)) <= 6.95 / 10 ^ 6.
Proof.
  intros HH E. destruct (iso_angle H HH) as (J & I & B). exists J. split; [|exact B].
  apply is_RInt_ext with (2 := I). intros x _. specialize (E x). rewrite hv_fin in E. injection E as E. rewrite <- E. reflexivity.
Qed.
