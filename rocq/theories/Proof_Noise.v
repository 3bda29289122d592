(** * Proof_Noise: lemmas for noise.py *)
From Coq Require Import Reals Lra List Psatz.
From Coquelicot Require Import Coquelicot.
From Verif Require Import Base_XR Base_Np Model_Noise.
Import ListNotations.
Open Scope R_scope.

Definition sumsq (l : list R) : R := Rsum (map (fun k => k * k) l).

Lemma Rsum_nonneg l : (forall x, In x l -> 0 <= x) -> 0 <= Rsum l.
Proof.
  induction l as [|x l IH]; simpl; intros H; [lra|].
  pose proof (H x (or_introl eq_refl)). assert (0 <= Rsum l) by (apply IH; auto). lra.
Qed.
Lemma sumsq_nonneg l : 0 <= sumsq l.
Proof.
  apply Rsum_nonneg. intros x H. apply in_map_iff in H. destruct H as [y [<- _]]. nra.
Qed.

Lemma noise_gain_ok l : Rsum l = 1 -> noise_gain l = Ok (Fin (sqrt (sumsq l))).
Proof.
  intros H. unfold noise_gain. rewrite (proj2 (Reqb_true _ _) H). simpl negb. cbv iota.
  rewrite xsqrt_fin; [reflexivity|apply sumsq_nonneg].
Qed.

Lemma noise_gain_raises_iff l : noise_gain l = Err ValueError <-> Rsum l <> 1.
Proof.
  split.
  - intros H E. rewrite noise_gain_ok in H by auto. discriminate.
  - intros H. unfold noise_gain. now rewrite (proj2 (Reqb_false _ _) H).
Qed.

(* sum (k - m)^2 = sumsq - 2 m sum + n m^2 *)
Lemma sumsq_dev m l :
  Rsum (map (fun k => (k - m) * (k - m)) l) = sumsq l - 2 * m * Rsum l + INR (length l) * (m * m).
Proof.
  unfold sumsq. induction l as [|x l IH]; [simpl; ring|].
  change (length (x :: l)) with (S (length l)). rewrite S_INR. simpl Rsum. simpl map.
  simpl Rsum. rewrite IH. ring.
Qed.
Lemma dev_nonneg m l : 0 <= Rsum (map (fun k => (k - m) * (k - m)) l).
Proof. apply Rsum_nonneg. intros x H. apply in_map_iff in H. destruct H as [y [<- _]]. apply (Rle_0_sqr (y - m)). Qed.

Lemma dev_zero m l : Rsum (map (fun k => (k - m) * (k - m)) l) = 0 -> forall x, In x l -> x = m.
Proof.
  induction l as [|y l IH]; simpl; intros H x; [tauto|].
  pose proof (dev_nonneg m l). pose proof (Rle_0_sqr (y - m)) as Hs. unfold Rsqr in Hs.
  intros [->|Hx].
  - assert (Hz : (x - m) * (x - m) = 0) by lra. apply Rmult_integral in Hz. lra.
  - apply IH; auto. lra.
Qed.

Lemma sum1_length l : Rsum l = 1 -> 0 < INR (length l).
Proof. destruct l; simpl length; [simpl; lra|]. intros _. apply lt_0_INR. auto with arith. Qed.

Lemma noise_gain_lower l ng : noise_gain l = Ok (Fin ng) ->
  1 / sqrt (INR (length l)) <= ng.
Proof.
  intros H. destruct (Req_dec (Rsum l) 1) as [E|E].
  2:{ apply noise_gain_raises_iff in E. congruence. }
  rewrite noise_gain_ok in H by auto. injection H as <-.
  pose proof (sum1_length l E) as Hn. set (n := INR (length l)) in *.
  pose proof (dev_nonneg (1 / n) l) as D. rewrite sumsq_dev, E in D. fold n in D.
  assert (D2 : 1 / n <= sumsq l).
  { replace (sumsq l - 2 * (1 / n) * 1 + n * (1 / n * (1 / n))) with (sumsq l - 1 / n) in D by (field; lra). lra. }
  rewrite <- sqrt_1 at 1. rewrite <- sqrt_div_alt by lra. apply sqrt_le_1_alt. exact D2.
Qed.

Lemma noise_gain_lower_eq l : noise_gain l = Ok (Fin (1 / sqrt (INR (length l)))) <->
  Rsum l = 1 /\ forall x, In x l -> x = 1 / INR (length l).
Proof.
  split.
  - intros H. destruct (Req_dec (Rsum l) 1) as [E|E].
    2:{ apply noise_gain_raises_iff in E. congruence. }
    split; auto.
    rewrite noise_gain_ok in H by auto. injection H as H.
    pose proof (sum1_length l E) as Hn. set (n := INR (length l)) in *.
    assert (S : sumsq l = 1 / n).
    { rewrite <- sqrt_1 in H at 1. rewrite <- sqrt_div_alt in H by lra.
      apply sqrt_inj in H; auto; [apply sumsq_nonneg|]. left. apply Rdiv_lt_0_compat; lra. }
    apply dev_zero. rewrite sumsq_dev, E, S. fold n. field. lra.
  - intros [E H]. rewrite noise_gain_ok by auto. do 2 f_equal.
    pose proof (sum1_length l E) as Hn. set (n := INR (length l)) in *.
    assert (Z : Rsum (map (fun k => (k - 1 / n) * (k - 1 / n)) l) = 0).
    { clear E Hn. clearbody n. induction l as [|y l IH]; [reflexivity|]. simpl.
      rewrite IH by (intros; apply H; right; auto).
      rewrite (H y) by (left; auto). ring. }
    rewrite sumsq_dev, E in Z. fold n in Z.
    replace (sumsq l) with (1 / n).
    2:{ replace (sumsq l - 2 * (1 / n) * 1 + n * (1 / n * (1 / n))) with (sumsq l - 1 / n) in Z by (field; lra). lra. }
    rewrite sqrt_div_alt by lra. now rewrite sqrt_1.
Qed.

Lemma Rsum_ge_elem l x : (forall y, In y l -> 0 <= y) -> In x l -> x <= Rsum l.
Proof.
  induction l as [|y l IH]; simpl; intros H; [tauto|].
  pose proof (H y (or_introl eq_refl)).
  assert (0 <= Rsum l) by (apply Rsum_nonneg; auto).
  intros [->|Hx]; [lra|]. specialize (IH (fun z Hz => H z (or_intror Hz)) Hx). lra.
Qed.

Lemma sumsq_le_sum l : (forall x, In x l -> 0 <= x <= 1) -> sumsq l <= Rsum l.
Proof.
  unfold sumsq. induction l as [|y l IH]; simpl; intros H; [lra|].
  pose proof (H y (or_introl eq_refl)). specialize (IH (fun z Hz => H z (or_intror Hz))). nra.
Qed.

Lemma noise_gain_upper l : Rsum l = 1 -> (forall x, In x l -> 0 <= x) ->
  exists ng, noise_gain l = Ok (Fin ng) /\ 0 < ng <= 1.
Proof.
  intros E H. eexists. split; [now apply noise_gain_ok|]. split.
  - apply sqrt_lt_R0. pose proof (sum1_length l E) as Hn. 
    pose proof (dev_nonneg (1 / INR (length l)) l) as D. rewrite sumsq_dev, E in D.
    assert (0 < 1 / INR (length l)) by (apply Rdiv_lt_0_compat; lra).
    replace (sumsq l - 2 * (1 / INR (length l)) * 1 + INR (length l) * (1 / INR (length l) * (1 / INR (length l))))
      with (sumsq l - 1 / INR (length l)) in D by (field; lra). lra.
  - rewrite <- sqrt_1. apply sqrt_le_1_alt. rewrite <- E. apply sumsq_le_sum.
    intros x Hx. split; [auto|]. rewrite <- E. now apply Rsum_ge_elem.
Qed.

(* a kernel with a single 1 and zeros elsewhere *)
Lemma noise_gain_identity n m :
  noise_gain (repeat 0 n ++ [1] ++ repeat 0 m) = Ok (Fin 1).
Proof.
  assert (S : forall k, Rsum (repeat 0 k) = 0 /\ sumsq (repeat 0 k) = 0).
  { unfold sumsq. induction k as [|k [IH1 IH2]]; simpl; [auto|]. rewrite IH1, IH2. split; ring. }
  assert (P : forall k, Rsum (repeat 0 k ++ [1] ++ repeat 0 m) = 1 /\ sumsq (repeat 0 k ++ [1] ++ repeat 0 m) = 1).
  { induction k as [|k [IH1 IH2]].
    - unfold sumsq. simpl. destruct (S m) as [S1 S2]. unfold sumsq in S2. rewrite S1, S2. split; ring.
    - unfold sumsq in *. simpl in *. rewrite IH1, IH2. split; ring. }
  destruct (P n) as [P1 P2]. rewrite noise_gain_ok by auto. rewrite P2. now rewrite sqrt_1.
Qed.

(** ** quantization noise *)
Lemma sqrt12_pos : 0 < sqrt 12. Proof. apply sqrt_lt_R0; lra. Qed.
Lemma pow2m1_pos b : 0 < b -> 0 < Rpower 2 b - 1.
Proof.
  intros H. assert (Rpower 2 0 < Rpower 2 b) by (apply Rpower_lt; lra).
  rewrite Rpower_O in H0 by lra. lra.
Qed.
Lemma qn_val r b : 0 < b ->
  quantization_noise r b = Fin (r / (Rpower 2 b - 1) / sqrt 12).
Proof.
  intros H. pose proof (pow2m1_pos b H). pose proof sqrt12_pos. unfold quantization_noise.
  rewrite xdiv_fin by nra. f_equal. field. lra.
Qed.

(* variance of an error uniformly distributed over one step q *)
Lemma uniform_variance q : 0 < q ->
  is_RInt (fun e => e * e / q) (- (q / 2)) (q / 2) (q * q / 12).
Proof.
  intros Hq.
  replace (q * q / 12) with (minus ((q/2)*(q/2)*(q/2) / 3 / q) ((-(q/2))*(-(q/2))*(-(q/2)) / 3 / q)).
  2:{ unfold minus, plus, opp; simpl. field. lra. }
  apply (is_RInt_derive (fun e => e * e * e / 3 / q)).
  - intros x _. auto_derive; [lra|]. field. lra.
  - intros x _. apply (ex_derive_continuous (fun e => e * e / q)). auto_derive. lra.
Qed.

Lemma qn_is_uniform_std r b : 0 < r -> 0 < b ->
  exists s, quantization_noise r b = Fin s /\ 0 < s /\
    let q := r / (Rpower 2 b - 1) in
    is_RInt (fun e => e * e / q) (- (q / 2)) (q / 2) (s * s).
Proof.
  intros Hr Hb. rewrite qn_val by auto. eexists; split; [reflexivity|].
  pose proof (pow2m1_pos b Hb). pose proof sqrt12_pos.
  set (q := r / (Rpower 2 b - 1)). assert (Hq : 0 < q) by (apply Rdiv_lt_0_compat; lra).
  split; [apply Rdiv_lt_0_compat; lra|]. simpl.
  replace (q / sqrt 12 * (q / sqrt 12)) with (q * q / (sqrt 12 * sqrt 12)) by (field; lra).
  rewrite sqrt_sqrt by lra. now apply uniform_variance.
Qed.

Lemma qn_decreasing r b1 b2 : 0 < r -> 0 < b1 -> b1 < b2 ->
  exists s1 s2, quantization_noise r b1 = Fin s1 /\ quantization_noise r b2 = Fin s2 /\ s2 < s1.
Proof.
  intros Hr H1 H2. rewrite !qn_val by lra. do 2 eexists. split; [reflexivity|split; [reflexivity|]].
  pose proof (pow2m1_pos b1 H1). pose proof sqrt12_pos.
  assert (Rpower 2 b1 < Rpower 2 b2) by (apply Rpower_lt; lra).
  unfold Rdiv. apply Rmult_lt_compat_r; [apply Rinv_0_lt_compat; lra|].
  apply Rmult_lt_compat_l; [auto|]. apply Rinv_lt_contravar; [nra|lra].
Qed.

Lemma qn_linear r b k : 0 < b ->
  exists s, quantization_noise r b = Fin s /\ quantization_noise (k * r) b = Fin (k * s).
Proof.
  intros Hb. rewrite !qn_val by auto. eexists; split; [reflexivity|]. f_equal.
  pose proof (pow2m1_pos b Hb). pose proof sqrt12_pos. field. lra.
Qed.

Lemma qn_zero_bits r :
  (0 < r -> quantization_noise r 0 = PInf) /\ (r = 0 -> quantization_noise r 0 = NaN).
Proof.
  unfold quantization_noise. rewrite Rpower_O by lra.
  replace (sqrt 12 * (1 - 1)) with 0 by ring. split.
  - apply xdiv_zero_pos.
  - intros ->. apply xdiv_zero_zero.
Qed.

(* whole numbers of bits: the step is r / (2^n - 1) *)
Lemma qn_nat r n : (0 < n)%nat ->
  quantization_noise r (INR n) = Fin (r / (2 ^ n - 1) / sqrt 12).
Proof.
  intros H. rewrite qn_val by (now apply lt_0_INR). now rewrite Rpower_pow by lra.
Qed.

(** ** noise gain as a ratio of standard deviations *)
From Verif Require Import Spec_Noise.
From Coq Require Import Lia PeanoNat.

Lemma total_Rsum k : total k = Rsum k.
Proof. induction k as [|w k IH]; simpl; [reflexivity|now rewrite IH]. Qed.

Lemma expect_ext om f g : (forall x, f x = g x) -> expect om f = expect om g.
Proof. intros H. induction om as [|[p x] om IH]; simpl; [reflexivity|now rewrite IH, H]. Qed.
Lemma expect_lin om a f b g :
  expect om (fun x => a * f x + b * g x) = a * expect om f + b * expect om g.
Proof. induction om as [|[p x] om IH]; simpl; [ring|rewrite IH; ring]. Qed.

Lemma expect_zero om : expect om (fun _ => 0) = 0.
Proof. induction om as [|[p x] om IH]; simpl; [ring|rewrite IH; ring]. Qed.

Lemma cross_zero om n s : white om n s -> forall k m i,
  (i < m)%nat -> (m + length k <= n)%nat ->
  expect om (fun x => x i * filtered m k x) = 0.
Proof.
  intros W. induction k as [|w k IH]; simpl; intros m i Hi Hm.
  - rewrite (expect_ext _ _ (fun _ => 0)); [apply expect_zero|intros; ring].
  - rewrite (expect_ext _ _ (fun x => w * (x i * x m) + 1 * (x i * filtered (S m) k x)))
      by (intros; ring).
    rewrite (expect_lin om w (fun x => x i * x m) 1 (fun x => x i * filtered (S m) k x)).
    rewrite IH by lia. rewrite W by lia.
    replace (Nat.eqb i m) with false by (symmetry; apply Nat.eqb_neq; lia). ring.
Qed.

Lemma filtered_var om n s : white om n s -> forall k m, (m + length k <= n)%nat ->
  expect om (fun x => filtered m k x * filtered m k x) = s * s * sumsq k.
Proof.
  intros W. unfold sumsq. induction k as [|w k IH]; simpl; intros m Hm.
  - rewrite (expect_ext _ _ (fun _ => 0)); [|intros; ring]. rewrite expect_zero; ring.
  - rewrite (expect_ext _ _ (fun x => (w * w) * (x m * x m) +
       1 * ((2 * w) * (x m * filtered (S m) k x) + 1 * (filtered (S m) k x * filtered (S m) k x))))
      by (intros; ring).
    rewrite (expect_lin om (w * w) (fun x => x m * x m) 1 (fun x => (2 * w) * (x m * filtered (S m) k x) + 1 * (filtered (S m) k x * filtered (S m) k x))).
    rewrite (expect_lin om (2 * w) (fun x => x m * filtered (S m) k x) 1 (fun x => filtered (S m) k x * filtered (S m) k x)).
    rewrite IH by lia. rewrite (cross_zero om n s W) by lia. rewrite W by lia.
    rewrite Nat.eqb_refl. ring.
Qed.

Lemma noise_gain_is_std_ratio k om s : total k = 1 -> white om (length k) s ->
  exists ng, noise_gain k = Ok (Fin ng) /\ 0 <= ng /\
    expect om (fun x => filtered 0 k x * filtered 0 k x) = (ng * s) * (ng * s).
Proof.
  rewrite total_Rsum. intros E W. eexists; split; [now apply noise_gain_ok|].
  split; [apply sqrt_pos|]. rewrite (filtered_var om (length k) s W) by lia.
  pose proof (sqrt_sqrt _ (sumsq_nonneg k)). 
  replace (sqrt (sumsq k) * s * (sqrt (sumsq k) * s)) with (sqrt (sumsq k) * sqrt (sumsq k) * (s * s)) by ring.
  rewrite H. ring.
Qed.

Lemma noise_gain_raises_total k : noise_gain k = Err ValueError <-> total k <> 1.
Proof. rewrite total_Rsum. apply noise_gain_raises_iff. Qed.
Lemma noise_gain_value k : total k = 1 -> exists ng, noise_gain k = Ok (Fin ng) /\ 0 <= ng /\ ng * ng = total (map (fun w => w * w) k).
Proof.
  rewrite !total_Rsum. intros E. eexists; split; [now apply noise_gain_ok|].
  split; [apply sqrt_pos|]. apply sqrt_sqrt, sumsq_nonneg.
Qed.
Lemma noise_gain_box k : noise_gain k = Ok (Fin (1 / sqrt (INR (length k)))) <->
  total k = 1 /\ forall x, In x k -> x = 1 / INR (length k).
Proof. rewrite total_Rsum. apply noise_gain_lower_eq. Qed.
Lemma noise_gain_le_1 k : total k = 1 -> (forall x, In x k -> 0 <= x) ->
  exists ng, noise_gain k = Ok (Fin ng) /\ 0 < ng <= 1.
Proof. rewrite total_Rsum. apply noise_gain_upper. Qed.
