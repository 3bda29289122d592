(** * Proof_F64Rel: relative errors of positive binary64 computations, counted on a logarithmic scale *)
From Coq Require Import Reals ZArith Lia Lra Psatz Floats.
From Flocq Require Import Core IEEE754.BinarySingleNaN IEEE754.PrimFloat.
From Flocq Require Import Relative.
From Verif Require Import Spec_F64 Spec_F64Rad Proof_Round Num_LnF64.
Open Scope R_scope.

Notation float := PrimFloat.float.
Ltac parts := repeat match goal with |- _ /\ _ => split end.

(* one rounding changes the logarithm by at most [q] *)
Definition q : R := 1.01 / 2 ^ 53.
Lemma q_val : q = 1.01 / 9007199254740992. Proof. unfold q. replace (2 ^ 53) with 9007199254740992 by ring. reflexivity. Qed.
Lemma q_pos : 0 < q. Proof. rewrite q_val. lra. Qed.

Lemma ln_between x : -1 / 2 <= x <= 1 / 2 -> x - 2 * (x * x) <= ln (1 + x) <= x.
Proof.
  intros X. split.
  - (* ln(1+x) >= x/(1+x) >= x - 2 x^2 *)
    assert (P : 0 < / (1 + x)) by (apply Rinv_0_lt_compat; lra).
    assert (H : ln (/ (1 + x)) <= / (1 + x) - 1).
    { generalize (exp_ineq1_le (ln (/ (1 + x)))). rewrite exp_ln by exact P. lra. }
    rewrite ln_Rinv in H by lra. assert (x - 2 * (x * x) <= 1 - / (1 + x)); [|lra].
    assert (I : / (1 + x) * (1 + x) = 1) by (apply Rinv_l; lra).
    set (i := / (1 + x)) in *. clearbody i. replace (1 - i) with (i * x) by nra.
    apply (Rmult_le_reg_r (1 + x)); [lra|]. replace (i * x * (1 + x)) with (x * (i * (1 + x))) by ring. rewrite I. nra.
  - generalize (exp_ineq1_le (ln (1 + x))). rewrite exp_ln by lra. lra.
Qed.
Lemma ln_le_mono x y : 0 < x -> x <= y -> ln x <= ln y.
Proof. intros X [H|H]; [left; now apply ln_increasing|right; now subst]. Qed.
Lemma exp_le_mono x y : x <= y -> exp x <= exp y.
Proof. intros [H|H]; [left; now apply exp_increasing|right; now subst]. Qed.

(* relative error of a value, on the logarithmic scale *)
Lemma ln_close v r e : 0 < r -> 0 <= e <= / 2 ^ 40 -> Rabs (v - r) <= e * r -> 0 < v /\ Rabs (ln v - ln r) <= 1.001 * e.
Proof.
  intros R0 E H. replace (2 ^ 40) with 1099511627776 in E by ring. set (x := v / r - 1).
  assert (V : v = r * (1 + x)) by (unfold x; field; lra).
  assert (XE : Rabs x <= e).
  { replace x with ((v - r) / r) by (unfold x; field; lra). unfold Rdiv. rewrite Rabs_mult, (Rabs_pos_eq (/ r)) by (left; apply Rinv_0_lt_compat; lra).
    apply (Rmult_le_reg_r r); [lra|]. rewrite Rmult_assoc, Rinv_l, Rmult_1_r by lra. lra. }
  assert (-e <= x <= e) by (revert XE; unfold Rabs; destruct (Rcase_abs x); lra).
  split. { rewrite V. apply Rmult_lt_0_compat; lra. }
  rewrite V, ln_mult by lra. replace (ln r + ln (1 + x) - ln r) with (ln (1 + x)) by ring.
  generalize (ln_between x ltac:(lra)). intros [L U]. apply Rabs_le. assert (x * x <= e * / 10000) by nra. lra.
Qed.

Lemma small_bpow : exp 620 < bpow radix2 900.
Proof. rewrite <- (pow2_bpow 900 : 2 ^ 900 = bpow radix2 900). exact exp_620. Qed.
Lemma ln_900 x : 0 < x -> -620 <= ln x <= 620 -> Rabs x < bpow radix2 900.
Proof.
  intros X L. rewrite Rabs_pos_eq by lra. apply Rle_lt_trans with (exp 620); [|exact small_bpow]. rewrite <- (exp_ln x X). apply exp_le_mono. lra.
Qed.
Lemma rnd_rel x : 0 < x -> -620 <= ln x <= 620 -> Rabs (rnd x - x) <= / 2 ^ 53 * x.
Proof.
  intros X L. assert (T : bpow radix2 (-1022) <= Rabs x).
  { rewrite Rabs_pos_eq by lra. apply Rle_trans with (exp (-620)).
    - replace (-620) with (- (620)) by lra. rewrite exp_Ropp. apply Rle_trans with (bpow radix2 (-900)); [apply bpow_le; lia|].
      change (-900)%Z with (- (900))%Z. rewrite bpow_opp. apply Rinv_le_contravar; [apply exp_pos|]. left. exact small_bpow.
    - rewrite <- (exp_ln x X). apply exp_le_mono. lra. }
  generalize (Relative.relative_error_N_FLT radix2 (-1074) 53 ltac:(lia) (fun z => negb (Z.even z)) x T).
  change (round radix2 (FLT_exp (-1074) 53) (Znearest (fun z => negb (Z.even z))) x) with (rnd x). intros H.
  rewrite (Rabs_pos_eq x) in H by lra. eapply Rle_trans; [exact H|]. apply Rmult_le_compat_r; [lra|].
  rewrite pow2_bpow, <- bpow_opp. simpl (- Z.of_nat 53)%Z. change (-53 + 1)%Z with (-52)%Z.
  replace (/ 2) with (bpow radix2 (-1)) by reflexivity. rewrite <- bpow_plus. apply bpow_le. lia.
Qed.
Lemma rnd_ln x : 0 < x -> -620 <= ln x <= 620 -> 0 < rnd x /\ Rabs (ln (rnd x) - ln x) <= q /\ Rabs x < bpow radix2 900.
Proof.
  intros X L. destruct (ln_close (rnd x) x (/ 2 ^ 53)) as [P Q].
  - exact X.
  - replace (2 ^ 53) with 9007199254740992 by ring. replace (2 ^ 40) with 1099511627776 by ring. lra.
  - now apply rnd_rel.
  - split; [exact P|]. split; [|now apply ln_900]. eapply Rle_trans; [exact Q|]. unfold q. replace (2 ^ 53) with 9007199254740992 by ring. lra.
Qed.

(** ** the calculus: x is positive, its logarithm is within t roundings of that of r, and ln r lies between a and b *)
Definition near (t a b : R) (x : float) (r : R) : Prop :=
  exists v, stands_for x v /\ 0 < v /\ 0 < r /\ Rabs (ln v - ln r) <= t * q /\ a <= ln r <= b.
Lemma near_weaken t t' a a' b b' x r : near t a b x r -> t <= t' -> a' <= a -> b <= b' -> near t' a' b' x r.
Proof.
  intros (v & S & V & R0 & E & B) Ht Ha Hb. exists v. parts; try assumption; try lra.
  eapply Rle_trans; [exact E|]. apply Rmult_le_compat_r; [left; exact q_pos|exact Ht].
Qed.
Lemma near_val x r a b : stands_for x r -> 0 < r -> a <= ln r <= b -> near 0 a b x r.
Proof. intros S P B. exists r. parts; try assumption; try lra. rewrite Rminus_eq_0, Rabs_R0. lra. Qed.
(* accuracies used: t below a million, so that t roundings stay below a thousandth *)
Lemma tq t : 0 <= t <= 1000000 -> 0 <= t * q <= / 1000.
Proof. intros T. rewrite q_val. lra. Qed.
Lemma abs_le x y : Rabs x <= y -> -y <= x <= y.
Proof. intros H. unfold Rabs in H. destruct (Rcase_abs x); lra. Qed.
Lemma near_rnd x v r t a b : stands_for x (rnd v) -> 0 < v -> 0 < r -> Rabs (ln v - ln r) <= t * q -> a <= ln r <= b ->
  -620 <= ln v <= 620 -> near (t + 1) a b x r.
Proof.
  intros S V R0 E B N. destruct (rnd_ln v V N) as (P & Q & _). exists (rnd v). parts; try assumption; try lra.
  replace (ln (rnd v) - ln r) with ((ln (rnd v) - ln v) + (ln v - ln r)) by ring.
  eapply Rle_trans; [apply Rabs_triang|]. lra.
Qed.
Lemma near_mul t1 t2 a1 a2 b1 b2 x y r s : near t1 a1 b1 x r -> near t2 a2 b2 y s ->
  0 <= t1 -> 0 <= t2 -> t1 + t2 <= 900000 -> -619 <= a1 + a2 -> b1 + b2 <= 619 ->
  near (t1 + t2 + 1) (a1 + a2) (b1 + b2) (x * y)%float (r * s).
Proof.
  intros (v & S & V & R0 & E & B) (w & S' & W & S0 & E' & B') T1 T2 T A0 B0.
  generalize (tq (t1 + t2) ltac:(lra)). intros Q. apply abs_le in E, E'.
  assert (L : ln (v * w) = ln v + ln w) by now apply ln_mult. assert (L' : ln (r * s) = ln r + ln s) by now apply ln_mult.
  assert (N : -620 <= ln (v * w) <= 620) by (rewrite L; lra).
  assert (P : 0 < v * w) by now apply Rmult_lt_0_compat.
  apply (near_rnd _ (v * w)).
  - apply f_mul; [exact S|exact S'|]. apply rnd_ln; assumption.
  - exact P.
  - now apply Rmult_lt_0_compat.
  - rewrite L, L'. apply Rabs_le. lra.
  - rewrite L'. lra.
  - exact N.
Qed.
Lemma near_div t1 t2 a1 a2 b1 b2 x y r s : near t1 a1 b1 x r -> near t2 a2 b2 y s ->
  0 <= t1 -> 0 <= t2 -> t1 + t2 <= 900000 -> -619 <= a1 - b2 -> b1 - a2 <= 619 ->
  near (t1 + t2 + 1) (a1 - b2) (b1 - a2) (x / y)%float (r / s).
Proof.
  intros (v & S & V & R0 & E & B) (w & S' & W & S0 & E' & B') T1 T2 T A0 B0.
  generalize (tq (t1 + t2) ltac:(lra)). intros Q. apply abs_le in E, E'.
  assert (L : ln (v / w) = ln v - ln w) by (unfold Rdiv; rewrite ln_mult, ln_Rinv; [ring|exact W|exact V|now apply Rinv_0_lt_compat]).
  assert (L' : ln (r / s) = ln r - ln s) by (unfold Rdiv; rewrite ln_mult, ln_Rinv; [ring|exact S0|exact R0|now apply Rinv_0_lt_compat]).
  assert (N : -620 <= ln (v / w) <= 620) by (rewrite L; lra).
  assert (P : 0 < v / w) by now apply Rdiv_lt_0_compat.
  apply (near_rnd _ (v / w)).
  - apply f_div; [exact S|exact S'|lra|]. apply rnd_ln; assumption.
  - exact P.
  - now apply Rdiv_lt_0_compat.
  - rewrite L, L'. apply Rabs_le. lra.
  - rewrite L'. lra.
  - exact N.
Qed.
(* sums: the accuracy is that of the worse summand *)
Lemma ln_sum v w r s t : 0 < v -> 0 < w -> 0 < r -> 0 < s -> Rabs (ln v - ln r) <= t -> Rabs (ln w - ln s) <= t ->
  Rabs (ln (v + w) - ln (r + s)) <= t.
Proof.
  intros V W R0 S0 E E'. apply abs_le in E, E'.
  assert (U : forall x y, 0 < x -> 0 < y -> ln x - ln y <= t -> x <= y * exp t).
  { intros x y X Y H. rewrite <- (exp_ln x X), <- (exp_ln y Y), <- exp_plus. apply exp_le_mono. lra. }
  generalize (U v r V R0 ltac:(lra)), (U r v R0 V ltac:(lra)), (U w s W S0 ltac:(lra)), (U s w S0 W ltac:(lra)). intros H1 H2 H3 H4.
  assert (K : forall x y, 0 < x -> 0 < y -> x <= y * exp t -> ln x - ln y <= t).
  { intros x y X Y H. apply ln_le_mono in H; [|exact X]. rewrite ln_mult, ln_exp in H; [lra|exact Y|apply exp_pos]. }
  generalize (K (v + w) (r + s) ltac:(lra) ltac:(lra) ltac:(lra)), (K (r + s) (v + w) ltac:(lra) ltac:(lra) ltac:(lra)). intros.
  apply Rabs_le. lra.
Qed.
Lemma near_add t a b x y r s : near t a b x r -> near t a b y s -> 0 <= t <= 900000 -> -619 <= a -> b <= 618 ->
  forall b', ln (r + s) <= b' -> near (t + 1) a b' (x + y)%float (r + s).
Proof.
  intros (v & S & V & R0 & E & B) (w & S' & W & S0 & E' & B') T A0 B0 b' Hb.
  generalize (tq t ltac:(lra)). intros Q.
  assert (E2 : Rabs (ln (v + w) - ln (r + s)) <= t * q) by now apply ln_sum.
  assert (La : a <= ln (r + s)) by (apply Rle_trans with (ln r); [lra|apply ln_le_mono; lra]).
  assert (Lb : ln (r + s) <= b + 0.70).
  { assert (Hr : r <= exp b) by (rewrite <- (exp_ln r R0); apply exp_le_mono; lra).
    assert (Hs : s <= exp b) by (rewrite <- (exp_ln s S0); apply exp_le_mono; lra).
    apply Rle_trans with (ln (2 * exp b)); [apply ln_le_mono; lra|]. rewrite ln_mult, ln_exp by (try apply exp_pos; lra). generalize ln_2_num. lra. }
  assert (N : -620 <= ln (v + w) <= 620) by (apply abs_le in E2; lra).
  apply (near_rnd _ (v + w)); try assumption; try lra.
  apply f_add; [exact S|exact S'|]. apply rnd_ln; [lra|exact N].
Qed.

(** ** zero is allowed as well *)
Definition near0 (t a b : R) (x : float) (r : R) : Prop := (r = 0 /\ stands_for x 0) \/ near t a b x r.
Lemma near0_weaken t t' a a' b b' x r : near0 t a b x r -> t <= t' -> a' <= a -> b <= b' -> near0 t' a' b' x r.
Proof. intros [H|H] T A B; [now left|right; now apply (near_weaken t t' a a' b b')]. Qed.
Lemma rnd_0 : rnd 0 = 0. Proof. apply round_0. apply valid_rnd_N. Qed.
Lemma zero_900 : Rabs 0 < bpow radix2 900. Proof. rewrite Rabs_R0. apply bpow_gt_0. Qed.
Lemma near_small t a b x r v : near t a b x r -> stands_for x v -> 0 <= t <= 900000 -> -619 <= a -> b <= 619 -> rnd v = v /\ Rabs v < bpow radix2 900.
Proof.
  intros (w & S & W & R0 & E & B) S' T A0 B0. assert (v = w) by (destruct S as [_ S], S' as [_ S']; congruence). subst w.
  generalize (tq t ltac:(lra)). intros Q. apply abs_le in E. split; [|apply rnd_ln; [exact W|lra]].
  destruct S' as [_ <-]. apply round_generic; [apply valid_rnd_N|]. apply generic_format_B2R.
Qed.
Lemma near0_mul t1 t2 a1 a2 b1 b2 x y r s : near0 t1 a1 b1 x r -> near0 t2 a2 b2 y s ->
  0 <= t1 -> 0 <= t2 -> t1 + t2 <= 900000 -> -619 <= a1 + a2 -> b1 + b2 <= 619 ->
  near0 (t1 + t2 + 1) (a1 + a2) (b1 + b2) (x * y)%float (r * s).
Proof.
  intros X Y T1 T2 T A0 B0.
  assert (Z : forall v w, stands_for x v -> stands_for y w -> v * w = 0 -> stands_for (x * y)%float 0).
  { intros v w SX SY E. rewrite <- rnd_0, <- E. apply f_mul; [exact SX|exact SY|]. rewrite E. exact zero_900. }
  destruct X as [[-> X]|X], Y as [[-> Y]|Y].
  - left. split; [ring|]. apply (Z 0 0); auto; ring.
  - left. split; [ring|]. destruct Y as (w & S & _). apply (Z 0 w); auto; ring.
  - left. split; [ring|]. destruct X as (w & S & _). apply (Z w 0); auto; ring.
  - right. now apply near_mul.
Qed.
Lemma near0_div t1 t2 a1 a2 b1 b2 x y r s : near0 t1 a1 b1 x r -> near t2 a2 b2 y s ->
  0 <= t1 -> 0 <= t2 -> t1 + t2 <= 900000 -> -619 <= a1 - b2 -> b1 - a2 <= 619 ->
  near0 (t1 + t2 + 1) (a1 - b2) (b1 - a2) (x / y)%float (r / s).
Proof.
  intros [[-> X]|X] Y T1 T2 T A0 B0.
  - left. destruct Y as (w & S & W & S0 & _). split; [unfold Rdiv; ring|]. rewrite <- rnd_0. replace 0 with (0 / w) by (unfold Rdiv; ring).
    apply f_div; [exact X|exact S|lra|]. replace (0 / w) with 0 by (unfold Rdiv; ring). exact zero_900.
  - right. now apply near_div.
Qed.
Lemma near0_add t a b x y r s : near0 t a b x r -> near0 t a b y s -> 0 <= t <= 900000 -> -619 <= a -> b <= 617 ->
  forall b', (0 < r + s -> ln (r + s) <= b') -> near0 (t + 1) a b' (x + y)%float (r + s).
Proof.
  intros X Y T A0 B0 b' Hb. generalize q_pos. intros Q.
  assert (C : forall (u v : float) p, near t a b u p -> stands_for v 0 -> stands_for (u + v)%float (rnd (B2R (Prim2B u))) /\ stands_for (v + u)%float (rnd (B2R (Prim2B u)))).
  { intros u v p U V. assert (SU : stands_for u (B2R (Prim2B u))) by (destruct U as (w & [F _] & _); split; [exact F|reflexivity]).
    destruct (near_small _ _ _ _ _ _ U SU ltac:(lra) ltac:(lra) ltac:(lra)) as [N1 N2]. split.
    - replace (B2R (Prim2B u)) with (B2R (Prim2B u) + 0) at 1 by ring. apply f_add; [exact SU|exact V|]. now rewrite Rplus_0_r.
    - replace (B2R (Prim2B u)) with (0 + B2R (Prim2B u)) at 1 by ring. apply f_add; [exact V|exact SU|]. now rewrite Rplus_0_l. }
  assert (D : forall (u z : float) p, near t a b u p -> stands_for z (rnd (B2R (Prim2B u))) -> ln p <= b' -> near (t + 1) a b' z p).
  { intros u z p U SZ L. assert (SU : stands_for u (B2R (Prim2B u))) by (destruct U as (w & [F _] & _); split; [exact F|reflexivity]).
    destruct (near_small _ _ _ _ _ _ U SU ltac:(lra) ltac:(lra) ltac:(lra)) as [N1 N2]. rewrite N1 in SZ.
    destruct U as (w & [F W'] & W & P & E & B). exists w. rewrite W' in SZ. parts; try assumption; lra. }
  destruct X as [[-> X]|X], Y as [[-> Y]|Y].
  - left. split; [ring|]. rewrite <- rnd_0. replace 0 with (0 + 0) by ring. apply f_add; [exact X|exact Y|]. rewrite Rplus_0_l. exact zero_900.
  - right. rewrite Rplus_0_l in *. apply (D y); [exact Y|apply (C y x s); assumption|]. apply Hb. now destruct Y as (? & _ & _ & ? & _).
  - right. rewrite Rplus_0_r in *. apply (D x); [exact X|apply (C x y r); assumption|]. apply Hb. now destruct X as (? & _ & _ & ? & _).
  - right. apply (near_add t a b); try assumption; try lra. apply Hb. destruct X as (? & _ & _ & ? & _), Y as (? & _ & _ & ? & _). lra.
Qed.
Lemma near0_nonneg t a b x r : near0 t a b x r -> 0 <= r.
Proof. intros [[-> _]|(v & _ & _ & R0 & _)]; lra. Qed.
Lemma near0_le t a b x r : near0 t a b x r -> 0 <= r <= exp b.
Proof.
  intros H. split; [now apply near0_nonneg in H|]. destruct H as [[-> _]|(v & _ & _ & R0 & _ & B)]; [left; apply exp_pos|].
  rewrite <- (exp_ln r R0). apply exp_le_mono. lra.
Qed.
(* the upper bound that always works *)
Lemma near0_add' t a b x y r s : near0 t a b x r -> near0 t a b y s -> 0 <= t <= 900000 -> -619 <= a -> b <= 617 ->
  near0 (t + 1) a (b + 0.7) (x + y)%float (r + s).
Proof.
  intros X Y T A0 B0. apply (near0_add t a b); try assumption. intros P.
  apply near0_le in X, Y. apply Rle_trans with (ln (2 * exp b)); [apply ln_le_mono; lra|].
  rewrite ln_mult, ln_exp by (try apply exp_pos; lra). generalize ln_2_num. lra.
Qed.

(** ** the final reading *)
Lemma near0_close t a b x r : near0 t a b x r -> 0 <= t <= 8500 -> close (/ 10 ^ 12) x r.
Proof.
  intros [[-> S]|(v & S & V & R0 & E & _)] T.
  - exists 0. split; [exact S|]. rewrite Rminus_0_r, Rabs_R0. lra.
  - exists v. split; [exact S|]. rewrite (Rabs_pos_eq r) by lra. apply abs_le in E.
    assert (B : t * q <= 0.99 * (/ 10 ^ 12)) by (rewrite q_val; lra). generalize ln_tol. intros L.
    assert (H1 : v <= r * (1 + / 10 ^ 12)).
    { rewrite <- (exp_ln v V), <- (exp_ln (r * (1 + / 10 ^ 12))) by (apply Rmult_lt_0_compat; lra). apply exp_le_mono. rewrite ln_mult by lra. lra. }
    assert (H2 : r <= v * (1 + / 10 ^ 12)).
    { rewrite <- (exp_ln r R0), <- (exp_ln (v * (1 + / 10 ^ 12))) by (apply Rmult_lt_0_compat; lra). apply exp_le_mono. rewrite ln_mult by lra. lra. }
    apply Rabs_le. split; [|lra].
    assert (r * (1 - / 10 ^ 12) <= v) by nra. lra.
Qed.
