(** * Proof_Reading: filter_OTF reads a table of the kernel's response (C52) *)
From Coq Require Import Reals Lra List Lia ZArith Psatz Bool.
From Flocq Require Import Core.Raux.
From Verif Require Import Base_XR Base_Np Model_Geo Model_Otf Spec_Filter Spec_Reading Proof_Otf Proof_Filter.
Import ListNotations.
Open Scope R_scope.

Lemma tri_weights d f00 f01 f10 f11 s t : 0 <= s <= 1 -> 0 <= t <= 1 -> over_triangle d f00 f01 f10 f11 s t (tri d f00 f01 f10 f11 s t).
Proof.
  intros Hs Ht. unfold over_triangle, tri. destruct d.
  - destruct (Rleb t s) eqn:E.
    + apply Rleb_true in E. exists (1 - s), (s - t), 0, t. repeat split; lra.
    + apply Rleb_false in E. exists (1 - t), 0, (t - s), s. repeat split; lra.
  - destruct (Rleb (s + t) 1) eqn:E.
    + apply Rleb_true in E. exists (1 - s - t), s, t, 0. repeat split; lra.
    + apply Rleb_false in E. exists 0, (1 - t), (1 - s), (s + t - 1). repeat split; lra.
Qed.
Lemma cell_below x : 0 <= x < 99 -> x - INR (cell x) < 1.
Proof.
  intros [H0 H1]. assert (A := Zfloor_lb x). assert (B := Zfloor_ub x).
  assert (P : (0 <= Zfloor x)%Z) by (apply Zfloor_lub; simpl; lra).
  assert (Q : (Zfloor x < 99)%Z) by (apply lt_IZR; lra).
  unfold cell. change (n_filt - 2)%nat with 98%nat. rewrite Nat.min_r by lia. rewrite INR_IZR_INZ, Z2Nat.id by lia. lra.
Qed.
Lemma wrap_folds u ifov : 0 < ifov -> exists m, u * ifov + IZR m = wrap_val u (0.5 / ifov) * ifov.
Proof.
  intros Hi. exists (- Zfloor ((u + 0.5 / ifov) / (2 * (0.5 / ifov))))%Z. unfold wrap_val, pymod. rewrite opp_IZR.
  generalize (IZR (Zfloor ((u + 0.5 / ifov) / (2 * (0.5 / ifov))))). intros z.
  assert (E : 0.5 / ifov * ifov = 0.5) by (unfold Rdiv; rewrite Rmult_assoc, Rinv_l by lra; lra).
  replace ((u + 0.5 / ifov - 2 * (0.5 / ifov) * z - 0.5 / ifov) * ifov) with (u * ifov - 2 * (0.5 / ifov * ifov) * z) by ring. rewrite E. lra.
Qed.
Lemma filter_reads diag u v kernel ifov : 0 < ifov ->
  exists h, filter_OTF diag u v kernel ifov = Ok (Fin h) /\ reading diag kernel ifov u v h.
Proof.
  intros Hi. unfold filter_OTF. rewrite pydiv_ok by lra. cbn [bind].
  destruct (wrap_folds u ifov Hi) as (m1 & E1). destruct (wrap_folds v ifov Hi) as (m2 & E2).
  set (n := 0.5 / ifov) in *. assert (Hn : 0 < n) by (apply Rdiv_lt_0_compat; lra).
  assert (In2 : ifov * (2 * n) = 1) by (unfold n, Rdiv; replace (ifov * (2 * (0.5 * / ifov))) with (ifov * / ifov) by lra; apply Rinv_r; lra).
  replace (INR (n_filt - 1)) with 99 by (change (n_filt - 1)%nat with 99%nat; rewrite INR_IZR_INZ; reflexivity).
  set (x := (wrap_val u n + n) / (2 * n) * 99). set (y := (n - wrap_val v n) / (2 * n) * 99).
  assert (I2 : / (2 * n) = ifov) by (apply Rmult_eq_reg_r with (2 * n); [rewrite Rinv_l by lra; lra | lra]).
  assert (Ex : x = (wrap_val u n * ifov + 1 / 2) * 99) by (unfold x, Rdiv; rewrite I2; replace (1 * / 2) with (ifov * n) by lra; ring).
  assert (Ey : y = (1 / 2 - wrap_val v n * ifov) * 99) by (unfold y, Rdiv; rewrite I2; replace (1 * / 2) with (ifov * n) by lra; ring).
  assert (Ru := wrap_range u n Hn). assert (Rv := wrap_range v n Hn).
  assert (Bu : - (1 / 2) <= wrap_val u n * ifov < 1 / 2) by nra.
  assert (Bv : - (1 / 2) <= wrap_val v n * ifov < 1 / 2) by nra.
  assert (X : 0 <= x < 99) by lra. assert (Y : 0 < y <= 99) by lra.
  destruct (cell_range x ltac:(lra)) as [Xc Xs]. destruct (cell_range y ltac:(lra)) as [Yc Ys]. assert (Xb := cell_below x X).
  eexists; split; [reflexivity|].
  exists m1, m2, (cell y), (cell x), (x - INR (cell x)), (y - INR (cell y)).
  split; [lia|]. split; [lia|]. split; [lra|]. split; [exact Ys|]. split; [lra|]. split; [lra|]. split; [lra|].
  rewrite !xfer_gain by lia. apply tri_weights; assumption.
Qed.

(** ** One value only *)
Lemma over_triangle_one f a b c d s t h h' : over_triangle f a b c d s t h -> over_triangle f a b c d s t h' -> h = h'.
Proof.
  intros (w1 & w2 & w3 & w4 & P1 & P2 & P3 & P4 & S & Es & Et & C & ->) (v1 & v2 & v3 & v4 & Q1 & Q2 & Q3 & Q4 & S' & Es' & Et' & C' & ->).
  assert (w4 = v4) by (destruct f; destruct C, C'; lra).
  assert (w3 = v3) by lra. assert (w2 = v2) by lra. assert (w1 = v1) by lra. subst. reflexivity.
Qed.
Lemma bottom f a b c d s h : over_triangle f a b c d s 1 h -> h = (1 - s) * c + s * d.
Proof.
  intros (w1 & w2 & w3 & w4 & P1 & P2 & P3 & P4 & S & Es & Et & C & ->).
  assert (w1 = 0) by lra. assert (w2 = 0) by lra. subst. replace w3 with (1 - w4) by lra. ring.
Qed.
Lemma top f a b c d s h : over_triangle f a b c d s 0 h -> h = (1 - s) * a + s * b.
Proof.
  intros (w1 & w2 & w3 & w4 & P1 & P2 & P3 & P4 & S & Es & Et & C & ->).
  assert (w3 = 0) by lra. assert (w4 = 0) by lra. subst. replace w1 with (1 - w2) by lra. ring.
Qed.
Lemma whole_and_part i j s t : 0 <= s < 1 -> 0 <= t < 1 -> INR i + s = INR j + t -> i = j /\ s = t.
Proof.
  intros Hs Ht E. assert (i = j); [|subst; split; [reflexivity | lra]].
  destruct (Nat.lt_trichotomy i j) as [L | [L | L]]; [|exact L|]; apply le_INR in L; rewrite S_INR in L; lra.
Qed.
Lemma reading_one f k ifov u v h h' : reading f k ifov u v h -> reading f k ifov u v h' -> h = h'.
Proof.
  intros (m1 & m2 & i & j & s & t & Li & Lj & Hs & Ht & P & Eu & Ev & O) (m1' & m2' & i' & j' & s' & t' & Li' & Lj' & Hs' & Ht' & P' & Eu' & Ev' & O').
  assert (B : forall n, (n < 99)%nat -> 0 <= INR n <= 98).
  { intros n L. split; [apply pos_INR|]. replace 98 with (INR 98) by (rewrite INR_IZR_INZ; reflexivity). apply le_INR. lia. }
  assert (Bi := B i Li). assert (Bj := B j Lj). assert (Bi' := B i' Li'). assert (Bj' := B j' Lj'). clear B.
  assert (M1 : m1 = m1').
  { assert (-1 < IZR (m1 - m1') < 1) by (rewrite minus_IZR; lra). destruct H as [H1 H2].
    apply (lt_IZR (-1)) in H1. apply (lt_IZR _ 1) in H2. lia. }
  assert (M2 : m2 = m2').
  { assert (-1 < IZR (m2 - m2') < 1) by (rewrite minus_IZR; lra). destruct H as [H1 H2].
    apply (lt_IZR (-1)) in H1. apply (lt_IZR _ 1) in H2. lia. }
  subst m1' m2'. destruct (whole_and_part j j' s s' Hs Hs' ltac:(lra)) as [-> ->].
  assert (E : INR i + t = INR i' + t') by lra. clear Eu Eu' Ev Ev'.
  destruct (Rlt_dec t 1) as [T | T]; destruct (Rlt_dec t' 1) as [T' | T'].
  - destruct (whole_and_part i i' t t' ltac:(lra) ltac:(lra) E) as [-> ->]. eapply over_triangle_one; eassumption.
  - assert (t' = 1) by lra. subst t'. destruct (whole_and_part i (S i') t 0 ltac:(lra) ltac:(lra) ltac:(rewrite S_INR; lra)) as [-> ->].
    apply top in O. apply bottom in O'. rewrite Nat.add_1_r in O'. congruence.
  - assert (t = 1) by lra. subst t. destruct (whole_and_part i' (S i) t' 0 ltac:(lra) ltac:(lra) ltac:(rewrite S_INR; lra)) as [-> ->].
    apply bottom in O. apply top in O'. rewrite Nat.add_1_r in O. congruence.
  - assert (t = 1) by lra. assert (t' = 1) by lra. subst t t'. destruct (whole_and_part i i' 0 0 ltac:(lra) ltac:(lra) ltac:(lra)) as [-> _].
    eapply over_triangle_one; eassumption.
Qed.
(* a quarter of the sampling frequency along a row and none across: half way between two columns *)
Lemma reading_demo f k h : reading f k 1 (1 / 4) 0 h ->
  exists wa wb wc wd, wa + wb + wc + wd = 1 /\ wb + wd = 1 / 4 /\ wc + wd = 1 / 2 /\
    h = wa * gain k (-1 / 100) (24 / 100) + wb * gain k (-1 / 100) (25 / 100) + wc * gain k 0 (24 / 100) + wd * gain k 0 (25 / 100).
Proof.
  intros R.
  destruct R as (m1 & m2 & i & j & s & t & Li & Lj & Hs & Ht & P & Eu & Ev & O).
  assert (B : forall n, (n < 99)%nat -> 0 <= INR n <= 98).
  { intros n L. split; [apply pos_INR|]. replace 98 with (INR 98) by (rewrite INR_IZR_INZ; reflexivity). apply le_INR. lia. }
  assert (Bi := B i Li). assert (Bj := B j Lj).
  assert (M1 : m1 = 0%Z). { assert (H1 : -1 < IZR m1) by lra. assert (H2 : IZR m1 < 1) by lra. apply (lt_IZR (-1)) in H1. apply (lt_IZR _ 1) in H2. lia. }
  assert (M2 : m2 = 0%Z). { assert (H1 : -1 < IZR m2) by lra. assert (H2 : IZR m2 < 1) by lra. apply (lt_IZR (-1)) in H1. apply (lt_IZR _ 1) in H2. lia. }
  subst. assert (K74 : INR 74 = 74) by (rewrite INR_IZR_INZ; reflexivity). assert (K75 : INR 75 = 75) by (rewrite INR_IZR_INZ; reflexivity).
  assert (K49 : INR 49 = 49) by (rewrite INR_IZR_INZ; reflexivity). assert (K50 : INR 50 = 50) by (rewrite INR_IZR_INZ; reflexivity).
  destruct (whole_and_part j 74 s (1 / 4) Hs ltac:(lra)) as [-> ->]. { rewrite K74. lra. }
  assert (T1 : t < 1). { destruct (Rlt_dec t 1); [assumption|]. exfalso. assert (t = 1) by lra. subst t.
    destruct (whole_and_part (S i) 49 0 (1 / 2) ltac:(lra) ltac:(lra)); [|lra]. rewrite S_INR, K49. lra. }
  destruct (whole_and_part i 49 t (1 / 2) ltac:(lra) ltac:(lra)) as [-> ->]. { rewrite K49. lra. }
  destruct O as (wa & wb & wc & wd & _ & _ & _ & _ & W & E1 & E2 & _ & ->).
  exists wa, wb, wc, wd. split; [exact W|]. split; [lra|]. split; [lra|].
  unfold table. change (74 + 1)%nat with 75%nat. change (49 + 1)%nat with 50%nat.
  rewrite K49, K50, K74, K75.
  replace ((49 - 50) / 100) with (-1 / 100) by lra. replace ((50 - 50) / 100) with 0 by lra. replace ((74 - 50) / 100) with (24 / 100) by lra.
  replace ((75 - 50) / 100) with (25 / 100) by lra. reflexivity.
Qed.
