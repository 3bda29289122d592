(** * Proof_Slice: one-dimensional slices of a transfer function. *)
From Coq Require Import Reals Lra Psatz Bool List ZArith Lia.
From Flocq Require Import Core.Raux.
From Verif Require Import Base_XR Base_Np Model_Geo Model_Img.
Import ListNotations.
Open Scope R_scope.

(** ** Sorting monotone lists *)
Lemma sortR_asc l : (forall i, (S i < length l)%nat -> nth i l 0 <= nth (S i) l 0) -> sortR l = l.
Proof.
  induction l as [|x l IH]; intros H; [reflexivity|].
  change (sortR (x :: l)) with (insertR x (sortR l)). rewrite IH.
  - destruct l as [|y l]; [reflexivity|]. cbn [insertR].
    specialize (H 0%nat). cbn [nth length] in H. replace (Rleb x y) with true; [reflexivity|].
    symmetry. apply Rleb_true. apply H. lia.
  - intros i Hi. apply (H (S i)). cbn [length]. lia.
Qed.
Lemma insertR_last x l : (forall y, In y l -> y < x) -> insertR x l = l ++ [x].
Proof.
  induction l as [|y l IH]; intros H; [reflexivity|]. cbn [insertR app].
  replace (Rleb x y) with false by (symmetry; apply Rleb_false; apply H; left; reflexivity).
  rewrite IH by (intros; apply H; right; auto). reflexivity.
Qed.
Lemma sortR_desc l : (forall i j, (i < j < length l)%nat -> nth j l 0 < nth i l 0) -> sortR l = rev l.
Proof.
  induction l as [|x l IH]; intros H; [reflexivity|].
  change (sortR (x :: l)) with (insertR x (sortR l)). rewrite IH.
  - cbn [rev]. apply insertR_last. intros y Hy. apply in_rev in Hy.
    apply In_nth with (d := 0) in Hy. destruct Hy as (j & Hj & <-).
    apply (H 0%nat (S j)). cbn [length]. lia.
  - intros i j Hij. apply (H (S i) (S j)). cbn [length]. lia.
Qed.
Lemma nth_seq_map (F : nat -> R) n i : (i < n)%nat -> nth i (map F (seq 0 n)) 0 = F i.
Proof.
  intros H. rewrite (nth_indep _ 0 (F 0%nat)) by (rewrite map_length, seq_length; exact H).
  rewrite map_nth, seq_nth by exact H. reflexivity.
Qed.
Lemma sort_scaled (s c : R) n : 0 <= s ->
  sortR (map (fun t => t * c) (map (fun i => INR i * s) (seq 0 n)))
  = if Rltb (s * c) 0 then map (fun i => INR (n - 1 - i) * s * c) (seq 0 n) else map (fun i => INR i * s * c) (seq 0 n).
Proof.
  intros Hs. rewrite map_map. rcase.
  - rewrite sortR_desc.
    + apply nth_ext with (d := 0) (d' := 0); [rewrite rev_length, !map_length; reflexivity|].
      intros i Hi. rewrite rev_length, map_length, seq_length in Hi.
      rewrite rev_nth by (rewrite map_length, seq_length; exact Hi). rewrite map_length, seq_length.
      rewrite !nth_seq_map by lia. do 3 f_equal. lia.
    + intros i j Hij. rewrite map_length, seq_length in Hij. rewrite !nth_seq_map by lia.
      assert (INR i < INR j) by (apply lt_INR; lia). nra.
  - apply sortR_asc. intros i Hi. rewrite map_length, seq_length in Hi. rewrite !nth_seq_map by lia.
    rewrite S_INR. nra.
Qed.

Lemma arange_half N : (2 <= N)%nat ->
  arange01 (2 / INR (N - 1)) = map (fun i => INR i * (2 / INR (N - 1))) (seq 0 (N / 2)).
Proof.
  intros HN. unfold arange01. do 2 f_equal.
  assert (P : 0 < INR (N - 1)) by (apply lt_0_INR; lia).
  replace (1 / (2 / INR (N - 1))) with (INR (N - 1) / 2) by (field; lra).
  replace (Zceil (INR (N - 1) / 2)) with (Z.of_nat (N / 2)); [apply Nat2Z.id|].
  symmetry. apply Zceil_imp. rewrite minus_IZR, <- !INR_IZR_INZ.
  assert (D := Nat.div_mod N 2 ltac:(lia)). assert (M := Nat.mod_upper_bound N 2 ltac:(lia)).
  set (q := (N / 2)%nat) in *. set (r := (N mod 2)%nat) in *.
  assert (E : INR (N - 1) = 2 * INR q + INR r - 1).
  { rewrite minus_INR by lia. rewrite D, plus_INR, mult_INR. simpl INR. lra. }
  assert (R0 := pos_INR r). assert (R1 : INR r <= 1) by (apply (le_INR r 1); lia).
  rewrite E. lra.
Qed.

(** ** Interpolation *)
Lemma bilin_exact n z A B C D x y : (2 <= n)%nat ->
  (forall i j, (i < n)%nat -> (j < n)%nat ->
     z i j = A + B * (-1 + 2 * INR j / INR (n - 1)) + C * (1 - 2 * INR i / INR (n - 1))
             + D * (-1 + 2 * INR j / INR (n - 1)) * (1 - 2 * INR i / INR (n - 1))) ->
  bilin n z x y = A + B * x + C * y + D * x * y.
Proof.
  intros Hn Hz. unfold bilin.
  set (X := (x + 1) / 2 * INR (n - 1)). set (Y := (y + 1) / 2 * INR (n - 1)).
  assert (P : 0 < INR (n - 1)) by (apply lt_0_INR; lia).
  assert (Lj : (cell_of n X <= n - 2)%nat) by apply Nat.le_min_l.
  assert (Li : (cell_of n Y <= n - 2)%nat) by apply Nat.le_min_l.
  set (j := cell_of n X) in *. set (i := cell_of n Y) in *.
  rewrite !Hz by lia. rewrite (minus_INR (n - 1) i), (minus_INR (n - 1) (i + 1)), !plus_INR by lia.
  change (INR 1) with 1.
  assert (Ex : x = -1 + 2 * X / INR (n - 1)) by (unfold X; field; lra).
  assert (Ey : y = -1 + 2 * Y / INR (n - 1)) by (unfold Y; field; lra).
  rewrite Ex, Ey. field. lra.
Qed.
Lemma cell_node n i : (2 <= n)%nat -> (i < n)%nat ->
  cell_of n (INR i) = if Nat.eqb i (n - 1) then (n - 2)%nat else i.
Proof.
  intros Hn Hi. unfold cell_of. rewrite INR_IZR_INZ, Zfloor_IZR, Nat2Z.id.
  destruct (Nat.eqb_spec i (n - 1)); [apply Nat.min_l; lia | apply Nat.min_r; lia].
Qed.
Lemma bilin_node n z x y i j : (2 <= n)%nat -> (i < n)%nat -> (j < n)%nat ->
  x = -1 + 2 * INR j / INR (n - 1) -> y = 1 - 2 * INR i / INR (n - 1) -> bilin n z x y = z i j.
Proof.
  intros Hn Hi Hj -> ->. unfold bilin.
  assert (P : 0 < INR (n - 1)) by (apply lt_0_INR; lia).
  replace ((-1 + 2 * INR j / INR (n - 1) + 1) / 2 * INR (n - 1)) with (INR j) by (field; lra).
  replace ((1 - 2 * INR i / INR (n - 1) + 1) / 2 * INR (n - 1)) with (INR (n - 1 - i))
    by (rewrite (minus_INR (n - 1)) by lia; field; lra).
  rewrite !cell_node by lia.
  destruct (Nat.eqb_spec j (n - 1)) as [->|Nj]; destruct (Nat.eqb_spec (n - 1 - i) (n - 1)) as [Ei|Ni].
  - replace i with 0%nat by lia. rewrite (Nat.sub_0_r (n - 1)).
    replace (n - 2 + 1)%nat with (n - 1)%nat by lia. rewrite Nat.sub_diag.
    replace (INR (n - 1) - INR (n - 2)) with 1 by (rewrite <- minus_INR by lia; replace (n - 1 - (n - 2))%nat with 1%nat by lia; reflexivity).
    ring.
  - replace (n - 2 + 1)%nat with (n - 1)%nat by lia. replace (n - 1 - (n - 1 - i))%nat with i by lia.
    replace (INR (n - 1) - INR (n - 2)) with 1 by (rewrite <- minus_INR by lia; replace (n - 1 - (n - 2))%nat with 1%nat by lia; reflexivity).
    ring.
  - replace i with 0%nat by lia. rewrite (Nat.sub_0_r (n - 1)).
    replace (n - 2 + 1)%nat with (n - 1)%nat by lia. rewrite Nat.sub_diag.
    replace (INR (n - 1) - INR (n - 2)) with 1 by (rewrite <- minus_INR by lia; replace (n - 1 - (n - 2))%nat with 1%nat by lia; reflexivity).
    ring.
  - replace (n - 1 - (n - 1 - i))%nat with i by lia. ring.
Qed.
Lemma cell_pos n X : (2 <= n)%nat -> 0 <= X <= INR (n - 1) -> 0 <= X - INR (cell_of n X) <= 1.
Proof.
  intros Hn [H0 H1]. unfold cell_of. assert (A := Zfloor_lb X). assert (B := Zfloor_ub X).
  assert (P : (0 <= Zfloor X)%Z) by (apply Zfloor_lub; simpl; lra).
  assert (E : INR (Z.to_nat (Zfloor X)) = IZR (Zfloor X)) by (rewrite INR_IZR_INZ, Z2Nat.id by lia; reflexivity).
  destruct (Nat.le_gt_cases (n - 2) (Z.to_nat (Zfloor X))) as [L|L].
  - rewrite Nat.min_l by auto. apply le_INR in L. rewrite E in L.
    replace (INR (n - 1)) with (INR (n - 2) + 1) in H1 by (replace (n - 1)%nat with (S (n - 2)) by lia; rewrite S_INR; reflexivity). lra.
  - rewrite Nat.min_r by lia. rewrite E. lra.
Qed.
Lemma mix a b t lo hi : 0 <= t <= 1 -> lo <= a <= hi -> lo <= b <= hi -> lo <= (1 - t) * a + t * b <= hi.
Proof. intros. nra. Qed.
Lemma bilin_range n z x y lo hi : (2 <= n)%nat -> -1 <= x <= 1 -> -1 <= y <= 1 ->
  (forall i j, (i < n)%nat -> (j < n)%nat -> lo <= z i j <= hi) -> lo <= bilin n z x y <= hi.
Proof.
  intros Hn Hx Hy Hz. unfold bilin.
  assert (P : 0 < INR (n - 1)) by (apply lt_0_INR; lia).
  set (X := (x + 1) / 2 * INR (n - 1)). set (Y := (y + 1) / 2 * INR (n - 1)).
  assert (BX : 0 <= X <= INR (n - 1)) by (unfold X; split; nra).
  assert (BY : 0 <= Y <= INR (n - 1)) by (unfold Y; split; nra).
  assert (CX := cell_pos n X Hn BX). assert (CY := cell_pos n Y Hn BY).
  assert (Lj : (cell_of n X <= n - 2)%nat) by apply Nat.le_min_l.
  assert (Li : (cell_of n Y <= n - 2)%nat) by apply Nat.le_min_l.
  apply mix; [exact CY | |]; apply mix; try exact CX; apply Hz; lia.
Qed.

(** ** Slices *)
Definition step (N : nat) : R := 2 / INR (N - 1).
Lemma step_pos N : (2 <= N)%nat -> 0 < step N.
Proof. intros. apply Rdiv_lt_0_compat; [lra|]. apply lt_0_INR. lia. Qed.
Lemma map2_seq {C} (f : R -> R -> C) g h n : map2 f (map g (seq 0 n)) (map h (seq 0 n)) = map (fun i => f (g i) (h i)) (seq 0 n).
Proof. generalize 0%nat. induction n as [|n IH]; intros k; [reflexivity|]. cbn [seq map map2]. rewrite IH. reflexivity. Qed.
Definition idx (c : R) (n i : nat) : R := if Rltb c 0 then INR (n - 1 - i) else INR i.
Lemma slice_form otf N ang : rows otf = N -> cols otf = N -> (2 <= N)%nat ->
  slice_otf otf ang = Ok (map (fun i => bilin N (px otf) (idx (cos ang) (N / 2) i * step N * cos ang)
                                                        (idx (sin ang) (N / 2) i * step N * sin ang)) (seq 0 (N / 2))).
Proof.
  intros Hr Hc HN. unfold slice_otf. rewrite Hr, Hc.
  replace (Nat.ltb N 2) with false by (symmetry; apply Nat.ltb_ge; exact HN).
  rewrite Nat.eqb_refl. cbn [negb]. rewrite arange_half by exact HN. f_equal. fold (step N).
  assert (Sp := step_pos N HN).
  rewrite !sort_scaled by lra.
  assert (G : forall c, (if Rltb (step N * c) 0 then map (fun i => INR (N / 2 - 1 - i) * step N * c) (seq 0 (N / 2))
                         else map (fun i => INR i * step N * c) (seq 0 (N / 2)))
                        = map (fun i => idx c (N / 2) i * step N * c) (seq 0 (N / 2))).
  { intros c. unfold idx. replace (Rltb (step N * c) 0) with (Rltb c 0); [destruct (Rltb c 0); reflexivity|].
    destruct (Rltb c 0) eqn:E; symmetry; [apply Rltb_true in E; apply Rltb_true; nra | apply Rltb_false in E; apply Rltb_false; nra]. }
  rewrite !G. apply map2_seq.
Qed.
Lemma idx_pos c n i : 0 <= c -> idx c n i = INR i.
Proof. intros. unfold idx. replace (Rltb c 0) with false by (symmetry; apply Rltb_false; auto). reflexivity. Qed.
Lemma idx_neg c n i : c < 0 -> idx c n i = INR (n - 1 - i).
Proof. intros. unfold idx. replace (Rltb c 0) with true by (symmetry; apply Rltb_true; auto). reflexivity. Qed.
Lemma half_odd c : ((2 * c + 1) / 2 = c)%nat.
Proof. symmetry. apply Nat.div_unique with 1%nat; lia. Qed.
Lemma odd_INR c : (1 <= c)%nat -> INR (2 * c + 1 - 1) = 2 * INR c.
Proof. intros. replace (2 * c + 1 - 1)%nat with (2 * c)%nat by lia. rewrite mult_INR. reflexivity. Qed.

Lemma slice_u otf c : (1 <= c)%nat -> rows otf = (2 * c + 1)%nat -> cols otf = (2 * c + 1)%nat ->
  slice_otf otf 0 = Ok (map (fun i => px otf c (c + i)) (seq 0 c)).
Proof.
  intros Hc Hr Hco. rewrite (slice_form otf (2 * c + 1)) by (auto; lia). rewrite half_odd.
  f_equal. apply map_ext_in. intros i Hi. apply in_seq in Hi.
  assert (P : 0 < INR c) by (apply lt_0_INR; lia).
  rewrite cos_0, sin_0. rewrite idx_pos by lra. unfold step.
  apply bilin_node; try lia; rewrite odd_INR by lia; rewrite ?plus_INR; field; lra.
Qed.
Lemma slice_v otf c : (1 <= c)%nat -> rows otf = (2 * c + 1)%nat -> cols otf = (2 * c + 1)%nat ->
  slice_otf otf (PI / 2) = Ok (map (fun i => px otf (c - i) c) (seq 0 c)).
Proof.
  intros Hc Hr Hco. rewrite (slice_form otf (2 * c + 1)) by (auto; lia). rewrite half_odd.
  f_equal. apply map_ext_in. intros i Hi. apply in_seq in Hi.
  assert (P : 0 < INR c) by (apply lt_0_INR; lia).
  rewrite cos_PI2, sin_PI2. rewrite idx_pos by lra. rewrite idx_pos by lra. unfold step.
  apply bilin_node; try lia; rewrite odd_INR by lia; rewrite ?minus_INR by lia; field; lra.
Qed.
Lemma slice_minus_u otf c : (1 <= c)%nat -> rows otf = (2 * c + 1)%nat -> cols otf = (2 * c + 1)%nat ->
  slice_otf otf PI = Ok (rev (map (fun i => px otf c (c - i)) (seq 0 c))).
Proof.
  intros Hc Hr Hco. rewrite (slice_form otf (2 * c + 1)) by (auto; lia). rewrite half_odd.
  f_equal. apply nth_ext with (d := 0) (d' := 0); [rewrite rev_length, !map_length; reflexivity|].
  intros i Hi. rewrite map_length, seq_length in Hi.
  rewrite rev_nth by (rewrite map_length, seq_length; exact Hi). rewrite map_length, seq_length.
  rewrite !nth_seq_map by lia.
  assert (P : 0 < INR c) by (apply lt_0_INR; lia).
  rewrite cos_PI, sin_PI. rewrite idx_neg by lra. rewrite idx_pos by lra. unfold step.
  apply bilin_node; try lia; rewrite odd_INR by lia; [|field; lra].
  replace (c - (c - S i))%nat with (S i) by lia. replace (c - 1 - i)%nat with (c - S i)%nat by lia.
  rewrite minus_INR by lia. field. lra.
Qed.
(* samples of a surface that the interpolation reproduces *)
Lemma slice_bilinear otf N A B C D ang : rows otf = N -> cols otf = N -> (2 <= N)%nat ->
  (forall i j, (i < N)%nat -> (j < N)%nat ->
     px otf i j = A + B * (-1 + 2 * INR j / INR (N - 1)) + C * (1 - 2 * INR i / INR (N - 1))
             + D * (-1 + 2 * INR j / INR (N - 1)) * (1 - 2 * INR i / INR (N - 1))) ->
  exists l, slice_otf otf ang = Ok l /\ length l = (N / 2)%nat /\
  forall i, (i < N / 2)%nat ->
    let r k := 2 * INR k / INR (N - 1) in
    let x := if Rltb (cos ang) 0 then r (N / 2 - 1 - i)%nat * cos ang else r i * cos ang in
    let y := if Rltb (sin ang) 0 then r (N / 2 - 1 - i)%nat * sin ang else r i * sin ang in
    nth i l 0 = A + B * x + C * y + D * x * y.
Proof.
  intros Hr Hc HN Hz. rewrite (slice_form otf N) by auto. eexists; split; [reflexivity|].
  split; [rewrite map_length, seq_length; reflexivity|]. intros i Hi r x y. rewrite nth_seq_map by exact Hi.
  rewrite (bilin_exact N (px otf) A B C D) by auto.
  assert (Ex : idx (cos ang) (N / 2) i * step N * cos ang = x).
  { unfold x, idx, step, r. destruct (Rltb (cos ang) 0); unfold Rdiv; ring. }
  assert (Ey : idx (sin ang) (N / 2) i * step N * sin ang = y).
  { unfold y, idx, step, r. destruct (Rltb (sin ang) 0); unfold Rdiv; ring. }
  rewrite Ex, Ey. reflexivity.
Qed.
Lemma slice_first_quadrant otf N A B C D ang : rows otf = N -> cols otf = N -> (2 <= N)%nat ->
  0 <= ang <= PI / 2 ->
  (forall i j, (i < N)%nat -> (j < N)%nat ->
     px otf i j = A + B * (-1 + 2 * INR j / INR (N - 1)) + C * (1 - 2 * INR i / INR (N - 1))
             + D * (-1 + 2 * INR j / INR (N - 1)) * (1 - 2 * INR i / INR (N - 1))) ->
  exists l, slice_otf otf ang = Ok l /\ length l = (N / 2)%nat /\
  forall i, (i < N / 2)%nat ->
    let r := 2 * INR i / INR (N - 1) in
    nth i l 0 = A + B * (r * cos ang) + C * (r * sin ang) + D * (r * cos ang) * (r * sin ang).
Proof.
  intros Hr Hc HN Ha Hz. destruct (slice_bilinear otf N A B C D ang Hr Hc HN Hz) as (l & E & L & S).
  exists l. split; [exact E|]. split; [exact L|]. intros i Hi r. rewrite (S i Hi). unfold r.
  assert (C0 : 0 <= cos ang) by (apply cos_ge_0; lra).
  assert (S0 : 0 <= sin ang) by (apply sin_ge_0; lra).
  replace (Rltb (cos ang) 0) with false by (symmetry; apply Rltb_false; auto).
  replace (Rltb (sin ang) 0) with false by (symmetry; apply Rltb_false; auto). reflexivity.
Qed.
Lemma idx_bound c n i : (i < n)%nat -> 0 <= idx c n i <= INR (n - 1).
Proof.
  intros Hi. unfold idx. destruct (Rltb c 0).
  - split; [apply pos_INR | apply le_INR; lia].
  - split; [apply pos_INR | apply le_INR; lia].
Qed.
Lemma slice_range otf N ang lo hi : rows otf = N -> cols otf = N -> (2 <= N)%nat ->
  (forall i j, (i < N)%nat -> (j < N)%nat -> lo <= px otf i j <= hi) ->
  exists l, slice_otf otf ang = Ok l /\ length l = (N / 2)%nat /\ forall x, In x l -> lo <= x <= hi.
Proof.
  intros Hr Hc HN Hz. rewrite (slice_form otf N) by auto. eexists; split; [reflexivity|].
  split; [rewrite map_length, seq_length; reflexivity|]. intros x Hx. apply in_map_iff in Hx.
  destruct Hx as (i & <- & Hi). apply in_seq in Hi.
  assert (Sp := step_pos N HN).
  assert (G : forall c, -1 <= c <= 1 -> -1 <= idx c (N / 2) i * step N * c <= 1).
  { intros c Hcc. destruct (idx_bound c (N / 2) i ltac:(lia)) as [I0 I1].
    assert (I2 : INR (N / 2 - 1) * step N <= 1).
    { unfold step. assert (P : 0 < INR (N - 1)) by (apply lt_0_INR; lia).
      apply Rmult_le_reg_r with (INR (N - 1)); [exact P|].
      replace (INR (N / 2 - 1) * (2 / INR (N - 1)) * INR (N - 1)) with (2 * INR (N / 2 - 1)) by (field; lra).
      rewrite Rmult_1_l. change 2 with (INR 2). rewrite <- mult_INR. apply le_INR.
      assert (D := Nat.div_mod N 2 ltac:(lia)). lia. }
    assert (J : 0 <= idx c (N / 2) i * step N <= 1) by (split; nra).
    split; nra. }
  apply bilin_range; auto.
  - apply G. apply COS_bound.
  - apply G. apply SIN_bound.
Qed.
Lemma slice_errors otf ang :
  ((rows otf < 2)%nat -> slice_otf otf ang = Err IndexError)
  /\ ((2 <= rows otf)%nat -> rows otf <> cols otf -> slice_otf otf ang = Err ValueError).
Proof.
  unfold slice_otf. split.
  - intros H. replace (Nat.ltb (rows otf) 2) with true by (symmetry; apply Nat.ltb_lt; exact H). reflexivity.
  - intros H1 H2. replace (Nat.ltb (rows otf) 2) with false by (symmetry; apply Nat.ltb_ge; exact H1).
    replace (Nat.eqb (rows otf) (cols otf)) with false by (symmetry; apply Nat.eqb_neq; exact H2). reflexivity.
Qed.
Lemma slice_left_refuted : exists otf ang l,
  rows otf = 5%nat /\ cols otf = 5%nat
  /\ (forall i j, (i < 5)%nat -> (j < 5)%nat -> px otf i j = -1 + 2 * INR j / 4)
  /\ slice_otf otf ang = Ok l /\ cos ang = -1 /\ l = [-1 / 2; 0].
Proof.
  exists {| rows := 5; cols := 5; px := fun i j => -1 + 2 * INR j / 4 |}, PI, [-1 / 2; 0].
  split; [reflexivity|]. split; [reflexivity|]. split; [reflexivity|]. split; [|split; [apply cos_PI | reflexivity]].
  rewrite (slice_minus_u _ 2) by (cbn [rows cols]; lia). cbn [seq map rev app px Nat.sub]. f_equal.
  simpl INR. f_equal; [lra|]. f_equal. lra.
Qed.
(* reading the claim of the docstring on this witness *)
Lemma slice_ccw_refuted : ~ forall otf N A B C D ang, rows otf = N -> cols otf = N -> (2 <= N)%nat ->
  (forall i j, (i < N)%nat -> (j < N)%nat ->
     px otf i j = A + B * (-1 + 2 * INR j / INR (N - 1)) + C * (1 - 2 * INR i / INR (N - 1))
             + D * (-1 + 2 * INR j / INR (N - 1)) * (1 - 2 * INR i / INR (N - 1))) ->
  exists l, slice_otf otf ang = Ok l /\ length l = (N / 2)%nat /\
  forall i, (i < N / 2)%nat ->
    let r := 2 * INR i / INR (N - 1) in
    nth i l 0 = A + B * (r * cos ang) + C * (r * sin ang) + D * (r * cos ang) * (r * sin ang).
Proof.
  intros H. destruct slice_left_refuted as (otf & ang & l0 & Hr & Hc & Hp & E & C1 & ->).
  destruct (H otf 5%nat 0 1 0 0 ang Hr Hc ltac:(lia)) as (l & El & _ & V).
  - intros i j Hi Hj. rewrite Hp by auto. change (5 - 1)%nat with 4%nat. simpl (INR 4). lra.
  - rewrite E in El. injection El as <-. specialize (V 0%nat ltac:(cbn; lia)). cbn [nth] in V. cbn zeta in V.
    rewrite C1 in V. simpl INR in V. lra.
Qed.
