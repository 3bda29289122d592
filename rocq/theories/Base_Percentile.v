(** * Base_Percentile: facts about sorting and np.percentile *)
From Coq Require Import Reals Lra List Lia ZArith Sorted Permutation Psatz.
From Flocq Require Import Core.Raux.
From Verif Require Import Base_XR Base_Np.
Import ListNotations.
Open Scope R_scope.

Lemma insertR_perm x l : Permutation (x :: l) (insertR x l).
Proof.
  induction l as [|y l IH]; simpl; [auto|]. destruct (Rleb x y); [auto|].
  eapply perm_trans; [apply perm_swap|]. now apply perm_skip.
Qed.
Lemma sortR_perm l : Permutation l (sortR l).
Proof.
  induction l as [|x l IH]; simpl; [auto|].
  eapply perm_trans; [apply perm_skip, IH|]. apply insertR_perm.
Qed.
Lemma sortR_length l : length (sortR l) = length l.
Proof. symmetry. apply Permutation_length, sortR_perm. Qed.

Definition nondecr (l : list R) : Prop := StronglySorted Rle l.
Lemma insertR_sorted x l : nondecr l -> nondecr (insertR x l).
Proof.
  induction 1 as [|y l S IH F]; simpl; [repeat constructor|].
  destruct (Rleb x y) eqn:E.
  - apply Rleb_true in E. constructor; [now constructor|]. constructor; [auto|].
    eapply Forall_impl; [|exact F]. intros; lra.
  - apply Rleb_false in E. constructor; [exact IH|].
    apply Forall_forall. intros z Hz.
    apply (Permutation_in _ (Permutation_sym (insertR_perm x l))) in Hz.
    rewrite Forall_forall in F. destruct Hz as [<-|Hz]; [lra|auto].
Qed.
Lemma sortR_sorted l : nondecr (sortR l).
Proof. induction l as [|x l IH]; simpl; [constructor|now apply insertR_sorted]. Qed.

Lemma nondecr_nth l i j d : nondecr l -> (i <= j)%nat -> (j < length l)%nat -> nth i l d <= nth j l d.
Proof.
  intros S. revert i j. induction S as [|y l S IH F]; intros i j Hij Hj; simpl in *; [lia|].
  destruct j as [|j]; [replace i with 0%nat by lia; lra|].
  destruct i as [|i]; [|apply IH; lia].
  rewrite Forall_forall in F. apply F. apply nth_In. lia.
Qed.

Section Lerp.
  Variable l : list R.
  Hypothesis S : nondecr l.
  Let n := length l.

  Lemma lerp_parts h : 0 <= h -> h <= INR n - 1 ->
    let k := Z.to_nat (Zfloor h) in
    (k < n)%nat /\ IZR (Zfloor h) = INR k /\ INR k <= h < INR k + 1 /\
    lerp_at l h = nth k l 0 + (nth (k + 1) l (nth k l 0) - nth k l 0) * (h - INR k).
  Proof.
    intros H0 H1 k. pose proof (Zfloor_lb h). pose proof (Zfloor_ub h).
    assert (Hz : (0 <= Zfloor h)%Z) by (apply Zfloor_lub; exact H0).
    assert (E : IZR (Zfloor h) = INR k).
    { unfold k. rewrite INR_IZR_INZ, Z2Nat.id by auto. reflexivity. }
    split.
    - apply INR_lt. rewrite E in H. lra.
    - split; [exact E|]. split; [lra|]. unfold lerp_at. fold k. now rewrite E.
  Qed.

  Lemma next_ge k : (k < n)%nat -> nth k l 0 <= nth (k + 1) l (nth k l 0).
  Proof.
    intros Hk. destruct (Nat.lt_ge_cases (k + 1) n) as [L|L].
    - rewrite (nth_indep l (nth k l 0) 0) by exact L. apply nondecr_nth; auto. lia.
    - rewrite (nth_overflow l (nth k l 0)) by exact L. lra.
  Qed.

  Lemma lerp_mono h1 h2 : 0 <= h1 -> h1 <= h2 -> h2 <= INR n - 1 -> lerp_at l h1 <= lerp_at l h2.
  Proof.
    intros H0 H1 H2.
    destruct (lerp_parts h1) as [K1 [_ [B1 E1]]]; [lra|lra|].
    destruct (lerp_parts h2) as [K2 [_ [B2 E2]]]; [lra|lra|].
    set (k1 := Z.to_nat (Zfloor h1)) in *. set (k2 := Z.to_nat (Zfloor h2)) in *.
    rewrite E1, E2. pose proof (next_ge k1 K1) as N1. pose proof (next_ge k2 K2) as N2.
    assert (Hk : (k1 <= k2)%nat).
    { unfold k1, k2. apply Z2Nat.inj_le; try (apply Zfloor_lub; simpl; lra). now apply Zfloor_le. }
    destruct (Nat.eq_dec k1 k2) as [E|N].
    - rewrite <- E in *. apply Rplus_le_compat_l. apply Rmult_le_compat_l; lra.
    - assert (L : (k1 + 1 <= k2)%nat) by lia.
      assert (nth (k1 + 1) l (nth k1 l 0) <= nth k2 l 0).
      { rewrite (nth_indep l (nth k1 l 0) 0) by (unfold n in *; lia). apply nondecr_nth; auto. }
      apply Rle_trans with (nth k2 l 0).
      + apply Rle_trans with (nth (k1 + 1) l (nth k1 l 0)); [|auto]. nra.
      + assert (0 <= (nth (k2 + 1) l (nth k2 l 0) - nth k2 l 0) * (h2 - INR k2)).
        { apply Rmult_le_pos; lra. } lra.
  Qed.

  Lemma lerp_bounds h : 0 <= h -> h <= INR n - 1 ->
    exists a b, In a l /\ In b l /\ a <= lerp_at l h <= b.
  Proof.
    intros H0 H1. destruct (lerp_parts h H0 H1) as [K [_ [B E]]].
    set (k := Z.to_nat (Zfloor h)) in *. pose proof (next_ge k K).
    exists (nth k l 0), (nth (k + 1) l (nth k l 0)).
    split; [now apply nth_In|]. split.
    - destruct (Nat.lt_ge_cases (k + 1) n) as [L|L].
      + now apply nth_In.
      + rewrite nth_overflow by exact L. now apply nth_In.
    - rewrite E. split; [|nra].
      assert (0 <= (nth (k + 1) l (nth k l 0) - nth k l 0) * (h - INR k)) by (apply Rmult_le_pos; lra). lra.
  Qed.
End Lerp.

Lemma percentile_ok l q : l <> [] -> 0 <= q <= 100 ->
  percentile l q = Ok (lerp_at (sortR l) (INR (length l - 1) * (q / 100))).
Proof.
  intros H Hq. destruct l as [|x l]; [contradiction|]. unfold percentile.
  rewrite (proj2 (Rleb_true 0 q)), (proj2 (Rleb_true q 100)) by lra. reflexivity.
Qed.

Lemma virtual_index l q : l <> [] -> 0 <= q <= 100 ->
  0 <= INR (length l - 1) * (q / 100) <= INR (length (sortR l)) - 1.
Proof.
  intros H Hq. rewrite sortR_length.
  assert (E : INR (length l - 1) = INR (length l) - 1).
  { rewrite minus_INR; [reflexivity|]. destruct l; [contradiction|simpl; lia]. }
  pose proof (pos_INR (length l - 1)). rewrite <- E. split; nra.
Qed.

Lemma percentile_mono l q1 q2 : l <> [] -> 0 <= q1 -> q1 <= q2 -> q2 <= 100 ->
  exists a b, percentile l q1 = Ok a /\ percentile l q2 = Ok b /\ a <= b.
Proof.
  intros H H0 H1 H2. rewrite !percentile_ok by (auto; lra). do 2 eexists. split; [reflexivity|split; [reflexivity|]].
  pose proof (virtual_index l q1 H ltac:(lra)). pose proof (virtual_index l q2 H ltac:(lra)).
  apply lerp_mono; [apply sortR_sorted|lra| |lra].
  apply Rmult_le_compat_l; [apply pos_INR|lra].
Qed.

Lemma percentile_range l q : l <> [] -> 0 <= q <= 100 ->
  exists a lo hi, percentile l q = Ok a /\ In lo l /\ In hi l /\ lo <= a <= hi.
Proof.
  intros H Hq. rewrite percentile_ok by auto.
  pose proof (virtual_index l q H Hq) as V.
  destruct (lerp_bounds (sortR l) (sortR_sorted l) _ (proj1 V) (proj2 V)) as [a [b [A [B C]]]].
  do 3 eexists. split; [reflexivity|]. split; [|split; [|exact C]];
  eapply Permutation_in; try apply Permutation_sym, sortR_perm; auto.
Qed.

(** ** Ranks *)
Definition countb (P : R -> bool) (l : list R) : nat := length (filter P l).
Lemma countb_perm P l l' : Permutation l l' -> countb P l = countb P l'.
Proof.
  unfold countb. induction 1 as [|x l l' H IH|x y l|l1 l2 l3 H1 IH1 H2 IH2]; simpl; auto.
  - destruct (P x); simpl; congruence.
  - destruct (P x), (P y); simpl; reflexivity.
  - congruence.
Qed.
Lemma countb_le P l k : (forall i, (k <= i < length l)%nat -> P (nth i l 0) = false) -> (countb P l <= k)%nat.
Proof.
  revert k. unfold countb. induction l as [|x l IH]; intros k H; simpl; [lia|].
  destruct k as [|k].
  - pose proof (H 0%nat ltac:(simpl; lia)) as E. simpl in E. rewrite E.
    apply (IH 0%nat). intros i Hi. apply (H (S i)). simpl; lia.
  - assert ((length (filter P l) <= k)%nat) by (apply IH; intros i Hi; apply (H (S i)); simpl; lia).
    destruct (P x); simpl; lia.
Qed.
Lemma countb_ge P l k : (k <= length l)%nat -> (forall i, (i < k)%nat -> P (nth i l 0) = true) -> (k <= countb P l)%nat.
Proof.
  revert k. unfold countb. induction l as [|x l IH]; intros k Hk H; simpl in *; [lia|].
  destruct k as [|k]; [lia|].
  rewrite (H 0%nat) by lia. simpl. apply le_n_S. apply IH; [lia|]. intros i Hi. apply (H (S i)). lia.
Qed.

Lemma percentile_rank l q a : l <> [] -> 0 <= q <= 100 -> percentile l q = Ok a ->
  let h := INR (length l - 1) * (q / 100) in
  INR (countb (fun x => Rltb x a) l) <= h + 1 /\ h < INR (countb (fun x => Rleb x a) l).
Proof.
  intros H Hq E h. rewrite percentile_ok in E by auto. injection E as <-. fold h.
  pose proof (virtual_index l q H Hq) as V. fold h in V.
  pose proof (sortR_sorted l) as S.
  destruct (lerp_parts (sortR l) h (proj1 V) (proj2 V)) as [K [_ [B E]]].
  set (k := Z.to_nat (Zfloor h)) in *. pose proof (next_ge (sortR l) S k K) as N.
  assert (L1 : nth k (sortR l) 0 <= lerp_at (sortR l) h).
  { rewrite E. assert (0 <= (nth (k + 1) (sortR l) (nth k (sortR l) 0) - nth k (sortR l) 0) * (h - INR k)) by (apply Rmult_le_pos; lra). lra. }
  assert (L2 : lerp_at (sortR l) h <= nth (k + 1) (sortR l) (nth k (sortR l) 0)) by (rewrite E; nra).
  rewrite !(countb_perm _ l (sortR l) (sortR_perm l)). split.
  - apply Rle_trans with (INR (k + 1)); [|rewrite plus_INR; simpl; lra].
    apply le_INR. apply countb_le. intros i Hi. apply Rltb_false.
    eapply Rle_trans; [exact L2|]. rewrite (nth_indep _ _ 0) by lia. apply nondecr_nth; auto; lia.
  - apply Rlt_le_trans with (INR (k + 1)); [rewrite plus_INR; simpl; lra|].
    apply le_INR. apply countb_ge; [lia|]. intros i Hi. apply Rleb_true.
    eapply Rle_trans; [|exact L1]. apply nondecr_nth; auto; lia.
Qed.
