(** * Base_Mono: np.interp of a monotone table is monotone *)
From Coq Require Import Reals Lra List Lia Sorted Psatz.
From Verif Require Import Base_XR Base_Np Base_Interp.
Import ListNotations.
Open Scope R_scope.

Definition rising (tab : list (R * R)) : Prop := StronglySorted (fun p q => fst p <= fst q /\ snd p <= snd q) tab.

Lemma scan_lower x0 y0 tab right x lo : rising ((x0, y0) :: tab) -> x0 <= x -> lo <= y0 -> lo <= right ->
  lo <= interp_scan x x0 y0 tab right.
Proof.
  intros S H0 L0 Lr. inversion S as [|? ? S1 F]; subst. rewrite Forall_forall in F.
  apply (scan_bounds (fun y => lo <= y)); auto.
  - intros; nra.
  - intros p Hp. specialize (F p Hp). simpl in F. lra.
Qed.
Lemma scan_mono x0 y0 tab right x x' : rising ((x0, y0) :: tab) ->
  (forall p, In p ((x0, y0) :: tab) -> snd p <= right) -> x0 <= x -> x <= x' ->
  interp_scan x x0 y0 tab right <= interp_scan x' x0 y0 tab right.
Proof.
  revert x0 y0. induction tab as [|[x1 y1] tab IH]; intros x0 y0 S Hr H0 H.
  - pose proof (Hr (x0, y0) (or_introl eq_refl)) as R0. simpl in *. repeat rcase; lra.
  - inversion S as [|? ? S1 F]; subst. inversion F as [|? ? F1 F2]; subst. simpl in F1.
    pose proof (Hr (x0, y0) (or_introl eq_refl)) as R0. pose proof (Hr (x1, y1) (or_intror (or_introl eq_refl))) as R1.
    simpl in R0, R1. simpl.
    assert (Seg : forall z, x0 <= z -> z < x1 ->
      (if Reqb x0 z then y0 else (y1 - y0) / (x1 - x0) * (z - x0) + y0) = y0 + (y1 - y0) * ((z - x0) / (x1 - x0))).
    { intros z A B. rcase; [subst; unfold Rdiv; ring|field; lra]. }
    destruct (Rlt_dec x x1) as [L|L].
    + rewrite (proj2 (Rltb_true _ _) L), Seg by lra.
      assert (D : 0 < / (x1 - x0)) by (apply Rinv_0_lt_compat; lra).
      destruct (Rlt_dec x' x1) as [L'|L'].
      * rewrite (proj2 (Rltb_true _ _) L'), Seg by lra. apply Rplus_le_compat_l. apply Rmult_le_compat_l; [lra|].
        apply Rmult_le_compat_r; lra.
      * rewrite (proj2 (Rltb_false _ _)) by lra.
        apply Rle_trans with y1; [|apply scan_lower; auto; lra].
        assert (T : (x - x0) / (x1 - x0) <= 1).
        { apply Rmult_le_reg_r with (x1 - x0); [lra|]. unfold Rdiv. rewrite Rmult_assoc, Rinv_l by lra. lra. }
        assert ((y1 - y0) * ((x - x0) / (x1 - x0)) <= (y1 - y0) * 1) by (apply Rmult_le_compat_l; lra). lra.
    + rewrite !(proj2 (Rltb_false _ _)) by lra. apply IH; auto; try lra. intros p Hp. apply Hr. now right.
Qed.
Lemma interp_mono tab left right x x' : tab <> [] -> rising tab ->
  (forall p, In p tab -> left <= snd p <= right) -> x <= x' ->
  interp_tab x tab left right <= interp_tab x' tab left right.
Proof.
  intros N S H Hx. destruct tab as [|[x0 y0] tab]; [contradiction|]. simpl.
  pose proof (H (x0, y0) (or_introl eq_refl)) as H0. simpl in H0. repeat rcase; try lra.
  - apply scan_lower; auto; lra.
  - apply scan_mono; auto. intros p Hp. now apply H.
Qed.

Definition flip (p : R * R) : R * R := (fst p, - snd p).
Lemma scan_flip x0 y0 tab right x : interp_scan x x0 (- y0) (map flip tab) (- right) = - interp_scan x x0 y0 tab right.
Proof.
  revert x0 y0. induction tab as [|[x1 y1] tab IH]; intros x0 y0; simpl; repeat rcase; auto. unfold Rdiv. ring.
Qed.
Lemma interp_flip tab left right x : interp_tab x (map flip tab) (- left) (- right) = - interp_tab x tab left right.
Proof.
  destruct tab as [|[x0 y0] tab]; simpl; [ring|]. rcase; auto. apply scan_flip.
Qed.
Definition falling (tab : list (R * R)) : Prop := StronglySorted (fun p q => fst p <= fst q /\ snd q <= snd p) tab.
Lemma interp_anti tab left right x x' : tab <> [] -> falling tab ->
  (forall p, In p tab -> right <= snd p <= left) -> x <= x' ->
  interp_tab x' tab left right <= interp_tab x tab left right.
Proof.
  intros N S H Hx.
  assert (G : interp_tab x (map flip tab) (- left) (- right) <= interp_tab x' (map flip tab) (- left) (- right)).
  { apply interp_mono; auto.
    - destruct tab; [contradiction|discriminate].
    - unfold rising. clear -S. induction S as [|p tab S IH F]; simpl; constructor; auto.
      rewrite Forall_map. eapply Forall_impl; [|exact F]. intros q. unfold flip. simpl. lra.
    - intros p Hp. apply in_map_iff in Hp. destruct Hp as [q [<- Hq]]. specialize (H q Hq). unfold flip. simpl. lra. }
  rewrite !interp_flip in G. lra.
Qed.
