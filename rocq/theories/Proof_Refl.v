(** * Proof_Refl: img_to_reflectance (C87) *)
From Coq Require Import Reals Lra List Lia ZArith Psatz Bool Sorted Permutation.
From Verif Require Import Base_XR Base_Np Base_Interp Model_Geo Model_Img Model_Sim Spec_Sim.
Import ListNotations.
Open Scope R_scope.

(** ** sorting *)
Lemma insert_by_perm p l : Permutation (p :: l) (insert_by p l).
Proof.
  induction l as [|q l IH]; simpl; [auto|]. destruct (Rleb (fst p) (fst q)); [auto|].
  eapply perm_trans; [apply perm_swap|]. now apply perm_skip.
Qed.
Lemma sort_by_perm l : Permutation l (sort_by l).
Proof. induction l as [|p l IH]; simpl; [auto|]. eapply perm_trans; [apply perm_skip, IH|]. apply insert_by_perm. Qed.
Lemma insert_by_inc p l : increasing l -> (forall q, In q l -> fst q <> fst p) -> increasing (insert_by p l).
Proof.
  induction 1 as [|q l S IH F]; simpl; intros N; [repeat constructor|]. destruct (Rleb (fst p) (fst q)) eqn:E.
  - apply Rleb_true in E. assert (fst q <> fst p) by (apply N; now left).
    constructor; [now constructor|]. constructor; [lra|]. eapply Forall_impl; [|exact F]. simpl. intros; lra.
  - apply Rleb_false in E. constructor; [apply IH; intros r Hr; apply N; now right|].
    apply Forall_forall. intros z Hz. apply (Permutation_in _ (Permutation_sym (insert_by_perm p l))) in Hz.
    destruct Hz as [<-|Hz]; [exact E|]. rewrite Forall_forall in F. apply F, Hz.
Qed.
Lemma sort_by_inc l : NoDup (map fst l) -> increasing (sort_by l).
Proof.
  induction l as [|p l IH]; simpl; intros H; [constructor|]. inversion H as [|? ? N D]; subst.
  apply insert_by_inc; [apply IH, D|]. intros q Hq E. apply N. rewrite <- E. apply in_map.
  apply (Permutation_in _ (Permutation_sym (sort_by_perm l))), Hq.
Qed.
Lemma sort_by_length l : length (sort_by l) = length l.
Proof. symmetry. apply Permutation_length, sort_by_perm. Qed.
Lemma sort_by_in p l : In p (sort_by l) <-> In p l.
Proof. split; apply Permutation_in; [apply Permutation_sym|]; apply sort_by_perm. Qed.

Lemma inc_nth tab i j : increasing tab -> (i < j)%nat -> (j < length tab)%nat -> fst (nth i tab (0,0)) < fst (nth j tab (0,0)).
Proof.
  intros H. revert i j. induction H as [|p l S IH F]; intros i j Hi Hj; simpl in Hj; [lia|].
  destruct j as [|j]; [lia|]. destruct i as [|i]; simpl.
  - rewrite Forall_forall in F. apply F. apply nth_In. lia.
  - apply IH; lia.
Qed.
Lemma inc_nth_le tab i j : increasing tab -> (i <= j)%nat -> (j < length tab)%nat -> fst (nth i tab (0,0)) <= fst (nth j tab (0,0)).
Proof. intros H Hi Hj. destruct (Nat.eq_dec i j) as [->|N]; [lra|]. left. apply inc_nth; auto. lia. Qed.
Lemma filter_none {A} (f : A -> bool) l : (forall x, In x l -> f x = false) -> filter f l = [].
Proof.
  induction l as [|x l IH]; intros H; simpl; [auto|]. rewrite (H x) by now left. apply IH. intros; apply H; now right.
Qed.
(* searchsorted *)
Lemma count_below tab v : increasing tab -> let c := length (filter (fun p => Rltb (fst p) v) tab) in
  (c <= length tab)%nat /\ forall k, (k < length tab)%nat -> (k < c)%nat <-> fst (nth k tab (0,0)) < v.
Proof.
  intros H. induction H as [|p l S IH F]; simpl; [split; [lia|]; intros; lia|]. destruct (Rltb (fst p) v) eqn:E; simpl.
  - destruct IH as [L K]. split; [lia|]. intros [|k] Hk; [split; [intros _; apply Rltb_true, E | lia]|]. specialize (K k). lia || (split; intros; [apply K; lia | apply -> Nat.succ_lt_mono; apply K; [lia|assumption]]).
  - apply Rltb_false in E. rewrite filter_none; [|intros q Hq; apply Rltb_false; rewrite Forall_forall in F; specialize (F q Hq); lra].
    simpl. split; [lia|]. intros [|k] Hk; simpl.
    + split; [lia | intros; lra].
    + split; [lia|]. intros Q. rewrite Forall_forall in F. assert (Hk' : (k < length l)%nat) by lia. specialize (F _ (nth_In l (0,0) Hk')). cbn [fst] in *. lra.
Qed.

Lemma extrapolate_ok tab v : increasing tab -> (2 <= length tab)%nat -> exists r, extrapolate tab v = Fin r /\ calibrated tab v r.
Proof.
  intros H L. unfold extrapolate. destruct (count_below tab v H) as [C K].
  set (c := length (filter _ tab)) in *. set (n := length tab) in *.
  set (i := Nat.min (Nat.max c 1) (n - 1)).
  assert (Hi : (1 <= i <= n - 1)%nat) by lia.
  set (lo := nth (i - 1) tab (0,0)). set (hi := nth i tab (0,0)).
  assert (X : fst lo < fst hi) by (apply inc_nth; auto; lia).
  rewrite xdiv_fin by lra. rewrite xmul_fin, xadd_fin. eexists. split; [reflexivity|].
  exists (fst lo), (snd lo), (fst hi), (snd hi).
  split; [rewrite <- surjective_pairing; apply nth_In; lia|]. split; [rewrite <- surjective_pairing; apply nth_In; lia|].
  split; [exact X|]. split; [|split; [|split; [|ring]]].
  - intros p Hp. destruct (In_nth _ _ (0,0) Hp) as (k & Hk & <-). destruct (Nat.le_gt_cases k (i - 1)).
    + left. apply inc_nth_le; auto; lia.
    + right. apply inc_nth_le; auto; lia.
  - intros V p Hp. destruct (In_nth _ _ (0,0) Hp) as (k & Hk & <-).
    assert (i = 1%nat). { destruct (Nat.eq_dec i 1) as [|N]; [assumption|]. exfalso. assert ((i - 1 < c)%nat) by lia. apply K in H0; [unfold lo in V; lra|lia]. }
    apply inc_nth_le; auto; lia.
  - intros V p Hp. destruct (In_nth _ _ (0,0) Hp) as (k & Hk & <-).
    assert ((i = n - 1)%nat). { apply K in V; [lia|lia]. }
    apply inc_nth_le; auto; lia.
Qed.

(** ** the specification *)
Definition functional (cal : list (R * R)) : Prop := forall p q, In p cal -> In q cal -> fst p = fst q -> snd p = snd q.
Lemma nodup_functional cal : NoDup (map fst cal) -> functional cal.
Proof.
  intros H p q Hp Hq E. destruct (In_nth _ _ (0,0) Hp) as (i & Hi & Ei). destruct (In_nth _ _ (0,0) Hq) as (j & Hj & Ej).
  assert (i = j).
  { apply (proj1 (NoDup_nth (map fst cal) 0)); auto; rewrite ?map_length; auto.
    change 0 with (fst (0, 0)). rewrite !map_nth. congruence. }
  congruence.
Qed.
Lemma line_at x0 y0 x1 y1 : x0 < x1 -> y0 + (y1 - y0) / (x1 - x0) * (x1 - x0) = y1.
Proof. intros. field. lra. Qed.
Lemma line_mono x0 y0 x1 y1 v w : x0 < x1 -> y0 <= y1 -> v <= w ->
  y0 + (y1 - y0) / (x1 - x0) * (v - x0) <= y0 + (y1 - y0) / (x1 - x0) * (w - x0).
Proof.
  intros. apply Rplus_le_compat_l. apply Rmult_le_compat_l; [|lra]. apply Rmult_le_pos; [lra|]. left. apply Rinv_0_lt_compat. lra.
Qed.
(* two admissible segments: the same, or one left of the other *)
Lemma segments cal v w r q : functional cal -> v <= w -> calibrated cal v r -> calibrated cal w q -> (v = w -> r = q) /\ (rising cal -> r <= q).
Proof.
  intros F VW (a0 & b0 & a1 & b1 & I0 & I1 & A & G & B & T & ->) (c0 & d0 & c1 & d1 & J0 & J1 & C & G' & B' & T' & ->).
  destruct (G _ J0) as [g0|g0]; destruct (G _ J1) as [g1|g1]; cbn [fst] in *.
  - (* c1 <= a0: right segment is left of the left one *)
    assert (w <= c1). { apply Rnot_lt_le. intros N. specialize (T' N (a1, b1) I1). cbn in T'. lra. }
    assert (a0 <= v). { apply Rnot_lt_le. intros N. specialize (B N (c0, d0) J0). cbn in B. lra. }
    assert (v = a0) by lra. assert (w = a0) by lra. assert (c1 = a0) by lra. subst v w c1.
    assert (E := F _ _ J1 I0 eq_refl). cbn in E. subst d1.
    assert (K : b0 + (b1 - b0) / (a1 - a0) * (a0 - a0) = d0 + (b0 - d0) / (a0 - c0) * (a0 - c0)).
    { rewrite line_at by lra. ring. }
    split; intros; rewrite K; lra.
  - (* same segment *)
    destruct (G' _ I0) as [h0|h0]; destruct (G' _ I1) as [h1|h1]; cbn [fst] in *; try lra.
    assert (a0 = c0) by lra. assert (a1 = c1) by lra. subst a0 a1.
    assert (E := F _ _ I0 J0 eq_refl). assert (E' := F _ _ I1 J1 eq_refl). cbn in E, E'. subst b0 b1.
    split; [intros ->; reflexivity|]. intros Ri. apply line_mono; auto. apply (Ri _ _ J0 J1). exact A.
  - lra.
  - (* a1 <= c0 *)
    assert (v <= a1). { apply Rnot_lt_le. intros N. specialize (T N (c1, d1) J1). cbn in T. lra. }
    assert (c0 <= w). { apply Rnot_lt_le. intros N. specialize (B' N (a0, b0) I0). cbn in B'. lra. }
    split.
    + intros ->. assert (w = a1) by lra. assert (c0 = a1) by lra. subst w c0.
      assert (E := F _ _ I1 J0 eq_refl). cbn in E. subst d0. rewrite line_at by lra. ring.
    + intros Ri. apply Rle_trans with b1.
      * rewrite <- (line_at a0 b0 a1 b1 A) at 2. apply line_mono; auto. apply (Ri _ _ I0 I1 A).
      * assert (b1 <= d0). { destruct (Req_dec a1 c0) as [->|N]; [right; apply (F _ _ I1 J0 eq_refl)|]. apply (Ri _ _ I1 J0). cbn. lra. }
        apply Rle_trans with d0; auto. replace d0 with (d0 + (d1 - d0) / (c1 - c0) * (c0 - c0)) at 1 by ring.
        apply line_mono; auto. apply (Ri _ _ J0 J1 C).
Qed.
Lemma calibrated_unique cal v r q : functional cal -> calibrated cal v r -> calibrated cal v q -> r = q.
Proof. intros F A B. apply (segments cal v v r q F (Rle_refl v) A B). reflexivity. Qed.
Lemma calibrated_mono cal v w r q : functional cal -> rising cal -> v <= w -> calibrated cal v r -> calibrated cal w q -> r <= q.
Proof. intros F Ri H A B. exact (proj2 (segments cal v w r q F H A B) Ri). Qed.
Lemma calibrated_incl cal cal' v r : (forall p, In p cal <-> In p cal') -> calibrated cal v r -> calibrated cal' v r.
Proof.
  intros E (a0 & b0 & a1 & b1 & I0 & I1 & A & G & B & T & Er). exists a0, b0, a1, b1.
  split; [apply E, I0|]. split; [apply E, I1|]. split; [exact A|]. split; [intros p Hp; apply G, E, Hp|].
  split; [intros V p Hp; apply B, E, Hp; exact V|]. split; [intros V p Hp; apply T, E, Hp; exact V|exact Er].
Qed.
Lemma calibrated_node cal x y r : functional cal -> In (x, y) cal -> calibrated cal x r -> r = y.
Proof.
  intros F H (a0 & b0 & a1 & b1 & I0 & I1 & A & G & B & T & ->). destruct (G _ H) as [g|g]; cbn [fst] in g.
  - destruct (Rle_lt_or_eq_dec _ _ g) as [L| ->]; [specialize (B L _ H); cbn in B|]; [|].
    + exfalso. lra.
    + pose proof (F _ _ H I0 eq_refl) as Q. cbn in Q. subst y. ring.
  - destruct (Rle_lt_or_eq_dec _ _ g) as [L|E]; [specialize (T L _ H); cbn in T; lra|]. subst x.
    pose proof (F _ _ H I1 eq_refl) as Q. cbn in Q. subst y. apply line_at, A.
Qed.

Lemma truncate_fin r : truncate01 (Fin r) = Fin (clip01 r).
Proof.
  unfold truncate01, clip01. rewrite xlt_fin. destruct (Rltb 1 r) eqn:E.
  - apply Rltb_true in E. rewrite xlt_fin. replace (Rltb 1 0) with false by (symmetry; apply Rltb_false; lra).
    rewrite Rmin_left, Rmax_right by lra. reflexivity.
  - apply Rltb_false in E. rewrite Rmin_right by lra. rewrite xlt_fin. destruct (Rltb r 0) eqn:E0.
    + apply Rltb_true in E0. rewrite Rmax_left by lra. reflexivity.
    + apply Rltb_false in E0. rewrite Rmax_right by lra. reflexivity.
Qed.
Lemma clip01_range r : 0 <= clip01 r <= 1.
Proof. unfold clip01. split; [apply Rmax_l|]. apply Rmax_lub; [lra|apply Rmin_l]. Qed.
Lemma clip01_id r : 0 <= r <= 1 -> clip01 r = r.
Proof. intros. unfold clip01. rewrite Rmin_right, Rmax_right; lra. Qed.
Lemma clip01_mono r q : r <= q -> clip01 r <= clip01 q.
Proof. intros. unfold clip01. apply Rle_max_compat_l, Rle_min_compat_l, H. Qed.

Lemma combine_fst {A B} (x : list A) (y : list B) : length x = length y -> map fst (combine x y) = x.
Proof. revert y. induction x as [|a x IH]; intros [|b y] H; simpl in *; try discriminate; [auto|]. f_equal. apply IH. congruence. Qed.
Lemma table_ok x y : x <> [] -> length x = length y -> interp1d_table x y = Ok (sort_by (combine x y)).
Proof. intros N E. destruct x as [|a x]; [contradiction|]. unfold interp1d_table. rewrite (proj2 (Nat.eqb_eq _ _) E). reflexivity. Qed.

Lemma reflectance_value a pix refl : length pix = length refl -> (2 <= length pix)%nat -> NoDup pix ->
  exists out, img_to_reflectance a pix refl = Ok out /\ xrows out = rows a /\ xcols out = cols a /\
    forall i j, exists r, xpx out i j = Fin (clip01 r) /\ calibrated (combine pix refl) (px a i j) r.
Proof.
  intros E L N. unfold img_to_reflectance. rewrite table_ok; [|intros ->; simpl in L; lia|exact E]. cbn [bind].
  eexists. split; [reflexivity|]. cbn [xrows xcols xpx]. split; [reflexivity|]. split; [reflexivity|]. intros i j.
  destruct (extrapolate_ok (sort_by (combine pix refl)) (px a i j)) as (r & Er & C).
  - apply sort_by_inc. rewrite combine_fst by exact E. exact N.
  - rewrite sort_by_length, combine_length. lia.
  - exists r. rewrite Er, truncate_fin. split; [reflexivity|]. eapply calibrated_incl; [|exact C]. intros p. apply sort_by_in.
Qed.
Lemma reflectance_mono a pix refl out : length pix = length refl -> (2 <= length pix)%nat -> NoDup pix -> rising (combine pix refl) ->
  img_to_reflectance a pix refl = Ok out -> forall i j i' j', px a i j <= px a i' j' ->
  exists r q, xpx out i j = Fin r /\ xpx out i' j' = Fin q /\ r <= q.
Proof.
  intros E L N Ri H i j i' j' V. destruct (reflectance_value a pix refl E L N) as (out' & H' & _ & _ & K).
  rewrite H in H'. injection H' as <-. destruct (K i j) as (r & Er & Cr). destruct (K i' j') as (q & Eq & Cq).
  exists (clip01 r), (clip01 q). split; [exact Er|]. split; [exact Eq|]. apply clip01_mono.
  eapply calibrated_mono; try exact Cr; try exact Cq; auto. apply nodup_functional. rewrite combine_fst; auto.
Qed.
Lemma reflectance_points a pix refl out k i j : length pix = length refl -> (2 <= length pix)%nat -> NoDup pix ->
  img_to_reflectance a pix refl = Ok out -> (k < length pix)%nat -> px a i j = nth k pix 0 -> 0 <= nth k refl 0 <= 1 ->
  xpx out i j = Fin (nth k refl 0).
Proof.
  intros E L N H Hk V B. destruct (reflectance_value a pix refl E L N) as (out' & H' & _ & _ & K).
  rewrite H in H'. injection H' as <-. destruct (K i j) as (r & Er & Cr). rewrite Er. f_equal.
  rewrite <- (clip01_id _ B). f_equal. rewrite V in Cr. eapply calibrated_node; try exact Cr.
  - apply nodup_functional. rewrite combine_fst; auto.
  - rewrite <- combine_nth by exact E. apply nth_In. rewrite combine_length. lia.
Qed.
Lemma reflectance_order a pix refl pix' refl' out out' : length pix = length refl -> (2 <= length pix)%nat -> NoDup pix ->
  length pix' = length refl' -> Permutation (combine pix refl) (combine pix' refl') ->
  img_to_reflectance a pix refl = Ok out -> img_to_reflectance a pix' refl' = Ok out' ->
  xrows out = xrows out' /\ xcols out = xcols out' /\ forall i j, xpx out i j = xpx out' i j.
Proof.
  intros E L N E' P H H'. destruct (reflectance_value a pix refl E L N) as (o & Ho & R & C & K).
  rewrite H in Ho. injection Ho as <-.
  assert (L' : length pix' = length pix).
  { apply Permutation_length in P. rewrite !combine_length in P. lia. }
  assert (N' : NoDup pix').
  { rewrite <- (combine_fst pix' refl' E'). eapply Permutation_NoDup; [apply Permutation_map, P|]. rewrite combine_fst; auto. }
  destruct (reflectance_value a pix' refl' E' ltac:(lia) N') as (o & Ho & R' & C' & K').
  rewrite H' in Ho. injection Ho as <-. split; [congruence|]. split; [congruence|]. intros i j.
  destruct (K i j) as (r & Er & Cr). destruct (K' i j) as (q & Eq & Cq). rewrite Er, Eq. do 2 f_equal.
  eapply (calibrated_unique (combine pix' refl')); [apply nodup_functional; rewrite combine_fst; auto | | exact Cq].
  eapply calibrated_incl; [|exact Cr]. intros p. split; apply Permutation_in; [|apply Permutation_sym]; exact P.
Qed.
Lemma reflectance_errors a pix refl : (pix = [] \/ length pix <> length refl) -> img_to_reflectance a pix refl = Err ValueError.
Proof.
  unfold img_to_reflectance, interp1d_table. intros H. destruct pix as [|p pix]; [reflexivity|].
  destruct H as [H|H]; [discriminate|]. rewrite (proj2 (Nat.eqb_neq _ _) H). reflexivity.
Qed.
(* one calibration point, or two points for the same pixel value *)
Lemma inf_sgn_0 : inf_sgn 0 = NaN.
Proof. unfold inf_sgn. rewrite (proj2 (Rltb_false 0 0)) by lra. reflexivity. Qed.
Lemma zero_times (x : R) : xmul (xdiv (Fin x) (Fin 0)) (Fin 0) = NaN.
Proof.
  unfold xdiv. rewrite (proj2 (Reqb_true 0 0)) by reflexivity. unfold inf_sgn at 1.
  destruct (Rltb 0 x); [|destruct (Rltb x 0)]; unfold xmul; try reflexivity; rewrite ?Ropp_0; apply inf_sgn_0.
Qed.
Lemma reflectance_one a p r out i j : img_to_reflectance a [p] [r] = Ok out -> xpx out i j = NaN.
Proof.
  intros H. injection H as <-. cbn [xpx]. unfold extrapolate. cbn [length sort_by combine fold_right insert_by]. rewrite Nat.min_0_r.
  cbn [Nat.sub nth fst snd]. replace (r - r) with 0 by ring. replace (p - p) with 0 by ring.
  rewrite xdiv_zero_zero. reflexivity.
Qed.
Lemma reflectance_flat a p r1 r2 out i j : img_to_reflectance a [p; p] [r1; r2] = Ok out -> px a i j = p -> xpx out i j = NaN.
Proof.
  intros H V. injection H as <-. cbn [xpx]. rewrite V. unfold sort_by. cbn [fold_right insert_by combine fst].
  rewrite (proj2 (Rleb_true p p)) by lra. unfold extrapolate. cbn [length filter fst].
  rewrite (proj2 (Rltb_false p p)) by lra. cbn [length Nat.max Nat.min Nat.sub nth fst snd].
  replace (p - p) with 0 by ring. rewrite zero_times. reflexivity.
Qed.
