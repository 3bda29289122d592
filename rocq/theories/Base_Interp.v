(** * Base_Interp: facts about np.interp and finite arrays *)
From Coq Require Import Reals Lra List Lia ZArith Sorted Psatz.
From Verif Require Import Base_XR Base_Np.
Import ListNotations.
Open Scope R_scope.

(** ** Arrays of finite numbers *)
Lemma map2_map {A B C D E} (f : A -> B -> C) (g : D -> A) (h : E -> B) l m :
  map2 f (map g l) (map h m) = map2 (fun x y => f (g x) (h y)) l m.
Proof. revert m; induction l as [|x l IH]; intros [|y m]; simpl; auto. now rewrite IH. Qed.
Lemma map2_diag {A B} (f : A -> A -> B) l : map2 f l l = map (fun x => f x x) l.
Proof. induction l; simpl; congruence. Qed.
Lemma map_map2 {A B C D} (g : C -> D) (f : A -> B -> C) l m :
  map g (map2 f l m) = map2 (fun x y => g (f x y)) l m.
Proof. revert m; induction l as [|x l IH]; intros [|y m]; simpl; auto. now rewrite IH. Qed.
Lemma map2_length {A B C} (f : A -> B -> C) l m : length (map2 f l m) = Nat.min (length l) (length m).
Proof. revert m; induction l as [|x l IH]; intros [|y m]; simpl; auto. Qed.
Lemma map2_ext {A B C} (f g : A -> B -> C) l m : (forall x y, f x y = g x y) -> map2 f l m = map2 g l m.
Proof. intros H. revert m; induction l as [|x l IH]; intros [|y m]; simpl; auto. now rewrite IH, H. Qed.

Lemma bmap2_len {A B C} (f : A -> B -> C) l m : length l = length m -> bmap2 f l m = Ok (map2 f l m).
Proof. intros H. unfold bmap2. now rewrite H, Nat.eqb_refl. Qed.
Lemma bmap2_maps {A B C I} (f : A -> B -> C) (g : I -> A) (h : I -> B) l :
  bmap2 f (map g l) (map h l) = Ok (map (fun i => f (g i) (h i)) l).
Proof. rewrite bmap2_len by now rewrite !map_length. now rewrite map2_map, map2_diag. Qed.
Lemma bmap2_maps_l {A B C} (f : A -> B -> C) (g : B -> A) l :
  bmap2 f (map g l) l = Ok (map (fun i => f (g i) i) l).
Proof. rewrite <- (map_id l) at 2. apply bmap2_maps. Qed.
Lemma bmap2_maps_r {A B C} (f : A -> B -> C) (h : A -> B) l :
  bmap2 f l (map h l) = Ok (map (fun i => f i (h i)) l).
Proof. rewrite <- (map_id l) at 1. apply bmap2_maps. Qed.
Lemma bmap2_err {A B C} (f : A -> B -> C) a b :
  length a <> length b -> length a <> 1%nat -> length b <> 1%nat -> bmap2 f a b = Err ValueError.
Proof.
  intros H1 H2 H3. unfold bmap2. rewrite (proj2 (Nat.eqb_neq _ _) H1).
  destruct a as [|x [|x' a]]; destruct b as [|y [|y' b]]; simpl in *; try reflexivity; lia.
Qed.

Lemma list_as_map {A} (l : list A) d : l = map (fun i => nth i l d) (seq 0 (length l)).
Proof.
  induction l as [|x l IH]; simpl; auto. f_equal. rewrite <- seq_shift, map_map. simpl. exact IH.
Qed.

(** ** np.interp *)
Definition increasing (tab : list (R * R)) : Prop := StronglySorted (fun p q => fst p < fst q) tab.

Lemma scan_node x0 y0 tab right x y :
  increasing ((x0, y0) :: tab) -> In (x, y) ((x0, y0) :: tab) -> interp_scan x x0 y0 tab right = y.
Proof.
  revert x0 y0. induction tab as [|[x1 y1] tab IH]; intros x0 y0 S H; simpl.
  - destruct H as [E|[]]. inversion E. rcase; [lra|reflexivity].
  - inversion S as [|? ? S1 F]; subst. inversion F as [|? ? F1 F2]; subst. simpl in F1.
    destruct H as [E|H].
    + inversion E; subst. rcase; [|lra]. rcase; [reflexivity|contradiction].
    + rcase.
      * exfalso. inversion S1 as [|? ? S2 F3]; subst. destruct H as [E|H]; [inversion E; lra|].
        rewrite Forall_forall in F3. specialize (F3 _ H). simpl in F3. lra.
      * apply IH; auto.
Qed.
Lemma interp_node tab left right x y : increasing tab -> In (x, y) tab -> interp_tab x tab left right = y.
Proof.
  intros S H. destruct tab as [|[x0 y0] tab]; [destruct H|]. simpl.
  assert (x0 <= x).
  { destruct H as [E|H]; [inversion E; lra|]. inversion S as [|? ? ? F]; subst.
    rewrite Forall_forall in F. specialize (F _ H). simpl in F. lra. }
  rcase; [lra|]. now apply scan_node.
Qed.
Lemma interp_left x0 y0 tab left right x : x < x0 -> interp_tab x ((x0, y0) :: tab) left right = left.
Proof. intros H. simpl. rcase; [reflexivity|lra]. Qed.
Lemma scan_right x0 y0 tab right x :
  x0 < x -> (forall p, In p tab -> fst p < x) -> interp_scan x x0 y0 tab right = right.
Proof.
  revert x0 y0. induction tab as [|[x1 y1] tab IH]; intros x0 y0 H0 H; simpl.
  - rcase; [reflexivity|lra].
  - pose proof (H (x1, y1) (or_introl eq_refl)) as H1. simpl in H1. rcase; [lra|].
    apply IH; auto. intros p Hp. apply H. now right.
Qed.
Lemma interp_right tab left right x : tab <> [] -> (forall p, In p tab -> fst p < x) ->
  interp_tab x tab left right = right.
Proof.
  intros N H. destruct tab as [|[x0 y0] tab]; [contradiction|]. simpl.
  pose proof (H (x0, y0) (or_introl eq_refl)) as H0. simpl in H0. rcase; [lra|].
  apply scan_right; auto. intros p Hp. apply H. now right.
Qed.

(* the value is a convex combination of two table values, or an end value *)
Lemma scan_bounds (P : R -> Prop) x0 y0 tab right x :
  (forall a b t, P a -> P b -> 0 <= t <= 1 -> P ((1 - t) * a + t * b)) ->
  x0 <= x -> P y0 -> (forall p, In p tab -> P (snd p)) -> P right -> P (interp_scan x x0 y0 tab right).
Proof.
  intros Cv. revert x0 y0. induction tab as [|[x1 y1] tab IH]; intros x0 y0 H0 P0 H Pr; simpl.
  - rcase; auto.
  - pose proof (H (x1, y1) (or_introl eq_refl)) as P1. simpl in P1. rcase.
    + rcase; auto.
      replace ((y1 - y0) / (x1 - x0) * (x - x0) + y0)
        with ((1 - (x - x0) / (x1 - x0)) * y0 + (x - x0) / (x1 - x0) * y1) by (field; lra).
      apply Cv; auto. split.
      * apply Rmult_le_pos; [lra|]. left; apply Rinv_0_lt_compat; lra.
      * apply Rmult_le_reg_r with (x1 - x0); [lra|]. unfold Rdiv. rewrite Rmult_assoc, Rinv_l by lra. lra.
    + apply IH; auto. intros p Hp. apply H. now right.
Qed.
Lemma interp_bounds (P : R -> Prop) tab left right x : tab <> [] ->
  (forall a b t, P a -> P b -> 0 <= t <= 1 -> P ((1 - t) * a + t * b)) ->
  (forall p, In p tab -> P (snd p)) -> P left -> P right -> P (interp_tab x tab left right).
Proof.
  intros N Cv H Pl Pr. destruct tab as [|[x0 y0] tab]; [contradiction|]. simpl. rcase; auto.
  apply scan_bounds; auto.
  - apply (H (x0, y0)). now left.
  - intros p Hp. apply H. now right.
Qed.
Lemma convex_between lo hi a b t : lo <= a <= hi -> lo <= b <= hi -> 0 <= t <= 1 ->
  lo <= (1 - t) * a + t * b <= hi.
Proof. intros; split; nra. Qed.

(* a table sampled from a straight line is reproduced exactly *)
Lemma scan_affine a b x0 tab right x :
  increasing ((x0, a * x0 + b) :: tab) ->
  x0 <= x -> (forall p, In p tab -> snd p = a * fst p + b) ->
  (exists p, In p ((x0, a * x0 + b) :: tab) /\ x <= fst p) ->
  interp_scan x x0 (a * x0 + b) tab right = a * x + b.
Proof.
  intros S H0 H Ex. revert x0 S H0 Ex. induction tab as [|[x1 y1] tab IH]; intros x0 S H0 Ex; simpl.
  - destruct Ex as [p [[<-|[]] Hp]]. simpl in Hp. rcase; [lra|]. replace x with x0 by lra. reflexivity.
  - pose proof (H (x1, y1) (or_introl eq_refl)) as E1. simpl in E1. subst y1. rcase.
    + rcase; [now subst|]. field. lra.
    + inversion S as [|? ? S1 F]; subst. inversion F as [|? ? F1 F2]; subst. simpl in F1.
      apply IH; auto.
      * intros p Hp. apply H. now right.
      * destruct Ex as [p [[<-|Hp] Hx]].
        -- simpl in Hx. lra.
        -- exists p. split; auto.
Qed.
Lemma interp_affine a b tab left right x : increasing tab ->
  (forall p, In p tab -> snd p = a * fst p + b) ->
  (exists p, In p tab /\ x <= fst p) -> (exists p tl, tab = p :: tl /\ fst p <= x) ->
  interp_tab x tab left right = a * x + b.
Proof.
  intros S H Ex [[x0 y0] [tl [-> H0]]]. simpl in H0.
  pose proof (H (x0, y0) (or_introl eq_refl)) as E. simpl in E. subst y0. simpl. rcase; [lra|].
  apply scan_affine; auto. intros p Hp. apply H. now right.
Qed.

(* linear between neighbouring nodes *)
Lemma scan_segment x0 y0 tab right pre xa ya xb yb post x :
  increasing ((x0, y0) :: tab) -> (x0, y0) :: tab = pre ++ (xa, ya) :: (xb, yb) :: post ->
  xa <= x <= xb -> interp_scan x x0 y0 tab right = ya + (yb - ya) * ((x - xa) / (xb - xa)).
Proof.
  revert x0 y0 pre. induction tab as [|[x1 y1] tab IH]; intros x0 y0 pre S E Hx.
  - destruct pre as [|? [|? pre]]; discriminate E.
  - inversion S as [|? ? S1 F]; subst. inversion F as [|? ? F1 F2]; subst. simpl in F1.
    destruct pre as [|p pre]; simpl in E.
    + inversion E; subst. simpl. rcase.
      * rcase; [subst x; replace (xa - xa) with 0 by ring; unfold Rdiv; ring|field; lra].
      * assert (x = xb) by lra. subst x. rewrite (scan_node xb yb post right xb yb S1 (or_introl eq_refl)). field. lra.
    + injection E as _ E. simpl.
      assert (I : In (xa, ya) ((x1, y1) :: tab)) by (rewrite E; apply in_or_app; right; now left).
      assert (x1 <= xa).
      { destruct I as [I|I]; [inversion I; lra|]. inversion S1 as [|? ? ? F3]; subst.
        rewrite Forall_forall in F3. specialize (F3 _ I). simpl in F3. lra. }
      rcase; [lra|]. apply IH with pre; auto.
Qed.
Lemma interp_segment tab left right pre xa ya xb yb post x :
  increasing tab -> tab = pre ++ (xa, ya) :: (xb, yb) :: post -> xa <= x <= xb ->
  interp_tab x tab left right = ya + (yb - ya) * ((x - xa) / (xb - xa)).
Proof.
  intros S E Hx. destruct tab as [|[x0 y0] tab]; [destruct pre; discriminate|]. simpl.
  assert (x0 <= xa).
  { assert (I : In (xa, ya) ((x0, y0) :: tab)) by (rewrite E; apply in_or_app; right; now left).
    destruct I as [I|I]; [inversion I; lra|]. inversion S as [|? ? ? F3]; subst.
    rewrite Forall_forall in F3. specialize (F3 _ I). simpl in F3. lra. }
  rcase; [lra|]. now apply scan_segment with pre post.
Qed.

Lemma interp_table_ok xp fp : xp <> [] -> length xp = length fp -> interp_table xp fp = Ok (combine xp fp).
Proof. intros H E. destruct xp; [contradiction|]. unfold interp_table. now rewrite E, Nat.eqb_refl. Qed.
Lemma combine_nonempty {A B} (xp : list A) (fp : list B) : xp <> [] -> length xp = length fp -> combine xp fp <> [].
Proof. intros H E. destruct xp; [contradiction|]. destruct fp; discriminate. Qed.
Lemma increasing_combine xp fp : StronglySorted Rlt xp -> increasing (combine xp fp).
Proof.
  intros S. revert fp. induction S as [|x xp S IH F]; intros [|y fp]; simpl; try constructor; auto.
  - apply IH.
  - apply Forall_forall. intros [a b] Hab. apply in_combine_l in Hab. rewrite Forall_forall in F. simpl. auto.
Qed.
