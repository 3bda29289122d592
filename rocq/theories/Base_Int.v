(** * Base_Int: integrals of continuous real functions (no pyBSM content). *)
From Coq Require Import Reals Lra.
From Coquelicot Require Import Coquelicot.
Open Scope R_scope.

Implicit Types f g F : R -> R.

Definition cont (f : R -> R) : Prop := forall x, continuous f x.

Lemma cont_ex f a b : cont f -> ex_RInt f a b.
Proof. intros H. apply (ex_RInt_continuous f). intros; apply H. Qed.

Lemma cont_pt f : (forall x, continuity_pt f x) -> cont f.
Proof. intros H x. apply continuity_pt_filterlim, H. Qed.

Lemma cont_const c : cont (fun _ => c).
Proof. intros x. apply continuous_const. Qed.
Lemma cont_id : cont (fun x => x).
Proof. intros x. apply continuous_id. Qed.
Lemma cont_plus f g : cont f -> cont g -> cont (fun x => f x + g x).
Proof. intros F G x. apply (continuous_plus f g); auto. Qed.
Lemma cont_minus f g : cont f -> cont g -> cont (fun x => f x - g x).
Proof. intros F G x. apply (continuous_minus f g); auto. Qed.
Lemma cont_opp f : cont f -> cont (fun x => - f x).
Proof. intros F x. apply (continuous_opp f); auto. Qed.
Lemma cont_mult f g : cont f -> cont g -> cont (fun x => f x * g x).
Proof. intros F G x. apply (continuous_mult f g); auto. Qed.
Lemma cont_comp f g : cont f -> cont g -> cont (fun x => g (f x)).
Proof. intros F G x. apply (continuous_comp f g); auto. Qed.
Lemma cont_sqrt f : cont f -> cont (fun x => sqrt (f x)).
Proof. intros F x. apply (continuous_sqrt_comp f); auto. Qed.
Lemma cont_abs f : cont f -> cont (fun x => Rabs (f x)).
Proof. intros F x. apply (continuous_Rabs_comp f); auto. Qed.
Lemma cont_sin : cont sin.
Proof. apply cont_pt. intros x. apply continuity_sin. Qed.
Lemma cont_cos : cont cos.
Proof. apply cont_pt. intros x. apply continuity_cos. Qed.

Lemma Rmax_abs a b : Rmax a b = (a + b + Rabs (a - b)) / 2.
Proof.
  unfold Rmax. destruct (Rle_dec a b);
    [rewrite Rabs_left1 by lra | rewrite Rabs_right by lra]; lra.
Qed.
Lemma Rmin_abs a b : Rmin a b = (a + b - Rabs (a - b)) / 2.
Proof.
  unfold Rmin. destruct (Rle_dec a b);
    [rewrite Rabs_left1 by lra | rewrite Rabs_right by lra]; lra.
Qed.
Lemma cont_ext f g : (forall x, f x = g x) -> cont f -> cont g.
Proof. intros E F x. apply (continuous_ext f g); auto. Qed.
Lemma cont_max f g : cont f -> cont g -> cont (fun x => Rmax (f x) (g x)).
Proof.
  intros F G. apply (cont_ext (fun x => (f x + g x + Rabs (f x - g x)) * (/ 2))).
  - intros x. rewrite Rmax_abs. lra.
  - apply cont_mult; [|apply cont_const].
    apply cont_plus; [apply cont_plus; auto|]. apply cont_abs, cont_minus; auto.
Qed.
Lemma cont_min f g : cont f -> cont g -> cont (fun x => Rmin (f x) (g x)).
Proof.
  intros F G. apply (cont_ext (fun x => (f x + g x - Rabs (f x - g x)) * (/ 2))).
  - intros x. rewrite Rmin_abs. lra.
  - apply cont_mult; [|apply cont_const].
    apply cont_minus; [apply cont_plus; auto|]. apply cont_abs, cont_minus; auto.
Qed.

Ltac cont_tac :=
  match goal with
  | |- cont (fun _ => ?c) => apply cont_const
  | |- cont (fun x => x) => apply cont_id
  | |- cont (fun x => @?f x + @?g x) => apply (cont_plus f g); cont_tac
  | |- cont (fun x => @?f x - @?g x) => apply (cont_minus f g); cont_tac
  | |- cont (fun x => @?f x * @?g x) => apply (cont_mult f g); cont_tac
  | |- cont (fun x => - @?f x) => apply (cont_opp f); cont_tac
  | |- cont (fun x => sqrt (@?f x)) => apply (cont_sqrt f); cont_tac
  | |- cont (fun x => Rabs (@?f x)) => apply (cont_abs f); cont_tac
  | |- cont (fun x => Rmax (@?f x) (@?g x)) => apply (cont_max f g); cont_tac
  | |- cont (fun x => Rmin (@?f x) (@?g x)) => apply (cont_min f g); cont_tac
  | |- cont (fun x => sin (@?f x)) => apply (cont_comp f sin); [cont_tac | apply cont_sin]
  | |- cont (fun x => cos (@?f x)) => apply (cont_comp f cos); [cont_tac | apply cont_cos]
  | |- cont _ => try assumption; eauto
  end.

Lemma ri_chasles f a b c : cont f -> RInt f a b + RInt f b c = RInt f a c.
Proof. intros F. apply (RInt_Chasles f a b c); apply cont_ex, F. Qed.
Lemma ri_swap f a b : cont f -> RInt f b a = - RInt f a b.
Proof. intros F. symmetry. apply (opp_RInt_swap f a b). apply cont_ex, F. Qed.
Lemma ri_point f a : RInt f a a = 0.
Proof. apply (RInt_point a f). Qed.
Lemma ri_plus f g a b : cont f -> cont g ->
  RInt (fun x => f x + g x) a b = RInt f a b + RInt g a b.
Proof. intros F G. apply (RInt_plus f g a b); apply cont_ex; auto. Qed.
Lemma ri_minus f g a b : cont f -> cont g ->
  RInt (fun x => f x - g x) a b = RInt f a b - RInt g a b.
Proof. intros F G. apply (RInt_minus f g a b); apply cont_ex; auto. Qed.
Lemma ri_scal f c a b : cont f -> RInt (fun x => c * f x) a b = c * RInt f a b.
Proof. intros F. apply (RInt_scal f a b c); apply cont_ex; auto. Qed.
Lemma ri_ext f g a b : (forall x, Rmin a b < x < Rmax a b -> f x = g x) ->
  RInt f a b = RInt g a b.
Proof. intros H. apply RInt_ext. exact H. Qed.
Lemma ri_ext_le f g a b : a <= b -> (forall x, a < x < b -> f x = g x) ->
  RInt f a b = RInt g a b.
Proof. intros L H. apply ri_ext. rewrite Rmin_left, Rmax_right by lra. exact H. Qed.
Lemma ri_zero f a b : a <= b -> (forall x, a < x < b -> f x = 0) -> RInt f a b = 0.
Proof.
  intros L H. rewrite (ri_ext_le f (fun _ => 0) a b L H).
  rewrite RInt_const. unfold scal; simpl; unfold mult; simpl. lra.
Qed.
Lemma ri_const c a b : RInt (fun _ => c) a b = c * (b - a).
Proof. rewrite RInt_const. unfold scal; simpl; unfold mult; simpl. lra. Qed.
Lemma ri_le f g a b : a <= b -> cont f -> cont g ->
  (forall x, a < x < b -> f x <= g x) -> RInt f a b <= RInt g a b.
Proof. intros L F G H. apply RInt_le; auto; apply cont_ex; auto. Qed.
Lemma ri_nonneg f a b : a <= b -> cont f -> (forall x, a < x < b -> 0 <= f x) ->
  0 <= RInt f a b.
Proof.
  intros L F H. rewrite <- (Rmult_0_l (b - a)), <- (ri_const 0 a b).
  apply ri_le; auto. apply cont_const.
Qed.

Lemma ri_lin f p q a b : cont f ->
  p * RInt (fun x => f (p * x + q)) a b = RInt f (p * a + q) (p * b + q).
Proof.
  intros F. assert (C : cont (fun x => f (p * x + q))).
  { apply (cont_comp (fun x => p * x + q) f). - cont_tac. - exact F. }
  rewrite <- ri_scal by exact C.
  apply is_RInt_unique.
  apply (is_RInt_comp_lin f p q a b). apply (RInt_correct f), cont_ex, F.
Qed.
Lemma ri_shift f d a b : cont f ->
  RInt (fun x => f (x - d)) a b = RInt f (a - d) (b - d).
Proof.
  intros F. generalize (ri_lin f 1 (- d) a b F). rewrite !Rmult_1_l.
  intros E. unfold Rminus. rewrite <- E. apply RInt_ext. intros x _. f_equal. lra.
Qed.
Lemma ri_reflect f d a b : cont f ->
  RInt (fun x => f (d - x)) a b = RInt f (d - b) (d - a).
Proof.
  intros F. generalize (ri_lin f (-1) d a b F).
  replace (-1 * a + d) with (d - a) by lra. replace (-1 * b + d) with (d - b) by lra.
  intros E. rewrite (ri_swap f (d - a)) by auto. rewrite <- E.
  replace (- (-1 * RInt (fun x => f (-1 * x + d)) a b))
    with (RInt (fun x => f (-1 * x + d)) a b) by lra.
  apply RInt_ext. intros x _. f_equal. lra.
Qed.

(* a continuous function that vanishes outside [a,b] *)
Lemma ri_support f a b A B : cont f -> a <= b -> A <= a -> b <= B ->
  (forall x, x < a -> f x = 0) -> (forall x, b < x -> f x = 0) ->
  RInt f A B = RInt f a b.
Proof.
  intros F L La Lb Ha Hb.
  rewrite <- (ri_chasles f A a B), <- (ri_chasles f a b B) by auto.
  rewrite (ri_zero f A a), (ri_zero f b B); auto; try lra; intros; [apply Hb | apply Ha]; lra.
Qed.

(* fundamental theorem *)
Lemma ri_deriv F f a b : (forall x, is_derive F x (f x)) -> cont f ->
  RInt f a b = F b - F a.
Proof.
  intros D C. apply is_RInt_unique. apply (is_RInt_derive F f); intros; auto.
Qed.
