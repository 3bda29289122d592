(** * Base_XR: exceptions as values, and numpy float64 over exact reals.

    Vocabulary only; nothing here comes from pyBSM.  A numpy float64 is
    modelled as an extended real: a finite real number, one of the two
    infinities, or NaN.  Rounding, overflow of finite operations and signed
    zero are NOT modelled (see DESIGN.md section 2). *)
From Coq Require Import Reals Lra ZArith Bool List.
Import ListNotations.
Open Scope R_scope.

(** ** Python exceptions *)
Inductive exn : Type :=
| ZeroDivisionError | ValueError | IndexError | UnboundLocalError
| TypeError | CvError | OverflowError | AttributeError
| NonFinite. (* not an exception: "the array contains nan/inf" marker, used
                only by the image pipeline files, see there *)

Inductive res (A : Type) : Type :=
| Ok (a : A)
| Err (e : exn).
Arguments Ok {A} _.
Arguments Err {A} _.

Definition bind {A B} (m : res A) (k : A -> res B) : res B :=
  match m with Ok a => k a | Err e => Err e end.
Notation "'let*' x ':=' m 'in' k" := (bind m (fun x => k))
  (at level 200, x pattern, m at level 100, k at level 200).

Definition rmap {A B} (f : A -> B) (m : res A) : res B :=
  match m with Ok a => Ok (f a) | Err e => Err e end.

(** ** Boolean comparisons on reals *)
Definition Rltb (a b : R) : bool := if Rlt_dec a b then true else false.
Definition Rleb (a b : R) : bool := if Rle_dec a b then true else false.
Definition Reqb (a b : R) : bool := if Req_EM_T a b then true else false.

Lemma Rltb_true a b : Rltb a b = true <-> a < b.
Proof. unfold Rltb; destruct (Rlt_dec a b); split; intros; auto; discriminate. Qed.
Lemma Rltb_false a b : Rltb a b = false <-> b <= a.
Proof. unfold Rltb; destruct (Rlt_dec a b); split; intros; try discriminate; lra. Qed.
Lemma Rleb_true a b : Rleb a b = true <-> a <= b.
Proof. unfold Rleb; destruct (Rle_dec a b); split; intros; auto; discriminate. Qed.
Lemma Rleb_false a b : Rleb a b = false <-> b < a.
Proof. unfold Rleb; destruct (Rle_dec a b); split; intros; try discriminate; lra. Qed.
Lemma Reqb_true a b : Reqb a b = true <-> a = b.
Proof. unfold Reqb; destruct (Req_EM_T a b); split; intros; auto; discriminate. Qed.
Lemma Reqb_false a b : Reqb a b = false <-> a <> b.
Proof. unfold Reqb; destruct (Req_EM_T a b); split; intros; auto; discriminate || contradiction. Qed.

Ltac rcase :=
  match goal with
  | |- context [Rltb ?a ?b] =>
      let H := fresh "Hc" in destruct (Rltb a b) eqn:H;
      [apply Rltb_true in H | apply Rltb_false in H]
  | |- context [Rleb ?a ?b] =>
      let H := fresh "Hc" in destruct (Rleb a b) eqn:H;
      [apply Rleb_true in H | apply Rleb_false in H]
  | |- context [Reqb ?a ?b] =>
      let H := fresh "Hc" in destruct (Reqb a b) eqn:H;
      [apply Reqb_true in H | apply Reqb_false in H]
  end.

(** ** Python scalar division: raises on a zero divisor *)
Definition pydiv (a b : R) : res R :=
  if Reqb b 0 then Err ZeroDivisionError else Ok (a / b).

(** ** Extended reals *)
Inductive xr : Type := Fin (r : R) | PInf | NInf | NaN.

Definition xopp (x : xr) : xr :=
  match x with Fin r => Fin (- r) | PInf => NInf | NInf => PInf | NaN => NaN end.

Definition xadd (x y : xr) : xr :=
  match x, y with
  | NaN, _ | _, NaN => NaN
  | Fin a, Fin b => Fin (a + b)
  | PInf, NInf | NInf, PInf => NaN
  | PInf, _ | _, PInf => PInf
  | NInf, _ | _, NInf => NInf
  end.

Definition xsub (x y : xr) : xr := xadd x (xopp y).

(* infinity with the sign of r; zero times infinity is NaN *)
Definition inf_sgn (r : R) : xr :=
  if Rltb 0 r then PInf else if Rltb r 0 then NInf else NaN.

Definition xmul (x y : xr) : xr :=
  match x, y with
  | NaN, _ | _, NaN => NaN
  | Fin a, Fin b => Fin (a * b)
  | Fin a, PInf | PInf, Fin a => inf_sgn a
  | Fin a, NInf | NInf, Fin a => inf_sgn (- a)
  | PInf, PInf | NInf, NInf => PInf
  | PInf, NInf | NInf, PInf => NInf
  end.

(* zero divisors count as +0 *)
Definition xdiv (x y : xr) : xr :=
  match x, y with
  | NaN, _ | _, NaN => NaN
  | Fin a, Fin b => if Reqb b 0 then inf_sgn a else Fin (a / b)
  | Fin _, PInf | Fin _, NInf => Fin 0
  | PInf, Fin b => if Rltb b 0 then NInf else PInf
  | NInf, Fin b => if Rltb b 0 then PInf else NInf
  | _, _ => NaN
  end.

Definition xsq (x : xr) : xr := xmul x x.                 (* x**2 *)
Fixpoint xpown (x : xr) (n : nat) : xr :=                 (* x**n, n>=0 *)
  match n with O => Fin 1 | S n => xmul x (xpown x n) end.

Definition xsqrt (x : xr) : xr :=
  match x with
  | Fin r => if Rltb r 0 then NaN else Fin (sqrt r)
  | PInf => PInf | NInf => NaN | NaN => NaN end.

Definition xexp (x : xr) : xr :=
  match x with Fin r => Fin (exp r) | PInf => PInf | NInf => Fin 0 | NaN => NaN end.

Definition xsin (x : xr) : xr := match x with Fin r => Fin (sin r) | _ => NaN end.
Definition xcos (x : xr) : xr := match x with Fin r => Fin (cos r) | _ => NaN end.
(* tan at a pole is +inf in the model (binary64: about 1.6e16) *)
Definition xtan (x : xr) : xr :=
  match x with
  | Fin r => if Reqb (cos r) 0 then PInf else Fin (tan r)
  | _ => NaN end.
Definition xacos (x : xr) : xr :=
  match x with
  | Fin r => if Rleb (-1) r && Rleb r 1 then Fin (acos r) else NaN
  | _ => NaN end.
Definition xatan (x : xr) : xr :=
  match x with
  | Fin r => Fin (atan r) | PInf => Fin (PI / 2) | NInf => Fin (- (PI / 2)) | NaN => NaN end.
Definition xlog10 (x : xr) : xr :=
  match x with
  | Fin r => if Rltb 0 r then Fin (ln r / ln 10)
             else if Reqb r 0 then NInf else NaN
  | PInf => PInf | _ => NaN end.

(* x ** p for a constant, non-integer exponent p *)
Definition xpow (x : xr) (p : R) : xr :=
  match x with
  | Fin r => if Rltb 0 r then Fin (Rpower r p)
             else if Reqb r 0 then (if Rltb 0 p then Fin 0 else PInf)
             else NaN
  | PInf | NInf => if Rltb 0 p then PInf else Fin 0
  | NaN => NaN end.

(* np.sinc on a finite argument: sin(pi x)/(pi x), 1 at 0 *)
Definition Rsinc (x : R) : R := if Reqb x 0 then 1 else sin (PI * x) / (PI * x).
Definition xsinc (x : xr) : xr := match x with Fin r => Fin (Rsinc r) | _ => NaN end.

(* largest finite binary64 number *)
Definition max_float : R := (2 ^ 53 - 1) * 2 ^ 971.
Definition xnan_to_num (x : xr) : xr :=
  match x with
  | Fin r => Fin r | NaN => Fin 0 | PInf => Fin max_float | NInf => Fin (- max_float) end.

(* comparisons; anything with NaN is false *)
Definition xlt (x y : xr) : bool :=
  match x, y with
  | NaN, _ | _, NaN => false
  | Fin a, Fin b => Rltb a b
  | NInf, NInf => false | NInf, _ => true | _, NInf => false
  | PInf, _ => false | _, PInf => true
  end.
Definition xle (x y : xr) : bool :=
  match x, y with
  | NaN, _ | _, NaN => false
  | Fin a, Fin b => Rleb a b
  | NInf, _ => true | _, NInf => false
  | _, PInf => true | PInf, _ => false
  end.
Definition xeq (x y : xr) : bool :=
  match x, y with
  | Fin a, Fin b => Reqb a b
  | PInf, PInf | NInf, NInf => true
  | _, _ => false end.

(* np.max / np.min of two entries: NaN propagates *)
Definition xmax (x y : xr) : xr :=
  match x, y with NaN, _ | _, NaN => NaN | _, _ => if xlt x y then y else x end.
Definition xmin (x y : xr) : xr :=
  match x, y with NaN, _ | _, NaN => NaN | _, _ => if xlt y x then y else x end.

(* boolean array used as a factor *)
Definition b2x (b : bool) : xr := if b then Fin 1 else Fin 0.

Definition is_fin (x : xr) : Prop := exists r, x = Fin r.
(* real value of a finite number (0 otherwise); used in statements only
   together with [is_fin] *)
Definition val (x : xr) : R := match x with Fin r => r | _ => 0 end.

Declare Scope xr_scope.
Delimit Scope xr_scope with xr.
Bind Scope xr_scope with xr.
Notation "x + y" := (xadd x y) : xr_scope.
Notation "x - y" := (xsub x y) : xr_scope.
Notation "x * y" := (xmul x y) : xr_scope.
Notation "x / y" := (xdiv x y) : xr_scope.
Notation "- x" := (xopp x) : xr_scope.

(** ** Computation lemmas on finite arguments *)
Lemma xadd_fin a b : xadd (Fin a) (Fin b) = Fin (a + b). Proof. reflexivity. Qed.
Lemma xsub_fin a b : xsub (Fin a) (Fin b) = Fin (a - b). Proof. reflexivity. Qed.
Lemma xopp_fin a : xopp (Fin a) = Fin (- a). Proof. reflexivity. Qed.
Lemma xmul_fin a b : xmul (Fin a) (Fin b) = Fin (a * b). Proof. reflexivity. Qed.
Lemma xdiv_fin a b : b <> 0 -> xdiv (Fin a) (Fin b) = Fin (a / b).
Proof. intros H; simpl; rcase; [contradiction|reflexivity]. Qed.
Lemma xdiv_zero_pos a : 0 < a -> xdiv (Fin a) (Fin 0) = PInf.
Proof. intros H; simpl; unfold inf_sgn; repeat rcase; try reflexivity; lra. Qed.
Lemma xdiv_zero_zero : xdiv (Fin 0) (Fin 0) = NaN.
Proof. simpl; unfold inf_sgn; repeat rcase; try reflexivity; lra. Qed.
Lemma xsq_fin a : xsq (Fin a) = Fin (a * a). Proof. reflexivity. Qed.
Lemma xpown_fin a n : xpown (Fin a) n = Fin (a ^ n).
Proof. induction n as [|n IH]; simpl; [reflexivity|rewrite IH; reflexivity]. Qed.
Lemma xsqrt_fin a : 0 <= a -> xsqrt (Fin a) = Fin (sqrt a).
Proof. intros H; simpl; rcase; [lra|reflexivity]. Qed.
Lemma xexp_fin a : xexp (Fin a) = Fin (exp a). Proof. reflexivity. Qed.
Lemma xacos_fin a : -1 <= a <= 1 -> xacos (Fin a) = Fin (acos a).
Proof. intros H; simpl; repeat rcase; try lra; reflexivity. Qed.
Lemma xacos_nan a : 1 < a \/ a < -1 -> xacos (Fin a) = NaN.
Proof. intros H; simpl; repeat rcase; try lra; reflexivity. Qed.
Lemma xlog10_fin a : 0 < a -> xlog10 (Fin a) = Fin (ln a / ln 10).
Proof. intros H; simpl; rcase; [reflexivity|lra]. Qed.
Lemma xpow_fin a p : 0 < a -> xpow (Fin a) p = Fin (Rpower a p).
Proof. intros H; simpl; rcase; [reflexivity|lra]. Qed.
Lemma xpow_zero p : 0 < p -> xpow (Fin 0) p = Fin 0.
Proof. intros H; simpl; repeat rcase; try lra; reflexivity. Qed.
Lemma xsinc_fin a : xsinc (Fin a) = Fin (Rsinc a). Proof. reflexivity. Qed.
Lemma xlt_fin a b : xlt (Fin a) (Fin b) = Rltb a b. Proof. reflexivity. Qed.
Lemma xle_fin a b : xle (Fin a) (Fin b) = Rleb a b. Proof. reflexivity. Qed.
Lemma xmax_fin a b : xmax (Fin a) (Fin b) = Fin (Rmax a b).
Proof.
  simpl; rcase; f_equal; unfold Rmax; destruct (Rle_dec a b); lra.
Qed.
Lemma xmin_fin a b : xmin (Fin a) (Fin b) = Fin (Rmin a b).
Proof.
  simpl; rcase; f_equal; unfold Rmin; destruct (Rle_dec a b); lra.
Qed.
Lemma pydiv_ok a b : b <> 0 -> pydiv a b = Ok (a / b).
Proof. intros H; unfold pydiv; rcase; [contradiction|reflexivity]. Qed.
Lemma pydiv_zero a : pydiv a 0 = Err ZeroDivisionError.
Proof. unfold pydiv; rcase; [reflexivity|lra]. Qed.
Lemma pydiv_inv a b r : pydiv a b = Ok r -> b <> 0 /\ r = a / b.
Proof. unfold pydiv; rcase; intros H; inversion H; auto. Qed.
Lemma fin_inj a b : Fin a = Fin b -> a = b.
Proof. congruence. Qed.

(** ** Facts about [Rsinc] *)
Lemma Rsinc_0 : Rsinc 0 = 1.
Proof. unfold Rsinc; rcase; [reflexivity|lra]. Qed.
Lemma Rsinc_nz x : x <> 0 -> Rsinc x = sin (PI * x) / (PI * x).
Proof. intros H; unfold Rsinc; rcase; [contradiction|reflexivity]. Qed.
Lemma Rsinc_even x : Rsinc (- x) = Rsinc x.
Proof.
  unfold Rsinc; repeat rcase; try lra.
  replace (PI * - x) with (- (PI * x)) by ring. rewrite sin_neg.
  field. split; [exact Hc0|apply PI_neq0].
Qed.
Lemma sin_abs_le x : Rabs (sin x) <= Rabs x.
Proof.
  assert (H : forall y, 0 <= y -> Rabs (sin y) <= y).
  { intros y Hy. destruct (Rle_dec y 1) as [H1|H1].
    - assert (0 <= sin y) by (apply sin_ge_0; [lra|]; pose proof PI2_3_2; lra).
      rewrite Rabs_pos_eq by assumption.
      destruct (Req_EM_T y 0) as [->|]; [rewrite sin_0; lra|].
      left; apply sin_lt_x; lra.
    - apply Rle_trans with 1; [|lra]. apply Rabs_le. pose proof (SIN_bound y); lra. }
  destruct (Rle_dec 0 x) as [Hx|Hx].
  - rewrite (Rabs_pos_eq x) by assumption. auto.
  - replace (Rabs (sin x)) with (Rabs (sin (- x))) by (rewrite sin_neg, Rabs_Ropp; reflexivity).
    rewrite <- (Rabs_Ropp x). rewrite (Rabs_pos_eq (-x)) by lra. apply H; lra.
Qed.
Lemma Rsinc_bound x : Rabs (Rsinc x) <= 1.
Proof.
  unfold Rsinc; rcase; [rewrite Rabs_R1; lra|].
  assert (HP : PI * x <> 0) by (apply Rmult_integral_contrapositive; split; [apply PI_neq0|auto]).
  unfold Rdiv; rewrite Rabs_mult, Rabs_inv by assumption.
  pose proof (Rabs_pos_lt _ HP) as Hp.
  apply Rmult_le_reg_r with (Rabs (PI * x)); [exact Hp|].
  rewrite Rmult_assoc, Rinv_l by lra. rewrite Rmult_1_r, Rmult_1_l. apply sin_abs_le.
Qed.
Lemma Rsinc_int_zero (n : Z) : n <> 0%Z -> Rsinc (IZR n) = 0.
Proof.
  intros Hn. rewrite Rsinc_nz by (apply IZR_neq; auto).
  rewrite (sin_eq_0_1 (PI * IZR n)); [unfold Rdiv; ring|]. exists n; ring.
Qed.
