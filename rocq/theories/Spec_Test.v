(** * Spec_Test: what the assertions of the repository's tests say.

    Used by the Num_Test files, which evaluate the models on the cases of
    /repo/tests.  np.isclose(out, e, atol=a) is |out - e| <= a + 1e-5 |e|; its
    default a is 1e-8.  Snapshot values are compared with a = 0. *)
From Coq Require Import Reals List.
From Verif Require Import Base_XR.
Import ListNotations.
Open Scope R_scope.

Definition near (atol e r : R) : Prop := Rabs (r - e) <= atol + / 10 ^ 5 * Rabs e.
Definition is_near (atol e : R) (x : xr) : Prop :=
  match x with Fin r => near atol e r | _ => False end.
Definition all_near (atol : R) (es : list R) (l : list xr) : Prop :=
  Forall2 (is_near atol) es l.
(* the call returns, and its value meets P *)
Definition returns {A} (P : A -> Prop) (m : res A) : Prop :=
  match m with Ok a => P a | Err _ => False end.
