(** * Spec_Scenario: histories, without the state machine.
    The current value of a parameter is the last one assigned. *)
From Coq Require Import Reals ZArith List.
From Verif Require Import Model_Scenario.
Import ListNotations.

Record params := { p_ihaze : Z; p_altitude : R; p_range : R }.
Fixpoint current (ops : list op) (p : params) : params :=
  match ops with
  | [] => p
  | SetIhaze z :: ops => current ops {| p_ihaze := z; p_altitude := p_altitude p; p_range := p_range p |}
  | SetAltitude r :: ops => current ops {| p_ihaze := p_ihaze p; p_altitude := r; p_range := p_range p |}
  | SetGroundRange r :: ops => current ops {| p_ihaze := p_ihaze p; p_altitude := p_altitude p; p_range := r |}
  | _ :: ops => current ops p
  end.

Definition is_poke (o : op) : bool := match o with Poke _ _ _ _ => true | _ => false end.
(* the caller never changes an array in place *)
Definition hands_off (ops : list op) : Prop := forall o, In o ops -> is_poke o = false.

Definition invalidates (o : op) : bool :=
  match o with SetIhaze _ | SetAltitude _ | SetGroundRange _ => true | _ => false end.
Definition invalidations (ops : list op) : nat := length (filter invalidates ops).
