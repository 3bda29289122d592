(** * Num_TestTac: tactics of the Num_Test files (no definitions). *)
From Coq Require Import Reals Lra.
From Interval Require Import Tactic.
From Verif Require Import Base_XR Spec_Test.
Open Scope R_scope.

Ltac rnum := first [ lra | interval | interval with (i_prec 120) | (field; try interval; lra) ].
Ltac rne := first [ lra | (apply Rgt_not_eq; interval) | (apply Rlt_not_eq; interval) ].
Ltac rdec1 :=
  match goal with
  | |- context [Reqb ?a ?b] =>
      first [ replace (Reqb a b) with true by (symmetry; apply Reqb_true; rnum)
            | replace (Reqb a b) with false by (symmetry; apply Reqb_false; rne) ]
  | |- context [Rltb ?a ?b] =>
      first [ replace (Rltb a b) with true by (symmetry; apply Rltb_true; rnum)
            | replace (Rltb a b) with false by (symmetry; apply Rltb_false; rnum) ]
  | |- context [Rleb ?a ?b] =>
      first [ replace (Rleb a b) with true by (symmetry; apply Rleb_true; rnum)
            | replace (Rleb a b) with false by (symmetry; apply Rleb_false; rnum) ]
  end.
Ltac rdec := rdec1; cbv beta iota zeta.
Ltac near_num := unfold near, Rpower; interval with (i_prec 100).
