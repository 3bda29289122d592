(** * Num_Horizon: the largest stored ground range of each altitude lies before
    the horizon, the next one behind it. *)
From Coq Require Import Reals ZArith List Lra.
From Interval Require Import Tactic.
Import ListNotations.
Open Scope R_scope.

(* altitude in 0.1 m, largest stored range, next range on the list (m) *)
Definition zhorizon : list (Z * Z * option Z) :=
  [(20, 5000, Some 6000); (325, 20000, Some 22000); (750, 30000, Some 32000); (1500, 42000, Some 44000);
   (2250, 52000, Some 54000); (5000, 78000, Some 80000); (10000, 110000, Some 115000);
   (20000, 155000, Some 160000); (30000, 195000, Some 200000); (40000, 225000, Some 230000);
   (50000, 250000, Some 255000); (60000, 275000, Some 280000); (70000, 295000, Some 300000);
   (80000, 300000, None); (90000, 300000, None); (100000, 300000, None);
   (110000, 300000, None); (120000, 300000, None); (140000, 300000, None); (160000, 300000, None);
   (180000, 300000, None); (200000, 300000, None); (245000, 300000, None)]%Z.
Lemma horizon_before a m n : In (a, m, n) zhorizon ->
  6378164 < (6378164 + IZR a / 10) * cos (IZR m / 6378164).
Proof.
  intros H. unfold zhorizon in H. simpl in H.
  repeat (destruct H as [H|H]; [injection H as <- <- <-; interval with (i_prec 60)|]). destruct H.
Qed.
Lemma horizon_behind a m n : In (a, m, Some n) zhorizon ->
  (6378164 + IZR a / 10) * cos (IZR n / 6378164) < 6378164.
Proof.
  intros H. unfold zhorizon in H. simpl in H.
  repeat (destruct H as [H|H]; [first [discriminate H | injection H as <- <- <-; interval with (i_prec 60)]|]). destruct H.
Qed.
Lemma sight_2000 : 6378164 < (6378164 + 2000) * cos (159500 / 6378164).
Proof. interval with (i_prec 60). Qed.
