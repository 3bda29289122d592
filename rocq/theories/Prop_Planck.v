(** * Prop_Planck: Wien's displacement law and the Stefan-Boltzmann law for blackbody_radiance (C126). *)
From Coq Require Import Reals Lra List.
From Coquelicot Require Import Coquelicot.
From Verif Require Import Base_XR Base_Np Model_Rad Spec_Rad Proof_Rad Num_Planck.
Import ListNotations.
Open Scope R_scope.

(** ** C126 *)
Theorem C126_rises_to_peak :
  forall T lam1 lam2, 0 < T -> 0 < lam1 -> lam1 < lam2 -> lam2 * T <= 2.89777 / 10 ^ 3 ->
    exists b1 b2, blackbody_radiance1 lam1 T = Fin b1 /\ blackbody_radiance1 lam2 T = Fin b2 /\ b1 < b2.
Proof. exact peak_rise. Qed.
Print Assumptions C126_rises_to_peak.

Theorem C126_falls_after_peak :
  forall T lam1 lam2, 0 < T -> 2.89778 / 10 ^ 3 <= lam1 * T -> lam1 < lam2 ->
    exists b1 b2, blackbody_radiance1 lam1 T = Fin b1 /\ blackbody_radiance1 lam2 T = Fin b2 /\ b2 < b1.
Proof. exact peak_fall. Qed.
Print Assumptions C126_falls_after_peak.

(** at 300 K the peak lies between 9.65 and 9.66 micrometres: the default database grid of 10 nm has samples
    on both sides *)
Example C126_peak_ex : 9.65 / 10 ^ 6 * 300 <= 2.89777 / 10 ^ 3 /\ 2.89778 / 10 ^ 3 <= 9.66 / 10 ^ 6 * 300.
Proof. split; lra. Qed.

Theorem C126_total_radiance :
  forall T b, 0 < T -> (forall l, 0 < l -> blackbody_radiance1 l T = Fin (b l)) ->
    exists J, is_RInt_gen b (at_right 0) (Rbar_locally p_infty) J /\
      5.6703 / 10 ^ 8 * T ^ 4 / PI <= J <= 5.6704 / 10 ^ 8 * T ^ 4 / PI.
Proof. exact stefan. Qed.
Print Assumptions C126_total_radiance.

Theorem C126_share_of_band :
  forall b, (forall l, 0 < l -> blackbody_radiance1 l 300 = Fin (b l)) ->
    exists J I, is_RInt_gen b (at_right 0) (Rbar_locally p_infty) J /\ is_RInt b (3 / 10 ^ 7) (14 / 10 ^ 6) I /\
      51 / 100 * J <= I <= 52 / 100 * J.
Proof. exact share300. Qed.
Print Assumptions C126_share_of_band.

Example C126_total_ex : forall l, 0 < l -> blackbody_radiance1 l 300 = Fin (planck l 300).
Proof. intros l H. apply bb_fin. lra. Qed.
