(** * Num_LnF64: logarithms of the constants of radiance/functional.py and of binary64's range *)
From Coq Require Import Reals Lra.
From Interval Require Import Tactic.
From Verif Require Import Model_Rad.
Open Scope R_scope.

Lemma exp_620 : exp 620 < 2 ^ 900. Proof. interval. Qed.
Lemma ln_2_num : 0.69 <= ln 2 <= 0.70. Proof. split; interval. Qed.
Lemma ln_4_num : 1.38 <= ln 4 <= 1.39. Proof. split; interval. Qed.
Lemma ln_1_1 : 0.05 <= ln 1.1. Proof. interval. Qed.
Lemma ln_tol : 0.99 * (/ 10 ^ 12) <= ln (1 + / 10 ^ 12). Proof. interval with (i_prec 100). Qed.
Lemma ln_pi_num : 1.1 <= ln PI <= 1.2. Proof. split; interval. Qed.
Lemma ln_015 : -1.9 <= ln 0.15 <= -1.8. Proof. split; interval. Qed.
Lemma ln_1e12 : ln (10 ^ 12) <= 27.7 /\ -27.7 <= ln (/ 10 ^ 12). Proof. split; interval. Qed.
Lemma ln_1e8 : ln (10 ^ 8) <= 18.5 /\ -18.5 <= ln (/ 10 ^ 8). Proof. split; interval. Qed.
Lemma ln_hc : -76.5 <= ln hc <= -76.3. Proof. unfold hc. split; interval. Qed.
Lemma ln_cc : 19.5 <= ln cc <= 19.6. Proof. unfold cc. split; interval. Qed.
Lemma ln_kc : -52.7 <= ln kc <= -52.6. Proof. unfold kc. split; interval. Qed.
Lemma ln_lam : -16.2 <= ln (/ 10 ^ 7) /\ ln (/ 10 ^ 4) <= -9.2. Proof. split; interval. Qed.
Lemma ln_10_num : 2.3 <= ln 10 <= 2.31. Proof. split; interval. Qed.
Lemma ln_temp : -1 <= ln 0.5 /\ ln 200000 <= 13. Proof. split; interval. Qed.
Lemma exp_075 : 2.1 <= exp 0.75. Proof. interval. Qed.
Lemma ln_2m53 : -37 <= ln (/ 9007199254740992). Proof. interval. Qed.
Lemma ln_2000 : ln 2000 <= 8. Proof. interval. Qed.
