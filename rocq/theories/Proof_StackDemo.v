(** * Proof_StackDemo: four frames of a thermal camera *)
From Coq Require Import Reals Lra List Lia ZArith Psatz Bool Sorted.
From Verif Require Import Base_XR Base_Np Base_NpFacts Base_Interp Model_Geo Model_Noise Model_Db Model_Scenario Model_Sensor Model_Rad Model_Otf Model_Img Model_Met
  Spec_Noise Spec_Rad Spec_System Spec_Met Spec_Trade Proof_Db Proof_Rad Proof_Weight Proof_Contrast Proof_Niirs Proof_NiirsDemo Proof_Trade Proof_TradeDemo Proof_DullRun Proof_DullDemo
  Proof_Giqe Proof_Stack Proof_Rated.
Import ListNotations.
Open Scope R_scope.

Lemma thermal_sampled6 k n : sampled 6 (thermal k n) (atm_rows demo_m).
Proof.
  intros a _ Ha. apply thermal_in in Ha. cbn [thermal demo_cam s_px s_py s_f s_D].
  assert (I : / a_wl a <= / (8 / 10 ^ 6)) by (apply Rinv_le_contravar; lra).
  replace (/ (8 / 10 ^ 6)) with 125000 in I by (field; lra).
  assert (J : 0 < / a_wl a) by (apply Rinv_0_lt_compat; lra).
  unfold Rdiv at 3 7. set (i := / a_wl a) in *. split; nra.
Qed.
Lemma thermal_conditions n : let s := thermal [[1]] n in
  loaded demo_load demo_load demo_scen false demo_m /\ good_camera s /\ (true = true <-> emissive_band s) /\
  good_atmosphere s true (atm_rows demo_m) /\ 0 < altitude demo_scen /\ 0 <= plain demo_scen AircraftSpeed /\
  three_octaves s (atm_rows demo_m) /\ sampled 6 s (atm_rows demo_m) /\ (length (s_kernel s) <= 1)%nat /\ Rsum (concat (s_kernel s)) = 1.
Proof.
  cbv zeta. split; [apply demo_loaded|]. split; [apply thermal_good|]. split; [split; [intros _; apply thermal_band | reflexivity]|].
  split; [apply thermal_atm|]. split; [cbn; lra|]. split; [cbn; lra|]. split; [apply thermal_octaves|].
  split; [apply thermal_sampled6|]. split; [cbn; lia | cbn; lra].
Qed.
Lemma thermal_rated n : 0 < n -> exists c1 m1 x v3 v4, niirs demo_load demo_load no_diag (thermal [[1]] n) demo_scen false = (c1, Ok m1) /\
  m_snr (ct_snr (n_contrast m1)) = Fin x /\ 0 < x /\ n_niirs m1 = Fin v3 /\ n_niirs_4 m1 = Fin v4.
Proof.
  intros Hn. destruct (thermal_conditions n) as (A & B & C & D & E & F & G & H & I & J).
  destruct (rated_niirs demo_load demo_load no_diag (thermal [[1]] n) demo_scen false demo_m true A B C D E F G H I J Hn)
    as (c1 & m1 & x & r & e & R & X & _ & _ & _ & _ & V).
  destruct (bright_cases demo_load demo_load no_diag (thermal [[1]] n) demo_scen false demo_m eq_refl) with (ct := n_contrast m1) as (x' & Ex & _ & Px).
  - apply B.
  - apply B.
  - apply D.
  - apply D.
  - left. apply C. reflexivity.
  - left. do 2 eexists. split; [exact R | reflexivity].
  - rewrite X in Ex. apply fin_inj in Ex. subst x'.
    assert (P : 0 < x) by (apply Px; [apply demo_exposes | apply thermal_sees]).
    destruct (V ltac:(lra)) as (v3 & v4 & V3 & V4). exists c1, m1, x, v3, v4. auto.
Qed.
Lemma thermal_rated5 n : 0 < n -> exists s1 c1 m1 x v r, niirs5 demo_load demo_load no_diag (thermal [[1]] n) demo_scen false = (s1, c1, Ok m1) /\
  m_snr (ct_snr (f_contrast m1)) = Fin x /\ 0 < x /\ f_niirs m1 = Fin v /\ f_rer m1 = Fin r /\ r <= 1.
Proof.
  intros Hn. destruct (thermal_conditions n) as (A & B & C & D & E & F & G & H & I & J).
  set (s := thermal [[1]] n) in *.
  destruct (dull_niirs5 demo_load demo_load no_diag s demo_scen false demo_m true (s_sx s) (s_sy s) (s_pv s)
     (plain demo_scen Cn2At1m) (plain demo_scen HaWindSpeed)) as (m1 & m2 & x & y & x' & y' & R & _ & _ & _ & _ & X & Y & _ & _ & X0 & Y0 & H1 & H2); try assumption.
  - apply thermal_sampled; lra.
  - repeat split; apply Rle_refl.
  - split; apply Rle_refl.
  - destruct (H1 (thermal_sampled _ _ 2 ltac:(lra))) as [X1 Y1].
    destruct (bright_cases demo_load demo_load no_diag s demo_scen false demo_m eq_refl) with (ct := f_contrast m1) as (q & Eq & _ & Pq).
    + apply B.
    + apply B.
    + apply D.
    + apply D.
    + left. apply C. reflexivity.
    + right. do 3 eexists. split; [exact R | reflexivity].
    + assert (Q : 0 < q) by (apply Pq; [apply demo_exposes | apply thermal_sees]).
      destruct (H2 Hn X1 Y1 q Eq Q) as (n1 & _ & N & _).
      destruct (stack_run5 demo_load demo_load no_diag s demo_scen false 1 _ _ _ R) as (mm & _ & _ & _ & _ & _ & _ & _ & _ & _ & _ & K).
      specialize (K _ _ (or_introl eq_refl)). unfold giqe5 in K. apply (f_equal snd) in K. cbn [snd] in K.
      rewrite X, Y in K.
      assert (M : exists a b, xmax (Fin x) (Fin y) = Fin a /\ xmin (Fin x) (Fin y) = Fin b /\ 0 < a <= 1 /\ 0 < b <= 1).
      { unfold xmax, xmin. cbn. repeat rcase; do 2 eexists; (split; [reflexivity|]); (split; [reflexivity|]); lra. }
      destruct M as (a & b & Ma & Mb & Pa & Pb). rewrite Ma, Mb in K. unfold xsq in K. rewrite !xmul_fin in K.
      assert (Z : 0 < a * (b * b) <= 1) by (split; [repeat apply Rmult_lt_0_compat; lra | nra]).
      rewrite xpow_fin in K by lra. do 3 eexists. exists q, n1. eexists. split; [exact R|]. split; [exact Eq|]. split; [exact Q|]. split; [exact N|].
      split; [exact K|]. rewrite <- (Rpower_1 (a * (b * b))) in Z at 2 by lra.
      replace 1 with (Rpower 1 (1 / 3)) at 2 by (unfold Rpower; rewrite ln_1, Rmult_0_r; apply exp_0).
      apply Rle_Rpower_l; [lra|]. rewrite Rpower_1 in Z by lra. lra.
Qed.
