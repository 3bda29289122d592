(** * Proof_TurnDemo: a thermal camera with every other row missing *)
From Coq Require Import Reals Lra List Lia ZArith Psatz Bool Sorted.
From Verif Require Import Base_XR Base_Np Base_NpFacts Base_Interp Model_Geo Model_Noise Model_Db Model_Scenario Model_Sensor Model_Rad Model_Otf Model_Img Model_Met
  Spec_Noise Spec_Rad Spec_System Spec_Met Spec_Trade Spec_Turn Proof_Db Proof_Rad Proof_Contrast Proof_Niirs Proof_NiirsDemo Proof_Trade Proof_TradeDemo Proof_DullRun Proof_DullDemo
  Proof_Turn.
Import ListNotations.
Open Scope R_scope.

Definition oblong : sensor := let t := thermal [[1]] 1 in with_pitch t (s_px t) (s_py t * 2).
Lemma oblong_good : good_camera oblong.
Proof.
  destruct (thermal_good [[1]] 1) as (P & So & GO & Hf & Hx & Hy). destruct P. split; [constructor; auto|]. split; [exact So|]. split; [exact GO|].
  split; [exact Hf|]. split; [exact Hx|]. unfold oblong. cbn [with_pitch s_py]. lra.
Qed.
Lemma oblong_sampled q : 0 < q <= 2 -> sampled q oblong (atm_rows demo_m).
Proof.
  intros Hq a _ Ha. apply (thermal_in [[1]] 1) in Ha. unfold oblong. cbn [with_pitch thermal demo_cam s_px s_py s_f s_D].
  assert (I : / a_wl a <= / (8 / 10 ^ 6)) by (apply Rinv_le_contravar; lra).
  replace (/ (8 / 10 ^ 6)) with 125000 in I by (field; lra).
  assert (J : 0 < / a_wl a) by (apply Rinv_0_lt_compat; lra).
  unfold Rdiv at 3 7. set (i := / a_wl a) in *. split; nra.
Qed.
Lemma oblong_em : true = true <-> emissive_band oblong.
Proof. split; [intros _; apply (thermal_band [[1]] 1) | reflexivity]. Qed.
Lemma oblong_atm : good_atmosphere oblong true (atm_rows demo_m).
Proof. exact (thermal_atm [[1]] 1). Qed.
Lemma oblong_rated : exists s1 c1 mt n, niirs5 demo_load demo_load no_diag oblong demo_scen false = (s1, c1, Ok mt) /\ f_niirs mt = Fin n.
Proof.
  destruct (dull_niirs5 demo_load demo_load no_diag oblong demo_scen false demo_m true (s_sx oblong) (s_sy oblong) (s_pv oblong)
     (plain demo_scen Cn2At1m) (plain demo_scen HaWindSpeed)) as (m1 & m2 & x & y & x' & y' & E & _ & _ & _ & _ & _ & _ & _ & _ & _ & _ & H1 & H2).
  - apply demo_loaded.
  - apply oblong_good.
  - apply oblong_em.
  - apply oblong_atm.
  - cbn; lra.
  - cbn; lra.
  - exact (thermal_octaves [[1]] 1).
  - apply oblong_sampled; lra.
  - repeat split; apply Rle_refl.
  - split; apply Rle_refl.
  - destruct (H1 (oblong_sampled 2 ltac:(lra))) as [X Y].
    destruct (bright_cases demo_load demo_load no_diag oblong demo_scen false demo_m eq_refl) with (ct := f_contrast m1) as (q & Eq & _ & Pq).
    + apply oblong_good.
    + apply oblong_good.
    + apply oblong_atm.
    + apply oblong_atm.
    + left. apply oblong_em. reflexivity.
    + right. do 3 eexists. split; [exact E | reflexivity].
    + assert (Q : 0 < q) by (apply Pq; [exact (demo_exposes [[1]] (wavelength 770) (12 / 10 ^ 6) 1) | exact (thermal_sees [[1]] 1)]).
      destruct (H2 ltac:(cbn; lra) X Y q Eq Q) as (n1 & _ & N & _). do 3 eexists. exists n1. split; [exact E | exact N].
Qed.
Lemma orientation_matters : ~ forall ni it diag s c itp m em, loaded ni it c itp m -> good_camera s -> (em = true <-> emissive_band s) ->
  good_atmosphere s em (atm_rows m) -> 0 < altitude c -> forall s1 c1 m1 s2 c2 m2,
  niirs5 ni it diag s c itp = (s1, c1, Ok m1) -> niirs5 ni it diag (turned s) c itp = (s2, c2, Ok m2) -> f_niirs m2 = f_niirs m1.
Proof.
  intros H. destruct oblong_rated as (s1 & c1 & mt & n & E & N).
  destruct (turn_niirs5 demo_load demo_load no_diag oblong demo_scen false demo_m true (demo_loaded _) oblong_good oblong_em oblong_atm ltac:(cbn; lra))
    as (m1 & m2 & e & E1 & E2 & _ & _ & _ & _ & _ & _ & _ & _ & _ & _ & T).
  assert (M := H _ _ _ _ _ _ _ _ (demo_loaded _) oblong_good oblong_em oblong_atm ltac:(cbn; lra) _ _ _ _ _ _ E1 E2).
  rewrite E in E1. assert (mt = m1) by congruence. subst m1. specialize (T n N). rewrite N, T in M. apply fin_inj in M.
  assert (L : s_px oblong / s_py oblong = / 2) by (unfold oblong; cbn [with_pitch s_px s_py thermal demo_cam]; field).
  rewrite L in M. unfold log10 in M. rewrite ln_Rinv in M by lra. assert (0 < ln 2) by (rewrite <- ln_1; apply ln_increasing; lra).
  assert (0 < ln 10) by (rewrite <- ln_1; apply ln_increasing; lra). assert (0 < ln 2 / ln 10) by (apply Rdiv_lt_0_compat; assumption). lra.
Qed.
