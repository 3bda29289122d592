(** * Proof_SampleDemo: the long-wave half of the database grid *)
From Coq Require Import Reals Lra Lia List Arith.
From Verif Require Import Base_XR Base_Np Model_Sensor Model_Db Model_Rad Spec_Rad Spec_Sample Proof_Rad Proof_RadP Proof_Db Num_Planck Proof_Sample.
Import ListNotations.
Open Scope R_scope.

Lemma fine_grid k n : (k + n <= 1371)%nat -> fine (1 / 10 ^ 8) (map wavelength (seq k n)).
Proof.
  revert k. induction n as [|[|n] IH]; intros k H; [exact I|exact I|].
  change (map wavelength (seq k (S (S n)))) with (wavelength k :: wavelength (S k) :: map wavelength (seq (S (S k)) n)).
  split; [|apply (IH (S k)); lia].
  rewrite !wavelength_val by (change n_wave with 1371%nat; lia). rewrite S_INR. lra.
Qed.
Lemma grid_from k n x : (k + n <= 1371)%nat -> In x (map wavelength (seq k n)) -> (0.3 + INR k / 100) / 10 ^ 6 <= x.
Proof.
  intros H I. apply in_map_iff in I as (i & <- & J). apply in_seq in J. rewrite wavelength_val by (change n_wave with 1371%nat; lia).
  assert (INR k <= INR i) by (apply le_INR; lia). lra.
Qed.
Lemma sample_demo : physical (demo_sensor 1000) /\
  (forall U, In U [s_T_shield (demo_sensor 1000); s_T_opt (demo_sensor 1000); s_T_filt (demo_sensor 1000)] -> U = 0 \/ 70 <= U) /\
  fine (1 / 10 ^ 8) (map wavelength (seq 770 601)) /\ (forall x, In x (map wavelength (seq 770 601)) -> 8 / 10 ^ 6 <= x) /\
  0 < thermal_spectrum (demo_sensor 1000) 1 0.5 300 (9 / 10 ^ 6).
Proof.
  split; [apply demo_physical; lra|]. split; [|split; [|split]].
  - intros U [<-|[<-|[<-|[]]]]; right; simpl; lra.
  - now apply fine_grid.
  - intros x Hx. apply grid_from in Hx; [|lia]. replace (INR 770) with 770 in Hx by (rewrite INR_IZR_INZ; reflexivity). lra.
  - rewrite thermal_parts. pose proof (cone_range (s_D (demo_sensor 1000)) (s_f (demo_sensor 1000))) as CR.
    assert (C0 : 0 < cone (s_D (demo_sensor 1000)) (s_f (demo_sensor 1000))).
    { unfold cone. pose proof PI_RGT_0. apply Rdiv_lt_0_compat; auto.
      pose proof (pow2_ge_0 (s_f (demo_sensor 1000) / s_D (demo_sensor 1000))). lra. }
    assert (P : forall T, 0 < T -> 0 < photons T (9 / 10 ^ 6)).
    { intros T HT. rewrite photons_ph by lra. apply Rmult_lt_0_compat; [unfold c_light; lra|]. apply ph_pos; [|lra].
      apply Rdiv_lt_0_compat; auto. pose proof c2_range. lra. }
    pose proof um_pos. set (k := cone _ _) in *. clearbody k. set (l := 9 / 10 ^ 6) in *. clearbody l. simpl.
    pose proof (P 300 ltac:(lra)). pose proof (P 70 ltac:(lra)). pose proof (P 290 ltac:(lra)).
    assert (U : 0 < 0.5 * (20 * um * (20 * um))) by (apply Rmult_lt_0_compat; [lra|]; apply Rmult_lt_0_compat; lra).
    set (w := 0.5 * (20 * um * (20 * um))) in *. clearbody w.
    assert (0 < w * (1 * k) * photons 300 l) by (apply Rmult_lt_0_compat; auto; apply Rmult_lt_0_compat; lra).
    assert (0 <= w * (PI - k) * photons 70 l) by (apply Rmult_le_pos; [apply Rmult_le_pos|]; lra).
    assert (0 <= w * (k * 1 * 0.05) * photons 290 l) by (apply Rmult_le_pos; [apply Rmult_le_pos|]; lra).
    lra.
Qed.
