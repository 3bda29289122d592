(** * Proof_F64Aper6: where the two tests of circular_aperture_OTF disagree *)
From Coq Require Import Reals ZArith Lia Lra Psatz Floats List Bool.
From Flocq Require Import Core IEEE754.BinarySingleNaN IEEE754.PrimFloat.
From Verif Require Import Base_XR Model_Geo Model_Otf Model_F64 Spec_F64 Spec_F64Aperture Proof_Round Model_F64Size Proof_F64Size Model_F64Db Proof_F64Db Proof_F64Slice
  Model_F64Aperture Proof_Aper Proof_F64Aper1 Proof_F64Aper2 Num_PiF64 Proof_F64Aper3 Proof_F64Aper4 Proof_F64Aper5.
Import ListNotations.
Open Scope R_scope.

(** ** only near the inner touching position *)
Lemma q_above e x : 0.1 <= e <= 0.9 -> 0 <= x -> 1 - tq <= ring_cos e (2 * x) -> 2 * x <= (1 - e) + 9 * tq.
Proof.
  intros E X Q. unfold ring_cos in Q. set (d := 2 * x) in *. assert (T : 0 < tq) by (unfold tq, one_rnd; lra).
  apply Rmult_le_compat_r with (r := e) in Q; [|lra]. unfold Rdiv in Q. rewrite !Rmult_assoc, Rinv_l in Q by lra.
  assert (S : d * d <= (1 - e) * (1 - e) + 2 * tq * e) by lra.
  destruct (Rle_lt_dec d (1 - e)) as [H|H]; [lra|].
  assert (P : (d - (1 - e)) * (d + (1 - e)) <= 2 * tq * e) by lra.
  assert (P' : (d - (1 - e)) * 0.2 <= (d - (1 - e)) * (d + (1 - e))) by (apply Rmult_le_compat_l; lra).
  assert (2 * tq * e <= 2 * tq * 0.9) by (apply Rmult_le_compat_l; lra). lra.
Qed.
Lemma q_below e x : 0.1 <= e <= 0.9 -> 0 <= x -> ring_cos e (2 * x) <= 1 + tq -> (1 - e) - 18 * tq <= 2 * x.
Proof.
  intros E X Q. unfold ring_cos in Q. set (d := 2 * x) in *. assert (T : 0 < tq) by (unfold tq, one_rnd; lra).
  apply Rmult_le_compat_r with (r := e) in Q; [|lra]. unfold Rdiv in Q. rewrite !Rmult_assoc, Rinv_l in Q by lra.
  assert (S : (1 - e) * (1 - e) - 2 * tq * e <= d * d) by lra.
  destruct (Rle_lt_dec (1 - e) d) as [H|H]; [lra|].
  assert (P : ((1 - e) - d) * (d + (1 - e)) <= 2 * tq * e) by lra.
  assert (P' : ((1 - e) - d) * 0.1 <= ((1 - e) - d) * (d + (1 - e))) by (apply Rmult_le_compat_l; unfold d in *; lra).
  assert (2 * tq * e <= 2 * tq * 0.9) by (apply Rmult_le_compat_l; lra). lra.
Qed.
Lemma tests_near u v l D f U V L A E : stands_for u U -> stands_for v V -> stands_for l L -> stands_for D A -> stands_for f E -> usual_aperture U V L A E ->
  PrimFloat.ltb 1 (ring_arg_f64 (rho_f64 u v) (D / l) f) <> inner_f64 (rho_f64 u v) (D / l) f -> Rabs (2 * rel_freq U V L A - (1 - E)) <= / 2 ^ 35.
Proof.
  intros Hu Hv Hl HD He (BL & BA & BE & Fr) NE.
  destruct (radial_units u v l D U V L A Hu Hv Hl HD BL BA Fr) as (p & r & Hp & Hr & K & Er & P0 & X & EX).
  set (x := rel_freq U V L A) in *. set (pf := rho_f64 u v) in *. set (rf := (D / l)%float) in *. set (r0 := A / L) in *.
  destruct (q_ok pf rf f p r E r0 x Hp Hr He K Er P0 X BE EX) as (Q & HQ & EQ). apply Rabs_le_inv in EQ.
  destruct (near_lit f E He BE) as [_ (n & Hn & En)].
  destruct (thr_ok n (1 - f)%float rf r r0 (1 - E) Hn En ltac:(lra) Hr K Er ltac:(apply Rabs_le_inv in En; generalize mu_small; lra)) as (t & Ht & Et).
  destruct (scaled p r0 x t (1 - E) (r0_pos _ K) EX Et) as [Sl Sg].
  assert (B : 42 * mu <= / 2 ^ 35 /\ 18 * tq <= / 2 ^ 35 /\ 0 < tq /\ 0 < mu).
  { replace (2 ^ 35) with 34359738368 by ring. unfold tq, one_rnd, mu. lra. }
  destruct (PrimFloat.ltb 1 (ring_arg_f64 pf rf f)) eqn:N; unfold inner_f64 in NE; destruct (PrimFloat.ltb pf ((1 - f) * rf / 2)%float) eqn:I; try congruence.
  - apply (f_lt _ _ _ _ f_one HQ) in N. generalize (q_above E x BE ltac:(lra) ltac:(lra)). intros H1.
    assert (H2 : t <= p).
    { destruct (Rle_lt_dec t p) as [H|H]; [exact H|]. apply (f_lt _ _ _ _ Hp Ht) in H. congruence. }
    apply Sg in H2. apply Rabs_le. lra.
  - apply (f_lt _ _ _ _ Hp Ht) in I. apply Sl in I.
    assert (Q1 : Q <= 1).
    { destruct (Rle_lt_dec Q 1) as [H|H]; [exact H|]. apply (f_lt _ _ _ _ f_one HQ) in H. congruence. }
    generalize (q_below E x BE ltac:(lra) ltac:(lra)). intros H1. apply Rabs_le. lra.
Qed.

(** ** the three values *)
Lemma three facos fsin ftan fatan k u v l D f U V L A E : good_libm facos fsin ftan fatan ->
  stands_for u U -> stands_for v V -> stands_for l L -> stands_for D A -> stands_for f E -> usual_aperture U V L A E ->
  exists out g h, circular_aperture_f64 facos fsin ftan fatan u v l D f = Ok out /\ stands_for out g /\
    circular_aperture_OTF k U V L A E = Ok (Fin h) /\
    (Rabs (g - h) <= / 10 ^ 4 \/
     Rabs (2 * rel_freq U V L A - (1 - E)) <= / 2 ^ 35 /\ (Rabs (g - (h + jump E)) <= / 10 ^ 4 \/ Rabs (g - (h - jump E)) <= / 10 ^ 4)).
Proof.
  intros Lm Hu Hv Hl HD He Us. destruct (whole _ _ _ _ k u v l D f U V L A E Lm Hu Hv Hl HD He Us) as (out & g & h & H1 & H2 & H3 & H4).
  exists out, g, h. repeat (split; [assumption|]).
  generalize (tests_near u v l D f U V L A E Hu Hv Hl HD He Us). intros TN.
  destruct (PrimFloat.ltb 1 _), (inner_f64 _ _ _); unfold one_if in H4.
  - left. replace (h + (1 - 1) * jump E) with h in H4 by ring. exact H4.
  - right. split; [apply TN; discriminate|]. left. replace (h + (1 - 0) * jump E) with (h + jump E) in H4 by ring. exact H4.
  - right. split; [apply TN; discriminate|]. right. replace (h + (0 - 1) * jump E) with (h - jump E) in H4 by ring. exact H4.
  - left. replace (h + (0 - 0) * jump E) with h in H4 by ring. exact H4.
Qed.

(** ** checking many points *)
Definition fin (x : PrimFloat.float) : bool := match Prim2SF x with S754_zero _ | S754_finite _ _ _ => true | _ => false end.
Lemma fin_ok x : fin x = true -> exists r, stands_for x r.
Proof.
  intros H. exists (B2R (Prim2B x)). split; [|reflexivity]. unfold fin in H. rewrite <- B2SF_Prim2B in H. destruct (Prim2B x); simpl in H; congruence || reflexivity.
Qed.
Definition in_range (u v l D : PrimFloat.float) : bool :=
  fin u && fin v && PrimFloat.leb (PrimFloat.abs u) 0x1p300 && PrimFloat.leb (PrimFloat.abs v) 0x1p300 && PrimFloat.leb (rho_f64 u v) (1.5 * (D / l)).
Lemma f_abs x r : stands_for x r -> stands_for (PrimFloat.abs x) (Rabs r).
Proof.
  intros [F V]. unfold stands_for. rewrite abs_equiv. split; [now rewrite is_finite_Babs|]. rewrite B2R_Babs. now rewrite V.
Qed.
Lemma f_300 : stands_for 0x1p300%float (bpow radix2 300).
Proof. apply f_value; [reflexivity|]. change (SF2R radix2 (Prim2SF 0x1p300)) with (IZR 4503599627370496 * bpow radix2 248).
  replace 4503599627370496 with (bpow radix2 52) by (simpl; lra). rewrite <- bpow_plus. reflexivity. Qed.
Lemma f_1_5 : stands_for 1.5%float 1.5.
Proof. apply f_value; [reflexivity|]. cbn. unfold Defs.F2R. simpl. lra. Qed.
Lemma in_range_ok u v l D L A E : stands_for l L -> stands_for D A -> / 2 ^ 200 <= L <= 2 ^ 200 -> / 2 ^ 200 <= A <= 2 ^ 200 -> 0.1 <= E <= 0.9 ->
  in_range u v l D = true -> exists U V, stands_for u U /\ stands_for v V /\ usual_aperture U V L A E.
Proof.
  intros Hl HD BL BA BE C. unfold in_range in C. rewrite !andb_true_iff in C. destruct C as [[[[C1 C2] C3] C4] C5].
  destruct (fin_ok u C1) as (U & Hu). destruct (fin_ok v C2) as (V & Hv). exists U, V. split; [exact Hu|]. split; [exact Hv|].
  apply (f_le _ _ _ _ (f_abs _ _ Hu) f_300) in C3. apply (f_le _ _ _ _ (f_abs _ _ Hv) f_300) in C4.
  destruct (cutoff_ok l D L A Hl HD BL BA) as (K & r & Hr & Er). generalize (r0_pos _ K) mu_small (small_unit _ K) mumu. intros P M SU MM.
  set (r0 := A / L) in *.
  assert (B : U * U + V * V <= bpow radix2 810).
  { assert (forall a, Rabs a <= bpow radix2 300 -> a * a <= bpow radix2 600).
    { intros a Ha. replace (bpow radix2 600) with (bpow radix2 300 * bpow radix2 300) by (rewrite <- bpow_plus; reflexivity).
      rewrite <- (Rabs_pos_eq (a * a)) by nra. rewrite Rabs_mult. apply Rmult_le_compat; auto using Rabs_pos. }
    apply Rle_trans with (bpow radix2 601); [|apply bpow_le; lia].
    replace (bpow radix2 601) with (2 * bpow radix2 600) by (change 601%Z with (1 + 600)%Z; rewrite bpow_plus; reflexivity).
    generalize (H U C3) (H V C4). lra. }
  destruct (rho_ok u v U V Hu Hv B) as (p & Hp & P0 & Ep). set (rho := R_sqrt.sqrt (U * U + V * V)) in *.
  apply Rabs_le_inv in Er, Ep. assert (R0 : 0 <= rho) by apply sqrt_pos.
  assert (MR : mu * r0 <= 0.001 * r0) by (apply Rmult_le_compat_r; lra).
  assert (Rr : 0 < r <= 1.01 * r0) by lra.
  assert (H15 : stands_for (1.5 * (D / l))%float (rnd (1.5 * r))).
  { apply f_mul; auto using f_1_5. apply big_ok with r0 2; auto; [lra|simpl; lra]. }
  apply (f_le _ _ _ _ Hp H15) in C5.
  generalize (rnd_mix (1.5 * r)). fold mu tn. rewrite (Rabs_pos_eq (1.5 * r)) by lra. intros Q. apply Rabs_le_inv in Q.
  assert (MMR : mu * mu * r0 <= 0.001 * (mu * r0)) by (rewrite Rmult_assoc; apply Rmult_le_compat_r; [apply Rmult_le_pos; lra|lra]).
  assert (mu * (1.5 * r) <= mu * (1.6 * r0)) by (apply Rmult_le_compat_l; lra).
  assert (Z : bpow radix2 (-530) <= mu * r0).
  { apply Rle_trans with (mu * bpow radix2 (-400)).
    - replace mu with (bpow radix2 (-53)) by (unfold mu; simpl; lra). rewrite <- bpow_plus. apply bpow_le. lia.
    - apply Rmult_le_compat_l; [lra|exact (proj1 K)]. }
  assert (5 * mu * rho <= 0.01 * rho) by (apply Rmult_le_compat_r; lra).
  split; [exact BL|]. split; [exact BA|]. split; [exact BE|]. fold rho r0. lra.
Qed.
Definition in_band (l D e : PrimFloat.float) : bool :=
  fin l && fin D && fin e && PrimFloat.leb 0x1p-200 l && PrimFloat.leb l 0x1p200 && PrimFloat.leb 0x1p-200 D && PrimFloat.leb D 0x1p200
  && PrimFloat.leb 0.125 e && PrimFloat.leb e 0.875.
Lemma f_p200 : stands_for 0x1p200%float (2 ^ 200).
Proof. apply f_value; [reflexivity|]. rewrite pow_200. change (SF2R radix2 (Prim2SF 0x1p200)) with (IZR 4503599627370496 * bpow radix2 148).
  replace 4503599627370496 with (bpow radix2 52) by (simpl; lra). rewrite <- bpow_plus. reflexivity. Qed.
Lemma f_m200 : stands_for 0x1p-200%float (/ 2 ^ 200).
Proof. apply f_value; [reflexivity|]. rewrite pow_200i. change (SF2R radix2 (Prim2SF 0x1p-200)) with (IZR 4503599627370496 * bpow radix2 (-252)).
  replace 4503599627370496 with (bpow radix2 52) by (simpl; lra). rewrite <- bpow_plus. reflexivity. Qed.
Lemma f_eighth : stands_for 0.125%float 0.125. Proof. apply f_value; [reflexivity|]. cbn. unfold Defs.F2R. simpl. lra. Qed.
Lemma f_7eighths : stands_for 0.875%float 0.875. Proof. apply f_value; [reflexivity|]. cbn. unfold Defs.F2R. simpl. lra. Qed.
Lemma in_band_ok l D e : in_band l D e = true -> exists L A E, stands_for l L /\ stands_for D A /\ stands_for e E /\
  / 2 ^ 200 <= L <= 2 ^ 200 /\ / 2 ^ 200 <= A <= 2 ^ 200 /\ 0.1 <= E <= 0.9.
Proof.
  unfold in_band. rewrite !andb_true_iff. intros [[[[[[[[C1 C2] C3] C4] C5] C6] C7] C8] C9].
  destruct (fin_ok l C1) as (L & Hl). destruct (fin_ok D C2) as (A & HD). destruct (fin_ok e C3) as (E & He). exists L, A, E.
  apply (f_le _ _ _ _ f_m200 Hl) in C4. apply (f_le _ _ _ _ Hl f_p200) in C5. apply (f_le _ _ _ _ f_m200 HD) in C6. apply (f_le _ _ _ _ HD f_p200) in C7.
  apply (f_le _ _ _ _ f_eighth He) in C8. apply (f_le _ _ _ _ He f_7eighths) in C9. repeat (split; [assumption || lra|]). lra.
Qed.
Definition outside_test (u v l D e : PrimFloat.float) : bool := PrimFloat.ltb 1 (ring_arg_f64 (rho_f64 u v) (D / l) e).
Definition inside_test (u v l D e : PrimFloat.float) : bool := inner_f64 (rho_f64 u v) (D / l) e.
Definition agree (u v l D e : PrimFloat.float) : bool := in_range u v l D && Bool.eqb (outside_test u v l D e) (inside_test u v l D e).
Definition lost (u v l D e : PrimFloat.float) : bool := in_range u v l D && outside_test u v l D e && negb (inside_test u v l D e).
Lemma agree_ok facos fsin ftan fatan u v l D e : good_libm facos fsin ftan fatan -> in_band l D e = true -> agree u v l D e = true ->
  exists g h, computed_and_exact facos fsin ftan fatan u v l D e g h /\ Rabs (g - h) <= / 10 ^ 4.
Proof.
  intros Lm IB Ag. destruct (in_band_ok l D e IB) as (L & A & E & Hl & HD & He & BL & BA & BE).
  unfold agree in Ag. rewrite andb_true_iff in Ag. destruct Ag as [IR EQ]. apply eqb_prop in EQ.
  destruct (in_range_ok u v l D L A E Hl HD BL BA BE IR) as (U & V & Hu & Hv & Us).
  destruct (whole _ _ _ _ Np u v l D e U V L A E Lm Hu Hv Hl HD He Us) as (out & g & h & H1 & H2 & H3 & H4).
  exists g, h. split; [exists out, U, V, L, A, E; tauto|].
  unfold outside_test, inside_test in EQ. rewrite EQ in H4. 
  match type of H4 with Rabs (g - (h + (?a - ?a) * _)) <= _ => replace (h + (a - a) * jump E) with h in H4 by ring end. exact H4.
Qed.
Lemma lost_ok facos fsin ftan fatan u v l D e : good_libm facos fsin ftan fatan -> in_band l D e = true -> lost u v l D e = true ->
  exists g h E, stands_for e E /\ computed_and_exact facos fsin ftan fatan u v l D e g h /\ Rabs (g - (h + jump E)) <= / 10 ^ 4.
Proof.
  intros Lm IB Ag. destruct (in_band_ok l D e IB) as (L & A & E & Hl & HD & He & BL & BA & BE).
  unfold lost in Ag. rewrite !andb_true_iff, negb_true_iff in Ag. destruct Ag as [[IR T1] T2].
  destruct (in_range_ok u v l D L A E Hl HD BL BA BE IR) as (U & V & Hu & Hv & Us).
  destruct (whole _ _ _ _ Np u v l D e U V L A E Lm Hu Hv Hl HD He Us) as (out & g & h & H1 & H2 & H3 & H4).
  exists g, h, E. split; [exact He|]. split; [exists out, U, V, L, A, E; tauto|].
  unfold outside_test, inside_test in *. rewrite T1, T2 in H4. unfold one_if in H4.
  replace (h + (1 - 0) * jump E) with (h + jump E) in H4 by ring. exact H4.
Qed.
Lemma jump_04 E : stands_for example_eta E -> 0.3805 <= jump E.
Proof.
  intros H. assert (B : 0.39999 <= E <= 0.40001).
  { assert (Q : stands_for example_eta (7205759403792794 / 18014398509481984)).
    { apply f_value; [reflexivity|]. cbn. unfold Defs.F2R. simpl. lra. }
    destruct H as [_ <-], Q as [_ ->]. lra. }
  unfold jump. assert (S : 0.15999 <= E * E <= 0.16001) by nra.
  apply Rmult_le_reg_r with (1 - E * E); [lra|]. unfold Rdiv. rewrite Rmult_assoc, Rinv_l by lra. lra.
Qed.
Lemma lost_example facos fsin ftan fatan u v l D : good_libm facos fsin ftan fatan -> in_band l D example_eta = true -> lost u v l D example_eta = true ->
  exists g h, computed_and_exact facos fsin ftan fatan u v l D example_eta g h /\ h + 0.38 <= g.
Proof.
  intros Lm IB Lo. destruct (lost_ok _ _ _ _ _ _ _ _ _ Lm IB Lo) as (g & h & E & HE & C & B). exists g, h. split; [exact C|].
  generalize (jump_04 E HE). intros J. apply Rabs_le_inv in B. replace (10 ^ 4) with 10000 in B by ring. lra.
Qed.

(** ** the 101 x 101 grid of the example *)
Definition gu (n col : nat) (l D : PrimFloat.float) : PrimFloat.float := (linspace_f64 (-1) 1 n col * (D / l))%float.
Definition gv (n row : nat) (l D : PrimFloat.float) : PrimFloat.float := (linspace_f64 1 (-1) n row * (D / l))%float.
Definition on_list (row col : nat) : bool := existsb (fun p => Nat.eqb (fst p) row && Nat.eqb (snd p) col) example_points.
Definition row_ok (row : nat) : bool :=
  let l := example_wavelength in let D := example_D in
  forallb (fun col => let u := gu 101 col l D in let v := gv 101 row l D in
     if on_list row col then lost u v l D example_eta else agree u v l D example_eta) (seq 0 101).
Lemma example_band : in_band example_wavelength example_D example_eta = true. Proof. vm_compute. reflexivity. Qed.
Lemma all_rows : forallb row_ok (seq 0 101) = true. Proof. vm_compute. reflexivity. Qed.
Lemma on_list_iff row col : on_list row col = true <-> In (row, col) example_points.
Proof.
  unfold on_list. rewrite existsb_exists. split.
  - intros ([a b] & I & H). rewrite andb_true_iff, !Nat.eqb_eq in H. simpl in H. destruct H; subst. exact I.
  - intros I. exists (row, col). split; [exact I|]. simpl. now rewrite !Nat.eqb_refl.
Qed.
Lemma grid_point row col : (row < 101)%nat -> (col < 101)%nat ->
  (if on_list row col then lost (gu 101 col example_wavelength example_D) (gv 101 row example_wavelength example_D) example_wavelength example_D example_eta
   else agree (gu 101 col example_wavelength example_D) (gv 101 row example_wavelength example_D) example_wavelength example_D example_eta) = true.
Proof.
  intros R C. generalize all_rows. rewrite forallb_forall. intros H. specialize (H row ltac:(apply in_seq; lia)). unfold row_ok in H. cbv zeta in H.
  rewrite forallb_forall in H. exact (H col ltac:(apply in_seq; lia)).
Qed.
Lemma grid_lost facos fsin ftan fatan row col : good_libm facos fsin ftan fatan -> In (row, col) example_points ->
  exists g h, grid_values facos fsin ftan fatan 101 row col example_wavelength example_D example_eta g h /\ h + 0.38 <= g.
Proof.
  intros Lm I. assert (B : (row < 101)%nat /\ (col < 101)%nat) by (repeat (destruct I as [I|I]; [inversion I; lia|]); destruct I).
  generalize (grid_point row col (proj1 B) (proj2 B)). apply on_list_iff in I. rewrite I. intros Lo.
  exact (lost_example _ _ _ _ _ _ _ _ Lm example_band Lo).
Qed.
Lemma grid_fine facos fsin ftan fatan row col : good_libm facos fsin ftan fatan -> (row < 101)%nat -> (col < 101)%nat -> ~ In (row, col) example_points ->
  exists g h, grid_values facos fsin ftan fatan 101 row col example_wavelength example_D example_eta g h /\ Rabs (g - h) <= / 10 ^ 4.
Proof.
  intros Lm R C I. generalize (grid_point row col R C). destruct (on_list row col) eqn:O; [apply on_list_iff in O; contradiction|].
  intros Ag. exact (agree_ok _ _ _ _ _ _ _ _ _ Lm example_band Ag).
Qed.
