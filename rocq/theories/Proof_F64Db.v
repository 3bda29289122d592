(** * Proof_F64Db: the atmosphere loaders in binary64 *)
From Coq Require Import Reals ZArith Lia Lra Psatz Floats List Bool.
From Flocq Require Import Core IEEE754.BinarySingleNaN IEEE754.PrimFloat.
From Verif Require Import Base_XR Base_Np Model_DbTable Model_Db Model_F64 Model_F64Size Model_F64Db.
From Verif Require Import Spec_Db Spec_F64 Spec_F64Db Proof_Round Proof_F64Size Proof_F64Blend Proof_Db.
Import ListNotations.
Open Scope R_scope.

(** ** comparisons *)
Lemma f_eq x y a b : stands_for x a -> stands_for y b -> (PrimFloat.eqb x y = true <-> a = b).
Proof.
  intros [Fx Ex] [Fy Ey]. rewrite eqb_equiv, Beqb_correct by assumption. rewrite Ex, Ey.
  destruct (Req_bool_spec a b); split; intros; try contradiction; try discriminate; auto.
Qed.
Lemma f_le x y a b : stands_for x a -> stands_for y b -> (PrimFloat.leb x y = true <-> a <= b).
Proof.
  intros [Fx Ex] [Fy Ey]. rewrite leb_equiv, Bleb_correct by assumption. rewrite Ex, Ey.
  destruct (Rle_bool_spec a b); split; intros; try lra; discriminate.
Qed.
Lemma f_eq_finite x y b : stands_for y b -> PrimFloat.eqb y x = true -> exists a, stands_for x a.
Proof.
  intros [Fy Ey] E. rewrite eqb_equiv in E. exists (B2R (Prim2B x)). split; [|reflexivity].
  destruct (Prim2B x) as [s|s| |s m e H]; try reflexivity.
  - unfold Beqb in E. destruct (Prim2B y) as [?|?| |[] ? ? ?], s; simpl in *; discriminate.
  - unfold Beqb in E. destruct (Prim2B y) as [?|?| |[] ? ? ?]; simpl in *; discriminate.
Qed.

(** ** division by 1000 *)
Lemma f_1000 : stands_for 1000 1000.
Proof. change 1000%float with (f_of_Z 1000). apply f_int_lit. lia. Qed.
Lemma rnd_mono a b : a <= b -> rnd a <= rnd b.
Proof. intros H. apply round_le; auto; apply fx_valid || apply valid_rnd_N. Qed.
Lemma rnd_self x a : stands_for x a -> rnd a = a.
Proof.
  intros [_ <-]. apply round_generic; [apply valid_rnd_N|]. apply (generic_format_B2R prec emax).
Qed.
Lemma rnd_abs_le x a q : stands_for x a -> Rabs q <= Rabs a -> Rabs (rnd q) <= Rabs a.
Proof.
  intros S H. apply Rabs_le. apply Rabs_le_inv in H.
  assert (N : rnd (- Rabs a) = - Rabs a /\ rnd (Rabs a) = Rabs a).
  { assert (E := rnd_self x a S). assert (E' : rnd (- a) = - a).
    { unfold rnd. rewrite round_NE_opp. now f_equal. }
    destruct (Rle_lt_dec 0 a) as [P|P]; [rewrite Rabs_pos_eq by exact P|rewrite Rabs_left by exact P];
      [auto|]. rewrite Ropp_involutive. auto. }
  destruct N as [N1 N2]. split; [rewrite <- N1|rewrite <- N2]; apply rnd_mono; tauto.
Qed.
Lemma f_div1000 x : BinarySingleNaN.is_finite (Prim2B (x / 1000)%float) = BinarySingleNaN.is_finite (Prim2B x)
  /\ B2R (Prim2B (x / 1000)%float) = rnd (B2R (Prim2B x) / 1000).
Proof.
  rewrite div_equiv. destruct f_1000 as [F E].
  generalize (Bdiv_correct prec emax Hprec Hmax mode_NE (Prim2B x) (Prim2B 1000)).
  rewrite E. change (round radix2 (fexp prec emax) (round_mode mode_NE) (B2R (Prim2B x) / 1000)) with (rnd (B2R (Prim2B x) / 1000)).
  rewrite Rlt_bool_true; [intros H; specialize (H ltac:(lra)); tauto|].
  destruct (BinarySingleNaN.is_finite (Prim2B x)) eqn:Fx.
  - assert (S : stands_for x (B2R (Prim2B x))) by (split; auto). apply Rle_lt_trans with (Rabs (B2R (Prim2B x))).
    + apply rnd_abs_le with x; [exact S|]. unfold Rdiv. rewrite Rabs_mult, (Rabs_pos_eq (/ 1000)) by lra.
      generalize (Rabs_pos (B2R (Prim2B x))). lra.
    + apply (abs_B2R_lt_emax prec emax).
  - replace (B2R (Prim2B x)) with 0 by (destruct (Prim2B x); try discriminate; reflexivity).
    unfold Rdiv. rewrite Rmult_0_l. unfold rnd. rewrite round_0 by apply valid_rnd_N. rewrite Rabs_R0. apply bpow_gt_0.
Qed.
Lemma f_div1000_of x a : stands_for x a -> stands_for (x / 1000) (rnd (a / 1000)).
Proof. intros [F E]. destruct (f_div1000 x) as [G H]. split; [congruence|]. now rewrite H, E. Qed.

(** ** neighbours *)
Definition apart (k : PrimFloat.float) : bool :=
  PrimFloat.ltb (k / 1000) (next_up k / 1000) && PrimFloat.ltb (next_down k / 1000) (k / 1000).
Definition fl_finite (k : PrimFloat.float) : bool := PrimFloat.is_finite k.
Lemma finite_stands k : PrimFloat.is_finite k = true -> stands_for k (B2R (Prim2B k)).
Proof. intros H. split; [|reflexivity]. rewrite <- is_finite_equiv. exact H. Qed.
Lemma up_stands k v : stands_for k v -> PrimFloat.is_finite (next_up k) = true -> stands_for (next_up k) (succ radix2 fx v).
Proof.
  intros [F E] H. assert (S := finite_stands _ H). rewrite next_up_equiv in S.
  generalize (Bsucc_correct prec emax Hprec Hmax (Prim2B k) F). rewrite E.
  destruct (Rlt_bool_spec (succ radix2 (fexp prec emax) v) (bpow radix2 emax)) as [L|L].
  - intros (A & B & _). split; rewrite next_up_equiv; [exact B|exact A].
  - intros A. exfalso. destruct S as [S _]. rewrite next_up_equiv in S.
    destruct (Bsucc (Prim2B k)); discriminate.
Qed.
Lemma down_stands k v : stands_for k v -> PrimFloat.is_finite (next_down k) = true -> stands_for (next_down k) (pred radix2 fx v).
Proof.
  intros [F E] H. assert (S := finite_stands _ H). rewrite next_down_equiv in S.
  generalize (Bpred_correct prec emax Hprec Hmax (Prim2B k) F). rewrite E.
  destruct (Rlt_bool_spec (- bpow radix2 emax) (pred radix2 (fexp prec emax) v)) as [L|L].
  - intros (A & B & _). split; rewrite next_down_equiv; [exact B|exact A].
  - intros A. exfalso. destruct S as [S _]. rewrite next_down_equiv in S.
    destruct (Bpred (Prim2B k)); discriminate.
Qed.
Lemma stands_format x a : stands_for x a -> generic_format radix2 fx a.
Proof. intros [_ <-]. apply (generic_format_B2R prec emax). Qed.
Lemma apart_ok k v x r : stands_for k v -> apart k = true ->
  PrimFloat.is_finite (next_up k) = true -> PrimFloat.is_finite (next_down k) = true ->
  stands_for x r -> rnd (r / 1000) = rnd (v / 1000) -> r = v.
Proof.
  intros K A U D X E. apply andb_true_iff in A. destruct A as [A B].
  assert (K' := f_div1000_of _ _ K). assert (U' := f_div1000_of _ _ (up_stands _ _ K U)). assert (D' := f_div1000_of _ _ (down_stands _ _ K D)).
  apply (f_lt _ _ _ _ K' U') in A. apply (f_lt _ _ _ _ D' K') in B.
  destruct (Rtotal_order r v) as [L|[L|L]]; [|exact L|].
  - exfalso. assert (Q : r <= pred radix2 fx v).
    { apply pred_ge_gt; auto; [apply fx_valid|now apply stands_format with x|now apply stands_format with k]. }
    assert (rnd (r / 1000) <= rnd (pred radix2 fx v / 1000)) by (apply rnd_mono; lra). lra.
  - exfalso. assert (Q : succ radix2 fx v <= r).
    { apply succ_le_lt; auto; [apply fx_valid|now apply stands_format with k|now apply stands_format with x]. }
    assert (rnd (succ radix2 fx v / 1000) <= rnd (r / 1000)) by (apply rnd_mono; lra). lra.
Qed.

(** ** the rows of the decoder file *)
Definition row_ok (r : row) : bool :=
  let '(_, a, g, _) := r in
  fl_finite (tenths a) && PrimFloat.eqb (f_decimal a 10000) (tenths a / 1000) && apart (tenths a)
  && fl_finite (next_up (tenths a)) && fl_finite (next_down (tenths a))
  && PrimFloat.eqb (f_decimal g 1000) (f_of_Z g / 1000)
  && ((g =? 0)%Z || ((0 <? g)%Z && (g <? 2 ^ 53)%Z && apart (f_of_Z g) && fl_finite (next_up (f_of_Z g)) && fl_finite (next_down (f_of_Z g)))).
Lemma rows_ok : forallb row_ok decoder = true.
Proof. vm_compute. reflexivity. Qed.
Lemma f_eq_sym x y : PrimFloat.eqb x y = PrimFloat.eqb y x.
Proof.
  rewrite !eqb_equiv.
  destruct (BinarySingleNaN.is_finite (Prim2B x)) eqn:X, (BinarySingleNaN.is_finite (Prim2B y)) eqn:Y.
  - rewrite !Beqb_correct by assumption.
    destruct (Req_bool_spec (B2R (Prim2B x)) (B2R (Prim2B y))), (Req_bool_spec (B2R (Prim2B y)) (B2R (Prim2B x))); congruence.
  - unfold Beqb. destruct (Prim2B x) as [[]|[]| |[] ? ? ?], (Prim2B y) as [[]|[]| |[] ? ? ?]; try discriminate; reflexivity.
  - unfold Beqb. destruct (Prim2B x) as [[]|[]| |[] ? ? ?], (Prim2B y) as [[]|[]| |[] ? ? ?]; try discriminate; reflexivity.
  - unfold Beqb. destruct (Prim2B x) as [[]|[]| |[] ? ? ?], (Prim2B y) as [[]|[]| |[] ? ? ?]; try discriminate; reflexivity.
Qed.
Lemma eq_decimal l k v x : PrimFloat.eqb l (k / 1000) = true -> stands_for k v ->
  (PrimFloat.eqb l (x / 1000) = true <-> exists r, stands_for x r /\ rnd (r / 1000) = rnd (v / 1000)).
Proof.
  intros E K. assert (K' := f_div1000_of _ _ K). rewrite f_eq_sym in E.
  destruct (f_eq_finite _ _ _ K' E) as [lv L]. apply (f_eq _ _ _ _ K' L) in E. subst lv. split.
  - intros H. destruct (f_eq_finite _ _ _ L H) as [q Q]. apply (f_eq _ _ _ _ L Q) in H. subst q.
    destruct (f_div1000 x) as [F G]. destruct Q as [Q1 Q2]. exists (B2R (Prim2B x)). split; [split; [congruence|reflexivity]|congruence].
  - intros (r & R & Q). apply (f_eq _ _ _ _ L (f_div1000_of _ _ R)). auto.
Qed.
Lemma zero_div1000 x r : stands_for x r -> not_tiny x -> rnd (r / 1000) = 0 -> r = 0.
Proof.
  intros X T E. destruct (T r X) as [Z|Z]; [exact Z|exfalso].
  assert (P : bpow radix2 (-1010) <= Rabs r / 1000).
  { change 1000%nat with (Z.to_nat 1000) in Z. rewrite (pow2_bpow (Z.to_nat 1000)), Z2Nat.id, <- bpow_opp in Z by lia.
    change (- (1000))%Z with (-1000)%Z in Z.
    replace (-1010)%Z with (-1000 + -10)%Z by reflexivity. rewrite bpow_plus.
    replace (bpow radix2 (-10)) with (/ 1024) by (simpl; lra). generalize (bpow_gt_0 radix2 (-1000)). lra. }
  assert (N : rnd (Rabs r / 1000) = 0).
  { destruct (Rle_lt_dec 0 r) as [Q|Q]; [now rewrite Rabs_pos_eq|]. rewrite Rabs_left by exact Q.
    replace (- r / 1000) with (- (r / 1000)) by lra. unfold rnd in *. rewrite round_NE_opp, E. lra. }
  assert (rnd (bpow radix2 (-1010)) <= 0) by (rewrite <- N; now apply rnd_mono).
  replace (rnd (bpow radix2 (-1010))) with (bpow radix2 (-1010)) in H
    by (generalize (rnd_exact 1 (-1010) ltac:(lia) ltac:(lia)); rewrite Rmult_1_l; auto).
  generalize (bpow_gt_0 radix2 (-1010)). lra.
Qed.
Lemma row_selects i a g h alt rng : In (i, a, g, h) decoder -> not_tiny rng ->
  (PrimFloat.eqb (row_alt_f64 (i, a, g, h)) (alt / 1000) = true /\ PrimFloat.eqb (row_range_f64 (i, a, g, h)) (rng / 1000) = true)
  <-> asked alt rng a g.
Proof.
  intros H T. generalize rows_ok. rewrite forallb_forall. intros R. specialize (R _ H). unfold row_ok in R.
  repeat rewrite andb_true_iff in R. destruct R as [[[[[[R1 R2] R3] R4] R5] R6] R7].
  assert (SA := finite_stands _ R1). set (va := B2R (Prim2B (tenths a))) in *. clearbody va.
  unfold row_alt_f64, row_range_f64, asked. 
  assert (A : PrimFloat.eqb (f_decimal a 10000) (alt / 1000) = true <-> PrimFloat.eqb alt (tenths a) = true).
  { rewrite (eq_decimal _ _ _ alt R2 SA). split.
    - intros (r & X & E). apply (f_eq _ _ _ _ X SA). now apply (apart_ok (tenths a) va alt r).
    - intros E. rewrite f_eq_sym in E. destruct (f_eq_finite _ _ _ SA E) as [r X]. exists r. split; [exact X|].
      apply (f_eq _ _ _ _ SA X) in E. now subst. }
  assert (G : PrimFloat.eqb (f_decimal g 1000) (rng / 1000) = true <-> PrimFloat.eqb rng (f_of_Z g) = true).
  { apply orb_true_iff in R7. destruct R7 as [R7|R7].
    - apply Z.eqb_eq in R7. subst g. assert (SG := f_int_lit 0 ltac:(lia)). rewrite (eq_decimal _ _ _ rng R6 SG). split.
      + intros (r & X & E). apply (f_eq _ _ _ _ X SG). replace (IZR 0 / 1000) with 0 in E by lra.
        apply (zero_div1000 rng); auto. rewrite E. unfold rnd. apply round_0. apply valid_rnd_N.
      + intros E. rewrite f_eq_sym in E. destruct (f_eq_finite _ _ _ SG E) as [r X]. exists r. split; [exact X|].
        apply (f_eq _ _ _ _ SG X) in E. now subst.
    - repeat rewrite andb_true_iff in R7. destruct R7 as [[[[Q1 Q2] Q3] Q4] Q5].
      apply Z.ltb_lt in Q1. apply Z.ltb_lt in Q2. assert (SG := f_int_lit g ltac:(lia)). rewrite (eq_decimal _ _ _ rng R6 SG). split.
      + intros (r & X & E). apply (f_eq _ _ _ _ X SG). now apply (apart_ok (f_of_Z g) (IZR g) rng r).
      + intros E. rewrite f_eq_sym in E. destruct (f_eq_finite _ _ _ SG E) as [r X]. exists r. split; [exact X|].
        apply (f_eq _ _ _ _ SG X) in E. now subst. }
  tauto.
Qed.
Lemma select_asked i a g h alt rng : not_tiny rng ->
  In (i, a, g, h) (select_f64 alt rng h) <-> In (i, a, g, h) decoder /\ asked alt rng a g.
Proof.
  intros T. unfold select_f64. rewrite !filter_In. split.
  - intros [[[D _] A] G]. split; [exact D|]. now apply (row_selects i a g h).
  - intros [D A]. apply (row_selects i a g h alt rng D T) in A. destruct A. repeat split; auto.
    unfold row_ihaze. apply Z.eqb_refl.
Qed.
Lemma select_haze r alt rng h : In r (select_f64 alt rng h) -> row_ihaze r = h.
Proof. unfold select_f64. rewrite !filter_In. intros [[[_ H] _] _]. now apply Z.eqb_eq. Qed.
Lemma f_10 : stands_for 10 10.
Proof. change 10%float with (f_of_Z 10). apply f_int_lit. lia. Qed.
Lemma tenths_value a : (0 <= a <= 2 ^ 30)%Z -> stands_for (tenths a) (rnd (IZR a / 10)).
Proof.
  intros A. apply f_div; [apply f_int_lit; lia|apply f_10|lra|].
  assert (0 <= IZR a <= IZR (2 ^ 30)) by (split; apply IZR_le; lia). rewrite Rabs_pos_eq by lra.
  apply Rle_lt_trans with (bpow radix2 30); [|apply bpow_lt; lia]. change (bpow radix2 30) with (IZR (2 ^ 30)). lra.
Qed.
Lemma tenths_inj a a' v : (0 <= a <= 2 ^ 30)%Z -> (0 <= a' <= 2 ^ 30)%Z ->
  stands_for (tenths a) v -> stands_for (tenths a') v -> a = a'.
Proof.
  intros A A' S S'.
  assert (B : forall z, (0 <= z <= 2 ^ 30)%Z -> stands_for (tenths z) v -> Rabs (v - IZR z / 10) < / 100).
  { intros z Z T. assert (U := tenths_value z Z). assert (E : v = rnd (IZR z / 10)) by (destruct T, U; congruence).
    rewrite E. assert (0 <= IZR z <= IZR (2 ^ 30)) by (split; apply IZR_le; lia).
    eapply Rle_lt_trans; [apply rnd_err with (k := 30%Z); [lia|]|].
    - rewrite Rabs_pos_eq by lra. change (bpow radix2 30) with (IZR (2 ^ 30)). change (IZR (2 ^ 30)) with 1073741824 in *. lra.
    - simpl. lra. }
  assert (B1 := B _ A S). assert (B2 := B _ A' S'). apply Rabs_lt_inv in B1, B2.
  assert (IZR a - 1 < IZR a' < IZR a + 1) by lra. destruct H as [H1 H2].
  rewrite <- minus_IZR in H1. rewrite <- plus_IZR in H2. apply lt_IZR in H1, H2. lia.
Qed.
Definition row_small (r : row) : bool := let '(_, a, g, _) := r in
  (0 <=? a)%Z && (a <=? 2 ^ 30)%Z && (0 <=? g)%Z && (g <=? 2 ^ 30)%Z.
Lemma rows_small : forallb row_small decoder = true.
Proof. vm_compute. reflexivity. Qed.
Lemma row_bounds i a g h : In (i, a, g, h) decoder -> (0 <= a <= 2 ^ 30)%Z /\ (0 <= g <= 2 ^ 30)%Z.
Proof.
  intros H. generalize rows_small. rewrite forallb_forall. intros R. specialize (R _ H). unfold row_small in R.
  repeat rewrite andb_true_iff in R. repeat rewrite Z.leb_le in R. lia.
Qed.
Lemma asked_unique i a g j b f h alt rng : In (i, a, g, h) decoder -> In (j, b, f, h) decoder ->
  asked alt rng a g -> asked alt rng b f -> (i, a, g, h) = (j, b, f, h).
Proof.
  intros D D' [A G] [A' G']. destruct (row_bounds _ _ _ _ D) as [Ba Bg]. destruct (row_bounds _ _ _ _ D') as [Bb Bf].
  assert (Sa := tenths_value a Ba). assert (Sb := tenths_value b Bb). assert (Sg := f_int_lit g ltac:(lia)). assert (Sf := f_int_lit f ltac:(lia)).
  rewrite f_eq_sym in A, G, A', G'.
  destruct (f_eq_finite _ _ _ Sa A) as [v V]. apply (f_eq _ _ _ _ Sa V) in A. apply (f_eq _ _ _ _ Sb V) in A'.
  destruct (f_eq_finite _ _ _ Sg G) as [w W]. apply (f_eq _ _ _ _ Sg W) in G. apply (f_eq _ _ _ _ Sf W) in G'.
  assert (a = b) by (apply (tenths_inj a b v); auto; congruence). subst b.
  assert (g = f) by (apply eq_IZR; congruence). subst f.
  assert (i = j). { apply (listed_index_unique i j (IZR a / 10) (IZR g) h); exists a, g; auto. }
  now subst.
Qed.
Lemma f64_ok_iff st alt rng h m : not_tiny rng ->
  (load_no_interp_f64 st alt rng h = Ok m <->
   exists i a g d, In (i, a, g, h) decoder /\ asked alt rng a g /\ st i = Some d /\ m = assemble_f64 d).
Proof.
  intros T. unfold load_no_interp_f64. destruct (select_f64 alt rng h) as [|[[[i a] g] h'] l] eqn:E.
  - split; [discriminate|]. intros (i & a & g & d & D & A & _). exfalso.
    assert (H : In (i, a, g, h) (select_f64 alt rng h)) by (apply select_asked; auto). rewrite E in H. destruct H.
  - assert (H : In (i, a, g, h') (select_f64 alt rng h)) by (rewrite E; left; auto).
    assert (h' = h) by (apply (select_haze _ _ _ _ H)). subst h'. assert (S := H). apply select_asked in S; [|exact T]. destruct S as [D A].
    change (row_index (i, a, g, h)) with i. split.
    + destruct (st i) as [d|] eqn:F; [|discriminate]. intros Q. injection Q as <-. exists i, a, g, d. auto.
    + intros (j & b & f & d & D' & A' & F & ->). assert (X := asked_unique _ _ _ _ _ _ _ _ _ D D' A A').
      injection X as -> -> ->. now rewrite F.
Qed.
Lemma f64_cases st alt rng h : (exists m, load_no_interp_f64 st alt rng h = Ok m) \/ load_no_interp_f64 st alt rng h = Err IndexError.
Proof.
  unfold load_no_interp_f64. destruct (select_f64 alt rng h) as [|r l]; [auto|]. destruct (st (row_index r)); eauto.
Qed.
Lemma f64_wavelength st alt rng h m : load_no_interp_f64 st alt rng h = Ok m -> forall i, m i 0%nat = wavelength_f64 i.
Proof.
  unfold load_no_interp_f64. destruct (select_f64 alt rng h) as [|r l]; [discriminate|].
  destruct (st (row_index r)) as [d|]; [|discriminate]. intros H. injection H as <-. reflexivity.
Qed.
Lemma f64_err st alt rng h : not_tiny rng ->
  (forall i a g, In (i, a, g, h) decoder -> asked alt rng a g -> st i = None) -> load_no_interp_f64 st alt rng h = Err IndexError.
Proof.
  intros T H. destruct (f64_cases st alt rng h) as [[m E]|E]; [exfalso|exact E].
  apply f64_ok_iff in E; [|exact T]. destruct E as (i & a & g & d & D & A & S & _). rewrite (H _ _ _ D A) in S. discriminate.
Qed.

(** ** the grids *)
Definition match_res {A B} (P : A -> B -> Prop) (x : res A) (y : res B) : Prop :=
  match x, y with Ok a, Ok b => P a b | Err e, Err e' => e = e' | _, _ => False end.
Definition v_3255 : R := B2R (Prim2B 32.55).
Lemma f_3255 : stands_for 32.55 v_3255.
Proof. apply finite_stands. vm_compute. reflexivity. Qed.
Lemma v_3255_bounds : 2 < v_3255 < 75.
Proof.
  split; [apply (f_lt 2 32.55 2 v_3255 f_two f_3255)|apply (f_lt 32.55 (f_of_Z 75) v_3255 75 f_3255 (f_int_lit 75 ltac:(lia)))]; vm_compute; reflexivity.
Qed.
Definition zaltitudes : list Z := [75; 150; 225; 500; 1000; 2000; 3000; 4000; 5000; 6000; 7000; 8000;
   9000; 10000; 11000; 12000; 14000; 16000; 18000; 20000]%Z.
Definition alts : list R := 2 :: v_3255 :: map IZR zaltitudes.
Lemma altitudes_f64_eq : altitude_array_f64 = 2%float :: 32.55%float :: map f_of_Z zaltitudes.
Proof. vm_compute. reflexivity. Qed.
Lemma ranges_f64_eq : ground_ranges_f64 = map f_of_Z zranges.
Proof. vm_compute. reflexivity. Qed.
Lemma stands_map l : (forall z, In z l -> (0 <= z <= 2 ^ 53)%Z) -> Forall2 stands_for (map f_of_Z l) (map IZR l).
Proof.
  induction l as [|z l IH]; intros H; simpl; constructor.
  - apply f_int_lit. apply H. now left.
  - apply IH. intros; apply H; now right.
Qed.
Lemma zaltitudes_bound z : In z zaltitudes -> (75 <= z <= 20000)%Z.
Proof. unfold zaltitudes. simpl. intros H. repeat (destruct H as [<-|H]; [lia|]). destruct H. Qed.
Lemma alts_stand : Forall2 stands_for altitude_array_f64 alts.
Proof.
  rewrite altitudes_f64_eq. unfold alts. constructor; [apply f_two|]. constructor; [apply f_3255|].
  apply stands_map. intros z Z. apply zaltitudes_bound in Z. lia.
Qed.
Lemma ranges_stand : Forall2 stands_for ground_ranges_f64 doc_ranges.
Proof. rewrite ranges_f64_eq. apply stands_map. intros z Z. apply zranges_bound in Z. lia. Qed.
Lemma alts_incr : incr alts.
Proof.
  unfold alts. assert (B := v_3255_bounds).
  assert (F : forall z, In z (map IZR zaltitudes) -> 75 <= z).
  { intros z H. apply in_map_iff in H. destruct H as [n [<- N]]. apply zaltitudes_bound in N. apply IZR_le. lia. }
  repeat constructor; try lra; try (apply zincr_ok; reflexivity);
    rewrite Forall_forall; intros z Z; apply F in Z; lra.
Qed.
Lemma filter_rel (f : PrimFloat.float -> bool) (g : R -> bool) L M : Forall2 stands_for L M ->
  (forall x a, stands_for x a -> f x = g a) -> Forall2 stands_for (filter f L) (filter g M).
Proof.
  intros H E. induction H as [|x a L M S _ IH]; simpl; [constructor|]. rewrite (E _ _ S). destruct (g a); [constructor; auto|auto].
Qed.
Lemma last_rel L M : Forall2 stands_for L M -> match_res stands_for (last_f64 L) (py_last M).
Proof. intros H. induction H as [|x a L M S H IH]; [reflexivity|]. destruct H; [exact S|exact IH]. Qed.
Lemma first_rel L M : Forall2 stands_for L M -> match_res stands_for (first_f64 L) (py_first M).
Proof. intros H. destruct H; [reflexivity|assumption]. Qed.
Lemma leb_rel x y a b : stands_for x a -> stands_for y b -> PrimFloat.leb x y = Rleb a b.
Proof.
  intros X Y. generalize (f_le _ _ _ _ X Y). destruct (PrimFloat.leb x y), (Rleb a b) eqn:E; auto.
  - apply Rleb_false in E. intros [H _]. specialize (H eq_refl). lra.
  - apply Rleb_true in E. intros [_ H]. now rewrite H.
Qed.
Lemma ltb_rel x y a b : stands_for x a -> stands_for y b -> PrimFloat.ltb x y = Rltb a b.
Proof.
  intros X Y. generalize (f_lt _ _ _ _ X Y). destruct (PrimFloat.ltb x y), (Rltb a b) eqn:E; auto.
  - apply Rltb_false in E. intros [H _]. specialize (H eq_refl). lra.
  - apply Rltb_true in E. intros [_ H]. now rewrite H.
Qed.
Lemma eqb_rel x y a b : stands_for x a -> stands_for y b -> PrimFloat.eqb x y = Reqb a b.
Proof.
  intros X Y. generalize (f_eq _ _ _ _ X Y). destruct (PrimFloat.eqb x y), (Reqb a b) eqn:E; auto.
  - apply Reqb_false in E. intros [H _]. specialize (H eq_refl). lra.
  - apply Reqb_true in E. intros [_ H]. now rewrite H.
Qed.
(* the nodes around a number are found *)
Lemma f64_bracket L M x r : Forall2 stands_for L M -> incr M -> stands_for x r ->
  (exists y, In y M /\ y <= r) -> (exists y, In y M /\ r <= y) ->
  exists flo fhi lo hi, last_f64 (filter (fun y => PrimFloat.leb y x) L) = Ok flo /\
    first_f64 (filter (fun y => PrimFloat.leb x y) L) = Ok fhi /\ stands_for flo lo /\ stands_for fhi hi /\ tight M r lo hi
    /\ In flo L /\ In fhi L.
Proof.
  intros F I X H1 H2. destruct (bracket M r I H1 H2) as (lo & hi & A & B & T).
  assert (C := last_rel _ _ (filter_rel (fun y => PrimFloat.leb y x) (fun y => Rleb y r) L M F ltac:(intros; now apply leb_rel))).
  assert (D := first_rel _ _ (filter_rel (fun y => PrimFloat.leb x y) (fun y => Rleb r y) L M F ltac:(intros; now apply leb_rel))).
  rewrite A in C. rewrite B in D.
  destruct (last_f64 (filter (fun y => PrimFloat.leb y x) L)) as [flo|] eqn:E1; [|destruct C].
  destruct (first_f64 (filter (fun y => PrimFloat.leb x y) L)) as [fhi|] eqn:E2; [|destruct D].
  exists flo, fhi, lo, hi. repeat split; auto; try apply C; try apply D; try apply T.
  - clear - E1. assert (P : forall l, last_f64 l = Ok flo -> In flo l).
    { induction l as [|a l IH]; [discriminate|]. simpl. destruct l; [intros Q; injection Q as ->; now left|]. intros Q. right. auto. }
    apply P in E1. apply filter_In in E1. tauto.
  - clear - E2. destruct (filter (fun y => PrimFloat.leb x y) L) as [|a l] eqn:E; [discriminate|]. injection E2 as ->.
    assert (In fhi (filter (fun y => PrimFloat.leb x y) L)) by (rewrite E; now left). apply filter_In in H. tauto.
Qed.
