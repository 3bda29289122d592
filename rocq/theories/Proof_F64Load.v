(** * Proof_F64Load: the interpolating loader in binary64 *)
From Coq Require Import Reals ZArith Lia Lra Psatz Floats List Bool.
From Flocq Require Import Core IEEE754.BinarySingleNaN IEEE754.PrimFloat.
From Verif Require Import Base_XR Base_Np Model_DbTable Model_Db Model_F64 Model_F64Size Model_F64Db.
From Verif Require Import Spec_Db Spec_F64 Spec_F64Db Proof_Round Proof_F64Size Proof_F64Blend Proof_Db Proof_Horizon Proof_F64Db.
Import ListNotations.
Open Scope R_scope.

(** ** the files at the grid points *)
Definition good (n : Z) : Prop := n = 2%Z \/ In n zaltitudes.
Lemma good_bound n : good n -> (2 <= n <= 20000)%Z.
Proof. intros [->|H]; [lia|]. apply zaltitudes_bound in H. lia. Qed.
Lemma tenths_metre n : (0 <= n <= 2 ^ 26)%Z -> stands_for (tenths (10 * n)) (IZR n).
Proof.
  intros N. assert (S := tenths_value (10 * n) ltac:(lia)).
  replace (IZR (10 * n) / 10) with (IZR n) in S by (rewrite mult_IZR; lra).
  now rewrite rnd_int in S by lia.
Qed.
Lemma asked_node fa fg n z a g : (0 <= n <= 2 ^ 26)%Z -> stands_for fa (IZR n) -> stands_for fg (IZR z) ->
  (0 <= a <= 2 ^ 30)%Z -> (0 <= g <= 2 ^ 30)%Z -> (asked fa fg a g <-> a = (10 * n)%Z /\ g = z).
Proof.
  intros N A G Ba Bg. unfold asked. rewrite (f_eq _ _ _ _ A (tenths_value a Ba)), (f_eq _ _ _ _ G (f_int_lit g ltac:(lia))).
  split.
  - intros [E F]. split; [|now apply eq_IZR]. apply (tenths_inj a (10 * n) (IZR n)); auto; [lia| |now apply tenths_metre].
    rewrite E. now apply tenths_value.
  - intros [-> ->]. split; [|reflexivity]. assert (S := tenths_metre n N). assert (T := tenths_value (10 * n) Ba). destruct S, T. congruence.
Qed.
Lemma listed_node i n z h : listed i (IZR n) (IZR z) h <-> In (i, (10 * n)%Z, z, h) decoder.
Proof.
  split.
  - intros (a & g & H & A & G). apply eq_IZR in G. subst g.
    assert (a = (10 * n)%Z) by (apply eq_IZR; rewrite mult_IZR; lra). now subst.
  - intros H. exists (10 * n)%Z, z. rewrite mult_IZR. repeat split; auto. lra.
Qed.
Lemma range_not_tiny x z : stands_for x (IZR z) -> not_tiny x.
Proof.
  intros S r T. assert (r = IZR z) by (destruct S, T; congruence). subst r.
  destruct (Z.eq_dec z 0) as [->|N]; [now left|right]. rewrite <- abs_IZR.
  apply Rle_trans with 1; [|apply IZR_le; lia]. rewrite <- Rinv_1. apply Rinv_le_contravar; [lra|].
  apply pow_R1_Rle. lra.
Qed.
Definition twin (st : store_f64) (m : atm_f64) (mr : atm) : Prop :=
  (forall i, m i 0%nat = wavelength_f64 i) /\
  (exists n d, st n = Some d /\ forall i c, m i (S c) = d i c) /\
  forall i c, (i < 1371)%nat -> (c < 5)%nat -> stands_for (m i (S c)) (mr i (S c)).
Lemma node_rel st files fa fg n z h : same_files st files -> (0 <= n <= 2 ^ 26)%Z -> stands_for fa (IZR n) -> stands_for fg (IZR z) ->
  match_res (twin st) (load_no_interp_f64 st fa fg h) (load_no_interp files (IZR n) (IZR z) h).
Proof.
  intros SF N A G. assert (T := range_not_tiny _ _ G).
  assert (I : intact files).
  { intros k f F. destruct (SF k) as [[_ E]|(d & f' & _ & E & S & _)]; congruence. }
  destruct (f64_cases st fa fg h) as [[m E]|E]; rewrite E.
  - apply f64_ok_iff in E; [|exact T]. destruct E as (i & a & g & d & D & Q & Sd & ->).
    destruct (row_bounds _ _ _ _ D) as [Ba Bg]. apply (asked_node fa fg n z a g) in Q; auto. destruct Q as [-> ->].
    destruct (SF i) as [[E _]|(d' & f & E & F & Sz & V)]; [congruence|]. assert (d' = d) by congruence. subst d'.
    assert (R : load_no_interp files (IZR n) (IZR z) h = Ok (assemble (fun r c => file_value f (c * 1371 + r)%nat))).
    { apply no_interp_ok_iff. exists i, (fun r c => file_value f (c * 1371 + r)%nat). split; [now apply listed_node|].
      split; [|reflexivity]. exists f. auto. }
    rewrite R. split; [reflexivity|]. split; [exists i, d; auto|]. intros r c Hr Hc. destruct (V r Hr) as [V0 V1]. unfold assemble_f64, assemble.
    destruct c as [|c]; [exact V0|]. replace (file_value f (S c * 1371 + r) / / 10 ^ 10) with (10 ^ 10 * file_value f (S c * 1371 + r)%nat)
      by (unfold Rdiv; rewrite Rinv_inv; ring). apply V1. lia.
  - destruct (no_interp_intact files (IZR n) (IZR z) h I) as [[mr R]|R]; rewrite R; [|reflexivity]. exfalso.
    apply no_interp_ok_iff in R. destruct R as (i & d & L & (f & F & Sz & _) & _). apply listed_node in L.
    destruct (SF i) as [[_ E']|(d' & f' & E' & _)]; [congruence|].
    assert (X : load_no_interp_f64 st fa fg h = Ok (assemble_f64 d')).
    { apply f64_ok_iff; [exact T|]. exists i, (10 * n)%Z, z, d'. repeat split; auto; destruct (row_bounds _ _ _ _ L) as [Ba Bg];
      apply (asked_node fa fg n z (10 * n) z); auto. }
    congruence.
Qed.
Definition row_not_3255 (r : row) : bool := let '(_, a, _, _) := r in negb (PrimFloat.eqb 32.55 (tenths a)).
Lemma rows_not_3255 : forallb row_not_3255 decoder = true.
Proof. vm_compute. reflexivity. Qed.
Lemma node_3255 st fg z h : stands_for fg (IZR z) -> load_no_interp_f64 st 32.55 fg h = Err IndexError.
Proof.
  intros G. apply f64_err; [now apply range_not_tiny with z|]. intros i a g D [A _]. exfalso.
  generalize rows_not_3255. rewrite forallb_forall. intros R. specialize (R _ D). unfold row_not_3255 in R. rewrite A in R. discriminate.
Qed.

(** ** the interpolating loader *)
Local Strategy 1000 [load_no_interp_f64 alt_atm_interp_f64 bind].
Definition mixf (lo hi x a b : PrimFloat.float) : PrimFloat.float :=
  if PrimFloat.eqb lo hi then a else ((1 - (x - lo) / (hi - lo)) * a + (x - lo) / (hi - lo) * b)%float.
Definition body_f64 (st : store_f64) (la ha lg hg alt rng : PrimFloat.float) (h : Z) : res atm_f64 :=
  let* atm_low_range := alt_atm_interp_f64 st la ha alt lg h in
  if negb (PrimFloat.eqb lg hg) then
    let* atm_high_range := alt_atm_interp_f64 st la ha alt hg h in
    Ok (blend_f64 lg hg rng atm_low_range atm_high_range)
  else Ok atm_low_range.
Lemma in_alts a : In a alts -> a = v_3255 \/ exists n, good n /\ a = IZR n.
Proof.
  intros [<-|[<-|H]]; [right; exists 2%Z; split; [now left|reflexivity]|now left|right].
  apply in_map_iff in H. destruct H as [n [<- N]]. exists n. split; [now right|reflexivity].
Qed.
Lemma min_alt : min_f64 altitude_array_f64 = f_of_Z 2. Proof. vm_compute. reflexivity. Qed.
Lemma max_alt : max_f64 altitude_array_f64 = f_of_Z 20000. Proof. vm_compute. reflexivity. Qed.
Lemma min_rng : min_f64 ground_ranges_f64 = f_of_Z 0. Proof. vm_compute. reflexivity. Qed.
Lemma max_rng : max_f64 ground_ranges_f64 = f_of_Z 300000. Proof. vm_compute. reflexivity. Qed.
Lemma not_finite x : ~ (exists r, stands_for x r) -> x = nan \/ x = infinity \/ x = neg_infinity.
Proof.
  intros N. assert (F : BinarySingleNaN.is_finite (Prim2B x) = false).
  { destruct (BinarySingleNaN.is_finite (Prim2B x)) eqn:E; auto. exfalso. apply N. exists (B2R (Prim2B x)). split; auto. }
  assert (P : B2Prim (Prim2B x) = x) by apply B2Prim_Prim2B. rewrite <- P.
  destruct (Prim2B x) as [s|s| |s m e H]; try discriminate; [right|left]; [destruct s|]; vm_compute; auto.
Qed.
Lemma not_finite_err st alt rng h : (~ exists r, stands_for alt r) \/ (~ exists r, stands_for rng r) -> load_interp_f64 st alt rng h = Err IndexError.
Proof.
  intros H. unfold load_interp_f64.
  assert (L : forall l, (exists x, last_f64 l = Ok x) \/ last_f64 l = Err IndexError).
  { induction l as [|a l IH]; [now right|]. simpl. destruct l; [left; eauto|exact IH]. }
  assert (K : forall l, (exists x, first_f64 l = Ok x) \/ first_f64 l = Err IndexError) by (intros [|a l]; simpl; eauto).
  destruct H as [H|H]; apply not_finite in H.
  - destruct H as [-> |[-> | ->]]; [|vm_compute; reflexivity|vm_compute; reflexivity].
    replace (PrimFloat.ltb nan (min_f64 altitude_array_f64) || PrimFloat.ltb (max_f64 altitude_array_f64) nan) with false by (vm_compute; reflexivity).
    destruct (_ || _); [reflexivity|].
    replace (filter (fun x => PrimFloat.leb x nan) altitude_array_f64) with (@nil PrimFloat.float) by (vm_compute; reflexivity). reflexivity.
  - destruct (_ || _); [reflexivity|]. destruct H as [-> |[-> | ->]].
    + replace (PrimFloat.ltb nan (min_f64 ground_ranges_f64) || PrimFloat.ltb (max_f64 ground_ranges_f64) nan) with false by (vm_compute; reflexivity).
      destruct (L (filter (fun x => PrimFloat.leb x alt) altitude_array_f64)) as [[? ->]| ->]; [cbn [bind]|reflexivity].
      destruct (K (filter (fun x => PrimFloat.leb alt x) altitude_array_f64)) as [[? ->]| ->]; [cbn [bind]|reflexivity].
      replace (filter (fun x => PrimFloat.leb x nan) ground_ranges_f64) with (@nil PrimFloat.float) by (vm_compute; reflexivity). reflexivity.
    + replace (PrimFloat.ltb infinity (min_f64 ground_ranges_f64) || PrimFloat.ltb (max_f64 ground_ranges_f64) infinity) with true by (vm_compute; reflexivity). reflexivity.
    + replace (PrimFloat.ltb neg_infinity (min_f64 ground_ranges_f64) || PrimFloat.ltb (max_f64 ground_ranges_f64) neg_infinity) with true by (vm_compute; reflexivity). reflexivity.
Qed.
Lemma out_of_range st alt rng h ra rg : stands_for alt ra -> stands_for rng rg ->
  ra < 2 \/ 20000 < ra \/ rg < 0 \/ 300000 < rg -> load_interp_f64 st alt rng h = Err IndexError.
Proof.
  intros A G H. unfold load_interp_f64. rewrite min_alt, max_alt, min_rng, max_rng.
  rewrite (ltb_rel _ _ _ _ A (f_int_lit 2 ltac:(lia))), (ltb_rel _ _ _ _ (f_int_lit 20000 ltac:(lia)) A).
  rewrite (ltb_rel _ _ _ _ G (f_int_lit 0 ltac:(lia))), (ltb_rel _ _ _ _ (f_int_lit 300000 ltac:(lia)) G).
  destruct (Rltb ra 2) eqn:E1; [reflexivity|]. destruct (Rltb 20000 ra) eqn:E2; [reflexivity|]. cbn [orb].
  destruct (Rltb rg 0) eqn:E3; [reflexivity|]. destruct (Rltb 300000 rg) eqn:E4; [reflexivity|]. exfalso.
  apply Rltb_false in E1, E2, E3, E4. lra.
Qed.
Lemma in_range st alt rng h ra rg : stands_for alt ra -> stands_for rng rg -> 2 <= ra <= 20000 -> 0 <= rg <= 300000 ->
  exists fla fha flg fhg la ha lg hg,
    stands_for fla la /\ stands_for fha ha /\ stands_for flg lg /\ stands_for fhg hg /\
    tight alts ra la ha /\ tight doc_ranges rg lg hg /\ load_interp_f64 st alt rng h = body_f64 st fla fha flg fhg alt rng h.
Proof.
  intros A G Ba Bg.
  destruct (f64_bracket _ _ _ _ alts_stand alts_incr A) as (fla & fha & la & ha & E1 & E2 & S1 & S2 & T & _).
  { exists 2. split; [now left|lra]. }
  { exists 20000. split; [|lra]. unfold alts. right. right. apply (in_map IZR _ 20000%Z). unfold zaltitudes. simpl. tauto. }
  destruct (rng_exist rg Bg) as [R1 R2].
  destruct (f64_bracket _ _ _ _ ranges_stand incr_rng G R1 R2) as (flg & fhg & lg & hg & E3 & E4 & S3 & S4 & T' & _).
  exists fla, fha, flg, fhg, la, ha, lg, hg. do 6 (split; [assumption|]).
  unfold load_interp_f64. rewrite min_alt, max_alt, min_rng, max_rng.
  rewrite (ltb_rel _ _ _ _ A (f_int_lit 2 ltac:(lia))), (ltb_rel _ _ _ _ (f_int_lit 20000 ltac:(lia)) A).
  rewrite (ltb_rel _ _ _ _ G (f_int_lit 0 ltac:(lia))), (ltb_rel _ _ _ _ (f_int_lit 300000 ltac:(lia)) G).
  rewrite (proj2 (Rltb_false ra 2)) by lra. rewrite (proj2 (Rltb_false 20000 ra)) by lra. cbn [orb].
  rewrite (proj2 (Rltb_false rg 0)) by lra. rewrite (proj2 (Rltb_false 300000 rg)) by lra. cbn [orb].
  rewrite E1. cbn [bind]. rewrite E2. cbn [bind]. rewrite E3. cbn [bind]. rewrite E4. cbn [bind]. unfold body_f64. reflexivity.
Qed.
Lemma mixf_same lo x a b : PrimFloat.eqb lo lo = true -> mixf lo lo x a b = a.
Proof. intros H. unfold mixf. now rewrite H. Qed.
Lemma alt_cases st la ha alt g h :
  (exists m, alt_atm_interp_f64 st la ha alt g h = Ok m) \/ alt_atm_interp_f64 st la ha alt g h = Err IndexError.
Proof.
  unfold alt_atm_interp_f64. destruct (f64_cases st la g h) as [[m ->]| ->]; [cbn [bind]|auto].
  destruct (negb _); [|eauto]. destruct (f64_cases st ha g h) as [[m' ->]| ->]; cbn [bind]; eauto.
Qed.
Lemma body_cases st la ha lg hg alt rng h :
  (exists m, body_f64 st la ha lg hg alt rng h = Ok m) \/ body_f64 st la ha lg hg alt rng h = Err IndexError.
Proof.
  unfold body_f64. destruct (alt_cases st la ha alt lg h) as [[m ->]| ->]; [cbn [bind]|auto].
  destruct (negb _); [|eauto]. destruct (alt_cases st la ha alt hg h) as [[m' ->]| ->]; cbn [bind]; eauto.
Qed.
Lemma load_cases st alt rng h : (exists m, load_interp_f64 st alt rng h = Ok m) \/ load_interp_f64 st alt rng h = Err IndexError.
Proof.
  destruct (Classical_Prop.classic (exists r, stands_for alt r)) as [[ra A]|N]; [|right; apply not_finite_err; now left].
  destruct (Classical_Prop.classic (exists r, stands_for rng r)) as [[rg G]|N]; [|right; apply not_finite_err; now right].
  destruct (Rlt_le_dec ra 2) as [?|?]; [right; apply (out_of_range st alt rng h ra rg); auto|].
  destruct (Rlt_le_dec 20000 ra) as [?|?]; [right; apply (out_of_range st alt rng h ra rg); auto|].
  destruct (Rlt_le_dec rg 0) as [?|?]; [right; apply (out_of_range st alt rng h ra rg); auto|].
  destruct (Rlt_le_dec 300000 rg) as [?|?]; [right; apply (out_of_range st alt rng h ra rg); auto|].
  destruct (in_range st alt rng h ra rg A G ltac:(lra) ltac:(lra)) as (fla & fha & flg & fhg & la & ha & lg & hg & _ & _ & _ & _ & _ & _ & ->).
  apply body_cases.
Qed.
Lemma alt_interp_f64_ok st la ha alt g h m : alt_atm_interp_f64 st la ha alt g h = Ok m ->
  exists m0 m1, load_no_interp_f64 st la g h = Ok m0 /\ (PrimFloat.eqb la ha = false -> load_no_interp_f64 st ha g h = Ok m1) /\
    (PrimFloat.eqb la ha = true -> m1 = m0) /\ forall i j, m i j = mixf la ha alt (m0 i j) (m1 i j).
Proof.
  unfold alt_atm_interp_f64. destruct (load_no_interp_f64 st la g h) as [m0|] eqn:E0; [|discriminate]. cbn [bind].
  destruct (PrimFloat.eqb la ha) eqn:E; cbn [negb].
  - intros H. injection H as <-. exists m0, m0. repeat split; auto; [discriminate|]. intros. unfold mixf. now rewrite E.
  - destruct (load_no_interp_f64 st ha g h) as [m1|] eqn:E1; [|discriminate]. cbn [bind]. intros H. injection H as <-.
    exists m0, m1. repeat split; auto; [discriminate|]. intros. unfold mixf, blend_f64. now rewrite E.
Qed.
(* node numbers *)
Lemma in_ranges g : In g doc_ranges -> exists z, In z zranges /\ g = IZR z.
Proof. unfold doc_ranges. intros H. apply in_map_iff in H. destruct H as [z [<- Z]]. eauto. Qed.
Lemma tight_alts r la ha : tight alts r la ha ->
  (2 < r < 75 /\ (la = v_3255 \/ ha = v_3255 /\ la <> ha)) \/
  exists n m, good n /\ good m /\ la = IZR n /\ ha = IZR m /\ tight doc_altitudes r la ha.
Proof.
  intros T. assert (B := v_3255_bounds). destruct T as (A & C & I & U & V).
  assert (I2 : In 2 alts) by now left. assert (I3 : In v_3255 alts) by (right; now left).
  assert (I75 : In 75 alts). { right. right. apply (in_map IZR _ 75%Z). unfold zaltitudes. simpl. tauto. }
  assert (D : r = 2 \/ (2 < r < 75) \/ 75 <= r).
  { destruct (in_alts _ A) as [-> |(n & N & ->)]; [lra|]. apply good_bound in N. assert (2 <= IZR n) by (apply IZR_le; lia). lra. }
  destruct D as [D|[D|D]].
  - right. exists 2%Z, 2%Z. assert (la = 2). { apply Rle_antisym; [lra|]. apply U; auto; lra. }
    assert (ha = 2). { apply Rle_antisym; [apply V; auto; lra|lra]. } subst. repeat split; try (left; reflexivity); try lra; try (now left); intros; lra.
  - left. split; [exact D|]. destruct (Rle_lt_dec r v_3255) as [Q|Q].
    + destruct (Req_dec la v_3255) as [?|Z]; [now left|right].
      assert (la <= 2). { destruct (in_alts _ A) as [?|(n & N & ->)]; [contradiction|].
        destruct N as [->|N]; [lra|]. apply zaltitudes_bound in N. assert (75 <= IZR n) by (apply IZR_le; lia). lra. }
      assert (ha <= v_3255) by (apply V; auto). assert (v_3255 <= ha); [|split; lra].
      destruct (in_alts _ C) as [->|(n & N & ->)]; [lra|]. destruct N as [->|N]; [lra|]. apply zaltitudes_bound in N. assert (75 <= IZR n) by (apply IZR_le; lia). lra.
    + left. assert (v_3255 <= la) by (apply U; auto; lra). apply Rle_antisym; [|exact H].
      destruct (in_alts _ A) as [->|(n & N & ->)]; [lra|]. destruct N as [->|N]; [lra|]. apply zaltitudes_bound in N. assert (75 <= IZR n) by (apply IZR_le; lia). lra.
  - right. assert (75 <= la) by (apply U; auto).
    destruct (in_alts _ A) as [->|(n & N & En)]; [lra|]. destruct (in_alts _ C) as [->|(m & M & Em)]; [lra|].
    exists n, m. split; [exact N|]. split; [exact M|]. split; [exact En|]. split; [exact Em|].
    assert (X : forall k, good k -> In (IZR k) doc_altitudes).
    { intros k [->|K]; [now left|]. unfold doc_altitudes. right. right. unfold zaltitudes in K. simpl in K.
      repeat (destruct K as [<-|K]; [simpl; tauto|]). destruct K. }
    assert (Y : forall y, In y doc_altitudes -> y = 32.55 \/ In y alts).
    { intros y. change doc_altitudes with (2 :: 32.55 :: map IZR zaltitudes). unfold alts.
      intros [<-|[<-|H']]; [right; now left|now left|right; right; now right]. }
    repeat split; try (subst; apply X; assumption); try lra.
    + intros y Hy Ly. destruct (Y y Hy) as [->|?]; [lra|auto].
    + intros y Hy Ly. destruct (Y y Hy) as [->|?]; [lra|auto].
Qed.
Lemma eqb_self x a : stands_for x a -> PrimFloat.eqb x x = true.
Proof. intros S. apply (f_eq _ _ _ _ S S). reflexivity. Qed.
Lemma alt_structure st fla fha alt fg h m a b z : stands_for fla a -> stands_for fha b -> stands_for fg (IZR z) ->
  alt_atm_interp_f64 st fla fha alt fg h = Ok m ->
  exists fhb m0 m1, stands_for fhb b /\ load_no_interp_f64 st fla fg h = Ok m0 /\ load_no_interp_f64 st fhb fg h = Ok m1 /\
    fhb = (if PrimFloat.eqb fla fha then fla else fha) /\
    forall i j, m i j = mixf fla fhb alt (m0 i j) (m1 i j).
Proof.
  intros A B G H. apply alt_interp_f64_ok in H. destruct H as (m0 & m1 & L0 & L1 & E1 & M).
  destruct (PrimFloat.eqb fla fha) eqn:E.
  - exists fla, m0, m0. rewrite (E1 eq_refl) in M. assert (a = b) by now apply (f_eq _ _ _ _ A B). subst b.
    repeat split; auto; [apply A|apply A|]. intros. rewrite M. unfold mixf. rewrite E, (eqb_self _ _ A). reflexivity.
  - exists fha, m0, m1. repeat split; auto; apply B.
Qed.
Lemma alt_3255 st fla fha alt fg h m la ha z : stands_for fla la -> stands_for fha ha -> stands_for fg (IZR z) ->
  la = v_3255 \/ ha = v_3255 /\ la <> ha -> alt_atm_interp_f64 st fla fha alt fg h = Ok m -> False.
Proof.
  intros Sa Sb Sc Q El.
  assert (P3 : forall f, stands_for f v_3255 -> f = 32.55%float).
  { intros f F. apply (stands_inj f 32.55 v_3255); auto; [apply f_3255|]. generalize v_3255_bounds. lra. }
  apply alt_interp_f64_ok in El. destruct El as (m0 & m1 & L0 & L1 & _). destruct Q as [Q|[Q N]].
  - subst la. rewrite (P3 fla Sa), (node_3255 st fg z h Sc) in L0. discriminate.
  - subst ha. destruct (PrimFloat.eqb fla fha) eqn:Ee; [apply (f_eq _ _ _ _ Sa Sb) in Ee; contradiction|].
    specialize (L1 eq_refl). rewrite (P3 fha Sb), (node_3255 st fg z h Sc) in L1. discriminate.
Qed.
Definition structure (st : store_f64) (alt rng : PrimFloat.float) (h : Z) (ra rg : R) (m : atm_f64) : Prop :=
  exists fla fha flg fhg n1 n2 z1 z2 m00 m10 m01 m11,
    (stands_for fla (IZR n1) /\ stands_for fha (IZR n2) /\ stands_for flg (IZR z1) /\ stands_for fhg (IZR z2)) /\
    (good n1 /\ good n2 /\ In z1 zranges /\ In z2 zranges) /\
    (tight doc_altitudes ra (IZR n1) (IZR n2) /\ tight doc_ranges rg (IZR z1) (IZR z2)) /\
    (load_no_interp_f64 st fla flg h = Ok m00 /\ load_no_interp_f64 st fha flg h = Ok m10 /\
     load_no_interp_f64 st fla fhg h = Ok m01 /\ load_no_interp_f64 st fha fhg h = Ok m11) /\
    forall i j, m i j = mixf flg fhg rng (mixf fla fha alt (m00 i j) (m10 i j)) (mixf fla fha alt (m01 i j) (m11 i j)).
Lemma body_structure st fla fha flg fhg alt rng h m ra rg la ha lg hg :
  stands_for fla la -> stands_for fha ha -> stands_for flg lg -> stands_for fhg hg ->
  tight alts ra la ha -> tight doc_ranges rg lg hg -> body_f64 st fla fha flg fhg alt rng h = Ok m -> structure st alt rng h ra rg m.
Proof.
  intros Sa Sb Sc Sd T T' H.
  assert (Z : exists z1 z2, In z1 zranges /\ In z2 zranges /\ lg = IZR z1 /\ hg = IZR z2).
  { destruct T' as (I1 & I2 & _). apply in_ranges in I1, I2. destruct I1 as (z1 & ? & ->), I2 as (z2 & ? & ->). exists z1, z2. auto. }
  destruct Z as (z1 & z2 & Z1 & Z2 & -> & ->). unfold body_f64 in H.
  destruct (alt_atm_interp_f64 st fla fha alt flg h) as [mlo|] eqn:El; [|discriminate]. cbn [bind] in H.
  destruct (tight_alts _ _ _ T) as [[_ Q]|(n1 & n2 & N1 & N2 & -> & -> & T2)]; [exfalso; exact (alt_3255 _ _ _ _ _ _ _ _ _ _ Sa Sb Sc Q El)|].
  destruct (alt_structure _ _ _ _ _ _ _ _ _ z1 Sa Sb Sc El) as (fhb & m00 & m10 & Sh & L0 & L1 & Eh & M0).
  destruct (PrimFloat.eqb flg fhg) eqn:Eg; cbn [negb] in H.
  - assert (Em : mlo = m) by congruence. clear H. subst m. assert (Q : IZR z1 = IZR z2) by now apply (f_eq _ _ _ _ Sc Sd). rewrite <- Q in T'.
    exists fla, fhb, flg, flg, n1, n2, z1, z1, m00, m10, m00, m10. do 4 (split; [auto|]).
    intros. rewrite (mixf_same flg) by exact (eqb_self _ _ Sc). apply M0.
  - destruct (alt_atm_interp_f64 st fla fha alt fhg h) as [mhi|] eqn:Ei; [|discriminate]. cbn [bind] in H.
    assert (Em : blend_f64 flg fhg rng mlo mhi = m) by congruence. clear H. subst m.
    destruct (alt_structure _ _ _ _ _ _ _ _ _ z2 Sa Sb Sd Ei) as (fhc & m01 & m11 & Sh' & L0' & L1' & Eh' & M1).
    assert (Q : fhc = fhb) by congruence. rewrite Q in L1', M1.
    exists fla, fhb, flg, fhg, n1, n2, z1, z2, m00, m10, m01, m11. do 4 (split; [auto|]).
    intros. unfold blend_f64, mixf at 1. rewrite Eg, M0, M1. reflexivity.
Qed.
Lemma f64_structure st alt rng h ra rg m : stands_for alt ra -> stands_for rng rg -> load_interp_f64 st alt rng h = Ok m ->
  structure st alt rng h ra rg m.
Proof.
  intros A G H.
  assert (Ra : 2 <= ra <= 20000 /\ 0 <= rg <= 300000).
  { destruct (Rlt_le_dec ra 2) as [?|?]; [rewrite (out_of_range st alt rng h ra rg) in H; auto; discriminate|].
    destruct (Rlt_le_dec 20000 ra) as [?|?]; [rewrite (out_of_range st alt rng h ra rg) in H; auto; discriminate|].
    destruct (Rlt_le_dec rg 0) as [?|?]; [rewrite (out_of_range st alt rng h ra rg) in H; auto; discriminate|].
    destruct (Rlt_le_dec 300000 rg) as [?|?]; [rewrite (out_of_range st alt rng h ra rg) in H; auto; discriminate|]. lra. }
  destruct Ra as [Ra Rg].
  destruct (in_range st alt rng h ra rg A G Ra Rg) as (fla & fha & flg & fhg & la & ha & lg & hg & Sa & Sb & Sc & Sd & T & T' & E).
  rewrite E in H. exact (body_structure st fla fha flg fhg alt rng h m ra rg la ha lg hg Sa Sb Sc Sd T T' H).
Qed.

(** ** one interpolation between grid points *)
Lemma node_gap n m : (0 <= n <= 2 ^ 26)%Z -> (0 <= m <= 2 ^ 26)%Z -> IZR n <> IZR m -> IZR n <= IZR m ->
  rnd (IZR m - IZR n) = IZR m - IZR n /\ 1 <= IZR m - IZR n /\ IZR m - IZR n <= bpow radix2 500.
Proof.
  intros N M D L. apply le_IZR in L. assert (n <> m) by (intros ->; now apply D). rewrite <- minus_IZR. split; [apply rnd_int; lia|].
  split; [apply IZR_le; lia|]. apply Rle_trans with (IZR (2 ^ 26)); [apply IZR_le; lia|]. change (IZR (2 ^ 26)) with (bpow radix2 26). apply bpow_le. lia.
Qed.
(* the weight of the upper node *)
Definition share (lo hi r : R) : R := if Reqb lo hi then 0 else (r - lo) / (hi - lo).
Lemma share_ok lo hi r : lo <= r <= hi -> 0 <= share lo hi r <= 1.
Proof.
  intros H. unfold share. destruct (Reqb lo hi) eqn:E; [lra|]. apply Reqb_false in E.
  assert (P : 0 < hi - lo) by lra. split; [apply Rmult_le_pos; [lra|]; left; now apply Rinv_0_lt_compat|].
  apply Rmult_le_reg_r with (hi - lo); [lra|]. unfold Rdiv. rewrite Rmult_assoc, Rinv_l by lra. lra.
Qed.
Lemma mixf_close flo fhi x n m r fa fb a b B : (0 <= n <= 2 ^ 26)%Z -> (0 <= m <= 2 ^ 26)%Z ->
  stands_for flo (IZR n) -> stands_for fhi (IZR m) -> stands_for x r -> IZR n <= r <= IZR m ->
  stands_for fa a -> stands_for fb b -> 0 <= a <= B -> 0 <= b <= B -> bpow radix2 (-900) <= B -> B <= bpow radix2 800 ->
  let q := share (IZR n) (IZR m) r in
  exists v, stands_for (mixf flo fhi x fa fb) v /\ 0 <= v /\ Rabs (v - ((1 - q) * a + q * b)) <= 9 * eps * B /\
  (forall k, (0 <= k <= 800)%Z -> B <= bpow radix2 k -> v <= bpow radix2 k).
Proof.
  intros N M L H X I A B' Ba Bb S1 S2 q. unfold q, share, mixf. rewrite (eqb_rel _ _ _ _ L H).
  assert (PB : 0 < B) by (generalize (bpow_gt_0 radix2 (-900)); lra).
  destruct (Reqb (IZR n) (IZR m)) eqn:E.
  - exists a. split; [exact A|]. split; [lra|]. split; [|intros; lra].
    replace (a - ((1 - 0) * a + 0 * b)) with 0 by ring. rewrite Rabs_R0. generalize eps_val. intros. apply Rmult_le_pos; lra.
  - apply Reqb_false in E. destruct (node_gap n m N M E ltac:(lra)) as (G1 & G2 & G3).
    exact (mix_close flo fhi x (IZR n) (IZR m) r L H X G1 G2 G3 I fa fb a b B A B' Ba Bb S1 S2).
Qed.
Lemma convex t a b B : 0 <= t <= 1 -> 0 <= a <= B -> 0 <= b <= B -> 0 <= (1 - t) * a + t * b <= B.
Proof. intros. nra. Qed.
Lemma two_close flo fhi x n1 n2 r glo ghi y z1 z2 s p00 p10 p01 p11 a00 a10 a01 a11 B :
  (0 <= n1 <= 2 ^ 26)%Z -> (0 <= n2 <= 2 ^ 26)%Z -> (0 <= z1 <= 2 ^ 26)%Z -> (0 <= z2 <= 2 ^ 26)%Z ->
  stands_for flo (IZR n1) -> stands_for fhi (IZR n2) -> stands_for x r -> IZR n1 <= r <= IZR n2 ->
  stands_for glo (IZR z1) -> stands_for ghi (IZR z2) -> stands_for y s -> IZR z1 <= s <= IZR z2 ->
  stands_for p00 a00 -> stands_for p10 a10 -> stands_for p01 a01 -> stands_for p11 a11 ->
  0 <= a00 <= B -> 0 <= a10 <= B -> 0 <= a01 <= B -> 0 <= a11 <= B -> bpow radix2 (-900) <= B -> B <= bpow radix2 799 ->
  let t := share (IZR n1) (IZR n2) r in let u := share (IZR z1) (IZR z2) s in
  exists v, stands_for (mixf glo ghi y (mixf flo fhi x p00 p10) (mixf flo fhi x p01 p11)) v /\ 0 <= v /\
    Rabs (v - ((1 - u) * ((1 - t) * a00 + t * a10) + u * ((1 - t) * a01 + t * a11))) <= 19 * eps * B /\
    (forall k, (0 <= k <= 800)%Z -> B <= bpow radix2 k -> v <= bpow radix2 k).
Proof.
  intros N1 N2 Z1 Z2 F1 F2 X Ix G1 G2 Y Iy P00 P10 P01 P11 B00 B10 B01 B11 S1 S2 t u.
  assert (E := eps_val). assert (PB : 0 < B) by (generalize (bpow_gt_0 radix2 (-900)); lra).
  assert (S3 : B * 2 <= bpow radix2 800).
  { replace 800%Z with (799 + 1)%Z by lia. rewrite bpow_plus. apply Rmult_le_compat; try lra. simpl. lra. }
  destruct (mixf_close flo fhi x n1 n2 r p00 p10 a00 a10 B N1 N2 F1 F2 X Ix P00 P10 B00 B10 S1 ltac:(lra)) as (va & Va & Pa & Ca & Ka).
  destruct (mixf_close flo fhi x n1 n2 r p01 p11 a01 a11 B N1 N2 F1 F2 X Ix P01 P11 B01 B11 S1 ltac:(lra)) as (vb & Vb & Pb & Cb & Kb).
  assert (Ht := share_ok _ _ _ Ix). assert (Hu := share_ok _ _ _ Iy). fold t in Ca, Cb, Ht. fold u in Hu.
  assert (Wa := convex t a00 a10 B Ht B00 B10). assert (Wb := convex t a01 a11 B Ht B01 B11).
  set (wa := (1 - t) * a00 + t * a10) in *. set (wb := (1 - t) * a01 + t * a11) in *. clearbody wa wb t.
  assert (Ca' := Ca). assert (Cb' := Cb). apply Rabs_le_inv in Ca', Cb'.
  set (B' := B * (1 + 9 * eps)). assert (HB : B <= B' <= B * 2) by (unfold B'; split; nra).
  destruct (mixf_close glo ghi y z1 z2 s _ _ va vb B' Z1 Z2 G1 G2 Y Iy Va Vb ltac:(unfold B'; lra) ltac:(unfold B'; lra) ltac:(lra) ltac:(lra)) as (v & V & Pv & Cv & _).
  exists v. split; [exact V|]. split; [exact Pv|]. fold u in Cv. split.
  - apply Rabs_le_inv in Cv. 
    assert (D : Rabs ((1 - u) * (va - wa) + u * (vb - wb)) <= 9 * eps * B).
    { eapply Rle_trans; [apply Rabs_triang|]. rewrite !Rabs_mult, (Rabs_pos_eq (1 - u)), (Rabs_pos_eq u) by lra.
      apply Rle_trans with ((1 - u) * (9 * eps * B) + u * (9 * eps * B)); [|lra].
      apply Rplus_le_compat; apply Rmult_le_compat_l; lra. }
    apply Rabs_le_inv in D. assert (K : 9 * eps * B' <= 10 * eps * B).
    { unfold B'. assert (0 < eps * B) by (apply Rmult_lt_0_compat; lra). nra. }
    apply Rabs_le. clear - Cv D K. split; lra.
  - intros k Hk HBk. specialize (Ka k Hk HBk). specialize (Kb k Hk HBk).
    destruct (mixf_close glo ghi y z1 z2 s _ _ va vb (bpow radix2 k) Z1 Z2 G1 G2 Y Iy Va Vb ltac:(lra) ltac:(lra)) as (v' & V' & _ & _ & K').
    + apply bpow_le. lia.
    + apply bpow_le. lia.
    + specialize (K' k Hk ltac:(lra)). assert (v' = v) by (destruct V, V'; congruence). now subst.
Qed.

(** ** consequences *)
Lemma good_26 n : good n -> (0 <= n <= 2 ^ 26)%Z.
Proof. intros H. apply good_bound in H. lia. Qed.
Lemma range_26 z : In z zranges -> (0 <= z <= 2 ^ 26)%Z.
Proof. intros H. apply zranges_bound in H. lia. Qed.
Lemma ok_finite st alt rng h m : load_interp_f64 st alt rng h = Ok m -> exists ra rg, stands_for alt ra /\ stands_for rng rg.
Proof.
  intros H. destruct (Classical_Prop.classic (exists r, stands_for alt r)) as [[ra A]|N]; [|rewrite not_finite_err in H by auto; discriminate].
  destruct (Classical_Prop.classic (exists r, stands_for rng r)) as [[rg G]|N]; [|rewrite not_finite_err in H by auto; discriminate]. eauto.
Qed.
Lemma loaded st fa fg h m z : stands_for fg (IZR z) -> load_no_interp_f64 st fa fg h = Ok m ->
  (forall i, m i 0%nat = wavelength_f64 i) /\ exists n d, st n = Some d /\ forall i c, m i (S c) = d i c.
Proof.
  intros G H. apply f64_ok_iff in H; [|now apply range_not_tiny with z]. destruct H as (i & a & g & d & _ & _ & S & ->). split; [reflexivity|].
  exists i, d. auto.
Qed.
(* any column of the loaded table *)
Lemma column_bounds st alt rng h m i j B :
  load_interp_f64 st alt rng h = Ok m -> bpow radix2 (-900) <= B -> B <= bpow radix2 799 ->
  (forall fa fg z m', stands_for fg (IZR z) -> load_no_interp_f64 st fa fg h = Ok m' -> exists v, stands_for (m' i j) v /\ 0 <= v <= B) ->
  exists v, stands_for (m i j) v /\ 0 <= v /\ (forall k, (0 <= k <= 800)%Z -> B <= bpow radix2 k -> v <= bpow radix2 k) /\
   ((forall fa fg z m' v', stands_for fg (IZR z) -> load_no_interp_f64 st fa fg h = Ok m' -> stands_for (m' i j) v' -> v' = B) -> Rabs (v - B) <= 19 * eps * B).
Proof.
  intros H S1 S2 W. destruct (ok_finite _ _ _ _ _ H) as (ra & rg & A & G).
  destruct (f64_structure _ _ _ _ _ _ _ A G H) as (fla & fha & flg & fhg & n1 & n2 & z1 & z2 & m00 & m10 & m01 & m11 & (Q1 & Q2 & Q3 & Q4) & (O1 & O2 & O3 & O4) & (T1 & T2) & (L00 & L10 & L01 & L11) & M).
  destruct (W _ _ _ _ Q3 L00) as (a00 & A00 & B00). destruct (W _ _ _ _ Q3 L10) as (a10 & A10 & B10).
  destruct (W _ _ _ _ Q4 L01) as (a01 & A01 & B01). destruct (W _ _ _ _ Q4 L11) as (a11 & A11 & B11).
  destruct T1 as (_ & _ & I1 & _). destruct T2 as (_ & _ & I2 & _).
  destruct (two_close fla fha alt n1 n2 ra flg fhg rng z1 z2 rg _ _ _ _ a00 a10 a01 a11 B (good_26 _ O1) (good_26 _ O2) (range_26 _ O3) (range_26 _ O4)
    Q1 Q2 A I1 Q3 Q4 G I2 A00 A10 A01 A11 B00 B10 B01 B11 S1 S2) as (v & V & P & C & K).
  exists v. rewrite M. split; [exact V|]. split; [exact P|]. split; [exact K|].
  intros E. rewrite (E _ _ _ _ _ Q3 L00 A00), (E _ _ _ _ _ Q3 L10 A10), (E _ _ _ _ _ Q4 L01 A01), (E _ _ _ _ _ Q4 L11 A11) in C.
  match type of C with Rabs (v - ?e) <= _ => replace e with B in C by ring end. exact C.
Qed.
Lemma f64_range st alt rng h m i c k : load_interp_f64 st alt rng h = Ok m -> (0 <= k <= 799)%Z ->
  entries_within st i c (bpow radix2 k) -> exists v, stands_for (m i (S c)) v /\ 0 <= v <= bpow radix2 k.
Proof.
  intros H K E. destruct (column_bounds st alt rng h m i (S c) (bpow radix2 k) H) as (v & V & P & Q & _).
  - apply bpow_le; lia.
  - apply bpow_le; lia.
  - intros fa fg z m' G L. destruct (loaded _ _ _ _ _ _ G L) as (_ & n & d & S & M). rewrite M. now apply (E n d).
  - exists v. split; [exact V|]. split; [exact P|]. apply Q; [lia|lra].
Qed.
Lemma f64_wave st alt rng h m i w : load_interp_f64 st alt rng h = Ok m -> stands_for (wavelength_f64 i) w ->
  bpow radix2 (-900) <= w -> w <= bpow radix2 799 -> exists v, stands_for (m i 0%nat) v /\ Rabs (v - w) <= 19 * eps * w.
Proof.
  intros H S S1 S2. destruct (column_bounds st alt rng h m i 0 w H S1 S2) as (v & V & P & _ & Q).
  - intros fa fg z m' G L. destruct (loaded _ _ _ _ _ _ G L) as (M & _). rewrite M. exists w. split; [exact S|].
    generalize (bpow_gt_0 radix2 (-900)). lra.
  - exists v. split; [exact V|]. apply Q. intros fa fg z m' v' G L S'. destruct (loaded _ _ _ _ _ _ G L) as (M & _). rewrite M in S'.
    destruct S, S'. congruence.
Qed.

(** ** agreement with the loader over the reals *)
Lemma weight_share x lo hi t : weight x lo hi t -> t = share lo hi x.
Proof.
  intros (B & E & Z). unfold share. destruct (Reqb lo hi) eqn:Q; [apply Reqb_true in Q; now apply Z|]. apply Reqb_false in Q.
  rewrite E. field. lra.
Qed.
Lemma body_ok files la ha lg hg ra rg h m00 m10 m01 m11 :
  load_no_interp files la lg h = Ok m00 -> load_no_interp files ha lg h = Ok m10 ->
  load_no_interp files la hg h = Ok m01 -> load_no_interp files ha hg h = Ok m11 ->
  exists mr, interp_body files la ha lg hg ra rg h = Ok mr.
Proof.
  intros A B C D. unfold interp_body, alt_atm_interp. rewrite A, B, C, D. cbn [bind].
  destruct (negb (Reqb la ha)); cbn [bind]; destruct (negb (Reqb lg hg)); cbn [bind]; eauto.
Qed.
Lemma body_f64_ok st fla fha flg fhg alt rng h m00 m10 m01 m11 :
  load_no_interp_f64 st fla flg h = Ok m00 -> load_no_interp_f64 st fha flg h = Ok m10 ->
  load_no_interp_f64 st fla fhg h = Ok m01 -> load_no_interp_f64 st fha fhg h = Ok m11 ->
  exists m, body_f64 st fla fha flg fhg alt rng h = Ok m.
Proof.
  intros A B C D. unfold body_f64, alt_atm_interp_f64. rewrite A, B, C, D. cbn [bind].
  destruct (negb (PrimFloat.eqb fla fha)); cbn [bind]; destruct (negb (PrimFloat.eqb flg fhg)); cbn [bind]; eauto.
Qed.
Lemma twin_of st files fa fg n z h m : same_files st files -> (0 <= n <= 2 ^ 26)%Z -> stands_for fa (IZR n) -> stands_for fg (IZR z) ->
  load_no_interp_f64 st fa fg h = Ok m -> exists mr, load_no_interp files (IZR n) (IZR z) h = Ok mr /\ twin st m mr.
Proof.
  intros SF N A G L. assert (R := node_rel st files fa fg n z h SF N A G). rewrite L in R.
  destruct (load_no_interp files (IZR n) (IZR z) h) as [mr|]; [|destruct R]. exists mr. auto.
Qed.
Lemma twin_back st files fa fg n z h mr : same_files st files -> (0 <= n <= 2 ^ 26)%Z -> stands_for fa (IZR n) -> stands_for fg (IZR z) ->
  load_no_interp files (IZR n) (IZR z) h = Ok mr -> exists m, load_no_interp_f64 st fa fg h = Ok m.
Proof.
  intros SF N A G L. assert (R := node_rel st files fa fg n z h SF N A G). rewrite L in R.
  destruct (load_no_interp_f64 st fa fg h) as [m|]; [eauto|destruct R].
Qed.
Lemma same_intact st files : same_files st files -> intact files.
Proof. intros SF k f F. destruct (SF k) as [[_ E]|(d & f' & _ & E & S & _)]; congruence. Qed.
Definition close_entries (st : store_f64) (m : atm_f64) (mr : atm) : Prop :=
  forall i c B, (i < 1371)%nat -> (c < 5)%nat -> entries_within st i c B -> bpow radix2 (-900) <= B -> B <= bpow radix2 799 ->
    exists v, stands_for (m i (S c)) v /\ Rabs (v - mr i (S c)) <= 19 * eps * B.
Lemma agrees_ok st files alt rng h ra rg m : same_files st files -> stands_for alt ra -> stands_for rng rg ->
  load_interp_f64 st alt rng h = Ok m -> exists mr, load_interp files ra rg h = Ok mr /\ close_entries st m mr.
Proof.
  intros SF A G H.
  destruct (f64_structure _ _ _ _ _ _ _ A G H) as (fla & fha & flg & fhg & n1 & n2 & z1 & z2 & m00 & m10 & m01 & m11 & (Q1 & Q2 & Q3 & Q4) & (O1 & O2 & O3 & O4) & (T1 & T2) & (L00 & L10 & L01 & L11) & M).
  destruct (twin_of _ _ _ _ _ _ _ _ SF (good_26 _ O1) Q1 Q3 L00) as (r00 & R00 & W00).
  destruct (twin_of _ _ _ _ _ _ _ _ SF (good_26 _ O2) Q2 Q3 L10) as (r10 & R10 & W10).
  destruct (twin_of _ _ _ _ _ _ _ _ SF (good_26 _ O1) Q1 Q4 L01) as (r01 & R01 & W01).
  destruct (twin_of _ _ _ _ _ _ _ _ SF (good_26 _ O2) Q2 Q4 L11) as (r11 & R11 & W11).
  destruct (body_ok files _ _ _ _ ra rg h _ _ _ _ R00 R10 R01 R11) as [mr X].
  rewrite <- (load_tight files ra rg h _ _ _ _ T1 T2) in X. exists mr. split; [exact X|].
  destruct (load_is_bilinear _ _ _ _ _ X) as (la & ha & lg & hg & t & u & s00 & s10 & s01 & s11 & T1' & T2' & Wt & Wu & Y00 & Y10 & Y01 & Y11 & MR).
  destruct (tight_unique _ _ _ _ _ _ T1' T1) as [-> ->]. destruct (tight_unique _ _ _ _ _ _ T2' T2) as [-> ->].
  apply weight_share in Wt, Wu. intros i c B Hi Hc E S1 S2.
  assert (K : forall m0 r0 s0 fa fg n z, twin st m0 r0 -> load_no_interp files (IZR n) (IZR z) h = Ok r0 -> load_no_interp files (IZR n) (IZR z) h = Ok s0 ->
    stands_for fg (IZR z) -> load_no_interp_f64 st fa fg h = Ok m0 -> stands_for (m0 i (S c)) (s0 i (S c)) /\ 0 <= s0 i (S c) <= B).
  { intros m0 r0 s0 fa fg n z (_ & (n' & d & Sd & Md) & V) Lr Ls Sg Lf. assert (Er : s0 = r0) by congruence. rewrite Er.
    assert (V' := V i c Hi Hc). split; [exact V'|]. destruct (E n' d Sd) as (v & Sv & Bv). rewrite Md in V'.
    assert (Ev : v = r0 i (S c)) by (destruct V', Sv; congruence). now rewrite <- Ev. }
  destruct (K _ _ _ _ _ _ _ W00 R00 Y00 Q3 L00) as [A00 B00]. destruct (K _ _ _ _ _ _ _ W10 R10 Y10 Q3 L10) as [A10 B10].
  destruct (K _ _ _ _ _ _ _ W01 R01 Y01 Q4 L01) as [A01 B01]. destruct (K _ _ _ _ _ _ _ W11 R11 Y11 Q4 L11) as [A11 B11].
  destruct T1 as (_ & _ & I1 & _). destruct T2 as (_ & _ & I2 & _).
  destruct (two_close fla fha alt n1 n2 ra flg fhg rng z1 z2 rg _ _ _ _ _ _ _ _ B (good_26 _ O1) (good_26 _ O2) (range_26 _ O3) (range_26 _ O4)
    Q1 Q2 A I1 Q3 Q4 G I2 A00 A10 A01 A11 B00 B10 B01 B11 S1 S2) as (v & V & P & C & _).
  exists v. rewrite M, MR, Wt, Wu. auto.
Qed.
Lemma agrees_back st files alt rng h ra rg mr : same_files st files -> stands_for alt ra -> stands_for rng rg ->
  load_interp files ra rg h = Ok mr -> exists m, load_interp_f64 st alt rng h = Ok m.
Proof.
  intros SF A G X.
  destruct (load_is_bilinear _ _ _ _ _ X) as (la & ha & lg & hg & t & u & s00 & s10 & s01 & s11 & T1 & T2 & _ & _ & Y00 & Y10 & Y01 & Y11 & _).
  assert (Ra : 2 <= ra <= 20000).
  { destruct (Rlt_le_dec ra 2); [rewrite load_out_of_range in X by lra; discriminate|].
    destruct (Rlt_le_dec 20000 ra); [rewrite load_out_of_range in X by lra; discriminate|]. lra. }
  assert (Rg : 0 <= rg <= 300000).
  { destruct (Rlt_le_dec rg 0); [rewrite load_out_of_range in X by lra; discriminate|].
    destruct (Rlt_le_dec 300000 rg); [rewrite load_out_of_range in X by lra; discriminate|]. lra. }
  destruct (in_range st alt rng h ra rg A G Ra Rg) as (fla & fha & flg & fhg & la' & ha' & lg' & hg' & Sa & Sb & Sc & Sd & T & T' & E).
  destruct (tight_alts _ _ _ T) as [[Gap _]|(n1 & n2 & N1 & N2 & -> & -> & T3)].
  { destruct (load_gap files ra rg h Gap) as [F|[F _]]; congruence. }
  destruct (tight_unique _ _ _ _ _ _ T3 T1) as [<- <-]. destruct (tight_unique _ _ _ _ _ _ T' T2) as [<- <-].
  assert (Z : exists z1 z2, lg' = IZR z1 /\ hg' = IZR z2).
  { destruct T' as (I1 & I2 & _). apply in_ranges in I1, I2. destruct I1 as (z1 & ? & ->), I2 as (z2 & ? & ->). exists z1, z2. auto. }
  destruct Z as (z1 & z2 & -> & ->).
  destruct (twin_back _ _ _ _ _ _ _ _ SF (good_26 _ N1) Sa Sc Y00) as [m00 L00]. destruct (twin_back _ _ _ _ _ _ _ _ SF (good_26 _ N2) Sb Sc Y10) as [m10 L10].
  destruct (twin_back _ _ _ _ _ _ _ _ SF (good_26 _ N1) Sa Sd Y01) as [m01 L01]. destruct (twin_back _ _ _ _ _ _ _ _ SF (good_26 _ N2) Sb Sd Y11) as [m11 L11].
  rewrite E. exact (body_f64_ok st fla fha flg fhg alt rng h m00 m10 m01 m11 L00 L10 L01 L11).
Qed.
Lemma agrees_err st files alt rng h ra rg : same_files st files -> stands_for alt ra -> stands_for rng rg ->
  load_interp_f64 st alt rng h = Err IndexError -> load_interp files ra rg h = Err IndexError.
Proof.
  intros SF A G H. destruct (interp_cases files ra rg h) as [[mr X]|[X|[_ N]]]; [|exact X|].
  - destruct (agrees_back _ _ _ _ _ _ _ _ SF A G X) as [m Y]. congruence.
  - exfalso. apply N. now apply same_intact with st.
Qed.

(** ** the grid points themselves, the gap, success *)
Lemma load_ext st fa fb fg fh h a z : stands_for fa (IZR a) -> stands_for fb (IZR a) -> stands_for fg (IZR z) -> stands_for fh (IZR z) ->
  (0 <= a <= 2 ^ 26)%Z -> load_no_interp_f64 st fa fg h = load_no_interp_f64 st fb fh h.
Proof.
  intros A B G H N.
  assert (E : forall m, load_no_interp_f64 st fa fg h = Ok m <-> load_no_interp_f64 st fb fh h = Ok m).
  { intros m. rewrite (f64_ok_iff st fa fg h m (range_not_tiny _ _ G)), (f64_ok_iff st fb fh h m (range_not_tiny _ _ H)).
    split; intros (i & x & y & d & D & Q & S & M); exists i, x, y, d; destruct (row_bounds _ _ _ _ D) as [Bx By];
      (split; [exact D|]; split; [|auto]).
    - apply (asked_node fb fh a z x y); auto. now apply (asked_node fa fg a z x y) in Q.
    - apply (asked_node fa fg a z x y); auto. now apply (asked_node fb fh a z x y) in Q. }
  destruct (f64_cases st fa fg h) as [[m F]|F]; [rewrite F; symmetry; now apply E|].
  destruct (f64_cases st fb fh h) as [[m F']|F']; [|congruence]. apply E in F'. congruence.
Qed.
Lemma grid_good n : In (IZR n) doc_altitudes -> good n.
Proof.
  change doc_altitudes with (2 :: 32.55 :: map IZR zaltitudes). intros [H|[H|H]].
  - left. now apply eq_IZR.
  - exfalso. assert (E : IZR (100 * n) = IZR 3255) by (rewrite mult_IZR; lra). apply eq_IZR in E. lia.
  - right. apply in_map_iff in H. destruct H as [z [E Z]]. apply eq_IZR in E. now subst.
Qed.
Lemma good_alts n : good n -> In (IZR n) alts.
Proof. intros [->|H]; [now left|]. unfold alts. right. right. now apply in_map. Qed.
Lemma f64_grid st alt rng h n z : stands_for alt (IZR n) -> stands_for rng (IZR z) ->
  In (IZR n) doc_altitudes -> In (IZR z) doc_ranges -> load_interp_f64 st alt rng h = load_no_interp_f64 st alt rng h.
Proof.
  intros A G Ia Ig. apply grid_good in Ia. assert (Bn := good_bound _ Ia).
  assert (Bz : (0 <= z <= 300000)%Z). { destruct (in_ranges _ Ig) as (z' & Z & E). apply eq_IZR in E. subst z'. now apply zranges_bound. }
  destruct (in_range st alt rng h (IZR n) (IZR z) A G) as (fla & fha & flg & fhg & la & ha & lg & hg & Sa & Sb & Sc & Sd & T & T' & E).
  { split; apply IZR_le; lia. } { split; apply IZR_le; lia. }
  destruct (tight_unique _ _ _ _ _ _ T (tight_node _ _ (good_alts _ Ia))) as [-> ->].
  destruct (tight_unique _ _ _ _ _ _ T' (tight_node _ _ Ig)) as [-> ->]. rewrite E. unfold body_f64, alt_atm_interp_f64.
  rewrite (proj2 (f_eq _ _ _ _ Sa Sb) eq_refl), (proj2 (f_eq _ _ _ _ Sc Sd) eq_refl). cbn [negb].
  rewrite (load_ext st fla alt flg rng h n z Sa A Sc G ltac:(lia)).
  destruct (load_no_interp_f64 st alt rng h); reflexivity.
Qed.
Lemma f64_gap st alt rng h r : stands_for alt r -> 2 < r < 75 -> load_interp_f64 st alt rng h = Err IndexError.
Proof.
  intros A I. destruct (load_cases st alt rng h) as [[m H]|H]; [exfalso|exact H].
  destruct (ok_finite _ _ _ _ _ H) as (ra & rg & A' & G). assert (ra = r) by (destruct A, A'; congruence). subst ra.
  destruct (f64_structure _ _ _ _ _ _ _ A G H) as (fla & fha & flg & fhg & n1 & n2 & z1 & z2 & m00 & m10 & m01 & m11 & _ & (O1 & O2 & _) & (T1 & _) & _).
  destruct T1 as (_ & _ & J & U & V).
  assert (X : In 32.55 doc_altitudes) by (right; now left).
  assert (I2 : IZR n1 <= 2). { destruct O1 as [->|O1]; [lra|]. apply zaltitudes_bound in O1. assert (75 <= IZR n1) by (apply IZR_le; lia). lra. }
  assert (I3 : 75 <= IZR n2). { destruct O2 as [->|O2]; [lra|]. apply zaltitudes_bound in O2. apply IZR_le; lia. }
  destruct (Rle_lt_dec 32.55 r) as [Q|Q]; [specialize (U _ X Q); lra|]. specialize (V _ X ltac:(lra)). lra.
Qed.
Lemma ground_rows : forallb (fun n => existsb (key (10 * n) 0 1) decoder && existsb (key (10 * n) 0 2) decoder) (2%Z :: zaltitudes) = true.
Proof. vm_compute. reflexivity. Qed.
Lemma ground_node st n h fa fg : complete_f64 st -> good n -> (h = 1 \/ h = 2)%Z -> stands_for fa (IZR n) -> stands_for fg (IZR 0) ->
  exists m, load_no_interp_f64 st fa fg h = Ok m.
Proof.
  intros C N H A G. assert (R : exists i, listed i (IZR n) (IZR 0) h).
  { generalize ground_rows. rewrite forallb_forall. intros F. specialize (F n ltac:(destruct N as [->|N]; [now left|now right])).
    apply andb_true_iff in F. destruct F as [F1 F2]. replace (IZR n) with (IZR (10 * n) / 10) by (rewrite mult_IZR; lra).
    destruct H as [->| ->]; now apply key_listed. }
  destruct R as [i L]. apply listed_node in L. destruct (C _ _ _ _ L) as [d D]. exists (assemble_f64 d).
  apply f64_ok_iff; [exact (range_not_tiny _ _ G)|]. exists i, (10 * n)%Z, 0%Z, d. split; [exact L|]. split; [|auto].
  destruct (row_bounds _ _ _ _ L) as [Ba Bg]. apply (asked_node fa fg n 0); auto. now apply good_26.
Qed.
Lemma ground_load st alt rng h r : complete_f64 st -> (h = 1 \/ h = 2)%Z -> stands_for alt r -> stands_for rng 0 ->
  r = 2 \/ 75 <= r <= 20000 -> exists m, load_interp_f64 st alt rng h = Ok m.
Proof.
  intros C H A G B.
  destruct (in_range st alt rng h r 0 A G ltac:(lra) ltac:(lra)) as (fla & fha & flg & fhg & la & ha & lg & hg & Sa & Sb & Sc & Sd & T & T' & E).
  destruct (tight_alts _ _ _ T) as [[Gap _]|(n1 & n2 & N1 & N2 & -> & -> & _)]; [lra|].
  assert (I0 : In 0 doc_ranges) by (apply (in_doc_range 0); reflexivity).
  destruct (tight_unique _ _ _ _ _ _ T' (tight_node _ _ I0)) as [-> ->].
  destruct (ground_node st n1 h fla flg C N1 H Sa Sc) as [m00 L00]. destruct (ground_node st n2 h fha flg C N2 H Sb Sc) as [m10 L10].
  destruct (ground_node st n1 h fla fhg C N1 H Sa Sd) as [m01 L01]. destruct (ground_node st n2 h fha fhg C N2 H Sb Sd) as [m11 L11].
  rewrite E. exact (body_f64_ok st fla fha flg fhg alt rng h m00 m10 m01 m11 L00 L10 L01 L11).
Qed.
(* the wavelength column straight below the camera *)
Definition wave_at (alt : PrimFloat.float) (i : nat) : PrimFloat.float :=
  match last_f64 (filter (fun x => PrimFloat.leb x alt) altitude_array_f64), first_f64 (filter (fun x => PrimFloat.leb alt x) altitude_array_f64) with
  | Ok la, Ok ha => mixf la ha alt (wavelength_f64 i) (wavelength_f64 i)
  | _, _ => nan
  end.
Lemma low_zero : last_f64 (filter (fun x => PrimFloat.leb x 0) ground_ranges_f64) = Ok 0%float. Proof. vm_compute. reflexivity. Qed.
Lemma high_zero : first_f64 (filter (fun x => PrimFloat.leb 0 x) ground_ranges_f64) = Ok 0%float. Proof. vm_compute. reflexivity. Qed.
Lemma load_wave st alt h m i : load_interp_f64 st alt 0 h = Ok m -> m i 0%nat = wave_at alt i.
Proof.
  unfold load_interp_f64, wave_at. rewrite low_zero, high_zero.
  destruct (_ || _); [discriminate|]. destruct (_ || _); [discriminate|].
  destruct (last_f64 (filter (fun x => PrimFloat.leb x alt) altitude_array_f64)) as [la|]; [cbn [bind]|discriminate].
  destruct (first_f64 (filter (fun x => PrimFloat.leb alt x) altitude_array_f64)) as [ha|]; [cbn [bind]|discriminate].
  destruct (alt_atm_interp_f64 st la ha alt 0 h) as [m'|] eqn:E; [cbn [bind]|discriminate].
  replace (PrimFloat.eqb 0 0) with true by reflexivity. cbn [negb]. intros H. assert (Q : m' = m) by congruence. clear H. subst m'.
  apply alt_interp_f64_ok in E. destruct E as (m0 & m1 & L0 & L1 & E1 & M). rewrite M, (f64_wavelength _ _ _ _ _ L0).
  destruct (PrimFloat.eqb la ha) eqn:Q; [rewrite (E1 eq_refl), (f64_wavelength _ _ _ _ _ L0); reflexivity|].
  rewrite (f64_wavelength _ _ _ _ _ (L1 eq_refl)). reflexivity.
Qed.
