(** * Proof_Db: lemmas about the atmosphere loaders *)
From Coq Require Import Reals ZArith List Bool Lia Lra Sorted.
From Flocq Require Import Core.Raux.
From Verif Require Import Base_XR Base_Np Base_NpFacts Model_DbTable Model_Db Spec_Db.
Import ListNotations.
Open Scope R_scope.

Opaque decoder.

(** ** grids *)
Lemma arange_steps s stop d n :
  Zceil ((stop - IZR s) / IZR d) = Z.of_nat n ->
  np_arange (IZR s) stop (IZR d) = map IZR (steps s d n).
Proof.
  intros H. unfold np_arange, steps. rewrite H, Nat2Z.id, map_map. apply map_ext.
  intros i. rewrite plus_IZR, mult_IZR, INR_IZR_INZ. reflexivity.
Qed.

Lemma filter_all {A} (f : A -> bool) l : (forall x, In x l -> f x = true) -> filter f l = l.
Proof.
  induction l as [|x l IH]; simpl; intros H; [reflexivity|].
  rewrite H by (left; auto). f_equal. apply IH. intros; apply H; right; auto.
Qed.

Lemma zranges_bound z : In z zranges -> (0 <= z <= 300000)%Z.
Proof.
  intros H. assert (F : forallb (fun z => (0 <=? z)%Z && (z <=? 300000)%Z) zranges = true) by (vm_compute; reflexivity).
  rewrite forallb_forall in F. specialize (F z H). apply andb_true_iff in F. lia.
Qed.

Lemma ground_ranges_eq : get_ground_range_array 301000 = doc_ranges.
Proof.
  unfold get_ground_range_array.
  rewrite (arange_steps 1000 20000.01 1000 20) by (apply Zceil_imp; split; simpl; lra).
  rewrite (arange_steps 22000 80000.01 2000 30) by (apply Zceil_imp; split; simpl; lra).
  rewrite (arange_steps 85000 300000.01 5000 44) by (apply Zceil_imp; split; simpl; lra).
  replace [0; 100; 500] with (map IZR [0; 100; 500]%Z) by reflexivity.
  rewrite <- !map_app, <- !app_assoc. fold zranges. fold doc_ranges.
  apply filter_all. intros x H. unfold doc_ranges in H. apply in_map_iff in H.
  destruct H as [z [<- H]]. apply Rleb_true. apply zranges_bound in H.
  apply IZR_le. lia.
Qed.

Lemma altitudes_eq : altitude_array = doc_altitudes.
Proof. reflexivity. Qed.

Definition incr (l : list R) : Prop := StronglySorted Rlt l.

Lemma incr_alt : incr doc_altitudes.
Proof.
  unfold incr, doc_altitudes.
  repeat (apply SSorted_cons; [|repeat (apply Forall_cons; [lra|]); apply Forall_nil]).
  apply SSorted_nil.
Qed.

Fixpoint zincr (l : list Z) : bool :=
  match l with
  | [] => true
  | x :: l' => match l' with [] => true | y :: _ => (x <? y)%Z && zincr l' end
  end.
Lemma zincr_ok l : zincr l = true -> StronglySorted Rlt (map IZR l).
Proof.
  intros H. assert (S : StronglySorted Z.lt l).
  { apply Sorted_StronglySorted; [intros x y z; apply Z.lt_trans|].
    induction l as [|x l IH]; constructor.
    - apply IH. destruct l; [reflexivity|]. simpl in H. apply andb_true_iff in H. tauto.
    - destruct l; constructor. simpl in H. apply andb_true_iff in H. lia. }
  induction S; simpl; constructor.
  - apply IHS. destruct l; [reflexivity|]. simpl in H. apply andb_true_iff in H. tauto.
  - rewrite Forall_map. eapply Forall_impl; [|exact H0]. intros; now apply IZR_lt.
Qed.
Lemma incr_rng : incr doc_ranges.
Proof. apply zincr_ok. vm_compute. reflexivity. Qed.

Lemma incr_min l x : incr (x :: l) -> py_min (x :: l) = Ok x.
Proof.
  intros H. simpl. f_equal. inversion H as [|a b S F]; subst. clear H S.
  induction l as [|y l IH]; simpl; [reflexivity|].
  inversion F; subst. rewrite Rmin_left by lra. auto.
Qed.
Lemma incr_max l x : incr (x :: l) -> py_max (x :: l) = Ok (last l x).
Proof.
  intros H. simpl. f_equal. revert x H. induction l as [|y l IH]; intros x H; [reflexivity|].
  inversion H as [|a b S F]; subst. inversion F; subst. simpl fold_left.
  rewrite Rmax_right by lra. rewrite IH by assumption.
  destruct l; [reflexivity|]. simpl. clear. revert r. induction l; simpl; auto.
Qed.

Lemma last_map_IZR l d : last (map IZR l) (IZR d) = IZR (last l d).
Proof. induction l as [|x l IH]; [reflexivity|]. simpl. destruct l; [reflexivity|]. exact IH. Qed.

Lemma alt_min : py_min altitude_array = Ok 2.
Proof. apply incr_min. exact incr_alt. Qed.
Lemma alt_max : py_max altitude_array = Ok 20000.
Proof. unfold altitude_array. rewrite incr_max; [reflexivity|exact incr_alt]. Qed.
Lemma rng_cons : exists l, zranges = (0 :: l)%Z /\ last l 0%Z = 300000%Z.
Proof. eexists. split; [reflexivity|]. vm_compute. reflexivity. Qed.
Lemma rng_min : py_min doc_ranges = Ok 0.
Proof.
  pose proof incr_rng as H. unfold doc_ranges in *. destruct rng_cons as [l [E _]].
  rewrite E in *. simpl map in *. now apply incr_min.
Qed.
Lemma rng_max : py_max doc_ranges = Ok 300000.
Proof.
  pose proof incr_rng as H. unfold doc_ranges in *. destruct rng_cons as [l [E L]].
  rewrite E in *. simpl map in *. rewrite incr_max by assumption. rewrite last_map_IZR, L. reflexivity.
Qed.

(** ** brackets *)
Lemma last_le l x : incr l -> (exists y, In y l /\ y <= x) ->
  exists lo, py_last (filter (fun y => Rleb y x) l) = Ok lo /\ In lo l /\ lo <= x /\
    forall y, In y l -> y <= x -> y <= lo.
Proof.
  intros S [y0 [Hy0 Hle0]].
  assert (P : forall l, (exists y, In y l /\ y <= x) -> incr l ->
    exists lo, py_last (filter (fun y => Rleb y x) l) = Ok lo /\ In lo l /\ lo <= x /\
      forall y, In y l -> y <= x -> y <= lo).
  2:{ apply P; eauto. }
  clear. induction l as [|a l IH]; intros [y [Hy Hx]] S; [destruct Hy|].
  inversion S as [|? ? S' F]; subst. rewrite Forall_forall in F.
  assert (Ha : a <= x).
  { destruct Hy as [->|Hy]; [auto|]. specialize (F y Hy). lra. }
  simpl. rewrite (proj2 (Rleb_true _ _) Ha).
  destruct (filter (fun y => Rleb y x) l) as [|b bl] eqn:E.
  - exists a. split; [reflexivity|]. split; [left; auto|]. split; [auto|].
    intros z [->|Hz] Hzx; [lra|].
    exfalso. assert (In z (filter (fun y => Rleb y x) l)).
    { apply filter_In. split; auto. now apply Rleb_true. }
    rewrite E in H. destruct H.
  - assert (Hb : In b l /\ b <= x).
    { assert (In b (filter (fun y => Rleb y x) l)) by (rewrite E; left; auto).
      apply filter_In in H. destruct H as [? H]. apply Rleb_true in H. auto. }
    destruct (IH (ex_intro _ b Hb) S') as [lo [L1 [L2 [L3 L4]]]].
    exists lo. split; [exact L1|]. split; [right; auto|]. split; [auto|].
    intros z [<-|Hz] Hzx; [specialize (F lo L2); lra|auto].
Qed.

Lemma first_ge l x : incr l -> (exists y, In y l /\ x <= y) ->
  exists hi, py_first (filter (fun y => Rleb x y) l) = Ok hi /\ In hi l /\ x <= hi /\
    forall y, In y l -> x <= y -> hi <= y.
Proof.
  induction l as [|a l IH]; intros S [y [Hy Hx]]; [destruct Hy|].
  inversion S as [|? ? S' F]; subst. rewrite Forall_forall in F.
  simpl. destruct (Rleb x a) eqn:E.
  - apply Rleb_true in E. exists a. split; [reflexivity|]. split; [left; auto|].
    split; [auto|]. intros z [->|Hz] _; [lra|]. specialize (F z Hz). lra.
  - apply Rleb_false in E. destruct Hy as [->|Hy]; [lra|].
    destruct (IH S' (ex_intro _ y (conj Hy Hx))) as [hi [L1 [L2 [L3 L4]]]].
    exists hi. split; [exact L1|]. split; [right; auto|]. split; [auto|].
    intros z [<-|Hz] Hzx; [lra|auto].
Qed.

Lemma bracket l x : incr l -> (exists y, In y l /\ y <= x) -> (exists y, In y l /\ x <= y) ->
  exists lo hi, py_last (filter (fun y => Rleb y x) l) = Ok lo /\
    py_first (filter (fun y => Rleb x y) l) = Ok hi /\ tight l x lo hi.
Proof.
  intros S H1 H2. destruct (last_le l x S H1) as [lo [L1 [L2 [L3 L4]]]].
  destruct (first_ge l x S H2) as [hi [K1 [K2 [K3 K4]]]].
  exists lo, hi. unfold tight. auto 10.
Qed.

Lemma tight_unique l x lo hi lo' hi' : tight l x lo hi -> tight l x lo' hi' -> lo = lo' /\ hi = hi'.
Proof.
  intros [A1 [A2 [A3 [A4 A5]]]] [B1 [B2 [B3 [B4 B5]]]].
  split; apply Rle_antisym; auto with real; try (apply A4; [auto|lra]); try (apply B4; [auto|lra]);
    try (apply A5; [auto|lra]); try (apply B5; [auto|lra]).
Qed.
Lemma tight_node l x : In x l -> tight l x x x.
Proof. intros H. unfold tight. repeat split; auto with real. Qed.
Lemma tight_cell l x a b : adjacent l a b -> a < x -> x < b -> tight l x a b.
Proof.
  intros [A [B [C D]]] H1 H2. unfold tight. repeat split; auto; try lra;
  intros y Hy Hx; destruct (D y Hy); lra.
Qed.
Lemma tight_adjacent l x a b : tight l x a b -> a <> b -> adjacent l a b /\ a < x < b.
Proof.
  intros [A [B [C [D E]]]] H.
  assert (a <> x). { intros ->. apply H. apply Rle_antisym; [lra|]. apply E; auto. lra. }
  assert (x <> b). { intros ->. apply H. apply Rle_antisym; [lra|]. apply D; auto. lra. }
  split; [|lra]. split; [auto|split; [auto|split; [lra|]]].
  intros y Hy. destruct (Rle_dec y x) as [L|L]; [left; auto|right]. apply E; auto. lra.
Qed.

(** ** exact lookup *)
Lemma select_in r alt g h : In r (select alt g h) <->
  In r decoder /\ row_ihaze r = h /\ row_alt_km r = alt / 1000 /\ row_range_km r = g / 1000.
Proof.
  unfold select. rewrite !filter_In. rewrite Z.eqb_eq, !Reqb_true. tauto.
Qed.
Lemma select_listed r alt g h : In r (select alt g h) <->
  exists a g', r = (row_index r, a, g', h) /\ In r decoder /\ alt = IZR a / 10 /\ g = IZR g'.
Proof.
  rewrite select_in. destruct r as [[[i a] g'] h']. simpl. split.
  - intros [H [-> [A G]]]. exists a, g'. repeat split; auto; lra.
  - intros [a0 [g0 [E [H [A G]]]]]. inversion E; subst. repeat split; auto; lra.
Qed.

(* keys are pairwise distinct: the decoder is sorted by (ihaze-insensitive)
   check on integer codes *)
Definition code (r : row) : Z := let '(_, a, g, h) := r in ((a * 1000000 + g) * 8 + h)%Z.
Definition nodup_codes (l : list row) : bool :=
  (fix chk l := match l with [] => true | x :: l' => negb (existsb (Z.eqb x) l') && chk l' end)
  (map code l).
Lemma nodup_codes_ok l : nodup_codes l = true -> NoDup (map code l).
Proof.
  unfold nodup_codes. generalize (map code l) as c. clear l.
  induction c as [|x c IH]; intros H; constructor.
  - apply andb_true_iff in H. destruct H as [H _]. intros I.
    apply negb_true_iff in H. assert (existsb (Z.eqb x) c = true); [|congruence].
    apply existsb_exists. exists x. split; auto. apply Z.eqb_refl.
  - apply IH. apply andb_true_iff in H. tauto.
Qed.
Lemma decoder_nodup : NoDup (map code decoder).
Proof. apply nodup_codes_ok. vm_compute. reflexivity. Qed.

Lemma nodup_map_inj {A B} (f : A -> B) l x y :
  NoDup (map f l) -> In x l -> In y l -> f x = f y -> x = y.
Proof.
  induction l as [|a l IH]; simpl; intros N Hx Hy E; [tauto|].
  inversion N; subst. destruct Hx as [->|Hx], Hy as [->|Hy]; auto.
  - exfalso. apply H1. rewrite E. now apply in_map.
  - exfalso. apply H1. rewrite <- E. now apply in_map.
Qed.

Lemma select_unique alt g h r r' : In r (select alt g h) -> In r' (select alt g h) -> r = r'.
Proof.
  intros H H'. apply select_listed in H. apply select_listed in H'.
  destruct H as [a [g1 [E [I [A G]]]]]. destruct H' as [a' [g1' [E' [I' [A' G']]]]].
  apply (nodup_map_inj code decoder); auto using decoder_nodup.
  rewrite E, E'. simpl.
  assert (a = a') by (apply eq_IZR; lra). assert (g1 = g1') by (apply eq_IZR; lra). subst. reflexivity.
Qed.

Lemma listed_index_unique i j alt g h : listed i alt g h -> listed j alt g h -> i = j.
Proof.
  intros [a [g1 [I [A G]]]] [a' [g1' [I' [A' G']]]].
  assert (E : (i, a, g1, h) = (j, a', g1', h)); [|now inversion E].
  apply (select_unique alt g h); apply select_listed; eauto 10.
Qed.

Lemma reshape_ok f d : reshape_F f = Ok d ->
  file_size f = 6855%nat /\ d = fun r c => file_value f (c * 1371 + r)%nat.
Proof.
  unfold reshape_F. change (n_wave * 5)%nat with 6855%nat. destruct (Nat.eqb _ _) eqn:E; [|discriminate].
  intros H. split; [now apply Nat.eqb_eq|]. symmetry. change n_wave with 1371%nat in H. congruence.
Qed.
Lemma reshape_fit f d : file_size f = 6855%nat -> d = (fun r c => file_value f (c * 1371 + r)%nat) -> reshape_F f = Ok d.
Proof.
  intros S ->. unfold reshape_F. change (n_wave * 5)%nat with 6855%nat. rewrite S, Nat.eqb_refl. reflexivity.
Qed.

Lemma no_interp_ok_iff st alt g h m :
  load_no_interp st alt g h = Ok m <->
  exists i d, listed i alt g h /\ stored st i d /\ m = assemble d.
Proof.
  unfold load_no_interp. split.
  - destruct (select alt g h) as [|r l] eqn:E; [discriminate|].
    destruct (st (row_index r)) as [f|] eqn:D; [|discriminate]. intros H.
    destruct (reshape_F f) as [d|] eqn:RF; [|discriminate]. cbn [bind] in H. injection H as <-.
    exists (row_index r), d. split; [|split; [exists f; split; [exact D|exact (reshape_ok _ _ RF)]|reflexivity]].
    assert (I : In r (select alt g h)) by (rewrite E; left; auto).
    apply select_listed in I. destruct I as [a [g' [E1 [I [A G]]]]].
    exists a, g'. rewrite <- E1. auto.
  - intros [i [d [[a [g' [I [A G]]]] [D ->]]]].
    assert (S : In (i, a, g', h) (select alt g h)).
    { apply select_listed. exists a, g'. auto. }
    destruct (select alt g h) as [|r l] eqn:E; [destruct S|].
    assert (r = (i, a, g', h)).
    { apply (select_unique alt g h); rewrite E; [left; auto|auto]. }
    subst r. cbn [row_index]. destruct D as (f & F & S1 & S2). rewrite F. rewrite (reshape_fit f d S1 S2). reflexivity.
Qed.

Lemma no_interp_cases st alt g h :
  (exists m, load_no_interp st alt g h = Ok m) \/ load_no_interp st alt g h = Err IndexError \/
  load_no_interp st alt g h = Err ValueError /\ exists i f, listed i alt g h /\ st i = Some f /\ file_size f <> 6855%nat.
Proof.
  destruct (select alt g h) as [|r l] eqn:E; [right; left; unfold load_no_interp; now rewrite E|].
  assert (I : In r (select alt g h)) by (rewrite E; left; auto).
  unfold load_no_interp; rewrite E.
  destruct (st (row_index r)) as [f|] eqn:D; [|auto].
  destruct (reshape_F f) as [d|e] eqn:RF; [left; cbn [bind]; eauto|]. right; right.
  unfold reshape_F in RF. change (n_wave * 5)%nat with 6855%nat in RF.
  destruct (Nat.eqb _ _) eqn:Q; [discriminate|]. cbn [bind]. split; [congruence|].
  exists (row_index r), f. split; [|split; [exact D|now apply Nat.eqb_neq]].
  apply select_listed in I. destruct I as [a [g' [E1 [I [A G]]]]].
  exists a, g'. rewrite <- E1. auto.
Qed.
Lemma no_interp_unlisted st alt g h : (forall i, ~ listed i alt g h) -> load_no_interp st alt g h = Err IndexError.
Proof.
  intros N. destruct (no_interp_cases st alt g h) as [[m H]|[H|[H (i & f & L & _)]]]; [|exact H|].
  - apply no_interp_ok_iff in H. destruct H as (i & d & L & _). now apply N in L.
  - now apply N in L.
Qed.
Lemma no_interp_absent st alt g h i : listed i alt g h -> st i = None -> load_no_interp st alt g h = Err IndexError.
Proof.
  intros L N. destruct (no_interp_cases st alt g h) as [[m H]|[H|[H (j & f & L' & F & _)]]]; [|exact H|].
  - apply no_interp_ok_iff in H. destruct H as (j & d & L' & (f & F & _) & _). rewrite (listed_index_unique _ _ _ _ _ L L') in N. congruence.
  - rewrite (listed_index_unique _ _ _ _ _ L L') in N. congruence.
Qed.
Lemma no_interp_damaged st alt g h i f : listed i alt g h -> st i = Some f -> file_size f <> 6855%nat ->
  load_no_interp st alt g h = Err ValueError.
Proof.
  intros L F N. destruct (no_interp_cases st alt g h) as [[m H]|[H|[H _]]]; [| |exact H].
  - apply no_interp_ok_iff in H. destruct H as (j & d & L' & (f' & F' & S & _) & _). rewrite (listed_index_unique _ _ _ _ _ L L') in F. congruence.
  - exfalso. revert H. unfold load_no_interp. destruct (select alt g h) as [|r l] eqn:E.
    + intros _. destruct L as [a [g' [I [A G]]]].
      assert (S : In (i, a, g', h) (select alt g h)) by (apply select_listed; exists a, g'; auto). rewrite E in S. destruct S.
    + assert (I : In r (select alt g h)) by (rewrite E; left; auto). apply select_listed in I. destruct I as [a [g' [E1 [I [A G]]]]].
      assert (L' : listed (row_index r) alt g h) by (exists a, g'; rewrite <- E1; auto).
      rewrite (listed_index_unique _ _ _ _ _ L' L), F. unfold reshape_F. destruct (Nat.eqb _ _); discriminate.
Qed.
Lemma no_interp_intact st alt g h : intact st ->
  (exists m, load_no_interp st alt g h = Ok m) \/ load_no_interp st alt g h = Err IndexError.
Proof.
  intros I. destruct (no_interp_cases st alt g h) as [H|[H|[_ (i & f & _ & F & N)]]]; auto. apply I in F. congruence.
Qed.


(** ** interpolation: the bracketing form *)
Lemma alt_rng_exist alt : 2 <= alt <= 20000 ->
  (exists y, In y doc_altitudes /\ y <= alt) /\ (exists y, In y doc_altitudes /\ alt <= y).
Proof.
  intros H. split; [exists 2|exists 20000]; (split; [|lra]); unfold doc_altitudes; simpl; tauto.
Qed.
Lemma in_doc_range z : existsb (Z.eqb z) zranges = true -> In (IZR z) doc_ranges.
Proof.
  intros H. apply existsb_exists in H. destruct H as [y [H E]]. apply Z.eqb_eq in E. subst.
  unfold doc_ranges. now apply in_map.
Qed.
Lemma rng_exist g : 0 <= g <= 300000 ->
  (exists y, In y doc_ranges /\ y <= g) /\ (exists y, In y doc_ranges /\ g <= y).
Proof.
  intros H. split; [exists 0|exists 300000]; (split; [|lra]); apply in_doc_range; vm_compute; reflexivity.
Qed.

Lemma load_out_of_range st alt g h :
  (alt < 2 \/ 20000 < alt \/ g < 0 \/ 300000 < g) -> load_interp st alt g h = Err IndexError.
Proof.
  intros H. unfold load_interp. rewrite alt_min, alt_max, ground_ranges_eq. cbn [bind].
  destruct (Rltb alt 2) eqn:E1; [reflexivity|]. destruct (Rltb 20000 alt) eqn:E2; [reflexivity|].
  cbn [orb]. rewrite rng_min, rng_max. cbn [bind].
  destruct (Rltb g 0) eqn:E3; [reflexivity|]. destruct (Rltb 300000 g) eqn:E4; [reflexivity|].
  apply Rltb_false in E1, E2, E3, E4. lra.
Qed.

(* the body after the guards *)
Definition interp_body st la ha lg hg alt g h :=
  let* atm_low_range := alt_atm_interp st la ha alt lg h in
  if negb (Reqb lg hg) then
    let* atm_high_range := alt_atm_interp st la ha alt hg h in
    Ok (blend (1 - (g - lg) / (hg - lg)) ((g - lg) / (hg - lg)) atm_low_range atm_high_range)
  else Ok atm_low_range.

Lemma load_in_range st alt g h : 2 <= alt <= 20000 -> 0 <= g <= 300000 ->
  exists la ha lg hg, tight doc_altitudes alt la ha /\ tight doc_ranges g lg hg /\
    load_interp st alt g h = interp_body st la ha lg hg alt g h.
Proof.
  intros HA HG. destruct (alt_rng_exist alt HA) as [A1 A2]. destruct (rng_exist g HG) as [G1 G2].
  destruct (bracket doc_altitudes alt incr_alt A1 A2) as [la [ha [Ela [Eha T]]]].
  destruct (bracket doc_ranges g incr_rng G1 G2) as [lg [hg [Elg [Ehg T']]]].
  exists la, ha, lg, hg. split; [auto|]. split; [auto|].
  unfold load_interp. rewrite alt_min, alt_max, ground_ranges_eq. cbn [bind].
  rewrite (proj2 (Rltb_false alt 2)) by lra. rewrite (proj2 (Rltb_false 20000 alt)) by lra.
  cbn [orb]. rewrite rng_min, rng_max. cbn [bind].
  rewrite (proj2 (Rltb_false g 0)) by lra. rewrite (proj2 (Rltb_false 300000 g)) by lra.
  cbn [orb]. rewrite altitudes_eq, Ela. cbn [bind]. rewrite Eha. cbn [bind].
  rewrite Elg. cbn [bind]. rewrite Ehg. cbn [bind]. reflexivity.
Qed.

Lemma load_tight st alt g h la ha lg hg :
  tight doc_altitudes alt la ha -> tight doc_ranges g lg hg ->
  load_interp st alt g h = interp_body st la ha lg hg alt g h.
Proof.
  intros T T'.
  assert (HA : 2 <= alt <= 20000).
  { destruct T as [A [B [C _]]]. unfold doc_altitudes in A, B. simpl in A, B.
    split; [apply Rle_trans with la; [|lra]|apply Rle_trans with ha; [lra|]];
    [repeat (destruct A as [<-|A]; [lra|]); destruct A|repeat (destruct B as [<-|B]; [lra|]); destruct B]. }
  assert (HG : 0 <= g <= 300000).
  { destruct T' as [A [B [C _]]]. unfold doc_ranges in A, B. apply in_map_iff in A, B.
    destruct A as [z [<- Hz]], B as [z' [<- Hz']]. apply zranges_bound in Hz, Hz'.
    pose proof (IZR_le 0 z ltac:(lia)). pose proof (IZR_le z' 300000 ltac:(lia)). lra. }
  destruct (load_in_range st alt g h HA HG) as [la' [ha' [lg' [hg' [U [U' E]]]]]].
  destruct (tight_unique _ _ _ _ _ _ T U) as [-> ->].
  destruct (tight_unique _ _ _ _ _ _ T' U') as [-> ->]. exact E.
Qed.

Lemma alt_interp_same st a alt g h : alt_atm_interp st a a alt g h = load_no_interp st a g h.
Proof.
  unfold alt_atm_interp. destruct (load_no_interp st a g h) as [m|e]; [|reflexivity].
  cbn [bind]. rewrite (proj2 (Reqb_true a a) eq_refl). reflexivity.
Qed.

Lemma load_node st alt g h : In alt doc_altitudes -> In g doc_ranges ->
  load_interp st alt g h = load_no_interp st alt g h.
Proof.
  intros HA HG. rewrite (load_tight st alt g h alt alt g g) by (now apply tight_node).
  unfold interp_body. rewrite alt_interp_same.
  destruct (load_no_interp st alt g h) as [m|e]; [|reflexivity].
  cbn [bind]. rewrite (proj2 (Reqb_true g g) eq_refl). reflexivity.
Qed.

(** ** success, blend *)
Lemma alt_interp_ok st la ha alt g h m : alt_atm_interp st la ha alt g h = Ok m ->
  exists m0 m1, load_no_interp st la g h = Ok m0 /\ load_no_interp st ha g h = Ok m1 /\
    (la <> ha -> m = blend (1 - (alt - la) / (ha - la)) ((alt - la) / (ha - la)) m0 m1) /\
    (la = ha -> m = m0).
Proof.
  unfold alt_atm_interp. destruct (load_no_interp st la g h) as [m0|] eqn:E0; [|discriminate].
  cbn [bind]. destruct (Reqb la ha) eqn:E; cbn [negb].
  - apply Reqb_true in E. intros H. injection H as <-. exists m0, m0. subst ha. rewrite E0.
    repeat split; auto. intros; contradiction.
  - apply Reqb_false in E. destruct (load_no_interp st ha g h) as [m1|] eqn:E1; [|discriminate].
    cbn [bind]. intros H. injection H as <-. exists m0, m1. repeat split; auto. intros; contradiction.
Qed.

Lemma weight_of l x lo hi : tight l x lo hi ->
  exists t, weight x lo hi t /\ (lo <> hi -> t = (x - lo) / (hi - lo)).
Proof.
  intros T. destruct (Req_dec lo hi) as [E|E].
  - exists 0. split; [|intros; contradiction]. destruct T as [_ [_ [T _]]].
    unfold weight. repeat split; try lra.
  - destruct (tight_adjacent _ _ _ _ T E) as [_ H].
    exists ((x - lo) / (hi - lo)). split; [|auto]. unfold weight. repeat split.
    + apply Rmult_le_pos; [lra|]. left. apply Rinv_0_lt_compat. lra.
    + apply Rmult_le_reg_r with (hi - lo); [lra|]. unfold Rdiv. rewrite Rmult_assoc, Rinv_l by lra. lra.
    + field. lra.
    + intros; contradiction.
Qed.

Lemma load_is_bilinear st alt g h m : load_interp st alt g h = Ok m ->
  exists la ha lg hg t u m00 m10 m01 m11,
    tight doc_altitudes alt la ha /\ tight doc_ranges g lg hg /\
    weight alt la ha t /\ weight g lg hg u /\
    load_no_interp st la lg h = Ok m00 /\ load_no_interp st ha lg h = Ok m10 /\
    load_no_interp st la hg h = Ok m01 /\ load_no_interp st ha hg h = Ok m11 /\
    forall i j, m i j = (1 - u) * ((1 - t) * m00 i j + t * m10 i j)
                      + u * ((1 - t) * m01 i j + t * m11 i j).
Proof.
  intros H.
  assert (HA : 2 <= alt <= 20000).
  { destruct (Rle_dec 2 alt); destruct (Rle_dec alt 20000); try lra;
    rewrite load_out_of_range in H by lra; discriminate. }
  assert (HG : 0 <= g <= 300000).
  { destruct (Rle_dec 0 g); destruct (Rle_dec g 300000); try lra;
    rewrite load_out_of_range in H by lra; discriminate. }
  destruct (load_in_range st alt g h HA HG) as [la [ha [lg [hg [T [T' E]]]]]].
  rewrite E in H. clear E. unfold interp_body in H.
  destruct (weight_of _ _ _ _ T) as [t [Wt Ht]]. destruct (weight_of _ _ _ _ T') as [u [Wu Hu]].
  destruct (alt_atm_interp st la ha alt lg h) as [ml|] eqn:El; [|discriminate]. cbn [bind] in H.
  destruct (alt_interp_ok _ _ _ _ _ _ _ El) as [m00 [m10 [K00 [K10 [B1 B2]]]]].
  assert (Bl : forall i j, ml i j = (1 - t) * m00 i j + t * m10 i j).
  { intros i j. destruct (Req_dec la ha) as [e|e].
    - rewrite (B2 e). destruct Wt as [_ [_ Z]]. rewrite (Z e). ring.
    - rewrite (B1 e). unfold blend. rewrite (Ht e). reflexivity. }
  destruct (Reqb lg hg) eqn:Eg; cbn [negb] in H.
  - apply Reqb_true in Eg. injection H as <-. subst hg.
    exists la, ha, lg, lg, t, u, m00, m10, m00, m10.
    repeat (split; [assumption|]). intros i j. rewrite Bl. ring.
  - apply Reqb_false in Eg. 
    destruct (alt_atm_interp st la ha alt hg h) as [mh|] eqn:Eh; [|discriminate]. cbn [bind] in H.
    injection H as <-.
    destruct (alt_interp_ok _ _ _ _ _ _ _ Eh) as [m01 [m11 [K01 [K11 [C1 C2]]]]].
    assert (Bh : forall i j, mh i j = (1 - t) * m01 i j + t * m11 i j).
    { intros i j. destruct (Req_dec la ha) as [e|e].
      - rewrite (C2 e). destruct Wt as [_ [_ Z]]. rewrite (Z e). ring.
      - rewrite (C1 e). unfold blend. rewrite (Ht e). reflexivity. }
    exists la, ha, lg, hg, t, u, m00, m10, m01, m11.
    repeat (split; [assumption|]). intros i j. unfold blend. rewrite Bl, Bh, (Hu Eg). ring.
Qed.

Lemma blend_bounds t u a b c d lo hi : 0 <= t <= 1 -> 0 <= u <= 1 ->
  lo <= a <= hi -> lo <= b <= hi -> lo <= c <= hi -> lo <= d <= hi ->
  lo <= (1 - u) * ((1 - t) * a + t * b) + u * ((1 - t) * c + t * d) <= hi.
Proof.
  intros Ht Hu Ha Hb Hc Hd.
  assert (H1 : lo <= (1 - t) * a + t * b <= hi) by (split; nra).
  assert (H2 : lo <= (1 - t) * c + t * d <= hi) by (split; nra).
  split; nra.
Qed.

Lemma load_entry_bounds st alt g h m i j lo hi : load_interp st alt g h = Ok m ->
  (forall a r mm, load_no_interp st a r h = Ok mm -> lo <= mm i j <= hi) ->
  lo <= m i j <= hi.
Proof.
  intros H B. destruct (load_is_bilinear _ _ _ _ _ H)
    as [la [ha [lg [hg [t [u [m00 [m10 [m01 [m11 [_ [_ [[Wt _] [[Wu _] [K00 [K10 [K01 [K11 E]]]]]]]]]]]]]]]]]].
  rewrite E. apply blend_bounds; eauto.
Qed.

Lemma load_wavelength st alt g h m i : load_interp st alt g h = Ok m -> m i 0%nat = wavelength i.
Proof.
  intros H. destruct (load_is_bilinear _ _ _ _ _ H)
    as [la [ha [lg [hg [t [u [m00 [m10 [m01 [m11 [_ [_ [_ [_ [K00 [K10 [K01 [K11 E]]]]]]]]]]]]]]]]]].
  assert (W : forall a r mm, load_no_interp st a r h = Ok mm -> mm i 0%nat = wavelength i).
  { intros a r mm Hm. apply no_interp_ok_iff in Hm. destruct Hm as [k [d [_ [_ ->]]]]. reflexivity. }
  rewrite E, (W _ _ _ K00), (W _ _ _ K10), (W _ _ _ K01), (W _ _ _ K11). ring.
Qed.

Lemma wavelength_val i : (i < n_wave)%nat -> wavelength i = (0.3 + INR i * (13.7 / 1370)) / 10 ^ 6.
Proof.
  intros H. unfold wavelength. rewrite linspace_nth by exact H.
  replace (INR (n_wave - 1)) with 1370.
  2:{ rewrite INR_IZR_INZ. f_equal. }
  lra.
Qed.

(** ** availability *)
Notation all_files := complete.

(* altitudes in 0.1 m, largest range in m *)
Definition zreach : list (Z * Z) :=
  [(20, 5000); (750, 30000); (1500, 42000); (2250, 52000); (5000, 78000);
   (10000, 110000); (20000, 155000); (30000, 195000); (40000, 225000); (50000, 250000);
   (60000, 275000); (70000, 295000); (80000, 300000); (90000, 300000); (100000, 300000);
   (110000, 300000); (120000, 300000); (140000, 300000); (160000, 300000); (180000, 300000);
   (200000, 300000)]%Z.

Definition key (a g h : Z) (r : row) : bool :=
  let '(_, a', g', h') := r in (a =? a')%Z && (g =? g')%Z && (h =? h')%Z.
Definition check_reach : bool :=
  forallb (fun p => forallb (fun g => forallb (fun h =>
     Bool.eqb (existsb (key (fst p) g h) decoder) (g <=? snd p)%Z) [1;2]%Z) zranges) zreach.
Lemma check_reach_ok : check_reach = true.
Proof. vm_compute. reflexivity. Qed.
Lemma ihaze_values : forallb (fun r => (row_ihaze r =? 1)%Z || (row_ihaze r =? 2)%Z) decoder = true.
Proof. vm_compute. reflexivity. Qed.

Lemma key_listed a g h : existsb (key a g h) decoder = true <-> exists i, listed i (IZR a / 10) (IZR g) h.
Proof.
  rewrite existsb_exists. split.
  - intros [[[[i a'] g'] h'] [I K]]. unfold key in K. rewrite !andb_true_iff, !Z.eqb_eq in K.
    destruct K as [[-> ->] ->]. exists i, a', g'. auto.
  - intros [i [a' [g' [I [A G]]]]]. exists (i, a', g', h). split; [auto|].
    assert (a = a') by (apply eq_IZR; lra). assert (g = g') by (apply eq_IZR; lra). subst.
    unfold key. rewrite !Z.eqb_refl. reflexivity.
Qed.
Lemma listed_haze i a g h : listed i a g h -> h = 1%Z \/ h = 2%Z.
Proof.
  intros [a' [g' [I _]]]. pose proof ihaze_values as F. rewrite forallb_forall in F.
  specialize (F _ I). simpl in F. apply orb_true_iff in F. rewrite !Z.eqb_eq in F. exact F.
Qed.

Lemma reach_z a m : In (a, m) reach -> exists za zm, In (za, zm) zreach /\ a = IZR za / 10 /\ m = IZR zm.
Proof.
  intros H. unfold reach in H. simpl in H.
  repeat (destruct H as [H|H];
    [injection H as <- <-; 
     match goal with |- exists za zm, In (za, zm) zreach /\ IZR ?x = _ /\ IZR ?y = _ =>
       exists (10 * x)%Z, y end; split; [vm_compute; tauto|split; [simpl; lra|reflexivity]]|]).
  destruct H.
Qed.

Lemma listed_reach a m g h : In (a, m) reach -> In g doc_ranges -> (h = 1 \/ h = 2)%Z ->
  ((exists i, listed i a g h) <-> g <= m).
Proof.
  intros HA HG Hh. destruct (reach_z a m HA) as [za [zm [I [-> ->]]]].
  unfold doc_ranges in HG. apply in_map_iff in HG. destruct HG as [zg [<- Ig]].
  rewrite <- key_listed. pose proof check_reach_ok as F. unfold check_reach in F.
  rewrite forallb_forall in F. specialize (F _ I). rewrite forallb_forall in F. specialize (F _ Ig).
  rewrite forallb_forall in F. assert (In h [1;2]%Z) by (simpl; lia). specialize (F _ H).
  apply eqb_prop in F. simpl fst in F. simpl snd in F. rewrite F. rewrite Z.leb_le.
  split; [apply IZR_le|apply le_IZR].
Qed.

Lemma no_interp_some st a g h : all_files st ->
  ((exists m, load_no_interp st a g h = Ok m) <-> exists i, listed i a g h).
Proof.
  intros F. split.
  - intros [m H]. apply no_interp_ok_iff in H. destruct H as [i [d [L _]]]. eauto.
  - intros [i L]. assert (exists d, stored st i d) as [d D].
    { destruct L as [a' [g' [I _]]]. eapply F. exact I. }
    exists (assemble d). apply no_interp_ok_iff. eauto.
Qed.

Lemma unlisted_3255 i g h : ~ listed i 32.55 g h.
Proof.
  intros [a [g' [_ [A _]]]]. assert (E : IZR (2 * a) = IZR 651) by (rewrite mult_IZR; lra).
  apply eq_IZR in E. lia.
Qed.

Lemma load_3255 st g h : load_no_interp st 32.55 g h = Err IndexError.
Proof.
  apply no_interp_unlisted. intros i. apply unlisted_3255.
Qed.

Lemma load_gap st alt g h : 2 < alt < 75 ->
  load_interp st alt g h = Err IndexError \/ load_interp st alt g h = Err ValueError /\ ~ intact st.
Proof.
  intros HA. destruct (Rlt_dec g 0); [left; apply load_out_of_range; lra|].
  destruct (Rlt_dec 300000 g); [left; apply load_out_of_range; lra|].
  destruct (load_in_range st alt g h) as [la [ha [lg [hg [T [T' E]]]]]]; try lra.
  rewrite E. unfold interp_body.
  assert (M : la = 32.55 \/ ha = 32.55).
  { assert (I : In 32.55 doc_altitudes) by (unfold doc_altitudes; simpl; tauto).
    assert (I2 : In 2 doc_altitudes) by (unfold doc_altitudes; simpl; tauto).
    assert (I75 : In 75 doc_altitudes) by (unfold doc_altitudes; simpl; tauto).
    destruct T as [A [B [C [D F]]]]. pose proof (D 2 I2). pose proof (F 75 I75).
    destruct (Rle_dec 32.55 alt) as [L|L].
    - left. pose proof (D _ I L). unfold doc_altitudes in A. simpl in A.
      repeat (destruct A as [<-|A]; [lra|]). destruct A.
    - right. pose proof (F 32.55 I ltac:(lra)). unfold doc_altitudes in B. simpl in B.
      repeat (destruct B as [<-|B]; [lra|]). destruct B. }
  assert (Err1 : alt_atm_interp st la ha alt lg h = Err IndexError \/ alt_atm_interp st la ha alt lg h = Err ValueError /\ ~ intact st).
  { unfold alt_atm_interp. destruct (no_interp_cases st la lg h) as [[m K]|[K|[K (i & f & _ & F & N)]]].
    - left. rewrite K. cbn [bind]. destruct M as [-> | ->]; [rewrite load_3255 in K; discriminate|].
      destruct (Reqb la 32.55) eqn:Q.
      + apply Reqb_true in Q. subst la. rewrite load_3255 in K. discriminate.
      + cbn [negb]. rewrite load_3255. reflexivity.
    - left. rewrite K. reflexivity.
    - right. rewrite K. split; [reflexivity|]. intros I. apply I in F. contradiction. }
  destruct Err1 as [-> | [-> N]]; [left|right]; auto.
Qed.

(* success set *)
Lemma alt_interp_succ st la ha alt g h :
  (exists m, alt_atm_interp st la ha alt g h = Ok m) <->
  (exists m, load_no_interp st la g h = Ok m) /\ (exists m, load_no_interp st ha g h = Ok m).
Proof.
  split.
  - intros [m H]. apply alt_interp_ok in H. destruct H as [m0 [m1 [A [B _]]]]. eauto.
  - intros [[m0 A] [m1 B]]. unfold alt_atm_interp. rewrite A. cbn [bind].
    destruct (Reqb la ha); cbn [negb]; [eauto|]. rewrite B. cbn [bind]. eauto.
Qed.
Lemma body_succ st la ha lg hg alt g h :
  (exists m, interp_body st la ha lg hg alt g h = Ok m) <->
  (exists m, alt_atm_interp st la ha alt lg h = Ok m) /\ (exists m, alt_atm_interp st la ha alt hg h = Ok m).
Proof.
  unfold interp_body. split.
  - intros [m H]. destruct (alt_atm_interp st la ha alt lg h) as [ml|] eqn:E; [|discriminate].
    cbn [bind] in H. destruct (Reqb lg hg) eqn:Q; cbn [negb] in H.
    + apply Reqb_true in Q. subst. eauto.
    + destruct (alt_atm_interp st la ha alt hg h) as [mh|] eqn:E2; [|discriminate]. eauto.
  - intros [[ml A] [mh B]]. rewrite A. cbn [bind]. destruct (Reqb lg hg); cbn [negb]; [eauto|].
    rewrite B. cbn [bind]. eauto.
Qed.

Lemma reach_mono a m a' m' : In (a, m) reach -> In (a', m') reach -> a <= a' -> m <= m'.
Proof.
  intros H H' L. destruct (reach_z _ _ H) as [za [zm [I [-> ->]]]].
  destruct (reach_z _ _ H') as [za' [zm' [I' [-> ->]]]].
  assert (F : forallb (fun p => forallb (fun q => (fst q <? fst p)%Z || (snd p <=? snd q)%Z) zreach) zreach = true)
    by (vm_compute; reflexivity).
  rewrite forallb_forall in F. specialize (F _ I). rewrite forallb_forall in F. specialize (F _ I').
  simpl in F. apply orb_true_iff in F. assert (za <= za')%Z by (apply le_IZR; lra).
  apply IZR_le. destruct F; lia.
Qed.

Lemma reach_of a : In a doc_altitudes -> a <> 32.55 -> exists m, In (a, m) reach.
Proof.
  intros H N. unfold doc_altitudes in H. simpl in H.
  repeat (destruct H as [<-|H]; [first [exfalso; apply N; reflexivity | eexists; unfold reach; simpl; repeat (first [left; reflexivity | right])]|]).
  destruct H.
Qed.

Lemma reach_range_node a m : In (a, m) reach -> In m doc_ranges.
Proof.
  intros H. destruct (reach_z _ _ H) as [za [zm [I [-> ->]]]]. apply in_doc_range.
  assert (F : forallb (fun p => existsb (Z.eqb (snd p)) zranges) zreach = true) by (vm_compute; reflexivity).
  rewrite forallb_forall in F. exact (F _ I).
Qed.

Lemma reach_alt_node a m : In (a, m) reach -> In a doc_altitudes.
Proof.
  intros H. unfold reach in H. simpl in H.
  repeat (destruct H as [H|H]; [injection H as <- <-; unfold doc_altitudes; simpl; tauto|]). destruct H.
Qed.
Lemma reach_no3255 a m : In (a, m) reach -> a <> 32.55.
Proof.
  intros H. unfold reach in H. simpl in H.
  repeat (destruct H as [H|H]; [injection H as <- <-; lra|]). destruct H.
Qed.

(* The exact set of requests that succeed. *)
Lemma load_success_iff st alt g h : all_files st ->
  ((exists m, load_interp st alt g h = Ok m) <->
   (h = 1 \/ h = 2)%Z /\ alt <= 20000 /\ 0 <= g /\
   exists a m, In (a, m) reach /\ a <= alt /\ g <= m /\
     (forall a' m', In (a', m') reach -> a' <= alt -> a' <= a) /\ (2 < alt -> 75 <= alt)).
Proof.
  intros F. split.
  - intros [m H].
    assert (HA : 2 <= alt <= 20000).
    { destruct (Rle_dec 2 alt); destruct (Rle_dec alt 20000); try lra;
      rewrite load_out_of_range in H by lra; discriminate. }
    assert (HG : 0 <= g <= 300000).
    { destruct (Rle_dec 0 g); destruct (Rle_dec g 300000); try lra;
      rewrite load_out_of_range in H by lra; discriminate. }
    assert (Hgap : 2 < alt -> 75 <= alt).
    { intros L. destruct (Rle_dec 75 alt); [auto|]. destruct (load_gap st alt g h ltac:(lra)) as [X|[X _]]; rewrite X in H; discriminate. }
    destruct (load_in_range st alt g h HA HG) as [la [ha [lg [hg [T [T' E]]]]]].
    rewrite E in H.
    assert (S : exists m, interp_body st la ha lg hg alt g h = Ok m) by eauto.
    apply body_succ in S. destruct S as [S1 S2]. apply alt_interp_succ in S1, S2.
    destruct S1 as [S1 _], S2 as [S2 _].
    apply no_interp_some in S2; auto. destruct S2 as [i L].
    pose proof (listed_haze _ _ _ _ L) as Hh. split; [auto|]. split; [lra|]. split; [lra|].
    assert (Ila : In la doc_altitudes) by (destruct T; auto).
    assert (Nla : la <> 32.55).
    { intros ->. eapply unlisted_3255; eauto. }
    destruct (reach_of la Ila Nla) as [mx Imx]. exists la, mx.
    split; [auto|]. destruct T as [T1 [T2 [T3 [T4 T5]]]]. split; [lra|].
    assert (Ihg : In hg doc_ranges) by (destruct T' as [_ [? _]]; auto).
    assert (hg <= mx) by (apply (listed_reach la mx hg h); eauto).
    destruct T' as [_ [_ [T3' _]]]. split; [lra|]. split; [|auto].
    intros a' m' I' L'. apply T4; [|auto]. eapply reach_alt_node; eauto.
  - intros [Hh [HA [HG [a [mx [I [La [Lg [Mx Hgap]]]]]]]]].
    assert (HA2 : 2 <= alt).
    { assert (2 <= a); [|lra]. clear -I. unfold reach in I. simpl in I.
      repeat (destruct I as [H|I]; [injection H as <- <-; lra|]). destruct I. }
    assert (HG2 : g <= 300000).
    { apply reach_range_node in I. unfold doc_ranges in I. apply in_map_iff in I.
      destruct I as [z [<- Hz]]. apply zranges_bound in Hz. pose proof (IZR_le z 300000 ltac:(lia)). lra. }
    destruct (load_in_range st alt g h) as [la [ha [lg [hg [T [T' E]]]]]]; try lra.
    rewrite E. apply body_succ.
    assert (Nla : la <> 32.55).
    { intros ->. destruct T as [_ [_ [T3 [T4 _]]]].
      assert (75 <= alt) by (apply Hgap; lra).
      assert (75 <= 32.55); [|lra]. apply T4; [unfold doc_altitudes; simpl; tauto|lra]. }
    assert (Nha : ha <> 32.55).
    { intros ->. destruct T as [T1 [_ [T3 [T4 T5]]]].
      destruct (Req_dec alt 2) as [->|].
      - assert (32.55 <= 2); [|lra]. apply T5; [unfold doc_altitudes; simpl; tauto|lra].
      - assert (75 <= alt) by (apply Hgap; lra). lra. }
    assert (Ila : In la doc_altitudes) by (destruct T; auto).
    assert (Iha : In ha doc_altitudes) by (destruct T as [_ [? _]]; auto).
    destruct (reach_of la Ila Nla) as [ml Il]. destruct (reach_of ha Iha Nha) as [mh Ih].
    assert (Ea : la = a).
    { destruct T as [T1 [_ [T3 [T4 _]]]]. apply Rle_antisym.
      - apply (Mx la ml); [auto|lra].
      - apply T4; [|auto]. eapply reach_alt_node; eauto. }
    subst a.
    assert (ml = mx).
    { apply Rle_antisym; eapply reach_mono; eauto; lra. }
    subst ml.
    assert (mx <= mh). { eapply reach_mono; [exact I|exact Ih|]. destruct T as [_ [_ [T3 _]]]. lra. }
    assert (hg <= mx). { destruct T' as [_ [_ [_ [_ T5]]]]. apply T5; [|auto]. eapply reach_range_node; eauto. }
    assert (lg <= hg). { destruct T' as [_ [_ [T3 _]]]. lra. }
    assert (Ilg : In lg doc_ranges) by (destruct T'; auto).
    assert (Ihg : In hg doc_ranges) by (destruct T' as [_ [? _]]; auto).
    assert (Av : forall a m r, In (a, m) reach -> In r doc_ranges -> r <= m -> exists mm, load_no_interp st a r h = Ok mm).
    { intros a m r K1 K2 K3. apply no_interp_some; auto. apply (listed_reach a m r h); auto. }
    split; apply alt_interp_succ; split; (eapply Av; [eassumption|assumption|lra]).
Qed.

(** ** piecewise bilinear, continuity *)
Lemma load_alt_affine st a0 a1 g h m0 m1 alt :
  adjacent doc_altitudes a0 a1 -> a0 <= alt <= a1 ->
  load_interp st a0 g h = Ok m0 -> load_interp st a1 g h = Ok m1 ->
  exists m, load_interp st alt g h = Ok m /\
    forall i j, m i j = m0 i j + (alt - a0) / (a1 - a0) * (m1 i j - m0 i j).
Proof.
  intros Adj HA H0 H1.
  destruct (Adj) as [I0 [I1 [L _]]].
  destruct (Req_dec alt a0) as [->|N0].
  { exists m0. split; [auto|]. intros. field. lra. }
  destruct (Req_dec alt a1) as [->|N1].
  { exists m1. split; [auto|]. intros. field. lra. }
  assert (HG : 0 <= g <= 300000).
  { destruct (Rle_dec 0 g); destruct (Rle_dec g 300000); try lra;
    rewrite load_out_of_range in H0 by lra; discriminate. }
  destruct (rng_exist g HG) as [G1 G2].
  destruct (bracket doc_ranges g incr_rng G1 G2) as [lg [hg [_ [_ T']]]].
  rewrite (load_tight st a0 g h a0 a0 lg hg) in H0 by (auto using tight_node).
  rewrite (load_tight st a1 g h a1 a1 lg hg) in H1 by (auto using tight_node).
  rewrite (load_tight st alt g h a0 a1 lg hg) by (auto; apply tight_cell; auto; lra).
  unfold interp_body in *. rewrite !alt_interp_same in H0, H1. 
  destruct (load_no_interp st a0 lg h) as [p0|] eqn:P0; [|discriminate].
  destruct (load_no_interp st a1 lg h) as [p1|] eqn:P1; [|discriminate].
  unfold alt_atm_interp. rewrite P0, P1. cbn [bind] in *.
  rewrite (proj2 (Reqb_false a0 a1)) by lra. cbn [negb bind].
  destruct (Reqb lg hg) eqn:Q; cbn [negb] in *.
  - injection H0 as <-. injection H1 as <-. eexists; split; [reflexivity|].
    intros i j. unfold blend. field. lra.
  - apply Reqb_false in Q. assert (lg < hg) by (destruct T' as [_ [_ [T3 _]]]; lra).
    destruct (load_no_interp st a0 hg h) as [q0|] eqn:Q0; [|discriminate].
    destruct (load_no_interp st a1 hg h) as [q1|] eqn:Q1; [|discriminate].
    cbn [bind] in *. injection H0 as <-. injection H1 as <-. eexists; split; [reflexivity|].
    intros i j. unfold blend. field. lra.
Qed.

Lemma load_range_affine st alt g0 g1 h m0 m1 g :
  adjacent doc_ranges g0 g1 -> g0 <= g <= g1 ->
  load_interp st alt g0 h = Ok m0 -> load_interp st alt g1 h = Ok m1 ->
  exists m, load_interp st alt g h = Ok m /\
    forall i j, m i j = m0 i j + (g - g0) / (g1 - g0) * (m1 i j - m0 i j).
Proof.
  intros Adj HG H0 H1.
  destruct (Adj) as [I0 [I1 [L _]]].
  destruct (Req_dec g g0) as [->|N0].
  { exists m0. split; [auto|]. intros. field. lra. }
  destruct (Req_dec g g1) as [->|N1].
  { exists m1. split; [auto|]. intros. field. lra. }
  assert (HA : 2 <= alt <= 20000).
  { destruct (Rle_dec 2 alt); destruct (Rle_dec alt 20000); try lra;
    rewrite load_out_of_range in H0 by lra; discriminate. }
  destruct (alt_rng_exist alt HA) as [G1 G2].
  destruct (bracket doc_altitudes alt incr_alt G1 G2) as [la [ha [_ [_ T]]]].
  rewrite (load_tight st alt g0 h la ha g0 g0) in H0 by (auto using tight_node).
  rewrite (load_tight st alt g1 h la ha g1 g1) in H1 by (auto using tight_node).
  rewrite (load_tight st alt g h la ha g0 g1) by (auto; apply tight_cell; auto; lra).
  unfold interp_body in *.
  destruct (alt_atm_interp st la ha alt g0 h) as [p0|] eqn:P0; [|discriminate].
  destruct (alt_atm_interp st la ha alt g1 h) as [p1|] eqn:P1; [|discriminate].
  cbn [bind] in *.
  rewrite (proj2 (Reqb_true g0 g0)) in H0 by auto. rewrite (proj2 (Reqb_true g1 g1)) in H1 by auto.
  cbn [negb] in *. injection H0 as <-. injection H1 as <-.
  rewrite (proj2 (Reqb_false g0 g1)) by lra. cbn [negb bind]. eexists; split; [reflexivity|].
  intros i j. unfold blend. field. lra.
Qed.

Lemma load_alt_nodes st a0 a1 g h alt m :
  adjacent doc_altitudes a0 a1 -> a0 < alt < a1 -> load_interp st alt g h = Ok m ->
  (exists p, load_interp st a0 g h = Ok p) /\ (exists p, load_interp st a1 g h = Ok p).
Proof.
  intros Adj HA H. destruct Adj as [I0 [I1 [L N]]].
  assert (HG : 0 <= g <= 300000).
  { destruct (Rle_dec 0 g); destruct (Rle_dec g 300000); try lra;
    rewrite load_out_of_range in H by lra; discriminate. }
  destruct (rng_exist g HG) as [G1 G2].
  destruct (bracket doc_ranges g incr_rng G1 G2) as [lg [hg [_ [_ T']]]].
  rewrite (load_tight st alt g h a0 a1 lg hg) in H by (first [assumption | apply tight_cell; [split; auto|lra|lra]]).
  rewrite (load_tight st a0 g h a0 a0 lg hg) by (auto using tight_node).
  rewrite (load_tight st a1 g h a1 a1 lg hg) by (auto using tight_node).
  assert (S : exists m, interp_body st a0 a1 lg hg alt g h = Ok m) by eauto.
  apply body_succ in S. destruct S as [S1 S2]. apply alt_interp_succ in S1, S2.
  destruct S1, S2. split; apply body_succ; split; apply alt_interp_succ; auto.
Qed.

Lemma load_range_nodes st g0 g1 alt h g m :
  adjacent doc_ranges g0 g1 -> g0 < g < g1 -> load_interp st alt g h = Ok m ->
  (exists p, load_interp st alt g0 h = Ok p) /\ (exists p, load_interp st alt g1 h = Ok p).
Proof.
  intros Adj HG H. destruct Adj as [I0 [I1 [L N]]].
  assert (HA : 2 <= alt <= 20000).
  { destruct (Rle_dec 2 alt); destruct (Rle_dec alt 20000); try lra;
    rewrite load_out_of_range in H by lra; discriminate. }
  destruct (alt_rng_exist alt HA) as [G1 G2].
  destruct (bracket doc_altitudes alt incr_alt G1 G2) as [la [ha [_ [_ T]]]].
  rewrite (load_tight st alt g h la ha g0 g1) in H by (first [assumption | apply tight_cell; [split; auto|lra|lra]]).
  rewrite (load_tight st alt g0 h la ha g0 g0) by (auto using tight_node).
  rewrite (load_tight st alt g1 h la ha g1 g1) by (auto using tight_node).
  assert (S : exists m, interp_body st la ha g0 g1 alt g h = Ok m) by eauto.
  apply body_succ in S. destruct S as [S1 S2].
  split; apply body_succ; split; auto; apply alt_interp_succ; apply alt_interp_succ in S1, S2; tauto.
Qed.

(* neighbouring nodes around a point *)
Lemma adjacent_around l x : incr l -> (exists y, In y l /\ y <= x) -> (exists z, In z l /\ x < z) ->
  exists a b, adjacent l a b /\ a <= x < b.
Proof.
  induction l as [|c l IH]; intros S [y [Hy Lx]] [z [Hz Gx]]; [destruct Hy|].
  inversion S as [|? ? S' F]; subst. rewrite Forall_forall in F.
  destruct l as [|d l].
  - destruct Hy as [->|[]], Hz as [->|[]]. lra.
  - destruct (Rlt_dec x d) as [L|L].
    + exists c, d. assert (c <= x).
      { destruct Hy as [->|Hy]; [auto|]. specialize (F y Hy). 
        inversion S' as [|? ? S'' F']; subst. rewrite Forall_forall in F'.
        destruct Hy as [->|Hy]; [lra|]. specialize (F' y Hy). lra. }
      split; [|lra]. split; [left; auto|]. split; [right; left; auto|]. split; [lra|].
      inversion S' as [|? ? S'' F']; subst. rewrite Forall_forall in F'.
      intros w [->|[->|Hw]]; [left; lra|right; lra|right]. specialize (F' w Hw). lra.
    + destruct IH as [a [b [[A1 [A2 [A3 A4]]] B]]]; auto.
      * exists d. split; [left; auto|lra].
      * exists z. destruct Hz as [->|Hz]; [|auto].
        assert (z < d) by (apply F; left; auto). lra.
      * exists a, b. split; [|auto]. split; [right; auto|]. split; [right; auto|]. split; [auto|].
        intros w [->|Hw]; [left|auto]. specialize (F a A1). lra.
Qed.

Lemma above_dec l x : (exists z, In z l /\ x < z) \/ (forall z, In z l -> z <= x).
Proof.
  induction l as [|c l IH]; [right; intros z []|].
  destruct (Rlt_dec x c) as [L|L]; [left; exists c; split; [left; auto|auto]|].
  destruct IH as [[z [Hz Lz]]|N]; [left; exists z; split; [right; auto|auto]|].
  right. intros z [->|Hz]; [lra|auto].
Qed.
Lemma below_dec l x : (exists z, In z l /\ z < x) \/ (forall z, In z l -> x <= z).
Proof.
  induction l as [|c l IH]; [right; intros z []|].
  destruct (Rlt_dec c x) as [L|L]; [left; exists c; split; [left; auto|auto]|].
  destruct IH as [[z [Hz Lz]]|N]; [left; exists z; split; [right; auto|auto]|].
  right. intros z [->|Hz]; [lra|auto].
Qed.

Lemma adjacent_around_l l x : incr l -> (exists y, In y l /\ y < x) -> (exists z, In z l /\ x <= z) ->
  exists a b, adjacent l a b /\ a < x <= b.
Proof.
  induction l as [|c l IH]; intros S [y [Hy Lx]] [z [Hz Gx]]; [destruct Hy|].
  inversion S as [|? ? S' F]; subst. rewrite Forall_forall in F.
  destruct l as [|d l].
  - destruct Hy as [->|[]], Hz as [->|[]]. lra.
  - inversion S' as [|? ? S'' F']; subst. rewrite Forall_forall in F'.
    destruct (Rle_dec x d) as [L|L].
    + exists c, d. assert (c < x).
      { destruct Hy as [->|Hy]; [auto|]. specialize (F y Hy). lra. }
      split; [|lra]. split; [left; auto|]. split; [right; left; auto|]. split; [lra|].
      intros w [->|[->|Hw]]; [left; lra|right; lra|right]. specialize (F' w Hw). lra.
    + destruct IH as [a [b [[A1 [A2 [A3 A4]]] B]]]; auto.
      * exists d. split; [left; auto|lra].
      * exists z. destruct Hz as [->|Hz]; [|auto].
        assert (z < d) by (apply F; left; auto). lra.
      * exists a, b. split; [|auto]. split; [right; auto|]. split; [right; auto|]. split; [auto|].
        intros w [->|Hw]; [left|auto]. specialize (F a A1). lra.
Qed.

Section Continuity.
  Variable grid : list R.
  Variable f : R -> res atm.
  Hypothesis Hincr : incr grid.
  Hypothesis Hdom : forall x m, f x = Ok m -> (exists y, In y grid /\ y <= x) /\ (exists z, In z grid /\ x <= z).
  Hypothesis Haff : forall a b x m0 m1, adjacent grid a b -> a <= x <= b -> f a = Ok m0 -> f b = Ok m1 ->
    exists m, f x = Ok m /\ forall i j, m i j = m0 i j + (x - a) / (b - a) * (m1 i j - m0 i j).
  Hypothesis Hnodes : forall a b x m, adjacent grid a b -> a < x < b -> f x = Ok m ->
    (exists p, f a = Ok p) /\ (exists p, f b = Ok p).

  Lemma cell_lip a b i j : adjacent grid a b -> exists K, 0 < K /\ forall x y mx my,
    a <= x <= b -> a <= y <= b -> (a < x < b \/ a < y < b) -> f x = Ok mx -> f y = Ok my ->
    Rabs (mx i j - my i j) <= K * Rabs (x - y).
  Proof.
    intros Adj. destruct (f a) as [p0|] eqn:E0; [destruct (f b) as [p1|] eqn:E1|].
    - exists (Rabs ((p1 i j - p0 i j) / (b - a)) + 1). split; [pose proof (Rabs_pos ((p1 i j - p0 i j) / (b - a))); lra|].
      intros x y mx my Hx Hy _ Ex Ey.
      destruct (Haff a b x p0 p1 Adj Hx E0 E1) as [m [F1 F2]]. rewrite Ex in F1. injection F1 as <-.
      destruct (Haff a b y p0 p1 Adj Hy E0 E1) as [m [G1 G2]]. rewrite Ey in G1. injection G1 as <-.
      rewrite F2, G2. destruct Adj as [_ [_ [L _]]].
      replace (p0 i j + (x - a) / (b - a) * (p1 i j - p0 i j) - (p0 i j + (y - a) / (b - a) * (p1 i j - p0 i j)))
        with ((p1 i j - p0 i j) / (b - a) * (x - y)) by (field; lra).
      rewrite Rabs_mult. apply Rmult_le_compat_r; [apply Rabs_pos|]. lra.
    - exists 1. split; [lra|]. intros x y mx my Hx Hy [H|H] Ex Ey;
      [destruct (Hnodes a b x mx Adj H Ex) as [_ [p P]]|destruct (Hnodes a b y my Adj H Ey) as [_ [p P]]]; congruence.
    - exists 1. split; [lra|]. intros x y mx my Hx Hy [H|H] Ex Ey;
      [destruct (Hnodes a b x mx Adj H Ex) as [[p P] _]|destruct (Hnodes a b y my Adj H Ey) as [[p P] _]]; congruence.
  Qed.

  Lemma cont_right x i j : exists K d, 0 < K /\ 0 < d /\ forall y mx my, x <= y < x + d ->
    f x = Ok mx -> f y = Ok my -> Rabs (my i j - mx i j) <= K * Rabs (y - x).
  Proof.
    destruct (f x) as [m|] eqn:E.
    2:{ exists 1, 1. split; [lra|split; [lra|]]. intros; discriminate. }
    destruct (Hdom x m E) as [D1 _].
    assert (Same : forall mx my, f x = Ok mx -> f x = Ok my -> mx i j = my i j) by (intros; congruence).
    destruct (above_dec grid x) as [U|N].
    - destruct (adjacent_around grid x Hincr D1 U) as [a [b [Adj B]]].
      destruct (cell_lip a b i j Adj) as [K [HK P]].
      exists K, (b - x). split; [auto|split; [lra|]]. intros y mx my Hy Ex Ey.
      destruct (Req_dec y x) as [->|N].
      + rewrite (Same mx my) by congruence. unfold Rminus. rewrite !Rplus_opp_r, Rabs_R0. lra.
      + apply P; auto; try lra. congruence.
    - exists 1, 1. split; [lra|split; [lra|]]. intros y mx my Hy Ex Ey.
      destruct (Hdom y my Ey) as [_ [w [Hw Gw]]]. specialize (N w Hw).
      assert (y = x) by lra. subst y. rewrite (Same mx my) by congruence.
      unfold Rminus. rewrite !Rplus_opp_r, Rabs_R0. lra.
  Qed.

  Lemma cont_left x i j : exists K d, 0 < K /\ 0 < d /\ forall y mx my, x - d < y <= x ->
    f x = Ok mx -> f y = Ok my -> Rabs (my i j - mx i j) <= K * Rabs (y - x).
  Proof.
    destruct (f x) as [m|] eqn:E.
    2:{ exists 1, 1. split; [lra|split; [lra|]]. intros; discriminate. }
    destruct (Hdom x m E) as [_ D2].
    assert (Same : forall mx my, f x = Ok mx -> f x = Ok my -> mx i j = my i j) by (intros; congruence).
    destruct (below_dec grid x) as [U|N].
    - destruct (adjacent_around_l grid x Hincr U D2) as [a [b [Adj B]]].
      destruct (cell_lip a b i j Adj) as [K [HK P]].
      exists K, (x - a). split; [auto|split; [lra|]]. intros y mx my Hy Ex Ey.
      destruct (Req_dec y x) as [->|N].
      + rewrite (Same mx my) by congruence. unfold Rminus. rewrite !Rplus_opp_r, Rabs_R0. lra.
      + apply P; auto; try lra. congruence.
    - exists 1, 1. split; [lra|split; [lra|]]. intros y mx my Hy Ex Ey.
      destruct (Hdom y my Ey) as [[w [Hw Gw]] _]. specialize (N w Hw).
      assert (y = x) by lra. subst y. rewrite (Same mx my) by congruence.
      unfold Rminus. rewrite !Rplus_opp_r, Rabs_R0. lra.
  Qed.

  Lemma cont_both x i j eps : 0 < eps -> exists d, 0 < d /\ forall y mx my, Rabs (y - x) < d ->
    f x = Ok mx -> f y = Ok my -> Rabs (my i j - mx i j) < eps.
  Proof.
    intros He. destruct (cont_right x i j) as [K [d [HK [Hd P]]]].
    destruct (cont_left x i j) as [K' [d' [HK' [Hd' P']]]].
    assert (E1 : 0 < eps / K) by (now apply Rdiv_lt_0_compat).
    assert (E2 : 0 < eps / K') by (now apply Rdiv_lt_0_compat).
    exists (Rmin (Rmin d d') (Rmin (eps / K) (eps / K'))).
    split; [repeat apply Rmin_glb_lt; auto|].
    intros y mx my Hy Ex Ey.
    pose proof (Rmin_l (Rmin d d') (Rmin (eps / K) (eps / K'))).
    pose proof (Rmin_r (Rmin d d') (Rmin (eps / K) (eps / K'))).
    pose proof (Rmin_l d d'). pose proof (Rmin_r d d').
    pose proof (Rmin_l (eps / K) (eps / K')). pose proof (Rmin_r (eps / K) (eps / K')).
    assert (Hy' := Hy). apply Rabs_def2 in Hy'.
    destruct (Rle_dec x y) as [L|L].
    - eapply Rle_lt_trans; [apply P; eauto; lra|].
      replace eps with (K * (eps / K)) by (field; lra). apply Rmult_lt_compat_l; lra.
    - eapply Rle_lt_trans; [apply P'; eauto; lra|].
      replace eps with (K' * (eps / K')) by (field; lra). apply Rmult_lt_compat_l; lra.
  Qed.
End Continuity.

Lemma load_dom_alt st alt g h m : load_interp st alt g h = Ok m -> 2 <= alt <= 20000.
Proof.
  intros H. destruct (Rle_dec 2 alt); destruct (Rle_dec alt 20000); try lra;
  rewrite load_out_of_range in H by lra; discriminate.
Qed.
Lemma load_dom_range st alt g h m : load_interp st alt g h = Ok m -> 0 <= g <= 300000.
Proof.
  intros H. destruct (Rle_dec 0 g); destruct (Rle_dec g 300000); try lra;
  rewrite load_out_of_range in H by lra; discriminate.
Qed.

Lemma load_continuous_alt st g h x i j eps : 0 < eps -> exists d, 0 < d /\ forall y mx my,
  Rabs (y - x) < d -> load_interp st x g h = Ok mx -> load_interp st y g h = Ok my ->
  Rabs (my i j - mx i j) < eps.
Proof.
  apply (cont_both doc_altitudes (fun a => load_interp st a g h)).
  - exact incr_alt.
  - intros y m H. apply alt_rng_exist. eapply load_dom_alt; eauto.
  - intros. eapply load_alt_affine; eauto.
  - intros. eapply load_alt_nodes; eauto.
Qed.
Lemma load_continuous_range st alt h x i j eps : 0 < eps -> exists d, 0 < d /\ forall y mx my,
  Rabs (y - x) < d -> load_interp st alt x h = Ok mx -> load_interp st alt y h = Ok my ->
  Rabs (my i j - mx i j) < eps.
Proof.
  apply (cont_both doc_ranges (fun g => load_interp st alt g h)).
  - exact incr_rng.
  - intros y m H. apply rng_exist. eapply load_dom_range; eauto.
  - intros. eapply load_range_affine; eauto.
  - intros. eapply load_range_nodes; eauto.
Qed.

(* transmission *)
Lemma load_transmission st alt g h m i : load_interp st alt g h = Ok m ->
  (forall k d, stored st k d -> 0 <= d i 0%nat <= 1) -> 0 <= m i 1%nat <= 1.
Proof.
  intros H B. eapply load_entry_bounds; [exact H|].
  intros a r mm Hm. apply no_interp_ok_iff in Hm. destruct Hm as [k [d [_ [D ->]]]]. simpl. eauto.
Qed.
Lemma load_radiance_nonneg st alt g h m i j : load_interp st alt g h = Ok m -> (2 <= j <= 5)%nat ->
  (forall k d, stored st k d -> 0 <= d i (j - 1)%nat) -> 0 <= m i j.
Proof.
  intros H Hj B. destruct (load_is_bilinear _ _ _ _ _ H)
    as [la [ha [lg [hg [t [u [m00 [m10 [m01 [m11 [_ [_ [[Wt _] [[Wu _] [K00 [K10 [K01 [K11 E]]]]]]]]]]]]]]]]]].
  assert (P : forall a r mm, load_no_interp st a r h = Ok mm -> 0 <= mm i j).
  { intros a r mm Hm. apply no_interp_ok_iff in Hm. destruct Hm as [k [d [_ [D ->]]]].
    specialize (B k d D). destruct j as [|[|j]]; try lia. simpl in *.
    apply Rmult_le_pos; [exact B|]. apply Rlt_le, Rinv_0_lt_compat, Rinv_0_lt_compat. lra. }
  rewrite E. pose proof (P _ _ _ K00). pose proof (P _ _ _ K10). pose proof (P _ _ _ K01). pose proof (P _ _ _ K11).
  apply Rplus_le_le_0_compat; apply Rmult_le_pos; try lra;
  apply Rplus_le_le_0_compat; apply Rmult_le_pos; lra.
Qed.

Definition row_eqb (x y : row) : bool :=
  let '(i, a, g, h) := x in let '(i', a', g', h') := y in
  ((i =? i') && (a =? a') && (g =? g') && (h =? h'))%Z.
Lemma in_decoder r : existsb (row_eqb r) decoder = true -> In r decoder.
Proof.
  intros H. apply existsb_exists in H. destruct H as (x & I & E).
  destruct r as [[[i a] g] h], x as [[[i' a'] g'] h']. simpl in E. rewrite !andb_true_iff, !Z.eqb_eq in E.
  destruct E as [[[-> ->] ->] ->]. exact I.
Qed.

(* a directory in which every file holds the same number throughout *)
Definition uniform_files (x : R) : store := fun _ => Some {| file_size := 6855; file_value := fun _ => x |}.
Lemma uniform_stored x i : stored (uniform_files x) i (fun _ _ => x).
Proof. exists {| file_size := 6855; file_value := fun _ => x |}. repeat split. Qed.
Lemma uniform_complete x : complete (uniform_files x).
Proof. intros i a g h _. eexists. apply uniform_stored. Qed.

Lemma every_altitude_refuted :
  ~ (forall st alt, complete st ->
       2 <= alt <= 20000 -> exists m, load_interp st alt 0 1 = Ok m).
Proof.
  intros H. destruct (H (uniform_files 0) 50) as [m E]; [apply uniform_complete|lra|].
  destruct (load_gap (uniform_files 0) 50 0 1 ltac:(lra)) as [X|[X _]]; rewrite X in E; discriminate.
Qed.
