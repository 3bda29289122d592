(** * Proof_Horizon: lemmas for the coverage of the atmosphere database. *)
From Coq Require Import Reals ZArith List Bool Lra Lia.
From Verif Require Import Base_XR Base_Np Spec_Geo Model_DbTable Model_Db Spec_Db Proof_Db Spec_Horizon Num_Horizon.
Import ListNotations.
Open Scope R_scope.

Lemma height_nonneg p : 0 <= height earth_radius p <-> earth_radius * earth_radius <= dot p p.
Proof.
  unfold height, norm. assert (P : 0 <= dot p p) by (unfold dot; nra).
  assert (E : 0 < earth_radius) by (unfold earth_radius; lra).
  pose proof (sqrt_pos (dot p p)). pose proof (sqrt_sqrt _ P). split; intros; nra.
Qed.
Lemma segment_dot h g f :
  dot (along (above earth_radius 0 (g / earth_radius)) (on_axis earth_radius h) f)
      (along (above earth_radius 0 (g / earth_radius)) (on_axis earth_radius h) f)
  = earth_radius * earth_radius + f * (f * ((earth_radius + h) * (earth_radius + h) - earth_radius * earth_radius)
      + (1 - f) * (2 * earth_radius * ((earth_radius + h) * cos (g / earth_radius) - earth_radius))).
Proof.
  unfold dot, along, above, on_axis. cbn [fst snd].
  set (t := g / earth_radius). pose proof (sin2_cos2 t) as S. unfold Rsqr in S.
  set (s := sin t) in *. set (c := cos t) in *. set (r := earth_radius) in *.
  transitivity ((1 - f) * (1 - f) * (r * r) * (s * s) + (r * c + f * (r + h - r * c)) * (r * c + f * (r + h - r * c))); [ring|].
  replace (s * s) with (1 - c * c) by lra. ring.
Qed.
Lemma in_sight_iff h g : 0 <= h -> (in_sight h g <-> earth_radius <= (earth_radius + h) * cos (g / earth_radius)).
Proof.
  intros Hh. assert (E : 0 < earth_radius) by (unfold earth_radius; lra).
  set (u := (earth_radius + h) * cos (g / earth_radius) - earth_radius).
  set (w := (earth_radius + h) * (earth_radius + h) - earth_radius * earth_radius).
  assert (W : 0 <= w) by (unfold w; nra).
  unfold in_sight. split.
  - intros H. destruct (Rle_dec 0 u) as [|N]; [unfold u in *; lra|]. exfalso.
    assert (Hd : 0 < w - 2 * earth_radius * u) by nra.
    set (f := - (earth_radius * u) / (w - 2 * earth_radius * u)).
    assert (F : f * (w - 2 * earth_radius * u) = - (earth_radius * u)) by (unfold f; field; lra).
    assert (F0 : 0 < f) by (apply Rmult_lt_reg_r with (w - 2 * earth_radius * u); [lra|]; rewrite F; nra).
    assert (F1 : f <= 1) by (apply Rmult_le_reg_r with (w - 2 * earth_radius * u); [lra|]; rewrite F; nra).
    specialize (H f (conj (Rlt_le _ _ F0) F1)). apply height_nonneg in H. rewrite segment_dot in H.
    fold u w in H. 
    assert (f * w + (1 - f) * (2 * earth_radius * u) = earth_radius * u).
    { transitivity (f * (w - 2 * earth_radius * u) + 2 * (earth_radius * u)); [ring|]. rewrite F. ring. }
    rewrite H0 in H. assert (earth_radius * u < 0) by nra. nra.
  - intros H f [F0 F1]. apply height_nonneg. rewrite segment_dot. fold u w.
    assert (0 <= u) by (unfold u; lra).
    assert (0 <= f * w) by nra. assert (0 <= (1 - f) * (2 * earth_radius * u)).
    { apply Rmult_le_pos; [lra|]. apply Rmult_le_pos; lra. }
    assert (0 <= f * (f * w + (1 - f) * (2 * earth_radius * u))) by (apply Rmult_le_pos; lra). lra.
Qed.
Lemma range_angle g : 0 <= g <= 300000 -> 0 <= g / earth_radius <= PI.
Proof.
  intros [A B]. pose proof PI2_1. unfold earth_radius. split; [apply Rmult_le_pos; [lra|]; apply Rlt_le, Rinv_0_lt_compat; lra|].
  apply Rle_trans with 1; [|lra]. apply Rmult_le_reg_r with 6378164; [lra|]. field_simplify; lra.
Qed.
Lemma in_sight_mono h g h' g' : 0 <= h <= h' -> 0 <= g' <= g -> g <= 300000 -> in_sight h g -> in_sight h' g'.
Proof.
  intros Hh Hg G. rewrite !in_sight_iff by lra. intros S.
  assert (E : 0 < earth_radius) by (unfold earth_radius; lra).
  destruct (range_angle g ltac:(lra)) as [A B]. destruct (range_angle g' ltac:(lra)) as [A' B'].
  assert (C : cos (g / earth_radius) <= cos (g' / earth_radius)).
  { apply cos_decr_1; try lra. unfold Rdiv. apply Rmult_le_compat_r; [|lra]. apply Rlt_le, Rinv_0_lt_compat, E. }
  assert (0 < cos (g / earth_radius)) by nra. nra.
Qed.

(* the decoder against the table *)
Definition after (n : option Z) (g : Z) : bool := match n with Some n => (n <=? g)%Z | None => false end.
Definition coded (a g h : Z) : bool := existsb (key a g h) decoder.
Definition check_entry (p : Z * Z * option Z) (g : Z) : bool :=
  ((g <=? snd (fst p))%Z || after (snd p) g) &&
  (Bool.eqb (coded (fst (fst p)) g 1) (g <=? snd (fst p))%Z && Bool.eqb (coded (fst (fst p)) g 2) (g <=? snd (fst p))%Z).
Lemma check_horizon_ok : forallb (fun p => forallb (check_entry p) zranges) zhorizon = true.
Proof. vm_compute. reflexivity. Qed.
Lemma check_at p g : In p zhorizon -> In g zranges -> check_entry p g = true.
Proof.
  intros I J. exact (proj1 (forallb_forall _ _) (proj1 (forallb_forall _ _) check_horizon_ok p I) g J).
Qed.
Lemma coded_at a m n g h : In (a, m, n) zhorizon -> In g zranges -> (h = 1 \/ h = 2)%Z ->
  coded a g h = (g <=? m)%Z /\ ((g <= m)%Z \/ exists n', n = Some n' /\ (n' <= g)%Z).
Proof.
  intros I J Hh. pose proof (check_at _ _ I J) as K. unfold check_entry in K. cbn [fst snd] in K.
  apply andb_true_iff in K. destruct K as [K1 K2]. apply andb_true_iff in K2. destruct K2 as [K2 K3].
  apply eqb_prop in K2. apply eqb_prop in K3. split; [destruct Hh as [-> | ->]; assumption|].
  apply orb_true_iff in K1. destruct K1 as [K1|K1]; [left; apply Z.leb_le, K1|right].
  destruct n as [n|]; [|discriminate K1]. exists n. split; [reflexivity|apply Z.leb_le, K1].
Qed.
Lemma readme_z a : In a readme_altitudes -> exists za m n, In (za, m, n) zhorizon /\ a = IZR za / 10.
Proof.
  intros H. unfold readme_altitudes in H. simpl in H.
  repeat (destruct H as [<-|H];
    [match goal with |- exists za m n, _ /\ ?x = _ =>
       let t := constr:(x) in
       first [ match t with IZR ?z => let v := eval vm_compute in (10 * z)%Z in exists v end | exists 325%Z ] end;
     do 2 eexists; split; [simpl; repeat first [left; reflexivity|right]|lra]|]).
  destruct H.
Qed.
Lemma horizon_pos a m n : In (a, m, n) zhorizon -> (0 <= a)%Z.
Proof. intros H. unfold zhorizon in H. simpl in H. repeat (destruct H as [H|H]; [injection H as <- <- <-; lia|]). destruct H. Qed.
Lemma stored_to_horizon st alt g h : all_files st -> In alt readme_altitudes -> In g doc_ranges -> (h = 1 \/ h = 2)%Z ->
  ((exists m, load_no_interp st alt g h = Ok m) <-> in_sight alt g).
Proof.
  intros F HA HG Hh. rewrite no_interp_some by exact F.
  destruct (readme_z alt HA) as (za & m & n & I & ->).
  unfold doc_ranges in HG. apply in_map_iff in HG. destruct HG as [zg [<- Ig]].
  pose proof (horizon_pos _ _ _ I) as Pa. apply IZR_le in Pa.
  destruct (zranges_bound _ Ig) as [G0 G1]. apply IZR_le in G0. apply IZR_le in G1.
  rewrite <- key_listed, in_sight_iff by lra.
  destruct (coded_at _ _ _ _ h I Ig Hh) as [K2 K1]. change (existsb (key za zg h) decoder) with (coded za zg h).
  rewrite K2.
  destruct (range_angle (IZR zg) ltac:(lra)) as [A B].
  assert (E : 0 < earth_radius) by (unfold earth_radius; lra).
  assert (M : forall x y, 0 <= x <= y -> y <= 300000 -> cos (y / earth_radius) <= cos (x / earth_radius)).
  { intros x y Hx Hy. destruct (range_angle x ltac:(lra)). destruct (range_angle y ltac:(lra)).
    apply cos_decr_1; try lra. unfold Rdiv. apply Rmult_le_compat_r; [|lra]. apply Rlt_le, Rinv_0_lt_compat, E. }
  destruct (Z.leb_spec zg m) as [L|L].
  - split; [intros _|auto]. pose proof (horizon_before _ _ _ I) as N. fold earth_radius in N.
    change 6378164 with earth_radius in N.
    assert (IZR m <= 300000). { unfold zhorizon in I. simpl in I. clear -I.
      repeat (destruct I as [I|I]; [injection I as <- <- <-; lra|]). destruct I. }
    apply IZR_le in L. specialize (M (IZR zg) (IZR m) ltac:(lra) ltac:(lra)). nra.
  - split; [discriminate|]. intros S. exfalso. destruct K1 as [K1|(n' & -> & K1)]; [lia|]. rename n' into n.
    apply IZR_le in K1. pose proof (horizon_behind _ _ _ I) as N.
    change 6378164 with earth_radius in N.
    assert (0 <= IZR n). { unfold zhorizon in I. simpl in I. clear -I.
      repeat (destruct I as [I|I]; [first [discriminate I|injection I as <- <- <-; lra]|]). destruct I. }
    specialize (M (IZR n) (IZR zg) ltac:(lra) ltac:(lra)). nra.
Qed.

Lemma doc_readme a : In a doc_altitudes -> a <> 32.55 -> In a readme_altitudes.
Proof.
  intros H N. unfold doc_altitudes in H. unfold readme_altitudes. simpl in *. 
  destruct H as [H|[H|H]]; [left; exact H|congruence|tauto].
Qed.
Lemma doc_range_bound g : In g doc_ranges -> 0 <= g <= 300000.
Proof.
  intros HG. apply in_map_iff in HG. destruct HG as [zg [<- Ig]].
  destruct (zranges_bound _ Ig) as [G0 G1]. apply IZR_le in G0. apply IZR_le in G1. lra.
Qed.
Lemma node_in_sight st a g h m : In a doc_altitudes -> In g doc_ranges -> load_no_interp st a g h = Ok m -> in_sight a g.
Proof.
  intros HA HG E. assert (N : a <> 32.55). { intros ->. rewrite load_3255 in E. discriminate. }
  apply no_interp_ok_iff in E. destruct E as (i & d & L & _).
  apply (stored_to_horizon (uniform_files 0) a g h);
    [apply uniform_complete|apply doc_readme; assumption|assumption|eapply listed_haze; exact L|].
  apply no_interp_some; [apply uniform_complete|eauto].
Qed.
Lemma alt_pos a : In a doc_altitudes -> 0 < a.
Proof. intros H. unfold doc_altitudes in H. simpl in H. repeat (destruct H as [<-|H]; [lra|]). destruct H. Qed.
Lemma interp_in_sight st alt g h m : load_interp st alt g h = Ok m -> in_sight alt g.
Proof.
  intros E. pose proof (load_dom_range _ _ _ _ _ E) as G.
  destruct (load_is_bilinear _ _ _ _ _ E) as (la & ha & lg & hg & t & u & m00 & m10 & m01 & m11 & TA & TG & _ & _ & _ & _ & L & _).
  destruct TA as (IA & _ & BA & _). destruct TG as (_ & IG & BG & _).
  pose proof (node_in_sight _ _ _ _ _ IA IG L) as S. pose proof (alt_pos _ IA). pose proof (doc_range_bound _ IG).
  revert S. apply in_sight_mono; lra.
Qed.

Lemma alt_interp_cases st la ha alt g h :
  (exists m, alt_atm_interp st la ha alt g h = Ok m) \/ alt_atm_interp st la ha alt g h = Err IndexError \/
  alt_atm_interp st la ha alt g h = Err ValueError /\ ~ intact st.
Proof.
  assert (D : forall a, (exists i f, listed i a g h /\ st i = Some f /\ file_size f <> 6855%nat) -> ~ intact st).
  { intros a (i & f & _ & F & N) I. apply I in F. contradiction. }
  unfold alt_atm_interp. destruct (no_interp_cases st la g h) as [[m ->]|[-> |[-> F]]]; [|right; left; reflexivity|right; right; eauto]. cbn [bind].
  destruct (negb (Reqb la ha)); [|eauto]. destruct (no_interp_cases st ha g h) as [[m' ->]|[-> |[-> F]]]; [|right; left; reflexivity|right; right; eauto].
  cbn [bind]. eauto.
Qed.
Lemma interp_cases st alt g h :
  (exists m, load_interp st alt g h = Ok m) \/ load_interp st alt g h = Err IndexError \/
  load_interp st alt g h = Err ValueError /\ ~ intact st.
Proof.
  destruct (Rle_dec 2 alt); [|right; left; apply load_out_of_range; lra].
  destruct (Rle_dec alt 20000); [|right; left; apply load_out_of_range; lra].
  destruct (Rle_dec 0 g); [|right; left; apply load_out_of_range; lra].
  destruct (Rle_dec g 300000); [|right; left; apply load_out_of_range; lra].
  destruct (load_in_range st alt g h) as (la & ha & lg & hg & _ & _ & E); [lra|lra|]. rewrite E. unfold interp_body.
  destruct (alt_interp_cases st la ha alt lg h) as [[m ->]|[-> |[-> F]]]; [|right; left; reflexivity|right; right; auto]. cbn [bind].
  destruct (negb (Reqb lg hg)); [|eauto]. destruct (alt_interp_cases st la ha alt hg h) as [[m' ->]|[-> |[-> F]]]; [|right; left; reflexivity|right; right; auto].
  cbn [bind]. eauto.
Qed.
Lemma sight_2500 : in_sight 2500 159000.
Proof.
  apply (in_sight_mono 2000 159500); try lra. apply in_sight_iff; [lra|]. unfold earth_radius. apply Rlt_le, sight_2000.
Qed.
Lemma rejected_2500 st : load_interp st 2500 159000 1 = Err IndexError \/
  load_interp st 2500 159000 1 = Err ValueError /\ ~ intact st.
Proof.
  destruct (interp_cases st 2500 159000 1) as [[m E]|E]; [exfalso|exact E].
  destruct (load_is_bilinear _ _ _ _ _ E) as (la & ha & lg & hg & t & u & m00 & m10 & m01 & m11 & TA & TG & _ & _ & _ & _ & L & _).
  assert (A : tight doc_altitudes 2500 2000 3000).
  { apply tight_cell; [|lra|lra]. unfold adjacent. repeat split; try (unfold doc_altitudes; simpl; tauto); try lra.
    intros y H. unfold doc_altitudes in H. simpl in H. repeat (destruct H as [<-|H]; [lra|]). destruct H. }
  assert (B : tight doc_ranges 159000 155000 160000).
  { apply tight_cell; [|lra|lra]. unfold adjacent.
    split; [exact (in_doc_range 155000 eq_refl)|]. split; [exact (in_doc_range 160000 eq_refl)|]. split; [lra|].
    intros y H. apply in_map_iff in H. destruct H as (z & <- & I).
    assert (F : forallb (fun z => (z <=? 155000)%Z || (160000 <=? z)%Z) zranges = true) by (vm_compute; reflexivity).
    rewrite forallb_forall in F. specialize (F _ I). apply orb_true_iff in F. rewrite !Z.leb_le in F.
    destruct F as [F|F]; apply IZR_le in F; lra. }
  destruct (tight_unique _ _ _ _ _ _ TA A) as [-> ->]. destruct (tight_unique _ _ _ _ _ _ TG B) as [-> ->].
  assert (S : in_sight 2000 160000).
  { apply (node_in_sight st 2000 160000 1%Z m01); [unfold doc_altitudes; simpl; tauto|exact (in_doc_range 160000 eq_refl)|exact L]. }
  apply in_sight_iff in S; [|lra]. pose proof (horizon_behind 20000 155000 160000 ltac:(unfold zhorizon; simpl; tauto)) as N.
  unfold earth_radius in S. replace (IZR 20000 / 10) with 2000 in N by lra. lra.
Qed.
(* the look from space *)
Definition check_space : bool := forallb (fun '(_, a, g, _) => negb (a =? 5000000)%Z && (negb (a =? 5500000)%Z || (g =? 0)%Z)) decoder.
Lemma check_space_ok : check_space = true.
Proof. vm_compute. reflexivity. Qed.
Lemma unlisted_space i g h : ~ listed i 500000 g h.
Proof.
  intros (a & g' & I & A & _). pose proof check_space_ok as F. unfold check_space in F. rewrite forallb_forall in F.
  specialize (F _ I). cbv beta iota in F. assert (a = 5000000)%Z by (apply eq_IZR; lra). subst. discriminate.
Qed.
Lemma space_500 st g h : load_no_interp st 500000 g h = Err IndexError.
Proof.
  apply no_interp_unlisted. intros i. apply unlisted_space.
Qed.
Lemma space_550 st g h : all_files st ->
  ((exists m, load_no_interp st 550000 g h = Ok m) <-> g = 0 /\ (h = 1 \/ h = 2)%Z).
Proof.
  intros F. rewrite no_interp_some by exact F. split.
  - intros [i L]. split; [|eapply listed_haze; exact L]. destruct L as (a & g' & I & A & ->).
    pose proof check_space_ok as K. unfold check_space in K. rewrite forallb_forall in K.
    specialize (K _ I). cbv beta iota in K. assert (a = 5500000)%Z by (apply eq_IZR; lra). subst.
    simpl in K. apply Z.eqb_eq in K. subst. reflexivity.
  - intros [-> Hh]. replace 550000 with (IZR 5500000 / 10) by lra. change 0 with (IZR 0). rewrite <- key_listed.
    destruct Hh as [-> | ->]; vm_compute; reflexivity.
Qed.
Lemma horizon_distance h g : 0 <= h -> 0 <= g <= earth_radius * PI ->
  (in_sight h g <-> g <= earth_radius * acos (earth_radius / (earth_radius + h))).
Proof.
  intros Hh Hg. rewrite in_sight_iff by exact Hh. assert (E : 0 < earth_radius) by (unfold earth_radius; lra).
  set (q := earth_radius / (earth_radius + h)).
  assert (Q : q * (earth_radius + h) = earth_radius) by (unfold q; field; lra).
  assert (Q1 : -1 <= q <= 1). { assert (0 < q) by (unfold q; apply Rdiv_lt_0_compat; lra). split; [lra|]. nra. }
  assert (T : 0 <= g / earth_radius <= PI).
  { split; [apply Rmult_le_pos; [lra|apply Rlt_le, Rinv_0_lt_compat, E]|].
    apply Rmult_le_reg_l with earth_radius; [exact E|]. replace (earth_radius * (g / earth_radius)) with g by (field; lra). lra. }
  pose proof (acos_bound q) as AB. pose proof (cos_acos q Q1) as CA.
  assert (G : g = earth_radius * (g / earth_radius)) by (field; lra).
  split; intros H.
  - rewrite G. apply Rmult_le_compat_l; [lra|]. apply cos_decr_0; try lra. rewrite CA. nra.
  - assert (g / earth_radius <= acos q). { apply Rmult_le_reg_l with earth_radius; [exact E|]. rewrite <- G. exact H. }
    assert (C : cos (acos q) <= cos (g / earth_radius)) by (apply cos_decr_1; lra). rewrite CA in C. nra.
Qed.
Lemma in_sight_suffices_refuted :
  ~ (forall st alt g, complete st ->
       75 <= alt <= 20000 -> 0 <= g <= 300000 -> in_sight alt g -> exists m, load_interp st alt g 1 = Ok m).
Proof.
  intros H. destruct (H (uniform_files 0) 2500 159000) as [m E];
    [apply uniform_complete|lra|lra|exact sight_2500|].
  destruct (rejected_2500 (uniform_files 0)) as [X|[X _]]; rewrite X in E; discriminate.
Qed.
