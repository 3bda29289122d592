(** * Proof_Defaults: argument binding of Scenario. *)
From Coq Require Import Reals ZArith List Bool Lra Lia.
From Flocq Require Import Core.Raux.
From Verif Require Import Base_XR Model_Db Model_Scenario Spec_Scenario Proof_Scenario Proof_Store Model_Defaults Spec_Defaults.
Import ListNotations.
Open Scope R_scope.

Lemma slot_eqb_iff s t : slot_eqb s t = true <-> s = t.
Proof. destruct s as [[]|], t as [[]|]; simpl; split; congruence. Qed.
Lemma lookup_in s l a : lookup s l = Some a -> In (s, a) l.
Proof.
  induction l as [|[t b] l IH]; simpl; [discriminate|]. destruct (slot_eqb s t) eqn:E.
  - apply slot_eqb_iff in E. subst. intros [= ->]. now left.
  - intros H. right. auto.
Qed.
Lemma in_lookup s l a : once l -> In (s, a) l -> lookup s l = Some a.
Proof.
  unfold once. induction l as [|[t b] l IH]; simpl; [tauto|]. intros N. inversion N; subst. intros [E|H].
  - injection E as -> ->. rewrite (proj2 (slot_eqb_iff s s) eq_refl). reflexivity.
  - destruct (slot_eqb s t) eqn:E; [|auto]. apply slot_eqb_iff in E. subst.
    exfalso. apply H1. exact (in_map fst _ _ H).
Qed.
Lemma lookup_none s l : lookup s l = None <-> ~ In s (map fst l).
Proof.
  induction l as [|[t b] l IH]; simpl; [tauto|]. destruct (slot_eqb s t) eqn:E.
  - apply slot_eqb_iff in E. subst. split; [discriminate|tauto].
  - assert (s <> t) by (intros ->; rewrite (proj2 (slot_eqb_iff t t) eq_refl) in E; discriminate).
    rewrite IH. split; [intros H' [G|G]; [congruence|tauto]|tauto].
Qed.

Definition chosen (pos : list arg) (kw : list (slot * arg)) (s : slot) (d : arg) : arg :=
  match nth_error pos (position s) with
  | Some v => v
  | None => match lookup s kw with Some v => v | None => d end
  end.
Definition default_of (s : slot) : arg := match s with Plain a => Num (documented a) | Interp => Flag false end.

Lemma lookup_free pos kw s : disjoint pos kw -> (position s < length pos)%nat -> lookup s kw = None.
Proof.
  intros D L. apply lookup_none. intros I. apply in_map_iff in I. destruct I as ([t v] & E & I).
  simpl in E. subst. specialize (D _ _ I). lia.
Qed.
Lemma bind_ok pos kw : (length pos <= 8)%nat -> disjoint pos kw ->
  exists l, bind_args signature pos kw = Ok l /\ forall s, bound l s = chosen pos kw s (bound signature s).
Proof.
  intros L D. pose proof (fun s => lookup_free pos kw s D) as F.
  do 9 (destruct pos as [|? pos]; [unfold signature; cbn [bind_args];
    repeat match goal with |- context [lookup ?s kw] => rewrite (F s) by (simpl; lia) end; eexists; split; [reflexivity|];
    intros [[]|]; reflexivity|]). simpl in L. lia.
Qed.
Lemma bind_err pos kw : (8 < length pos)%nat \/ (exists s v, In (s, v) kw /\ (position s < length pos)%nat) ->
  bind_args signature pos kw = Err TypeError.
Proof.
  intros H.
  assert (G : (8 < length pos)%nat \/ exists s v, lookup s kw = Some v /\ (position s < length pos)%nat).
  { destruct H as [H|(s & v & I & H)]; [now left|right]. destruct (lookup s kw) as [w|] eqn:E; [now exists s, w|].
    apply lookup_none in E. exfalso. apply E. exact (in_map fst _ _ I). }
  clear H.
  unfold signature.
  do 8 (destruct pos as [|? pos]; [destruct G as [G|([[]|] & v & K & G)]; simpl in G; try lia;
    cbn [bind_args]; repeat (match goal with |- context [lookup ?s kw] => destruct (lookup s kw) eqn:?; cbn end); congruence|]).
  cbn [bind_args]. repeat (match goal with |- context [lookup ?s kw] => destruct (lookup s kw) eqn:?; cbn end); try reflexivity.
  destruct pos; cbn; [|reflexivity]. destruct G as [G|([[]|] & v & K & G)]; simpl in G; try lia; congruence.
Qed.
Lemma default_value a : as_number (bound signature (Plain a)) = documented a.
Proof. destruct a; simpl; lra. Qed.

Lemma chosen_wrote pos kw s v d : once kw -> disjoint pos kw -> wrote pos kw s v -> chosen pos kw s d = v.
Proof.
  intros O D [H|H]; unfold chosen; [now rewrite H|].
  destruct (nth_error pos (position s)) eqn:E.
  - assert (position s < length pos)%nat by (apply nth_error_Some; congruence). specialize (D _ _ H). lia.
  - now rewrite (in_lookup _ _ _ O H).
Qed.
Lemma chosen_silent pos kw s d : silent pos kw s -> chosen pos kw s d = d.
Proof.
  intros S. unfold chosen. destruct (nth_error pos (position s)) eqn:E; [exfalso; eapply S; left; exact E|].
  destruct (lookup s kw) eqn:E'; [|reflexivity]. exfalso. eapply S. right. apply lookup_in. exact E'.
Qed.

Lemma construct_binds ih alt gr pos kw : once kw -> (length pos <= 8)%nat -> disjoint pos kw ->
  exists w, construct ih alt gr pos kw = Ok w /\
    (forall a r, wrote pos kw (Plain a) (Num r) -> plain (sc w) a = r) /\
    (forall a b, wrote pos kw (Plain a) (Flag b) -> plain (sc w) a = if b then 1 else 0) /\
    (forall a, silent pos kw (Plain a) -> plain (sc w) a = documented a) /\
    (forall b, wrote pos kw Interp (Flag b) -> interp (sc w) = b) /\
    (forall r, wrote pos kw Interp (Num r) -> (interp (sc w) = true <-> r <> 0)) /\
    (silent pos kw Interp -> interp (sc w) = false) /\
    ihaze (sc w) = ih /\ altitude (sc w) = alt /\ ground_range (sc w) = gr /\ cache (sc w) = None /\ loads w = 0%nat.
Proof.
  intros O L D. destruct (bind_ok pos kw L D) as (l & E & B). unfold construct. rewrite E. cbn [bind].
  eexists. split; [reflexivity|]. cbn.
  repeat split; intros; rewrite ?B.
  - now rewrite (chosen_wrote _ _ _ _ _ O D H).
  - now rewrite (chosen_wrote _ _ _ _ _ O D H).
  - rewrite (chosen_silent _ _ _ _ H). apply default_value.
  - now rewrite (chosen_wrote _ _ _ _ _ O D H).
  - rewrite B, (chosen_wrote _ _ _ _ _ O D H) in H0. cbn in H0. destruct (Req_bool_spec r 0); [discriminate|assumption].
  - rewrite (chosen_wrote _ _ _ _ _ O D H). cbn. destruct (Req_bool_spec r 0); [contradiction|reflexivity].
  - now rewrite (chosen_silent _ _ _ _ H).
Qed.
Lemma construct_err ih alt gr pos kw :
  (8 < length pos)%nat \/ (exists s v, In (s, v) kw /\ (position s < length pos)%nat) ->
  construct ih alt gr pos kw = Err TypeError.
Proof. intros H. unfold construct. now rewrite bind_err. Qed.

(* the only state reachable from a constructor is that of [init] *)
Lemma construct_is_init ih alt gr pos kw w : construct ih alt gr pos kw = Ok w ->
  w = init ih alt gr (interp (sc w)) (plain (sc w)).
Proof. unfold construct. destruct (bind_args signature pos kw); cbn; [|discriminate]. intros [= <-]. reflexivity. Qed.

Lemma default_program ni it ih alt gr ops :
  exists w, construct ih alt gr [] [] = Ok w /\
    (forall a, unassigned a ops -> plain (sc (run ni it ops w)) a = documented a) /\
    (hands_off ops ->
       let p := current ops {| p_ihaze := ih; p_altitude := alt; p_range := gr |} in
       observe ni it (run ni it ops w) = ni (p_altitude p) (p_range p) (p_ihaze p)).
Proof.
  destruct (construct_binds ih alt gr [] []) as (w & E & _ & _ & P & _ & _ & I & _).
  - constructor.
  - simpl. lia.
  - intros s v [].
  - assert (S : forall s, silent [] [] s).
    { intros s v [H|[]]. destruct (position s); discriminate. }
    exists w. split; [exact E|]. apply construct_is_init in E. specialize (I (S _)). split.
    + intros a U. rewrite E, (attr_initial ni it ih alt gr (interp (sc w)) (plain (sc w)) ops a U). apply P, S.
    + intros H. cbv zeta. rewrite E, I. apply never_stale. exact H.
Qed.

Lemma stray_flag ni it ih alt gr b ops : hands_off ops ->
  exists w, construct ih alt gr [Flag b] [] = Ok w /\ plain (sc w) AircraftSpeed = (if b then 1 else 0) /\
    let p := current ops {| p_ihaze := ih; p_altitude := alt; p_range := gr |} in
    observe ni it (run ni it ops w) = ni (p_altitude p) (p_range p) (p_ihaze p).
Proof.
  intros H. eexists. split; [reflexivity|]. split; [reflexivity|].
  change (truth (bound _ Interp)) with false. apply never_stale. exact H.
Qed.
