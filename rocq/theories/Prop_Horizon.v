(** * Prop_Horizon: C107, coverage of the atmosphere database. *)
From Coq Require Import Reals ZArith List Lra.
From Verif Require Import Base_XR Spec_Geo Model_DbTable Model_Db Spec_Db Spec_Horizon Proof_Db Proof_Horizon.
Import ListNotations.
Open Scope R_scope.

(* what in_sight amounts to *)
Theorem C107_horizon_distance :
  forall h g, 0 <= h -> 0 <= g <= earth_radius * PI ->
    (in_sight h g <-> g <= earth_radius * acos (earth_radius / (earth_radius + h))).
Proof. exact horizon_distance. Qed.
Print Assumptions C107_horizon_distance.

Theorem C107_stored_up_to_the_horizon :
  forall st alt g h,
    complete st ->
    In alt readme_altitudes -> In g doc_ranges -> (h = 1 \/ h = 2)%Z ->
    ((exists m, load_no_interp st alt g h = Ok m) <-> in_sight alt g).
Proof. exact stored_to_horizon. Qed.
Print Assumptions C107_stored_up_to_the_horizon.

Theorem C107_interpolated_only_in_sight :
  forall st alt g h m, load_interp st alt g h = Ok m -> in_sight alt g.
Proof. exact interp_in_sight. Qed.
Print Assumptions C107_interpolated_only_in_sight.

(* the converse fails between the grid points *)
Theorem C107_in_sight_suffices_refuted :
  ~ (forall st alt g, complete st ->
       75 <= alt <= 20000 -> 0 <= g <= 300000 -> in_sight alt g -> exists m, load_interp st alt g 1 = Ok m).
Proof. exact in_sight_suffices_refuted. Qed.
Print Assumptions C107_in_sight_suffices_refuted.

Theorem C107_in_sight_rejected :
  in_sight 2500 159000 /\ forall st, load_interp st 2500 159000 1 = Err IndexError \/
    load_interp st 2500 159000 1 = Err ValueError /\ ~ intact st.
Proof. exact (conj sight_2500 rejected_2500). Qed.
Print Assumptions C107_in_sight_rejected.

(* atmosphere_README.txt: "A nadir look from space option has been added ...
   altitude = 500 km, ground range = 0" *)
Theorem C107_documented_look_from_space_refuted :
  forall st g h, load_no_interp st 500000 g h = Err IndexError.
Proof. exact space_500. Qed.
Print Assumptions C107_documented_look_from_space_refuted.

Theorem C107_look_from_space :
  forall st g h, complete st ->
    ((exists m, load_no_interp st 550000 g h = Ok m) <-> g = 0 /\ (h = 1 \/ h = 2)%Z).
Proof. exact space_550. Qed.
Print Assumptions C107_look_from_space.

Example C107_ex : In 9000 readme_altitudes /\ In 60000 doc_ranges /\ in_sight 9000 60000 /\
  exists m, load_interp (uniform_files 1) 9000 60000 1 = Ok m.
Proof.
  assert (A : In 9000 readme_altitudes) by (unfold readme_altitudes; simpl; tauto).
  assert (D : In 9000 doc_altitudes) by (unfold doc_altitudes; simpl; tauto).
  pose proof (in_doc_range 60000 (eq_refl true)) as G.
  assert (L : exists m, load_no_interp (uniform_files 1) 9000 60000 1 = Ok m).
  { apply no_interp_some; [apply uniform_complete|]. replace 9000 with (IZR 90000 / 10) by lra.
    apply key_listed. vm_compute. reflexivity. }
  split; [exact A|]. split; [exact G|]. split.
  - apply (stored_to_horizon (uniform_files 1) 9000 60000 1%Z); [apply uniform_complete|exact A|exact G|auto|exact L].
  - rewrite load_node by assumption. exact L.
Qed.
(* and a documented range that is not stored *)
Example C107_ex2 : In 7000 readme_altitudes /\ In 300000 doc_ranges /\ ~ in_sight 7000 300000.
Proof.
  split; [unfold readme_altitudes; simpl; tauto|]. pose proof (in_doc_range 300000 (eq_refl true)) as G.
  split; [exact G|]. intros S.
  apply (stored_to_horizon (uniform_files 1) 7000 300000 1%Z) in S;
    [|apply uniform_complete|unfold readme_altitudes; simpl; tauto|exact G|auto].
  apply no_interp_some in S; [|apply uniform_complete]. destruct S as [i L].
  replace 7000 with (IZR 70000 / 10) in L by lra. change 300000 with (IZR 300000) in L.
  assert (K : existsb (key 70000 300000 1) decoder = true) by (apply key_listed; eauto).
  vm_compute in K. discriminate.
Qed.

(** ** C10 *)
Theorem C10_atmosphere_or_index_error :
  forall st alt g h,
    (exists m, load_interp st alt g h = Ok m) \/ load_interp st alt g h = Err IndexError \/
    load_interp st alt g h = Err ValueError /\ ~ intact st.
Proof. exact interp_cases. Qed.
Print Assumptions C10_atmosphere_or_index_error.
