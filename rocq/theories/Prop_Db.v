(** * Prop_Db: theorems about the atmosphere loaders of utils.py (C09-C15).
    [st] is the content of the atms/ directory and is universally quantified. *)
From Coq Require Import Reals Lra List ZArith.
From Verif Require Import Base_XR Base_Np Model_DbTable Model_Db Spec_Db Proof_Db Proof_Store.
Import ListNotations.
Open Scope R_scope.

(** ** C09 *)
Theorem C09_exact_lookup_succeeds_iff_listed :
  forall st alt g h m,
    load_no_interp st alt g h = Ok m <->
    exists i d, listed i alt g h /\ stored st i d /\ m = assemble d.
Proof. exact no_interp_ok_iff. Qed.
Print Assumptions C09_exact_lookup_succeeds_iff_listed.

Theorem C09_exact_lookup_row_unique :
  forall i j alt g h, listed i alt g h -> listed j alt g h -> i = j.
Proof. exact listed_index_unique. Qed.
Print Assumptions C09_exact_lookup_row_unique.

Theorem C09_exact_lookup_total :
  forall st alt g h,
    (exists m, load_no_interp st alt g h = Ok m) \/ load_no_interp st alt g h = Err IndexError \/
    load_no_interp st alt g h = Err ValueError /\
      exists i f, listed i alt g h /\ st i = Some f /\ file_size f <> 6855%nat.
Proof. exact no_interp_cases. Qed.
Print Assumptions C09_exact_lookup_total.

Theorem C09_unlisted_raises :
  forall st alt g h, (forall i, ~ listed i alt g h) -> load_no_interp st alt g h = Err IndexError.
Proof. exact no_interp_unlisted. Qed.
Print Assumptions C09_unlisted_raises.

Theorem C09_missing_file_raises :
  forall st alt g h i, listed i alt g h -> st i = None -> load_no_interp st alt g h = Err IndexError.
Proof. exact no_interp_absent. Qed.
Print Assumptions C09_missing_file_raises.

(* e.g. the 130-byte files of a checkout without git-lfs *)
Theorem C09_damaged_file_raises :
  forall st alt g h i f, listed i alt g h -> st i = Some f -> file_size f <> 6855%nat ->
    load_no_interp st alt g h = Err ValueError.
Proof. exact no_interp_damaged. Qed.
Print Assumptions C09_damaged_file_raises.

Example C09_ex_damaged :
  let st : store := fun i => if Z.eqb i 3 then None
    else if Z.eqb i 2 then Some {| file_size := 32; file_value := fun _ => 0 |} else uniform_files 1 i in
  (exists m, load_no_interp st 2 0 1 = Ok m) /\
  load_no_interp st 2 100 1 = Err ValueError /\ load_no_interp st 2 500 1 = Err IndexError.
Proof.
  intros st. split; [|split].
  - eexists. apply C09_exact_lookup_succeeds_iff_listed. exists 1%Z. eexists. split; [|split; [|reflexivity]].
    + exists 20%Z, 0%Z. split; [apply in_decoder; vm_compute; reflexivity|lra].
    + exact (uniform_stored 1 1%Z).
  - apply (C09_damaged_file_raises st 2 100 1 2 {| file_size := 32; file_value := fun _ => 0 |}); [|reflexivity|discriminate].
    exists 20%Z, 100%Z. split; [apply in_decoder; vm_compute; reflexivity|lra].
  - apply (C09_missing_file_raises st 2 500 1 3); [|reflexivity].
    exists 20%Z, 500%Z. split; [apply in_decoder; vm_compute; reflexivity|lra].
Qed.

(* column 1 of the result is column 0 of the file; columns 2.. are columns 1..
   scaled by 1e10 *)
Theorem C09_exact_lookup_columns :
  forall st alt g h m, load_no_interp st alt g h = Ok m ->
  exists i d, listed i alt g h /\ stored st i d /\
    (forall r, m r 1%nat = d r 0%nat) /\
    (forall r c, (1 <= c)%nat -> m r (S c) = 10000000000 * d r c).
Proof. exact no_interp_columns. Qed.
Print Assumptions C09_exact_lookup_columns.

(* different keys are stored in different files *)
Theorem C09_file_holds_one_key :
  forall i alt alt' g g' h h', listed i alt g h -> listed i alt' g' h' ->
    alt = alt' /\ g = g' /\ h = h'.
Proof. exact listed_key_unique. Qed.
Print Assumptions C09_file_holds_one_key.

Example C09_ex : listed 3 2 500 1.
Proof. exists 20%Z, 500%Z. split; [apply in_decoder; vm_compute; reflexivity|lra]. Qed.

(** ** C10 *)
Theorem C10_out_of_range_rejected :
  forall st alt g h,
    (alt < 2 \/ 20000 < alt \/ g < 0 \/ 300000 < g) -> load_interp st alt g h = Err IndexError.
Proof. exact load_out_of_range. Qed.
Print Assumptions C10_out_of_range_rejected.

(** ** C11 *)
Theorem C11_exact_at_nodes :
  forall st alt g h, In alt doc_altitudes -> In g doc_ranges ->
    load_interp st alt g h = load_no_interp st alt g h.
Proof. exact load_node. Qed.
Print Assumptions C11_exact_at_nodes.

Example C11_ex : In 9000 doc_altitudes /\ In 60000 doc_ranges.
Proof.
  split; [unfold doc_altitudes; simpl; tauto|].
  exact (in_doc_range 60000 (eq_refl true)).
Qed.

(** ** C12 *)
Theorem C12_result_is_blend_of_tightest_nodes :
  forall st alt g h m, load_interp st alt g h = Ok m ->
  exists la ha lg hg t u m00 m10 m01 m11,
    tight doc_altitudes alt la ha /\ tight doc_ranges g lg hg /\
    weight alt la ha t /\ weight g lg hg u /\
    load_no_interp st la lg h = Ok m00 /\ load_no_interp st ha lg h = Ok m10 /\
    load_no_interp st la hg h = Ok m01 /\ load_no_interp st ha hg h = Ok m11 /\
    forall i j, m i j = (1 - u) * ((1 - t) * m00 i j + t * m10 i j)
                      + u * ((1 - t) * m01 i j + t * m11 i j).
Proof. exact load_is_bilinear. Qed.
Print Assumptions C12_result_is_blend_of_tightest_nodes.

Theorem C12_entries_stay_within_stored_bounds :
  forall st alt g h m i j lo hi, load_interp st alt g h = Ok m ->
    (forall a r mm, load_no_interp st a r h = Ok mm -> lo <= mm i j <= hi) ->
    lo <= m i j <= hi.
Proof. exact load_entry_bounds. Qed.
Print Assumptions C12_entries_stay_within_stored_bounds.

Theorem C12_transmission_stays_in_unit_interval :
  forall st alt g h m i, load_interp st alt g h = Ok m ->
    (forall k d, stored st k d -> 0 <= d i 0%nat <= 1) -> 0 <= m i 1%nat <= 1.
Proof. exact load_transmission. Qed.
Print Assumptions C12_transmission_stays_in_unit_interval.

Theorem C12_radiance_columns_stay_nonnegative :
  forall st alt g h m i j, load_interp st alt g h = Ok m -> (2 <= j <= 5)%nat ->
    (forall k d, stored st k d -> 0 <= d i (j - 1)%nat) -> 0 <= m i j.
Proof. exact load_radiance_nonneg. Qed.
Print Assumptions C12_radiance_columns_stay_nonnegative.

(** ** C13 *)
Theorem C13_wavelength_grid :
  forall st alt g h m i, load_interp st alt g h = Ok m -> (i < 1371)%nat ->
    m i 0%nat = (0.3 + INR i * 0.01) / 1000000.
Proof. exact interp_wavelength. Qed.
Print Assumptions C13_wavelength_grid.

Theorem C13_wavelength_grid_exact_lookup :
  forall st alt g h m i, load_no_interp st alt g h = Ok m -> (i < 1371)%nat ->
    m i 0%nat = (0.3 + INR i * 0.01) / 1000000.
Proof. exact no_interp_wavelength. Qed.
Print Assumptions C13_wavelength_grid_exact_lookup.

Example C13_ex : exists m, load_interp (uniform_files 1) 2 100 1 = Ok m.
Proof.
  rewrite C11_exact_at_nodes;
    [|unfold doc_altitudes; simpl; tauto|exact (in_doc_range 100 (eq_refl true))].
  eexists. apply C09_exact_lookup_succeeds_iff_listed. exists 2%Z. eexists. split; [|split; [apply uniform_stored|reflexivity]].
  exists 20%Z, 100%Z. split; [apply in_decoder; vm_compute; reflexivity|lra].
Qed.

(** ** C14 *)
Theorem C14_every_altitude_available_refuted :
  ~ (forall st alt, complete st ->
       2 <= alt <= 20000 -> exists m, load_interp st alt 0 1 = Ok m).
Proof. exact every_altitude_refuted. Qed.
Print Assumptions C14_every_altitude_available_refuted.

Theorem C14_gap_always_fails :
  forall st alt g h, 2 < alt < 75 ->
    load_interp st alt g h = Err IndexError \/ load_interp st alt g h = Err ValueError /\ ~ intact st.
Proof. exact load_gap. Qed.
Print Assumptions C14_gap_always_fails.

(* 32.55 m is documented as a stored altitude of both loaders *)
Theorem C14_documented_altitude_missing :
  forall st g h, load_no_interp st 32.55 g h = Err IndexError.
Proof. exact load_3255. Qed.
Print Assumptions C14_documented_altitude_missing.

Theorem C14_success_set :
  forall st alt g h,
    complete st ->
    ((exists m, load_interp st alt g h = Ok m) <->
     (h = 1 \/ h = 2)%Z /\ alt <= 20000 /\ 0 <= g /\
     exists a m, In (a, m) reach /\ a <= alt /\ g <= m /\
       (forall a' m', In (a', m') reach -> a' <= alt -> a' <= a) /\ (2 < alt -> 75 <= alt)).
Proof. exact load_success_iff. Qed.
Print Assumptions C14_success_set.

Example C14_ex : exists m, load_interp (uniform_files 1) 9500 60500 1 = Ok m.
Proof.
  apply C14_success_set; [apply uniform_complete|]. repeat split; auto; try lra.
  exists 9000, 300000. split; [unfold reach; simpl; tauto|]. repeat split; try lra.
  intros a' m' H L. unfold reach in H. simpl in H.
  repeat (destruct H as [H|H]; [injection H as <- <-; lra|]). destruct H.
Qed.

(** ** C15 *)
Theorem C15_affine_in_altitude :
  forall st a0 a1 g h m0 m1 alt,
    adjacent doc_altitudes a0 a1 -> a0 <= alt <= a1 ->
    load_interp st a0 g h = Ok m0 -> load_interp st a1 g h = Ok m1 ->
    exists m, load_interp st alt g h = Ok m /\
      forall i j, m i j = m0 i j + (alt - a0) / (a1 - a0) * (m1 i j - m0 i j).
Proof. exact load_alt_affine. Qed.
Print Assumptions C15_affine_in_altitude.

Theorem C15_affine_in_range :
  forall st alt g0 g1 h m0 m1 g,
    adjacent doc_ranges g0 g1 -> g0 <= g <= g1 ->
    load_interp st alt g0 h = Ok m0 -> load_interp st alt g1 h = Ok m1 ->
    exists m, load_interp st alt g h = Ok m /\
      forall i j, m i j = m0 i j + (g - g0) / (g1 - g0) * (m1 i j - m0 i j).
Proof. exact load_range_affine. Qed.
Print Assumptions C15_affine_in_range.

Theorem C15_continuous_in_altitude :
  forall st g h x i j eps, 0 < eps -> exists d, 0 < d /\ forall y mx my,
    Rabs (y - x) < d -> load_interp st x g h = Ok mx -> load_interp st y g h = Ok my ->
    Rabs (my i j - mx i j) < eps.
Proof. exact load_continuous_alt. Qed.
Print Assumptions C15_continuous_in_altitude.

Theorem C15_continuous_in_range :
  forall st alt h x i j eps, 0 < eps -> exists d, 0 < d /\ forall y mx my,
    Rabs (y - x) < d -> load_interp st alt x h = Ok mx -> load_interp st alt y h = Ok my ->
    Rabs (my i j - mx i j) < eps.
Proof. exact load_continuous_range. Qed.
Print Assumptions C15_continuous_in_range.

Example C15_ex : adjacent doc_altitudes 9000 10000.
Proof.
  unfold adjacent. repeat split; try (unfold doc_altitudes; simpl; tauto); try lra.
  intros y H. unfold doc_altitudes in H. simpl in H.
  repeat (destruct H as [<-|H]; [lra|]). destruct H.
Qed.
