(** * Prop_Scenario: theorems about class Scenario (C16-C19).
    [ni] and [it] are arbitrary loaders (pure, possibly raising). *)
From Coq Require Import Reals Lra List ZArith.
From Verif Require Import Base_XR Model_Db Model_Scenario Spec_Scenario Proof_Scenario Proof_Store.
Import ListNotations.
Open Scope R_scope.

(** ** C16 *)
Theorem C16_atm_never_stale :
  forall (ni it : loader) ih alt gr itp pl ops, hands_off ops ->
    let p := current ops {| p_ihaze := ih; p_altitude := alt; p_range := gr |} in
    observe ni it (run ni it ops (init ih alt gr itp pl))
    = (if itp then it else ni) (p_altitude p) (p_range p) (p_ihaze p).
Proof. exact never_stale. Qed.
Print Assumptions C16_atm_never_stale.

Theorem C16_atm_like_fresh_scenario :
  forall (ni it : loader) ih alt gr itp pl ops, hands_off ops ->
    let p := current ops {| p_ihaze := ih; p_altitude := alt; p_range := gr |} in
    observe ni it (run ni it ops (init ih alt gr itp pl))
    = observe ni it (init (p_ihaze p) (p_altitude p) (p_range p) itp pl).
Proof. exact like_fresh. Qed.
Print Assumptions C16_atm_like_fresh_scenario.

(* an array handed out earlier is not touched by later assignments or reads *)
Theorem C16_returned_arrays_are_kept :
  forall (ni it : loader) ops w l m, hands_off ops ->
    nth_error (heap w) l = Some m -> nth_error (heap (run ni it ops w)) l = Some m.
Proof. exact run_heap. Qed.
Print Assumptions C16_returned_arrays_are_kept.

Example C16_ex : hands_off [ReadAtm; SetAltitude 9000; ReadAtm; SetPlain HaWindSpeed 0; SetIhaze 2; ReadAtm].
Proof. intros o H. simpl in H. repeat (destruct H as [<-|H]; [reflexivity|]). destruct H. Qed.

(** ** C17 *)
Theorem C17_loads_bounded_by_invalidations :
  forall (ni it : loader) ih alt gr itp pl ops,
    (loads (run ni it ops (init ih alt gr itp pl)) <= 1 + invalidations ops)%nat.
Proof. exact loads_bound. Qed.
Print Assumptions C17_loads_bounded_by_invalidations.

Theorem C17_second_read_is_free :
  forall (ni it : loader) w l, snd (step ni it w ReadAtm) = Ok (Array l) ->
    let w1 := fst (step ni it w ReadAtm) in
    step ni it w1 ReadAtm = (w1, Ok (Array l)).
Proof. exact reread. Qed.
Print Assumptions C17_second_read_is_free.

(* the bound is reached: two loads with one assignment *)
Example C17_ex :
  let ld : loader := fun _ _ _ => Ok (fun _ _ => 1) in
  loads (run ld ld [ReadAtm; SetAltitude 9000; ReadAtm; ReadAtm] (init 1 1000 0 false (fun _ => 0))) = 2%nat.
Proof. reflexivity. Qed.

(** ** C18 *)
Theorem C18_failed_read_changes_nothing :
  forall (ni it : loader) w e, snd (step ni it w ReadAtm) = Err e -> fst (step ni it w ReadAtm) = w.
Proof. exact failed_read. Qed.
Print Assumptions C18_failed_read_changes_nothing.

Theorem C18_failed_read_invisible_in_history :
  forall (ni it : loader) ih alt gr itp pl ops1 ops2 e,
    snd (step ni it (run ni it ops1 (init ih alt gr itp pl)) ReadAtm) = Err e ->
    run ni it (ops1 ++ ReadAtm :: ops2) (init ih alt gr itp pl)
    = run ni it (ops1 ++ ops2) (init ih alt gr itp pl).
Proof. exact failed_read_in_history. Qed.
Print Assumptions C18_failed_read_invisible_in_history.

Example C18_ex :
  let ld : loader := fun _ _ h => if Z.eqb h 1 then Ok (fun _ _ => 1) else Err IndexError in
  snd (step ld ld (run ld ld [ReadAtm; SetIhaze 3] (init 1 1000 0 false (fun _ => 0))) ReadAtm) = Err IndexError.
Proof. reflexivity. Qed.

(** ** C19 *)
Theorem C19_atm_unaffected_by_caller_refuted :
  ~ (forall (ni it : loader) ih alt gr itp pl ops,
       let p := current ops {| p_ihaze := ih; p_altitude := alt; p_range := gr |} in
       observe ni it (run ni it ops (init ih alt gr itp pl))
       = (if itp then it else ni) (p_altitude p) (p_range p) (p_ihaze p)).
Proof. exact aliasing_refuted. Qed.
Print Assumptions C19_atm_unaffected_by_caller_refuted.

(* every in-place change of the returned array is seen by the next read *)
Theorem C19_returned_array_is_the_cache :
  forall (ni it : loader) w l m i j v,
    snd (step ni it w ReadAtm) = Ok (Array l) ->
    nth_error (heap (fst (step ni it w ReadAtm))) l = Some m ->
    exists m', observe ni it (run ni it [ReadAtm; Poke l i j v] w) = Ok m' /\
      m' i j = v /\ forall i' j', (i' <> i \/ j' <> j) -> m' i' j' = m i' j'.
Proof. exact poke_seen_entries. Qed.
Print Assumptions C19_returned_array_is_the_cache.

Example C19_ex :
  let ld : loader := fun _ _ _ => Ok (fun _ _ => 1) in
  let w := init 1 1000 0 false (fun _ => 0) in
  snd (step ld ld w ReadAtm) = Ok (Array 0) /\
  nth_error (heap (fst (step ld ld w ReadAtm))) 0 = Some (fun _ _ => 1).
Proof. split; reflexivity. Qed.

(** ** C101 *)
Theorem C101_attribute_reads_last_assignment :
  forall (ni it : loader) ops1 ops2 w a v,
    (forall o, In o ops2 -> forall r, o <> SetPlain a r) ->
    plain (sc (run ni it (ops1 ++ SetPlain a v :: ops2) w)) a = v.
Proof. exact attr_last. Qed.
Print Assumptions C101_attribute_reads_last_assignment.

Theorem C101_unassigned_attribute_keeps_initial_value :
  forall (ni it : loader) ih alt gr itp pl ops a,
    (forall o, In o ops -> forall r, o <> SetPlain a r) ->
    plain (sc (run ni it ops (init ih alt gr itp pl))) a = pl a.
Proof. exact attr_initial. Qed.
Print Assumptions C101_unassigned_attribute_keeps_initial_value.

(* also when the caller writes into arrays *)
Theorem C101_parameters_read_back :
  forall (ni it : loader) ih alt gr itp pl ops,
    let p := current ops {| p_ihaze := ih; p_altitude := alt; p_range := gr |} in
    let s := sc (run ni it ops (init ih alt gr itp pl)) in
    ihaze s = p_ihaze p /\ altitude s = p_altitude p /\ ground_range s = p_range p /\ interp s = itp.
Proof. exact params_last. Qed.
Print Assumptions C101_parameters_read_back.

Example C101_ex : forall o, In o [SetPlain HaWindSpeed 0; ReadAtm; SetAltitude 9000; Poke 0 1 1 7] ->
  forall r, o <> SetPlain Cn2At1m r.
Proof. intros o H r. simpl in H. repeat (destruct H as [<-|H]; [discriminate|]). destruct H. Qed.
