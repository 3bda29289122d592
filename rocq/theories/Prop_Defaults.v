(** * Prop_Defaults: how Scenario(...) binds its optional arguments (C125). *)
From Coq Require Import Reals Lra Lia List ZArith.
From Verif Require Import Base_XR Model_Db Model_Scenario Spec_Scenario Model_Defaults Spec_Defaults Proof_Defaults.
Import ListNotations.
Open Scope R_scope.

(** ** C125 *)
(* a scenario made with the four required arguments only, after any program *)
Theorem C125_default_scenario :
  forall (ni it : loader) ih alt gr ops,
    exists w, construct ih alt gr [] [] = Ok w /\
      (forall a, unassigned a ops -> plain (sc (run ni it ops w)) a = documented a) /\
      (hands_off ops ->
         let p := current ops {| p_ihaze := ih; p_altitude := alt; p_range := gr |} in
         observe ni it (run ni it ops w) = ni (p_altitude p) (p_range p) (p_ihaze p)).
Proof. exact default_program. Qed.
Print Assumptions C125_default_scenario.

Example C125_default_scenario_example :
  unassigned Cn2At1m [SetPlain HaWindSpeed 0; ReadAtm; SetAltitude 9000]
  /\ hands_off [SetPlain HaWindSpeed 0; ReadAtm; SetAltitude 9000].
Proof.
  split; intros o H; [intros r|]; simpl in H; repeat (destruct H as [<-|H]; [first [discriminate | reflexivity]|]); destruct H.
Qed.

(* positional and keyword arguments together *)
Theorem C125_binding :
  forall ih alt gr pos kw, once kw -> (length pos <= 8)%nat -> disjoint pos kw ->
    exists w, construct ih alt gr pos kw = Ok w /\
      (forall a r, wrote pos kw (Plain a) (Num r) -> plain (sc w) a = r) /\
      (forall a b, wrote pos kw (Plain a) (Flag b) -> plain (sc w) a = if b then 1 else 0) /\
      (forall a, silent pos kw (Plain a) -> plain (sc w) a = documented a) /\
      (forall b, wrote pos kw Interp (Flag b) -> interp (sc w) = b) /\
      (forall r, wrote pos kw Interp (Num r) -> (interp (sc w) = true <-> r <> 0)) /\
      (silent pos kw Interp -> interp (sc w) = false) /\
      ihaze (sc w) = ih /\ altitude (sc w) = alt /\ ground_range (sc w) = gr /\
      cache (sc w) = None /\ loads w = 0%nat.
Proof. exact construct_binds. Qed.
Print Assumptions C125_binding.

(* Scenario("test", 1, 1000, 0, 60, ha_wind_speed=10, interp=True) *)
Example C125_binding_example :
  let pos := [Num 60] in let kw := [(Plain HaWindSpeed, Num 10); (Interp, Flag true)] in
  once kw /\ (length pos <= 8)%nat /\ disjoint pos kw /\ wrote pos kw (Plain AircraftSpeed) (Num 60)
  /\ wrote pos kw (Plain HaWindSpeed) (Num 10) /\ wrote pos kw Interp (Flag true) /\ silent pos kw (Plain Cn2At1m).
Proof.
  cbv zeta. repeat split.
  - unfold once. simpl. repeat constructor; simpl; intuition congruence.
  - simpl. lia.
  - intros s v [[= <- <-]|[[= <- <-]|[]]]; simpl; lia.
  - now left.
  - right. simpl. tauto.
  - right. simpl. tauto.
  - intros v [H|[H|[H|[]]]]; discriminate.
Qed.

Theorem C125_rejected :
  forall ih alt gr pos kw,
    (8 < length pos)%nat \/ (exists s v, In (s, v) kw /\ (position s < length pos)%nat) ->
    construct ih alt gr pos kw = Err TypeError.
Proof. exact construct_err. Qed.
Print Assumptions C125_rejected.

(* Scenario("test", 1, 1000, 0, True, aircraft_speed=3) *)
Example C125_rejected_example :
  exists s v, In (s, v) [(Plain AircraftSpeed, Num 3)] /\ (position s < length [Flag true])%nat.
Proof. exists (Plain AircraftSpeed), (Num 3). split; [now left | simpl; lia]. Qed.

(* the fifth positional argument is the aircraft speed: Scenario(name, ihaze, altitude, ground_range, True)
   never interpolates, and flies at one metre per second *)
Theorem C125_fifth_argument :
  forall (ni it : loader) ih alt gr b ops, hands_off ops ->
    exists w, construct ih alt gr [Flag b] [] = Ok w /\ plain (sc w) AircraftSpeed = (if b then 1 else 0) /\
      let p := current ops {| p_ihaze := ih; p_altitude := alt; p_range := gr |} in
      observe ni it (run ni it ops w) = ni (p_altitude p) (p_range p) (p_ihaze p).
Proof. exact stray_flag. Qed.
Print Assumptions C125_fifth_argument.

Example C125_fifth_argument_example : hands_off [ReadAtm; SetGroundRange 500; ReadAtm].
Proof. intros o H. simpl in H. repeat (destruct H as [<-|H]; [reflexivity|]). destruct H. Qed.
