(** * Prop_Session: programs that call the analysis functions on several objects *)
From Coq Require Import Reals Lra ZArith List Bool.
From Verif Require Import Base_XR Base_Np Model_Db Model_Scenario Model_Sensor Model_Rad Model_Otf Model_Img Model_Met Model_Sim Model_Session
  Spec_Session Proof_NiirsDemo Proof_Session Proof_Replay.
Import ListNotations.
Open Scope R_scope.

(** ** C113: programs *)
(* striking out every assignment to the four attributes that describe target and
   background leaves the answers of all other statements as they were *)
Theorem C113_target_description_unused : forall ni it diag evs st,
  filter (fun p => negb (describes_target (fst p))) (transcript ni it diag st evs)
  = transcript ni it diag st (filter (fun e => negb (describes_target e)) evs).
Proof. exact hidden_erased. Qed.
Print Assumptions C113_target_description_unused.
Example C113_target_description_unused_example : exists m,
  filter (fun p => negb (describes_target (fst p)))
    (transcript demo_load demo_load no_diag two_calls [UseScenario 0 (SetPlain TargetTemperature 300); CallNiirs 0 0 false])
  = [(CallNiirs 0 0 false, Rated (Ok m))].
Proof.
  destruct order_matters as (m0 & c' & m5 & m1 & E0 & _). exists m0. rewrite C113_target_description_unused.
  cbn [filter describes_target negb transcript perform two_calls sensors scenarios upd_scen sc]. rewrite E0. reflexivity.
Qed.

(* calls made earlier do not change the answer of a call, whatever they were and
   whether they worked, unless niirs5 was called on its sensor and that sensor has
   a sharpening filter *)
Theorem C113_replay : forall ni it diag st pre e, forallb only_asks pre = true -> only_asks e = true ->
  (is_niirs5 e \/ forall i, works_on e i -> s_kernel (sensors st i) = [[1]] \/ forall e', In e' pre -> is_niirs5 e' -> ~ works_on e' i) ->
  snd (perform ni it diag (after ni it diag st pre) e) = snd (perform ni it diag st e).
Proof. exact replay. Qed.
Print Assumptions C113_replay.
Example C113_replay_example : exists m0 m5 pre, pre = [CallNiirs5 1 0 false; CallNiirs 0 0 true] /\
  snd (perform demo_load demo_load no_diag two_calls (CallNiirs5 1 0 false)) = Rated5 (Ok m5) /\
  snd (perform demo_load demo_load no_diag (after demo_load demo_load no_diag two_calls pre) (CallNiirs 0 0 false)) = Rated (Ok m0).
Proof.
  destruct order_matters as (m0 & c' & m5 & m1 & E0 & E5 & _). exists m0, m5, [CallNiirs5 1 0 false; CallNiirs 0 0 true].
  split; [reflexivity|]. split; [cbn [perform two_calls sensors scenarios upd_scen sc]; rewrite E5; reflexivity|].
  rewrite C113_replay; [|reflexivity|reflexivity|].
  - cbn [perform two_calls sensors scenarios upd_scen sc]. rewrite E0. reflexivity.
  - right. intros i W. cbn in W. subst i. right. intros e' [<-|[<-|[]]]; cbn; [discriminate | tauto].
Qed.

(* without that condition it is false *)
Theorem C113_replay_refuted : ~ forall ni it diag st pre e, forallb only_asks pre = true -> only_asks e = true ->
  snd (perform ni it diag (after ni it diag st pre) e) = snd (perform ni it diag st e).
Proof. exact replay_refuted. Qed.
Print Assumptions C113_replay_refuted.

(* statements about other objects, assignments included, do not change an answer *)
Theorem C113_isolation : forall ni it diag st pre e,
  (forall e' i, In e' pre -> works_on e i -> ~ works_on e' i) -> (forall e' j, In e' pre -> uses e j -> ~ uses e' j) ->
  snd (perform ni it diag (after ni it diag st pre) e) = snd (perform ni it diag st e).
Proof. exact isolated_answer. Qed.
Print Assumptions C113_isolation.
Example C113_isolation_example : exists m, snd (perform demo_load demo_load no_diag
  (after demo_load demo_load no_diag two_calls [EditSensor 1 no_sharpening; UseScenario 1 (SetAltitude 7); CallNiirs5 1 1 true]) (CallNiirs 0 0 false)) = Rated (Ok m).
Proof.
  destruct order_matters as (m0 & c' & m5 & m1 & E0 & _). exists m0. rewrite C113_isolation.
  - cbn [perform two_calls sensors scenarios upd_scen sc]. rewrite E0. reflexivity.
  - intros e' i H W. cbn in W. subst i. destruct H as [<-|[<-|[<-|[]]]]; cbn; [discriminate | tauto | discriminate].
  - intros e' j H W. cbn in W. subst j. destruct H as [<-|[<-|[<-|[]]]]; cbn; [tauto | discriminate | discriminate].
Qed.

(* after niirs5 the pictures of a sensor are those of the sensor without its sharpening filter *)
Theorem C113_pictures_unsharpened : forall ni it diag st i j itp m,
  snd (perform ni it diag st (CallNiirs5 i j itp)) = Rated5 (Ok m) -> forall d r k,
  snd (perform ni it diag (after ni it diag st [CallNiirs5 i j itp]) (CallSimulate d r i k))
  = Pictures (snd (simulate_image ni it diag d r (no_sharpening (sensors st i)) (scenarios st k))).
Proof. exact pictures_unsharpened. Qed.
Print Assumptions C113_pictures_unsharpened.
Example C113_pictures_unsharpened_example : (exists m, snd (perform demo_load demo_load no_diag two_calls (CallNiirs5 0 0 false)) = Rated5 (Ok m)) /\
  no_sharpening (sensors two_calls 0) <> sensors two_calls 0.
Proof.
  destruct order_matters as (m0 & c' & m5 & m1 & E0 & E5 & E1 & N). split.
  - exists m5. cbn [perform two_calls sensors scenarios upd_scen sc]. rewrite E5. reflexivity.
  - cbn [two_calls sensors]. intros F. apply (f_equal s_kernel) in F. discriminate F.
Qed.
