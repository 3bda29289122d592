(** * Proof_Replay: the answer to a call does not depend on the calls before it *)
From Coq Require Import Reals Lra ZArith List Bool Lia.
From Verif Require Import Base_XR Base_Np Model_Geo Model_Db Model_Scenario Model_Sensor Model_Rad Model_Otf Model_Img Model_Met Model_Sim Model_Session
  Spec_Session Proof_Niirs Proof_NiirsDemo Proof_SimP Proof_Session.
Import ListNotations.
Open Scope R_scope.

Section Replay.
  Variables (ni it : loader) (diag : nat -> nat -> bool).
  Definition file_of (c : scen) : res atm := (if interp c then it else ni) (altitude c) (ground_range c) (ihaze c).
  Definition grown (w w' : world) : Prop := same_geometry (sc w) (sc w') /\
    ((cache (sc w') = cache (sc w) /\ heap w' = heap w) \/
     (cache (sc w) = None /\ exists m, file_of (sc w) = Ok m /\ cache (sc w') = Some (length (heap w)) /\ heap w' = heap w ++ [m])).
  Lemma grown_refl w : grown w w. Proof. split; [apply geo_refl | left; auto]. Qed.
  Lemma file_step w : cache (sc w) = None -> step ni it w ReadAtm =
    match file_of (sc w) with Err e => (w, Err e) | Ok m =>
      ({| sc := {| ihaze := ihaze (sc w); altitude := altitude (sc w); ground_range := ground_range (sc w); interp := interp (sc w);
                   plain := plain (sc w); cache := Some (length (heap w)) |}; heap := heap w ++ [m]; loads := S (loads w) |}, Ok (Array (length (heap w)))) end.
  Proof. intros E. cbn [step]. rewrite E. unfold file_of. destruct (interp (sc w)); reflexivity. Qed.
  Lemma grown_read w w' : grown w w' -> snd (step ni it w' ReadAtm) = snd (step ni it w ReadAtm) /\
    observe ni it w' = observe ni it w /\ grown w (fst (step ni it w' ReadAtm)) /\ same_geometry (sc w) (sc (fst (step ni it w ReadAtm))).
  Proof.
    intros [G D]. assert (F : file_of (sc w') = file_of (sc w)).
    { destruct G as (A & B & C & E & _). unfold file_of. rewrite A, B, C, E. reflexivity. }
    assert (SG : same_geometry (sc w) (sc (fst (step ni it w ReadAtm)))).
    { destruct (cache (sc w)) as [l|] eqn:E.
      - cbn [step]. rewrite E. apply geo_refl.
      - rewrite (file_step w E). destruct (file_of (sc w)); [|apply geo_refl]. cbn [fst sc]. repeat split. }
    unfold observe. destruct D as [[C H] | (N & m & L & C & H)].
    - destruct (cache (sc w)) as [l|] eqn:E.
      + cbn [step]. rewrite C, E, H. cbn [fst snd]. split; [reflexivity|]. split; [reflexivity|]. split; [split; [exact G|]; left; rewrite E; auto | apply geo_refl].
      + rewrite (file_step w E) in *. rewrite (file_step w' C), F. rewrite H. destruct (file_of (sc w)) as [m|x] eqn:L; cbn [fst snd heap sc] in *.
        * split; [reflexivity|]. split; [reflexivity|]. split; [|exact SG]. split; [|right; split; [exact E|]; exists m; auto].
          destruct G as (A1 & A2 & A3 & A4 & A5). repeat split; assumption.
        * split; [reflexivity|]. split; [reflexivity|]. split; [|exact SG]. split; [exact G|]. left. rewrite E. auto.
    - rewrite (file_step w N), L in *. cbn [step]. rewrite C. cbn [fst snd heap] in *. rewrite H.
      split; [reflexivity|]. split; [reflexivity|]. split; [|exact SG]. split; [exact G|]. right. split; [exact N|]. exists m. auto.
  Qed.
  Lemma grown_upd w w' c : grown w w' -> same_geometry (sc w') c -> cache c = cache (sc w') -> grown w (upd_scen w' c).
  Proof. intros [G D] G' C. split; [exact (geo_trans _ _ _ G G')|]. cbn [upd_scen sc heap]. rewrite C. exact D. Qed.
  Lemma plain_kernel s : s_kernel s = [[1]] -> no_sharpening s = s.
  Proof. destruct s. cbn. intros ->. reflexivity. Qed.

  Definition spared (pre : list event) (i : nat) : Prop := forall e, In e pre -> is_niirs5 e -> ~ works_on e i.
  Definition follows (st st' : session) (pre : list event) : Prop :=
    (forall i, but_kernel (sensors st i) (sensors st' i) /\ (spared pre i -> sensors st' i = sensors st i)) /\
    forall j, grown (scenarios st j) (scenarios st' j).
  Lemma put_grown f f' j w' : (forall k, grown (f k) (f' k)) -> grown (f j) w' -> forall k, grown (f k) (put f' j w' k).
  Proof. intros H V k. unfold put. destruct (Nat.eqb_spec j k) as [<-|]; [exact V | apply H]. Qed.
  Lemma spared_snoc pre e i : spared (pre ++ [e]) i -> spared pre i.
  Proof. intros H x Hx. apply H. apply in_or_app. left. exact Hx. Qed.
  Lemma follows_step st st' pre e : follows st st' pre -> only_asks e = true ->
    follows st (fst (perform ni it diag st' e)) (pre ++ [e]) /\
    ((is_niirs5 e \/ forall i, works_on e i -> sensors st' i = sensors st i) -> snd (perform ni it diag st' e) = snd (perform ni it diag st e)).
  Proof.
    intros [S V] A. destruct e as [i j itp|i j itp|d r i j|j o|i g]; try discriminate A; cbn [perform].
    - assert (Vj := V j). destruct (niirs_geo ni it diag (sensors st' i) _ _ itp (geo_refl (sc (scenarios st' j)))) as (_ & G' & C').
      destruct (niirs ni it diag (sensors st' i) (sc (scenarios st' j)) itp) as [c' x'] eqn:E'. cbn [fst snd] in *.
      split; [split; cbn [sensors scenarios]|].
      + intros k. destruct (S k) as [S1 S2]. split; [exact S1|]. intros P. apply S2, (spared_snoc _ _ _ P).
      + apply put_grown; [exact V|]. apply grown_upd; assumption.
      + intros [[]|K]. specialize (K i eq_refl). rewrite K in E'.
        destruct (niirs_geo ni it diag (sensors st i) _ _ itp (proj1 Vj)) as (R & _). rewrite E' in R. cbn [snd] in R.
        destruct (niirs ni it diag (sensors st i) (sc (scenarios st j)) itp) as [c x]. cbn [snd] in *. subst x'. reflexivity.
    - assert (Vj := V j).
      destruct (niirs5_geo ni it diag (sensors st i) (sensors st' i) _ _ itp (proj1 Vj) (proj1 (S i))) as (R & _ & B & _).
      destruct (niirs5_geo ni it diag (sensors st' i) (sensors st' i) _ _ itp (geo_refl (sc (scenarios st' j))) (or_introl eq_refl)) as (_ & _ & _ & G' & C').
      destruct (niirs5 ni it diag (sensors st' i) (sc (scenarios st' j)) itp) as [[s' c'] x'] eqn:E'. cbn [fst snd] in *.
      split; [split; cbn [sensors scenarios]|].
      + intros k. destruct (S k) as [S1 S2]. unfold put. destruct (Nat.eqb_spec i k) as [<-|N].
        * split; [exact B|]. intros P. exfalso. apply (P (CallNiirs5 i j itp)); [apply in_or_app; right; left; reflexivity | exact I | reflexivity].
        * split; [exact S1|]. intros P. apply S2, (spared_snoc _ _ _ P).
      + apply put_grown; [exact V|]. apply grown_upd; assumption.
      + intros _. destruct (niirs5 ni it diag (sensors st i) (sc (scenarios st j)) itp) as [[s c] x]. cbn [snd] in *. subst x'. reflexivity.
    - assert (Vj := V j). destruct (grown_read _ _ Vj) as (_ & O & Gr & SG). rewrite !sim_world. cbn [fst snd].
      split; [split; cbn [sensors scenarios]|].
      + intros k. destruct (S k) as [S1 S2]. split; [exact S1|]. intros P. apply S2, (spared_snoc _ _ _ P).
      + apply put_grown; assumption.
      + intros [[]|K]. rewrite (K i eq_refl), O. destruct (observe ni it (scenarios st j)) as [m|]; cbn [bind]; [|reflexivity].
        rewrite (sim_geo diag d _ (sc (fst (step ni it (scenarios st j) ReadAtm))) _ r m); [reflexivity|].
        apply (geo_trans _ (sc (scenarios st j))); [apply geo_sym, SG | apply Gr].
    - destruct o; try discriminate A. assert (Vj := V j). destruct (grown_read _ _ Vj) as (R & _ & Gr & _).
      destruct (step ni it (scenarios st j) ReadAtm) as [w x]. destruct (step ni it (scenarios st' j) ReadAtm) as [w' x']. cbn [fst snd] in *. subst x'.
      split; [split; cbn [sensors scenarios]|reflexivity].
      + intros k. destruct (S k) as [S1 S2]. split; [exact S1|]. intros P. apply S2, (spared_snoc _ _ _ P).
      + apply put_grown; assumption.
  Qed.
  Lemma follows_after st pre : forallb only_asks pre = true -> follows st (after ni it diag st pre) pre.
  Proof.
    induction pre as [|e pre IH] using rev_ind; intros H.
    - split; [intros i; split; [left|]; reflexivity | intros; apply grown_refl].
    - rewrite forallb_app in H. apply andb_true_iff in H. destruct H as [H1 H2]. cbn in H2. rewrite andb_true_r in H2.
      unfold after. rewrite fold_left_app. cbn [fold_left]. apply follows_step; [apply IH, H1 | exact H2].
  Qed.
  Lemma replay st pre e : forallb only_asks pre = true -> only_asks e = true ->
    (is_niirs5 e \/ forall i, works_on e i -> s_kernel (sensors st i) = [[1]] \/ forall e', In e' pre -> is_niirs5 e' -> ~ works_on e' i) ->
    snd (perform ni it diag (after ni it diag st pre) e) = snd (perform ni it diag st e).
  Proof.
    intros P A K. assert (F := follows_after st pre P). apply (follows_step _ _ _ e F A). destruct K as [K|K]; [left; exact K|right].
    intros i W. destruct (proj1 F i) as [B Sp]. destruct (K i W) as [Q|Q]; [|exact (Sp Q)].
    destruct B as [B|B]; [exact B|]. rewrite B. apply plain_kernel, Q.
  Qed.
  (* programs about other objects *)
  Lemma isolated st pre i j : (forall e, In e pre -> ~ works_on e i) -> (forall e, In e pre -> ~ uses e j) ->
    sensors (after ni it diag st pre) i = sensors st i /\ scenarios (after ni it diag st pre) j = scenarios st j.
  Proof.
    revert st. induction pre as [|e pre IH]; intros st H1 H2; [split; reflexivity|]. unfold after. cbn [fold_left]. fold (after ni it diag (fst (perform ni it diag st e)) pre).
    destruct (IH (fst (perform ni it diag st e)) (fun x Hx => H1 x (or_intror Hx)) (fun x Hx => H2 x (or_intror Hx))) as [E1 E2]. rewrite E1, E2.
    specialize (H1 e (or_introl eq_refl)). specialize (H2 e (or_introl eq_refl)).
    destruct e as [a b itp|a b itp|d r a b|b o|a g]; cbn [works_on uses perform] in *.
    - destruct (niirs _ _ _ _ _ _). cbn. rewrite put_other by exact H2. auto.
    - destruct (niirs5 _ _ _ _ _ _) as [[? ?] ?]. cbn. rewrite !put_other by assumption. auto.
    - destruct (simulate_image _ _ _ _ _ _ _). cbn. rewrite put_other by exact H2. auto.
    - destruct (step _ _ _ _). cbn. rewrite put_other by exact H2. auto.
    - cbn. rewrite put_other by exact H1. auto.
  Qed.
  Lemma isolated_answer st pre e : (forall e' i, In e' pre -> works_on e i -> ~ works_on e' i) -> (forall e' j, In e' pre -> uses e j -> ~ uses e' j) ->
    snd (perform ni it diag (after ni it diag st pre) e) = snd (perform ni it diag st e).
  Proof.
    intros H1 H2.
    assert (S : forall i, works_on e i -> sensors (after ni it diag st pre) i = sensors st i).
    { intros i W. clear H2. revert st H1. induction pre as [|x pre IH]; intros st H1; [reflexivity|]. unfold after. cbn [fold_left]. fold (after ni it diag (fst (perform ni it diag st x)) pre).
      rewrite IH by (intros e' k He; apply H1; right; exact He). specialize (H1 x i (or_introl eq_refl) W).
      destruct x as [a b itp|a b itp|d r a b|b o|a g]; cbn [works_on perform] in *.
      - destruct (niirs _ _ _ _ _ _). reflexivity.
      - destruct (niirs5 _ _ _ _ _ _) as [[? ?] ?]. cbn. apply put_other, H1.
      - destruct (simulate_image _ _ _ _ _ _ _). reflexivity.
      - destruct (step _ _ _ _). reflexivity.
      - cbn. apply put_other, H1. }
    assert (V : forall j, uses e j -> scenarios (after ni it diag st pre) j = scenarios st j).
    { intros j W. clear H1 S. revert st H2. induction pre as [|x pre IH]; intros st H2; [reflexivity|]. unfold after. cbn [fold_left]. fold (after ni it diag (fst (perform ni it diag st x)) pre).
      rewrite IH by (intros e' k He; apply H2; right; exact He). specialize (H2 x j (or_introl eq_refl) W).
      destruct x as [a b itp|a b itp|d r a b|b o|a g]; cbn [uses perform] in *.
      - destruct (niirs _ _ _ _ _ _). cbn. apply put_other, H2.
      - destruct (niirs5 _ _ _ _ _ _) as [[? ?] ?]. cbn. apply put_other, H2.
      - destruct (simulate_image _ _ _ _ _ _ _). cbn. apply put_other, H2.
      - destruct (step _ _ _ _). cbn. apply put_other, H2.
      - reflexivity. }
    destruct e as [a b itp|a b itp|d r a b|b o|a g]; cbn [perform works_on uses] in *; rewrite ?(S _ eq_refl), ?(V _ eq_refl).
    - destruct (niirs _ _ _ _ _ _). reflexivity.
    - destruct (niirs5 _ _ _ _ _ _) as [[? ?] ?]. reflexivity.
    - destruct (simulate_image _ _ _ _ _ _ _). reflexivity.
    - destruct (step _ _ _ _). reflexivity.
    - reflexivity.
  Qed.
  (* pictures taken after niirs5 are those of the camera without its sharpening filter *)
  Lemma pictures_unsharpened st i j itp m : snd (perform ni it diag st (CallNiirs5 i j itp)) = Rated5 (Ok m) -> forall d r k,
    snd (perform ni it diag (after ni it diag st [CallNiirs5 i j itp]) (CallSimulate d r i k))
    = Pictures (snd (simulate_image ni it diag d r (no_sharpening (sensors st i)) (scenarios st k))).
  Proof.
    intros H d r k. cbn [perform] in H.
    assert (E : sensors (after ni it diag st [CallNiirs5 i j itp]) i = no_sharpening (sensors st i)).
    { unfold after. cbn [fold_left perform]. unfold niirs5 in *. destruct (load_band _ _ _ _ _) as [rows|]; [|discriminate].
      destruct (bookkeeping _ _) as [z c']. destruct (contrast_part _ _ _); [|discriminate]. cbn. apply put_same. }
    set (st2 := {| sensors := put (sensors st) i (no_sharpening (sensors st i)); scenarios := scenarios st |}).
    assert (F : follows st2 (after ni it diag st [CallNiirs5 i j itp]) []).
    { destruct (follows_after st [CallNiirs5 i j itp] eq_refl) as [S V]. split; [|exact V]. intros q. cbn [sensors st2].
      assert (Q : sensors (after ni it diag st [CallNiirs5 i j itp]) q = put (sensors st) i (no_sharpening (sensors st i)) q).
      { unfold put. destruct (Nat.eqb_spec i q) as [<-|N]; [exact E|]. apply S. intros e [<-|[]] _ W. exact (N W). }
      rewrite Q. split; [left; reflexivity | reflexivity]. }
    destruct (follows_step _ _ _ (CallSimulate d r i k) F eq_refl) as [_ R]. rewrite R.
    - cbn [perform st2 sensors scenarios]. rewrite put_same. destruct (simulate_image _ _ _ _ _ _ _). reflexivity.
    - right. intros q W. cbn in W. subst q. cbn [sensors st2]. rewrite put_same. exact E.
  Qed.
End Replay.

(* not so for a camera with a sharpening filter *)
Definition two_calls : session := {| sensors := fun _ => visible sharpen 1; scenarios := fun _ => upd_scen (init 0 0 0 false (plain demo_scen)) demo_scen |}.
Lemma replay_refuted : ~ forall ni it diag st pre e, forallb only_asks pre = true -> only_asks e = true ->
  snd (perform ni it diag (after ni it diag st pre) e) = snd (perform ni it diag st e).
Proof.
  intros F. destruct order_matters as (m0 & c' & m5 & m1 & E0 & E5 & E1 & N). apply N.
  specialize (F demo_load demo_load no_diag two_calls [CallNiirs5 0 0 false] (CallNiirs 0 0 false) eq_refl eq_refl).
  unfold after in F. cbn [fold_left perform] in F. cbn [two_calls sensors scenarios upd_scen sc] in F.
  rewrite E5, E0 in F. cbn [fst snd sensors scenarios] in F. rewrite !put_same in F. cbn [upd_scen sc] in F. rewrite E1 in F. cbn [snd] in F.
  injection F as F. rewrite F. reflexivity.
Qed.
