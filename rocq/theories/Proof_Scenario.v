(** * Proof_Scenario: cache coherence by induction over histories *)
From Coq Require Import Reals ZArith List Bool Lia Lra.
From Verif Require Import Base_XR Model_Db Model_Scenario Spec_Scenario.
Import ListNotations.

Section S.
  Variables ni it : loader.

  Definition fresh_load (s : scen) : res atm :=
    if interp s then it (altitude s) (ground_range s) (ihaze s)
    else ni (altitude s) (ground_range s) (ihaze s).

  Definition Inv (w : world) : Prop :=
    match cache (sc w) with
    | None => True
    | Some l => exists m, nth_error (heap w) l = Some m /\ fresh_load (sc w) = Ok m
    end.

  Lemma nth_error_snoc {A} (l : list A) x : nth_error (l ++ [x]) (length l) = Some x.
  Proof. rewrite nth_error_app2 by lia. now rewrite Nat.sub_diag. Qed.

  Lemma step_inv w o : is_poke o = false -> Inv w -> Inv (fst (step ni it w o)).
  Proof.
    intros Hp H. destruct o; simpl in *; try exact I; try discriminate.
    - (* SetPlain *) unfold Inv in *. simpl. destruct (cache (sc w)); auto.
    - unfold Inv in *. destruct (cache (sc w)) as [l|] eqn:E; simpl; [now rewrite E|].
      unfold fresh_load.
      destruct (if interp (sc w) then _ else _) as [m|e] eqn:L; simpl; [|now rewrite E].
      exists m. split; [apply nth_error_snoc|exact L].
  Qed.

  Lemma run_inv ops w : hands_off ops -> Inv w -> Inv (run ni it ops w).
  Proof.
    revert w. induction ops as [|o ops IH]; intros w Hh H; [exact H|].
    simpl. apply IH; [intros o' Ho; apply Hh; right; auto|].
    apply step_inv; [apply Hh; left; auto|exact H].
  Qed.

  Lemma observe_inv w : Inv w -> observe ni it w = fresh_load (sc w).
  Proof.
    intros H. unfold observe, Inv in *. simpl. destruct (cache (sc w)) as [l|] eqn:E.
    - destruct H as [m [N L]]. rewrite N. now rewrite L.
    - unfold fresh_load. destruct (if interp (sc w) then _ else _) as [m|e] eqn:L; [|reflexivity].
      simpl. now rewrite nth_error_snoc.
  Qed.

  Lemma run_params ops : forall w p,
    p_ihaze p = ihaze (sc w) -> p_altitude p = altitude (sc w) -> p_range p = ground_range (sc w) ->
    let w' := run ni it ops w in let p' := current ops p in
    p_ihaze p' = ihaze (sc w') /\ p_altitude p' = altitude (sc w') /\
    p_range p' = ground_range (sc w') /\ interp (sc w') = interp (sc w).
  Proof.
    induction ops as [|o ops IH]; intros w p H1 H2 H3; [auto|].
    change (run ni it (o :: ops) w) with (run ni it ops (fst (step ni it w o))).
    assert (K : exists q, current (o :: ops) p = current ops q /\
       let s := sc (fst (step ni it w o)) in
       p_ihaze q = ihaze s /\ p_altitude q = altitude s /\ p_range q = ground_range s /\
       interp s = interp (sc w)).
    { destruct o; eexists; (split; [reflexivity|]); simpl; auto.
      - destruct (cache (sc w)); [auto|].
        destruct (if interp (sc w) then _ else _); simpl; auto.
      - destruct (nth_error (heap w) l); simpl; auto. }
    destruct K as [q [-> [K1 [K2 [K3 K4]]]]].
    destruct (IH _ q K1 K2 K3) as [A [B [C D]]]. cbv zeta. rewrite D, K4. auto.
  Qed.

  (** C16 *)
  Lemma never_stale ih alt gr itp pl ops : hands_off ops ->
    let p := current ops {| p_ihaze := ih; p_altitude := alt; p_range := gr |} in
    observe ni it (run ni it ops (init ih alt gr itp pl))
    = (if itp then it else ni) (p_altitude p) (p_range p) (p_ihaze p).
  Proof.
    intros Hh p. rewrite observe_inv by (apply run_inv; [auto|exact I]).
    destruct (run_params ops (init ih alt gr itp pl) {| p_ihaze := ih; p_altitude := alt; p_range := gr |})
      as [A [B [C D]]]; auto.
    unfold fresh_load. fold p in A, B, C. rewrite <- A, <- B, <- C, D. simpl. now destruct itp.
  Qed.
  Lemma like_fresh ih alt gr itp pl ops : hands_off ops ->
    let p := current ops {| p_ihaze := ih; p_altitude := alt; p_range := gr |} in
    observe ni it (run ni it ops (init ih alt gr itp pl))
    = observe ni it (init (p_ihaze p) (p_altitude p) (p_range p) itp pl).
  Proof.
    intros Hh p. rewrite never_stale by auto. fold p. symmetry.
    rewrite observe_inv by exact I. unfold fresh_load. simpl. now destruct itp.
  Qed.

  (** arrays handed out earlier are never changed by the scenario *)
  Lemma step_heap w o l m : is_poke o = false -> nth_error (heap w) l = Some m ->
    nth_error (heap (fst (step ni it w o))) l = Some m.
  Proof.
    intros Hp H. destruct o; simpl in *; auto; try discriminate.
    destruct (cache (sc w)); simpl; auto.
    destruct (if interp (sc w) then _ else _); simpl; auto.
    rewrite nth_error_app1; auto. apply nth_error_Some. congruence.
  Qed.
  Lemma run_heap ops w l m : hands_off ops -> nth_error (heap w) l = Some m ->
    nth_error (heap (run ni it ops w)) l = Some m.
  Proof.
    revert w. induction ops as [|o ops IH]; intros w Hh H; [exact H|].
    simpl. apply IH; [intros o' Ho; apply Hh; right; auto|].
    apply step_heap; [apply Hh; left; auto|exact H].
  Qed.

  (** C17 *)
  Definition has_cache (w : world) : nat := match cache (sc w) with None => 0 | Some _ => 1 end.
  Lemma step_loads w o :
    (loads (fst (step ni it w o)) + (if invalidates o then 0 else has_cache w)
     <= loads w + has_cache (fst (step ni it w o)))%nat.
  Proof.
    destruct o; unfold has_cache; simpl; try lia; try (destruct (cache (sc w)); lia).
    - destruct (cache (sc w)) eqn:E; simpl; [rewrite E; lia|].
      destruct (if interp (sc w) then _ else _); simpl; [lia|rewrite E; lia].
    - destruct (nth_error (heap w) l); simpl; destruct (cache (sc w)); simpl; lia.
  Qed.
  Lemma has_cache_le w : (has_cache w <= 1)%nat.
  Proof. unfold has_cache. destruct (cache (sc w)); lia. Qed.
  Lemma run_loads ops : forall w,
    (loads (run ni it ops w) + has_cache w
     <= loads w + has_cache (run ni it ops w) + invalidations ops)%nat.
  Proof.
    induction ops as [|o ops IH]; intros w; [simpl; unfold invalidations; simpl; lia|].
    change (run ni it (o :: ops) w) with (run ni it ops (fst (step ni it w o))).
    specialize (IH (fst (step ni it w o))). pose proof (step_loads w o) as S.
    pose proof (has_cache_le w).
    assert (V : invalidations (o :: ops) = ((if invalidates o then 1 else 0) + invalidations ops)%nat).
    { unfold invalidations. simpl. now destruct (invalidates o). }
    rewrite V. destruct (invalidates o); lia.
  Qed.
  Lemma loads_bound ih alt gr itp pl ops :
    (loads (run ni it ops (init ih alt gr itp pl)) <= 1 + invalidations ops)%nat.
  Proof.
    pose proof (run_loads ops (init ih alt gr itp pl)) as H.
    pose proof (has_cache_le (run ni it ops (init ih alt gr itp pl))).
    change (has_cache (init ih alt gr itp pl)) with 0%nat in H.
    change (loads (init ih alt gr itp pl)) with 0%nat in H. lia.
  Qed.
  Lemma reread w l : snd (step ni it w ReadAtm) = Ok (Array l) ->
    let w1 := fst (step ni it w ReadAtm) in
    step ni it w1 ReadAtm = (w1, Ok (Array l)).
  Proof.
    simpl. destruct (cache (sc w)) as [l'|] eqn:E; simpl.
    - intros H. injection H as <-. now rewrite E.
    - destruct (if interp (sc w) then _ else _); simpl; intros H; [|discriminate].
      injection H as <-. reflexivity.
  Qed.

  (** C18 *)
  Lemma failed_read w e : snd (step ni it w ReadAtm) = Err e -> fst (step ni it w ReadAtm) = w.
  Proof.
    simpl. destruct (cache (sc w)); simpl; [discriminate|].
    destruct (if interp (sc w) then _ else _); simpl; [discriminate|auto].
  Qed.
  Lemma failed_read_in_history ih alt gr itp pl ops1 ops2 e :
    snd (step ni it (run ni it ops1 (init ih alt gr itp pl)) ReadAtm) = Err e ->
    run ni it (ops1 ++ ReadAtm :: ops2) (init ih alt gr itp pl)
    = run ni it (ops1 ++ ops2) (init ih alt gr itp pl).
  Proof.
    intros H. unfold run. rewrite !fold_left_app. simpl.
    fold (run ni it ops1 (init ih alt gr itp pl)).
    apply failed_read in H. cbn [step] in H. rewrite H. reflexivity.
  Qed.
End S.

(** C19 *)
Lemma poke_seen ni it w l m i j v :
  snd (step ni it w ReadAtm) = Ok (Array l) ->
  nth_error (heap (fst (step ni it w ReadAtm))) l = Some m ->
  observe ni it (run ni it [ReadAtm; Poke l i j v] w) = Ok (poke_atm m i j v).
Proof.
  intros H N. unfold run. cbn [fold_left]. set (w1 := fst (step ni it w ReadAtm)) in *.
  assert (C : cache (sc w1) = Some l).
  { pose proof (reread ni it w l H) as R. fold w1 in R. cbn [step] in R.
    destruct (cache (sc w1)) eqn:E; [congruence|].
    unfold w1 in E. simpl in E, H. destruct (cache (sc w)) eqn:E2; simpl in E; [congruence|].
    destruct (if interp (sc w) then _ else _); simpl in *; congruence. }
  unfold observe. cbn [step]. rewrite N. cbn [fst]. cbn [sc heap]. rewrite C. cbn [heap].
  assert (L : nth_error (set_nth l (poke_atm m i j v) (heap w1)) l = Some (poke_atm m i j v)).
  { revert N. generalize (heap w1) as hp. clear. induction l as [|l IH]; intros [|a hp] N; try discriminate; simpl; auto. }
  rewrite L. reflexivity.
Qed.

Lemma aliasing_refuted :
  ~ (forall (ni it : loader) ih alt gr itp pl ops,
       let p := current ops {| p_ihaze := ih; p_altitude := alt; p_range := gr |} in
       observe ni it (run ni it ops (init ih alt gr itp pl))
       = (if itp then it else ni) (p_altitude p) (p_range p) (p_ihaze p)).
Proof.
  intros H.
  specialize (H (fun _ _ _ => Ok (fun _ _ => 1%R)) (fun _ _ _ => Ok (fun _ _ => 1%R)) 1%Z 9000%R 0%R false (fun _ => 0%R)
    [ReadAtm; Poke 0 0 1 0%R]). cbv zeta in H.
  erewrite poke_seen in H; [|reflexivity|reflexivity].
  injection H as H. apply (f_equal (fun f => f 0%nat 1%nat)) in H. unfold poke_atm in H. simpl in H. lra.
Qed.
