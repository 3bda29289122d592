(** * Proof_Store: what the loaders and constructors store, value by value *)
From Coq Require Import Reals Lra List Lia ZArith.
From Verif Require Import Base_XR Base_Np Base_NpFacts Model_DbTable Model_Db Spec_Db Proof_Db
  Model_Scenario Spec_Scenario Proof_Scenario Model_Sensor Proof_Sensor.
Import ListNotations.
Open Scope R_scope.

Local Lemma ok_inj {A} (x y : A) : Ok x = Ok y -> x = y.
Proof. congruence. Qed.

(** ** database files *)
Lemma no_interp_columns st alt g h m : load_no_interp st alt g h = Ok m ->
  exists i d, listed i alt g h /\ stored st i d /\
    (forall r, m r 1%nat = d r 0%nat) /\
    (forall r c, (1 <= c)%nat -> m r (S c) = 10000000000 * d r c).
Proof.
  intros H. apply no_interp_ok_iff in H. destruct H as [i [d [L [D ->]]]].
  exists i, d. repeat split; auto. intros r c Hc. unfold assemble.
  destruct c as [|c]; [lia|]. unfold Rdiv. rewrite Rinv_inv.
  replace (10 ^ 10) with 10000000000 by (simpl; lra). ring.
Qed.

Lemma no_interp_wavelength st alt g h m i : load_no_interp st alt g h = Ok m ->
  (i < 1371)%nat -> m i 0%nat = (0.3 + INR i * 0.01) / 1000000.
Proof.
  intros H Hi. apply no_interp_ok_iff in H. destruct H as [k [d [_ [_ ->]]]].
  change (assemble d i 0%nat) with (wavelength i). rewrite wavelength_val by exact Hi. simpl. lra.
Qed.

Lemma interp_wavelength st alt g h m i : load_interp st alt g h = Ok m ->
  (i < 1371)%nat -> m i 0%nat = (0.3 + INR i * 0.01) / 1000000.
Proof.
  intros H Hi. rewrite (load_wavelength _ _ _ _ _ _ H), wavelength_val by exact Hi. simpl. lra.
Qed.

(* files are numbered 1..3430 in the order of the decoder, each used once *)
Lemma decoder_numbering : map row_index decoder = map Z.of_nat (seq 1 3430).
Proof. vm_compute. reflexivity. Qed.
Lemma listed_key_unique i alt alt' g g' h h' :
  listed i alt g h -> listed i alt' g' h' -> alt = alt' /\ g = g' /\ h = h'.
Proof.
  intros [a [r [I [-> ->]]]] [a' [r' [I' [-> ->]]]].
  assert (N : NoDup (map row_index decoder)).
  { rewrite decoder_numbering. apply FinFun.Injective_map_NoDup; [intros x y; lia|apply seq_NoDup]. }
  pose proof (nodup_map_inj row_index decoder (i, a, r, h) (i, a', r', h') N I I' eq_refl) as E.
  injection E as -> -> ->. auto.
Qed.

(** ** Scenario attributes *)
Section S.
  Variables ni it : loader.

  Lemma step_plain w o a : (forall r, o <> SetPlain a r) ->
    plain (sc (fst (step ni it w o))) a = plain (sc w) a.
  Proof.
    intros H. destruct o; simpl; auto.
    - destruct (attr_eqb a0 a) eqn:E; auto.
      assert (a0 = a) by (destruct a0, a; simpl in E; congruence). subst. now specialize (H r).
    - destruct (cache (sc w)); auto. destruct (if interp (sc w) then _ else _); auto.
    - destruct (nth_error (heap w) l); auto.
  Qed.
  Lemma run_plain ops : forall w a, (forall o, In o ops -> forall r, o <> SetPlain a r) ->
    plain (sc (run ni it ops w)) a = plain (sc w) a.
  Proof.
    induction ops as [|o ops IH]; intros w a H; [reflexivity|].
    change (run ni it (o :: ops) w) with (run ni it ops (fst (step ni it w o))).
    rewrite IH by (intros o' Ho; apply H; right; auto). apply step_plain. apply H. left; auto.
  Qed.
  Lemma attr_last ops1 ops2 w a v : (forall o, In o ops2 -> forall r, o <> SetPlain a r) ->
    plain (sc (run ni it (ops1 ++ SetPlain a v :: ops2) w)) a = v.
  Proof.
    intros H. unfold run. rewrite fold_left_app. cbn [fold_left].
    fold (run ni it ops1 w). fold (run ni it ops2 (fst (step ni it (run ni it ops1 w) (SetPlain a v)))).
    rewrite run_plain by exact H. simpl. now destruct a.
  Qed.
  Lemma attr_initial ih alt gr itp pl ops a : (forall o, In o ops -> forall r, o <> SetPlain a r) ->
    plain (sc (run ni it ops (init ih alt gr itp pl))) a = pl a.
  Proof. intros H. now rewrite run_plain. Qed.
  Lemma params_last ih alt gr itp pl ops :
    let p := current ops {| p_ihaze := ih; p_altitude := alt; p_range := gr |} in
    let s := sc (run ni it ops (init ih alt gr itp pl)) in
    ihaze s = p_ihaze p /\ altitude s = p_altitude p /\ ground_range s = p_range p /\ interp s = itp.
  Proof.
    destruct (run_params ni it ops (init ih alt gr itp pl) {| p_ihaze := ih; p_altitude := alt; p_range := gr |})
      as [A [B [C D]]]; auto.
  Qed.

  Lemma poke_seen_entries w l m i j v :
    snd (step ni it w ReadAtm) = Ok (Array l) ->
    nth_error (heap (fst (step ni it w ReadAtm))) l = Some m ->
    exists m', observe ni it (run ni it [ReadAtm; Poke l i j v] w) = Ok m' /\
      m' i j = v /\ forall i' j', (i' <> i \/ j' <> j) -> m' i' j' = m i' j'.
  Proof.
    intros H N. exists (poke_atm m i j v). split; [now apply poke_seen|].
    unfold poke_atm. split; [now rewrite !Nat.eqb_refl|]. intros i' j' K.
    destruct (Nat.eqb_spec i' i), (Nat.eqb_spec j' j); simpl; auto. lia.
  Qed.
End S.

(** ** Sensor *)
Lemma sensor_keywords D f p wl eta py wx wy kw s :
  sensor_init D f p wl eta py wx wy kw = Ok s ->
  s_D s = D /\ s_f s = f /\ s_px s = p /\ s_eta s = eta /\ s_owl s = wl /\ s_qwl s = wl /\
  s_int_time s = k_int_time kw /\ s_dark s = k_dark kw /\ s_other_irr s = k_other_irr kw /\
  s_read s = k_read kw /\ s_max_n s = k_max_n kw /\ s_max_fill s = k_max_fill kw /\
  s_bits s = k_bits kw /\ s_ntdi s = k_ntdi kw /\ s_T_shield s = k_T_shield kw /\
  s_T_opt s = k_T_opt kw /\ s_e_opt s = k_e_opt kw /\ s_t_filt s = k_t_filt kw /\
  s_T_filt s = k_T_filt kw /\ s_e_filt s = k_e_filt kw /\ s_sx s = k_sx kw /\ s_sy s = k_sy kw /\
  s_dax s = k_dax kw /\ s_day s = k_day kw /\ s_pv s = k_pv kw /\ s_pv_wl s = k_pv_wl kw.
Proof.
  unfold sensor_init. intros H.
  destruct wy as [wy|]; [|destruct (pydiv _ _); [|discriminate]]; cbn [bind] in H;
  apply ok_inj in H; subst s; cbn; repeat split.
Qed.

(* a sensor built without keyword arguments adds nothing of its own: no jitter,
   drift, wavefront error, dark current, read noise, emission or filtering *)
Lemma sensor_default_values D f p wl eta s :
  sensor_init D f p wl eta None None None default_kw = Ok s ->
  s_int_time s = 1 /\ s_dark s = 0 /\ s_other_irr s = 0 /\ s_read s = 0 /\ s_max_n s = 100000000 /\
  s_max_fill s = 1 /\ s_bits s = 100 /\ s_ntdi s = 1 /\ s_T_shield s = 70 /\ s_T_opt s = 270 /\
  s_e_opt s = 0 /\ s_t_filt s = 1 /\ s_T_filt s = 70 /\ s_e_filt s = 0 /\ s_sx s = 0 /\ s_sy s = 0 /\
  s_dax s = 0 /\ s_day s = 0 /\ s_pv s = 0 /\ s_pv_wl s = 0.000000633 /\
  s_other_noise s = [0] /\ s_kernel s = [[1]] /\ s_frames s = 1.
Proof.
  unfold sensor_init. intros H.
  destruct (pydiv _ _); [|discriminate]. cbn [bind] in H.
  apply ok_inj in H; subst s; cbn; repeat split. lra.
Qed.

(** ** RefImage.estimate_capture_parameters *)
Lemma capture_values ri alt s w : estimate_capture_parameters ri alt = Ok (s, w) ->
  s_px s = 0.00002 /\ s_eta s = 0 /\ s_owl s = [0.00000038; 0.0000007] /\ s_qwl s = s_owl s /\
  s_otr s = [1; 1] /\ s_qe s = [1; 1] /\
  plain (sc w) TargetReflectance = 0.15 /\ plain (sc w) TargetTemperature = 295 /\
  plain (sc w) BackgroundReflectance = 0.07 /\ plain (sc w) BackgroundTemperature = 293 /\
  heap w = [] /\ cache (sc w) = None.
Proof.
  unfold estimate_capture_parameters. intros H.
  destruct (pydiv _ (ri_gsd ri)) as [f|]; [|discriminate]. cbn [bind] in H.
  destruct (pydiv _ f) as [x|]; [|discriminate]. cbn [bind] in H.
  destruct (xdiv _ _); try discriminate.
  destruct (sensor_init _ _ _ _ _ _ _ _ _) as [s'|] eqn:E; [|discriminate].
  cbn [bind] in H. apply ok_inj in H. injection H as -> <-.
  unfold sensor_init in E. destruct (pydiv _ _); [|discriminate]. cbn [bind] in E.
  apply ok_inj in E. subst s. cbn. repeat split; try lra.
  f_equal; [lra|]. f_equal. lra.
Qed.
