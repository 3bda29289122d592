(** * Num_TestDb: the models of utils.py and scenario.py on the cases of
    /repo/tests/scenario/test_utils.py and /repo/tests/scenario/test_scenario.py.

    Left out: the four stored atmospheres (binary files) the loaded tables are
    compared with; that a table is returned at all is shown. *)
From Coq Require Import Reals ZArith List Bool Lra Lia.
From Verif Require Import Base_XR Model_DbTable Model_Db Spec_Db Proof_Db
  Model_Scenario Spec_Scenario Proof_Scenario Model_Defaults Spec_Defaults Proof_Defaults.
Import ListNotations.
Open Scope R_scope.

(* no row of the decoder has altitude a/10 m, range g m, haze h *)
Definition absent (a g h : Z) : bool :=
  forallb (fun '(_, a', g', h') => negb ((a' =? a)%Z && (g' =? g)%Z && (h' =? h)%Z)) decoder.
Lemma absent_unlisted a g h st x y : absent a g h = true -> x = IZR a / 10 -> y = IZR g ->
  load_no_interp st x y h = Err IndexError.
Proof.
  intros F -> ->. apply no_interp_unlisted. intros i (a' & g' & I & A & G).
  unfold absent in F. rewrite forallb_forall in F. specialize (F _ I). cbv beta iota in F.
  assert (a' = a) by (apply eq_IZR; lra). apply eq_IZR in G. subst.
  rewrite !Z.eqb_refl in F. discriminate.
Qed.
Ltac parts := repeat match goal with |- _ /\ _ => split end.
Ltac unlisted a g h := apply (absent_unlisted a g h); [vm_compute; reflexivity | lra | lra].
Lemma listed_loads a g h st x y : complete st -> existsb (key a g h) decoder = true -> x = IZR a / 10 -> y = IZR g ->
  exists m, load_no_interp st x y h = Ok m.
Proof. intros C K -> ->. apply no_interp_some; [exact C|]. now apply key_listed. Qed.
Ltac listed a g h := apply (listed_loads a g h); [assumption | vm_compute; reflexivity | lra | lra].

(* test_utils.py:10-30 *)
Example test_no_interp_index_error st :
  load_no_interp st 1000 0 (-1) = Err IndexError /\ load_no_interp st 1000 0 0 = Err IndexError
  /\ load_no_interp st 1 0 1 = Err IndexError /\ load_no_interp st 300 0 1 = Err IndexError
  /\ load_no_interp st 1000 300 1 = Err IndexError.
Proof.
  parts.
  - unlisted 10000%Z 0%Z (-1)%Z.
  - unlisted 10000%Z 0%Z 0%Z.
  - unlisted 10%Z 0%Z 1%Z.
  - unlisted 3000%Z 0%Z 1%Z.
  - unlisted 10000%Z 300%Z 1%Z.
Qed.

(* test_utils.py:32-45; the directory holds every file of the decoder *)
Example test_no_interp st : complete st ->
  (exists m, load_no_interp st 1000 0 1 = Ok m) /\ exists m, load_no_interp st 1000 500 1 = Ok m.
Proof. intros C. split; [listed 10000%Z 0%Z 1%Z | listed 10000%Z 500%Z 1%Z]. Qed.

Lemma alt_1000 : In 1000 doc_altitudes.
Proof. unfold doc_altitudes. simpl. tauto. Qed.
Lemma range_0 : In 0 doc_ranges.
Proof. unfold doc_ranges. change 0 with (IZR 0). apply in_map. simpl. tauto. Qed.

(* test_utils.py:47-62 *)
Example test_interp_index_error st :
  load_interp st 1000 0 (-1) = Err IndexError /\ load_interp st 1000 0 0 = Err IndexError
  /\ load_interp st 1 0 1 = Err IndexError.
Proof.
  parts.
  - rewrite load_node by (exact alt_1000 || exact range_0). unlisted 10000%Z 0%Z (-1)%Z.
  - rewrite load_node by (exact alt_1000 || exact range_0). unlisted 10000%Z 0%Z 0%Z.
  - apply load_out_of_range. lra.
Qed.

(* test_utils.py:64-80 *)
Example test_interp st : complete st ->
  (exists m, load_interp st 1000 0 1 = Ok m) /\ (exists m, load_interp st 300 0 1 = Ok m)
  /\ (exists m, load_interp st 1000 500 1 = Ok m) /\ exists m, load_interp st 1000 300 1 = Ok m.
Proof.
  intros C.
  assert (K : forall g, 0 <= g <= 500 -> exists m, load_interp st 1000 g 1 = Ok m).
  { intros g G. apply load_success_iff; [exact C|]. split; [now left|]. split; [lra|]. split; [lra|].
    exists 1000, 110000. split; [unfold reach; simpl; tauto|]. split; [lra|]. split; [lra|]. split; [|lra].
    intros a' m' I L. unfold reach in I. simpl in I.
    repeat (destruct I as [[= <- <-]|I]; [lra|]). destruct I. }
  split; [apply K; lra|]. split; [|split; apply K; lra].
  apply load_success_iff; [exact C|]. split; [now left|]. split; [lra|]. split; [lra|].
  exists 225, 52000. split; [unfold reach; simpl; tauto|]. split; [lra|]. split; [lra|]. split; [|lra].
  intros a' m' I L. unfold reach in I. simpl in I.
  repeat (destruct I as [[= <- <-]|I]; [lra|]). destruct I.
Qed.

(* test_scenario.py:38-78  the three constructor calls *)
Example test_initialization : forall (all : arg -> list (slot * arg)),
  all = (fun v => map (fun a => (Plain a, v))
    [AircraftSpeed; TargetReflectance; TargetTemperature; BackgroundReflectance; BackgroundTemperature; HaWindSpeed; Cn2At1m]) ->
  (exists w, construct 0 0 0 [] [(Interp, Flag false)] = Ok w /\ forall a, plain (sc w) a = documented a)
  /\ (exists w, construct 1 1 1 [] [(Interp, Flag true)] = Ok w /\ forall a, plain (sc w) a = documented a)
  /\ (exists w, construct 1 1 1 [] ((Interp, Flag true) :: all (Num 1)) = Ok w /\ forall a, plain (sc w) a = 1).
Proof.
  intros all ->. repeat split; (eexists; split; [reflexivity|]); intros []; cbn; lra.
Qed.

(* test_scenario.py:80-140  assignments are read back and drop the cached atmosphere *)
Example test_setters : forall ni it,
  exists w, construct 0 0 0 [] [] = Ok w /\
    (let s := sc (run ni it [SetIhaze 2] w) in ihaze s = 2%Z /\ altitude s = 0 /\ ground_range s = 0 /\ cache s = None)
    /\ (let s := sc (run ni it [SetAltitude 2] w) in ihaze s = 0%Z /\ altitude s = 2 /\ ground_range s = 0 /\ cache s = None)
    /\ (let s := sc (run ni it [SetGroundRange 2] w) in ihaze s = 0%Z /\ altitude s = 0 /\ ground_range s = 2 /\ cache s = None).
Proof. intros. eexists. split; [reflexivity|]. repeat split. Qed.

(* test_scenario.py:143-160  IndexError; the test passes interp as the fifth positional argument,
   so that all seven cases use the exact lookup *)
Definition reads (st : store) (w : res world) : res atm :=
  let* w := w in observe (load_no_interp st) (load_interp st) w.
Example test_atm_index_error st :
  reads st (construct 0 1 0 [Flag true] []) = Err IndexError
  /\ reads st (construct 0 30000 0 [Flag true] []) = Err IndexError
  /\ reads st (construct 1 2 (-1) [Flag true] []) = Err IndexError
  /\ reads st (construct 1 2 400000 [Flag true] []) = Err IndexError
  /\ reads st (construct (-1) 1000 0 [Flag false] []) = Err IndexError
  /\ reads st (construct 0 1000 0 [Flag false] []) = Err IndexError
  /\ reads st (construct 1 1 1 [Flag false] []) = Err IndexError.
Proof.
  assert (K : forall ih alt gr b, reads st (construct ih alt gr [Flag b] []) = load_no_interp st alt gr ih).
  { intros. destruct (stray_flag (load_no_interp st) (load_interp st) ih alt gr b []) as (w & E & _ & O).
    - intros o [].
    - unfold reads. rewrite E. exact O. }
  rewrite !K. parts.
  - unlisted 10%Z 0%Z 0%Z.
  - unlisted 300000%Z 0%Z 0%Z.
  - unlisted 20%Z (-1)%Z 1%Z.
  - unlisted 20%Z 400000%Z 1%Z.
  - unlisted 10000%Z 0%Z (-1)%Z.
  - unlisted 10000%Z 0%Z 0%Z.
  - unlisted 10%Z 1%Z 1%Z.
Qed.
(* the same seven calls with interp=... fail as well *)
Example test_atm_index_error_keyword st :
  reads st (construct 0 1 0 [] [(Interp, Flag true)]) = Err IndexError
  /\ reads st (construct 0 30000 0 [] [(Interp, Flag true)]) = Err IndexError
  /\ reads st (construct 1 2 (-1) [] [(Interp, Flag true)]) = Err IndexError
  /\ reads st (construct 1 2 400000 [] [(Interp, Flag true)]) = Err IndexError.
Proof.
  assert (K : forall ih alt gr, reads st (construct ih alt gr [] [(Interp, Flag true)]) = load_interp st alt gr ih).
  { intros. unfold reads. cbn [construct bind_args signature lookup slot_eqb attr_eqb bind].
    exact (never_stale (load_no_interp st) (load_interp st) ih alt gr true _ [] ltac:(intros o [])). }
  rewrite !K. parts; apply load_out_of_range; lra.
Qed.

(* test_scenario.py:162-188  test_atm: with and without interpolation, against the loaders themselves *)
Example test_atm st :
  (forall ih alt gr, reads st (construct ih alt gr [] [(Interp, Flag true)]) = load_interp st alt gr ih)
  /\ (forall ih alt gr, reads st (construct ih alt gr [] [(Interp, Flag false)]) = load_no_interp st alt gr ih).
Proof.
  split; intros; unfold reads; cbn [construct bind_args signature lookup slot_eqb attr_eqb bind].
  - exact (never_stale (load_no_interp st) (load_interp st) ih alt gr true _ [] ltac:(intros o [])).
  - exact (never_stale (load_no_interp st) (load_interp st) ih alt gr false _ [] ltac:(intros o [])).
Qed.
