(** * Proof_Session: what programs can and cannot observe *)
From Coq Require Import Reals Lra ZArith List Bool Lia FunctionalExtensionality.
From Verif Require Import Base_XR Base_Np Model_Geo Model_Db Model_Scenario Model_Sensor Model_Rad Model_Otf Model_Img Model_Met Model_Sim Model_Session
  Spec_Session Proof_Niirs Proof_SimP.
Import ListNotations.
Open Scope R_scope.

Lemma put_same {A} (f : nat -> A) i x : put f i x i = x. Proof. unfold put. rewrite Nat.eqb_refl. reflexivity. Qed.
Lemma put_other {A} (f : nat -> A) i k x : i <> k -> put f i x k = f k.
Proof. intros H. unfold put. destruct (Nat.eqb_spec i k); [contradiction | reflexivity]. Qed.

(** ** the functions see the geometry only *)
Lemma geo_refl c : same_geometry c c. Proof. repeat split. Qed.
Lemma geo_trans a b c : same_geometry a b -> same_geometry b c -> same_geometry a c.
Proof.
  intros (A1 & A2 & A3 & A4 & A5) (B1 & B2 & B3 & B4 & B5). repeat split; try congruence. intros x Hx. rewrite (B5 x Hx), (A5 x Hx). reflexivity.
Qed.
Lemma geo_sym a b : same_geometry a b -> same_geometry b a.
Proof. intros (A1 & A2 & A3 & A4 & A5). repeat split; try congruence. intros x Hx. symmetry. auto. Qed.
Lemma book_geo s c : same_geometry c (snd (bookkeeping s c)).
Proof.
  unfold bookkeeping. destruct (Rleb _ _); cbn [snd]; (split; [reflexivity|]); (split; [reflexivity|]); (split; [reflexivity|]); (split; [reflexivity|]);
    intros a [<-|[<-|[<-|[]]]]; reflexivity.
Qed.
Lemma book_both s c c' : fst (bookkeeping s c') = fst (bookkeeping s c) /\ cache (snd (bookkeeping s c)) = cache c.
Proof. unfold bookkeeping. destruct (Rleb _ _); split; reflexivity. Qed.
Lemma common_geo diag k s c c' pts wl w sl ti : same_geometry c c' -> common_OTFs diag k s c' pts wl w sl ti = common_OTFs diag k s c pts wl w sl ti.
Proof.
  intros (_ & A & _ & _ & P). unfold common_OTFs. rewrite A, (P AircraftSpeed), (P HaWindSpeed), (P Cn2At1m) by (cbn; auto). reflexivity.
Qed.
Lemma band_geo ni it s c c' itp : same_geometry c c' -> load_band ni it s c' itp = load_band ni it s c itp.
Proof. intros (A & B & C & _). unfold load_band. rewrite A, B, C. reflexivity. Qed.
Lemma rest_geo diag s c c' ct : same_geometry c c' -> niirs_rest diag s c' ct = niirs_rest diag s c ct.
Proof.
  intros H. assert (H' := H). destruct H' as (_ & A & B & _ & _). unfold niirs_rest. rewrite A, B.
  destruct (finite (curved_earth_slant_range _ _ _)) as [sl|]; cbn [bind]; [|reflexivity].
  destruct (finite (m_int_time _)) as [t|]; cbn [bind]; [|reflexivity]. rewrite (common_geo _ _ _ _ _ _ _ _ _ _ H). reflexivity.
Qed.
Lemma rest5_geo diag s c c' ct : same_geometry c c' -> niirs5_rest diag s c' ct = niirs5_rest diag s c ct.
Proof.
  intros H. assert (H' := H). destruct H' as (_ & A & B & _ & _). unfold niirs5_rest. rewrite A, B.
  destruct (finite (curved_earth_slant_range _ _ _)) as [sl|]; cbn [bind]; [|reflexivity].
  destruct (finite (m_int_time _)) as [t|]; cbn [bind]; [|reflexivity]. rewrite (common_geo _ _ _ _ _ _ _ _ _ _ H). reflexivity.
Qed.
Lemma niirs_geo ni it diag s c c' itp : same_geometry c c' ->
  snd (niirs ni it diag s c' itp) = snd (niirs ni it diag s c itp) /\
  same_geometry c (fst (niirs ni it diag s c itp)) /\ cache (fst (niirs ni it diag s c itp)) = cache c.
Proof.
  intros H. unfold niirs. rewrite (band_geo ni it s c c' itp H). destruct (load_band ni it s c itp) as [rows|].
  - assert (B := book_geo s c). assert (B' := book_geo s c'). destruct (book_both s c c') as [E F].
    destruct (bookkeeping s c) as [z d]. destruct (bookkeeping s c') as [z' d']. cbn [fst snd] in *. subst z'. split; [|split; assumption].
    destruct (contrast_part s rows z) as [ct|]; cbn [bind]; [|reflexivity]. apply rest_geo.
    apply (geo_trans _ c); [apply geo_sym, B|]. apply (geo_trans _ c'); [exact H | exact B'].
  - split; [reflexivity|]. split; [apply geo_refl | reflexivity].
Qed.
(* the sensor's kernel is not looked at by niirs5 *)
Definition but_kernel (s s' : sensor) : Prop := s' = s \/ s' = no_sharpening s.
Lemma niirs5_geo ni it diag s s' c c' itp : same_geometry c c' -> but_kernel s s' ->
  snd (niirs5 ni it diag s' c' itp) = snd (niirs5 ni it diag s c itp) /\
  but_kernel s (fst (fst (niirs5 ni it diag s c itp))) /\ but_kernel s (fst (fst (niirs5 ni it diag s' c' itp))) /\
  same_geometry c (snd (fst (niirs5 ni it diag s c itp))) /\ cache (snd (fst (niirs5 ni it diag s c itp))) = cache c.
Proof.
  intros H K. unfold niirs5.
  assert (K1 : load_band ni it s' c' itp = load_band ni it s c' itp) by (destruct K as [-> | ->]; reflexivity).
  assert (K2 : bookkeeping s' c' = bookkeeping s c') by (destruct K as [-> | ->]; reflexivity).
  assert (K3 : contrast_part s' = contrast_part s) by (destruct K as [-> | ->]; reflexivity).
  assert (K4 : no_sharpening s' = no_sharpening s) by (destruct K as [-> | ->]; reflexivity).
  rewrite K1, K2, K3, K4, (band_geo ni it s c c' itp H). destruct (load_band ni it s c itp) as [rows|].
  - assert (B := book_geo s c). assert (B' := book_geo s c'). destruct (book_both s c c') as [E F].
    destruct (bookkeeping s c) as [z d]. destruct (bookkeeping s c') as [z' d']. cbn [fst snd] in *. subst z'.
    destruct (contrast_part s rows z) as [ct|]; cbn [fst snd].
    + split; [|split; [right; reflexivity | split; [right; reflexivity | split; assumption]]]. apply rest5_geo.
      apply (geo_trans _ c); [apply geo_sym, B|]. apply (geo_trans _ c'); [exact H | exact B'].
    + split; [reflexivity|]. split; [left; reflexivity|]. split; [exact K | split; assumption].
  - cbn [fst snd]. split; [reflexivity|]. split; [left; reflexivity|]. split; [exact K|]. split; [apply geo_refl | reflexivity].
Qed.
Lemma sim_geo diag d s c c' r m : same_geometry c c' -> simulate_rest diag d s c' r m = simulate_rest diag d s c r m.
Proof.
  intros H. assert (H' := H). destruct H' as (_ & A & B & _ & _).
  assert (O : forall wl w, simulate_otf diag s c' wl w = simulate_otf diag s c wl w).
  { intros wl w. unfold simulate_otf, slant_flat. rewrite A, B. destruct (positive_weights wl w) as [[wl' w']|]; cbn [bind]; [|reflexivity].
    destruct (py_min wl') as [lm|]; cbn [bind]; [|reflexivity]. destruct (finite _) as [cut|]; cbn [bind]; [|reflexivity].
    cbv zeta. rewrite (common_geo _ _ _ _ _ _ _ _ _ _ H). reflexivity. }
  unfold simulate_rest. destruct (reflectance_to_photoelectrons _ _ _ _) as [[[ref pe] [wl w]]|]; cbn [bind]; [|reflexivity].
  rewrite O. unfold slant_flat. rewrite A, B. reflexivity.
Qed.

(** ** descriptions of target and background are never used *)
Definition view (w w' : world) : Prop := same_geometry (sc w) (sc w') /\ cache (sc w') = cache (sc w) /\ heap w' = heap w /\ loads w' = loads w.
Definition like (st st' : session) : Prop := (forall i, sensors st' i = sensors st i) /\ forall j, view (scenarios st j) (scenarios st' j).
Lemma view_refl w : view w w. Proof. split; [apply geo_refl | auto]. Qed.
Lemma view_sym w w' : view w w' -> view w' w.
Proof. intros (A & B & C & D). split; [apply geo_sym, A | auto]. Qed.
Lemma view_trans a b c : view a b -> view b c -> view a c.
Proof. intros (A & A1 & A2 & A3) (B & B1 & B2 & B3). split; [exact (geo_trans _ _ _ A B)|]. repeat split; congruence. Qed.
Lemma like_refl st : like st st. Proof. split; [reflexivity | intros; apply view_refl]. Qed.
Lemma read_view ni it w w' : view w w' -> view (fst (step ni it w ReadAtm)) (fst (step ni it w' ReadAtm)) /\
  snd (step ni it w' ReadAtm) = snd (step ni it w ReadAtm).
Proof.
  intros (G & C & H & L). assert (G' := G). destruct G' as (A1 & A2 & A3 & A4 & A5). cbn [step]. rewrite C, A1, A2, A3, A4, H, L.
  destruct (cache (sc w)) as [l|] eqn:E.
  - cbn [fst snd]. split; [|reflexivity]. split; [exact G|]. rewrite C. auto.
  - destruct (if interp (sc w) then _ else _) as [m|]; cbn [fst snd]; (split; [|reflexivity]).
    + repeat split; cbn [sc heap loads ihaze altitude ground_range interp plain cache]; try congruence. exact A5.
    + split; [exact G|]. rewrite C, E. auto.
Qed.
Lemma observe_view ni it w w' : view w w' -> observe ni it w' = observe ni it w.
Proof.
  intros V. destruct (read_view ni it w w' V) as [(_ & _ & H & _) R]. unfold observe.
  destruct (step ni it w ReadAtm) as [x a]. destruct (step ni it w' ReadAtm) as [x' a']. cbn [fst snd] in *. rewrite R, H. reflexivity.
Qed.
Lemma step_view ni it w w' o : view w w' -> view (fst (step ni it w o)) (fst (step ni it w' o)) /\ snd (step ni it w' o) = snd (step ni it w o).
Proof.
  intros V. assert (V' := V). destruct V' as ((A1 & A2 & A3 & A4 & A5) & C & H & L). destruct o as [z|r|r|a r| |l i j v]; [| | | |apply read_view, V|];
    try (cbn [step fst snd upd_scen]; (split; [|reflexivity]); split; [|cbn [sc upd_scen heap loads cache]; auto];
         repeat split; cbn [sc upd_scen ihaze altitude ground_range interp plain]; try assumption).
  - intros b Hb. cbn. destruct (attr_eqb a b); [reflexivity | apply A5, Hb].
  - cbn [step]. rewrite H. destruct (nth_error (heap w) l) as [m|]; cbn [fst snd]; (split; [|reflexivity]); [|exact V].
    split; [repeat split; assumption|]. cbn [sc heap loads]. rewrite L. auto.
Qed.
Lemma upd_view w w' c c' : view w w' -> same_geometry c c' -> cache c' = cache c -> view (upd_scen w c) (upd_scen w' c').
Proof. intros (_ & _ & H & L) G C. split; [exact G|]. auto. Qed.
Lemma put_view f f' j w w' : (forall k, view (f k) (f' k)) -> view w w' -> forall k, view (put f j w k) (put f' j w' k).
Proof. intros H V k. unfold put. destruct (Nat.eqb j k); [exact V | apply H]. Qed.
Lemma perform_like ni it diag st st' e : like st st' ->
  like (fst (perform ni it diag st e)) (fst (perform ni it diag st' e)) /\ snd (perform ni it diag st' e) = snd (perform ni it diag st e).
Proof.
  intros [S V]. destruct e as [i j itp|i j itp|d r i j|j o|i g]; cbn [perform].
  - rewrite S. assert (Vj := V j). assert (Gj := proj1 Vj).
    destruct (niirs_geo ni it diag (sensors st i) _ _ itp Gj) as (R & G & C).
    destruct (niirs_geo ni it diag (sensors st i) (sc (scenarios st' j)) (sc (scenarios st' j)) itp (geo_refl _)) as (_ & G' & C').
    destruct (niirs _ _ _ _ (sc (scenarios st j)) _) as [c x]. destruct (niirs _ _ _ _ (sc (scenarios st' j)) _) as [c' x']. cbn [fst snd] in *. subst x'.
    split; [|reflexivity]. split; [exact S|]. cbn [scenarios]. apply put_view; [exact V|]. apply upd_view; [exact Vj| |].
    + apply (geo_trans _ (sc (scenarios st j))); [apply geo_sym, G|]. apply (geo_trans _ (sc (scenarios st' j))); assumption.
    + rewrite C, C'. apply Vj.
  - rewrite S. assert (Vj := V j). assert (Gj := proj1 Vj).
    destruct (niirs5_geo ni it diag (sensors st i) (sensors st i) _ _ itp Gj (or_introl eq_refl)) as (R & _ & _ & G & C).
    destruct (niirs5_geo ni it diag (sensors st i) (sensors st i) (sc (scenarios st' j)) (sc (scenarios st' j)) itp (geo_refl _) (or_introl eq_refl)) as (_ & _ & _ & G' & C').
    assert (Q : fst (fst (niirs5 ni it diag (sensors st i) (sc (scenarios st' j)) itp)) = fst (fst (niirs5 ni it diag (sensors st i) (sc (scenarios st j)) itp))).
    { unfold niirs5. rewrite (band_geo ni it _ _ _ itp Gj). destruct (load_band _ _ _ _ _) as [rows|]; [|reflexivity].
      destruct (book_both (sensors st i) (sc (scenarios st j)) (sc (scenarios st' j))) as [E _].
      destruct (bookkeeping _ (sc (scenarios st j))) as [z d]. destruct (bookkeeping _ (sc (scenarios st' j))) as [z' d']. cbn [fst] in E. subst z'.
      destruct (contrast_part _ _ _); reflexivity. }
    destruct (niirs5 _ _ _ _ (sc (scenarios st j)) _) as [[s c] x]. destruct (niirs5 _ _ _ _ (sc (scenarios st' j)) _) as [[s' c'] x']. cbn [fst snd] in *. subst x' s'.
    split; [|reflexivity]. split.
    + cbn [sensors]. intros k. unfold put. destruct (Nat.eqb i k); [reflexivity | apply S].
    + cbn [scenarios]. apply put_view; [exact V|]. apply upd_view; [exact Vj| |].
      * apply (geo_trans _ (sc (scenarios st j))); [apply geo_sym, G|]. apply (geo_trans _ (sc (scenarios st' j))); assumption.
      * rewrite C, C'. apply Vj.
  - rewrite S. assert (Vj := V j). rewrite !sim_world, (observe_view ni it _ _ Vj). destruct (read_view ni it _ _ Vj) as [RV _]. cbn [fst snd].
    split; [split; [exact S|]; cbn [scenarios]; apply put_view; assumption|].
    destruct (observe _ _ _) as [m|]; cbn [bind]; [|reflexivity]. rewrite (sim_geo diag d _ _ _ r m (proj1 RV)). reflexivity.
  - destruct (step_view ni it _ _ o (V j)) as [W R]. destruct (step _ _ (scenarios st j) o) as [w x]. destruct (step _ _ (scenarios st' j) o) as [w' x']. cbn [fst snd] in *. subst x'.
    split; [|reflexivity]. split; [exact S|]. cbn [scenarios]. apply put_view; assumption.
  - split; [|reflexivity]. split; [|exact V]. cbn [sensors fst]. intros k. unfold put. rewrite S. destruct (Nat.eqb i k); [reflexivity | apply S].
Qed.
Lemma perform_hidden ni it diag st e : describes_target e = true -> like st (fst (perform ni it diag st e)).
Proof.
  intros H. destruct e as [| | |j o|]; try discriminate. destruct o as [| | |a r| |]; try discriminate.
  split; [reflexivity|]. cbn [perform step fst scenarios]. intros k. unfold put. destruct (Nat.eqb_spec j k) as [<-|]; [|apply view_refl].
  split; [|auto]. repeat split. intros b Hb. cbn [upd_scen sc plain]. destruct a; try discriminate H; destruct Hb as [<-|[<-|[<-|[]]]]; reflexivity.
Qed.
Lemma transcript_like ni it diag evs st st' : like st st' -> transcript ni it diag st' evs = transcript ni it diag st evs.
Proof.
  revert st st'. induction evs as [|e evs IH]; intros st st' H; [reflexivity|]. cbn [transcript].
  destruct (perform_like ni it diag st st' e H) as [L A]. destruct (perform ni it diag st e) as [x a]. destruct (perform ni it diag st' e) as [x' a']. cbn [fst snd] in *.
  rewrite A. f_equal. apply IH, L.
Qed.
Lemma hidden_erased ni it diag evs st :
  filter (fun p => negb (describes_target (fst p))) (transcript ni it diag st evs) = transcript ni it diag st (filter (fun e => negb (describes_target e)) evs).
Proof.
  revert st. induction evs as [|e evs IH]; intros st; [reflexivity|]. cbn [transcript filter].
  destruct (describes_target e) eqn:E; cbn [negb].
  - assert (L := perform_hidden ni it diag st e E). destruct (perform ni it diag st e) as [x a]. cbn [filter fst] in *. rewrite E. cbn [negb].
    rewrite IH. apply transcript_like, L.
  - cbn [transcript]. destruct (perform ni it diag st e) as [x a]. cbn [filter fst]. rewrite E. cbn [negb]. f_equal. apply IH.
Qed.
