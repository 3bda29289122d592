(** * Proof_Stray: lemmas for C137 *)
From Coq Require Import Reals Lra List ZArith.
From Verif Require Import Base_XR Base_Np Model_Geo Model_Db Model_Scenario Model_Sensor Model_Rad Model_Otf Model_Img Model_Met Model_Sim
  Spec_Rad Spec_Met Spec_Stray Proof_Rad Proof_Niirs Proof_NiirsDemo.
Import ListNotations.
Open Scope R_scope.

Lemma stray_band ni it s E c itp : load_band ni it (with_stray s E) c itp = load_band ni it s c itp.
Proof. reflexivity. Qed.
Lemma stray_book s E c : bookkeeping (with_stray s E) c = bookkeeping s c.
Proof. reflexivity. Qed.
Lemma stray_other s E wl : sensor_other_irradiance (with_stray s E) wl = sensor_other_irradiance s wl.
Proof. reflexivity. Qed.
Lemma stray_contrast s E l em : contrast_part (with_stray s E) l em = contrast_part s l em.
Proof. reflexivity. Qed.
Lemma stray_common diag k s E c pts wl w sl t : common_OTFs diag k (with_stray s E) c pts wl w sl t = common_OTFs diag k s c pts wl w sl t.
Proof. reflexivity. Qed.
Lemma stray_niirs ni it diag s E c itp : niirs ni it diag (with_stray s E) c itp = niirs ni it diag s c itp.
Proof.
  unfold niirs. rewrite stray_band, stray_book. destruct (load_band ni it s c itp) as [l|]; [|reflexivity].
  destruct (bookkeeping s c) as [z c']. rewrite stray_contrast. destruct (contrast_part s l z); reflexivity.
Qed.
Lemma stray_niirs5 ni it diag s E c itp :
  niirs5 ni it diag (with_stray s E) c itp = (let '(s', c', r) := niirs5 ni it diag s c itp in (with_stray s' E, c', r)).
Proof.
  unfold niirs5. rewrite stray_band, stray_book. destruct (load_band ni it s c itp) as [l|]; [|reflexivity].
  destruct (bookkeeping s c) as [z c']. rewrite stray_contrast. destruct (contrast_part s l z); reflexivity.
Qed.
Lemma stray_r2p s E atm t T : reflectance_to_photoelectrons atm (with_stray s E) t T = reflectance_to_photoelectrons atm s t T.
Proof. reflexivity. Qed.
Lemma stray_otf diag s E c wl w : simulate_otf diag (with_stray s E) c wl w = simulate_otf diag s c wl w.
Proof. unfold simulate_otf. reflexivity. Qed.
Lemma stray_rest diag d s E c r m : simulate_rest diag d (with_stray s E) c r m = simulate_rest diag d s c r m.
Proof. unfold simulate_rest. rewrite stray_r2p. change (s_int_time (with_stray s E)) with (s_int_time s).
  destruct (reflectance_to_photoelectrons _ _ _ _) as [[[ref pe] [wl w]]|]; [|reflexivity]. cbn [bind]. rewrite stray_otf. reflexivity. Qed.
Lemma stray_simulation ni it diag d r s E w : simulate_image ni it diag d r (with_stray s E) w = simulate_image ni it diag d r s w.
Proof.
  unfold simulate_image. destruct (step ni it w ReadAtm) as [w' [o|]]; [destruct o as [|l]|]; reflexivity.
Qed.
Lemma extras_r2p s x n f atm t T : reflectance_to_photoelectrons atm (with_extras s x n f) t T = reflectance_to_photoelectrons atm s t T.
Proof. reflexivity. Qed.
Lemma extras_otf diag s x n f c wl w : simulate_otf diag (with_extras s x n f) c wl w = simulate_otf diag s c wl w.
Proof. unfold simulate_otf. reflexivity. Qed.
Lemma extras_rest diag d s x n f c r m : simulate_rest diag d (with_extras s x n f) c r m = simulate_rest diag d s c r m.
Proof. unfold simulate_rest. rewrite extras_r2p. change (s_int_time (with_extras s x n f)) with (s_int_time s).
  destruct (reflectance_to_photoelectrons _ _ _ _) as [[[ref pe] [wl w]]|]; [|reflexivity]. cbn [bind]. rewrite extras_otf. reflexivity. Qed.
Lemma extras_simulation ni it diag d r s x n f w : simulate_image ni it diag d r (with_extras s x n f) w = simulate_image ni it diag d r s w.
Proof.
  unfold simulate_image. destruct (step ni it w ReadAtm) as [w' [o|]]; [destruct o as [|l]|]; reflexivity.
Qed.
Lemma stray_ratings ni it diag s E c itp : niirs ni it diag (with_stray s E) c itp = niirs ni it diag s c itp /\
  niirs5 ni it diag (with_stray s E) c itp = (let '(s', c', r) := niirs5 ni it diag s c itp in (with_stray s' E, c', r)).
Proof. split; [apply stray_niirs | apply stray_niirs5]. Qed.
Lemma stray_pictures ni it diag d r s E w atm t T :
  reflectance_to_photoelectrons atm (with_stray s E) t T = reflectance_to_photoelectrons atm s t T /\
  simulate_image ni it diag d r (with_stray s E) w = simulate_image ni it diag d r s w.
Proof. split; [apply stray_r2p | apply stray_simulation]. Qed.
Lemma extras_pictures ni it diag d r s noise n fill w atm t T :
  reflectance_to_photoelectrons atm (with_extras s noise n fill) t T = reflectance_to_photoelectrons atm s t T /\
  simulate_image ni it diag d r (with_extras s noise n fill) w = simulate_image ni it diag d r s w.
Proof. split; [apply extras_r2p | apply extras_simulation]. Qed.
(* stray light that exceeds whatever the camera counts beside the scene *)
Lemma stray_missing s x : s_D s <> 0 -> x <> 0 -> exists E e, e < E /\
  sensor_other_irradiance (with_stray s E) [x] = Ok [Fin e].
Proof.
  intros HD Hx. exists (other_at s x + 1), (other_at s x). split; [lra|]. rewrite stray_other. apply (sensor_other_fin s [x]); [exact HD|].
  intros y [<-|[]]. exact Hx.
Qed.
Lemma stray_refuted : ~ (forall s wl irr i e, physical s -> positive_wavelengths wl ->
  sensor_other_irradiance s wl = Ok irr -> nth_error irr i = Some (Fin e) -> s_other_irr s <= e).
Proof.
  intros H. set (s := visible [[1]] 1). destruct (stray_missing s 1) as (E & e & L & K); [cbn; lra | lra|].
  specialize (H (with_stray s E) [1] [Fin e] O e). cbn [with_stray s_other_irr] in H.
  assert (P : physical (with_stray s E)). { destruct (visible_good [[1]] 1) as [P _]. destruct P. constructor; assumption. }
  specialize (H P). apply (Rlt_irrefl E), Rle_lt_trans with e; [|exact L]. apply H; [intros y [<-|[]]; lra | exact K | reflexivity].
Qed.
(* a camera for the examples: strong stray light, and the rating is still computed *)
Lemma stray_demo : exists mt, snd (niirs demo_load demo_load no_diag (visible [[1]] 1) demo_scen false) = Ok mt /\
  snd (niirs demo_load demo_load no_diag (with_stray (visible [[1]] 1) (10 ^ 9)) demo_scen false) = Ok mt.
Proof.
  assert (Em : false = true <-> emissive_band (visible [[1]] 1)). { split; [discriminate|]. intros C. destruct (visible_band _ _ C). }
  destruct (niirs_succeeds demo_load demo_load no_diag (visible [[1]] 1) demo_scen false demo_m false eq_refl (visible_good _ _) Em (visible_atm _ _))
    as (mt & snr & ng & E & _); [cbn; lra | cbn; lra|].
  exists mt. rewrite stray_niirs, E. split; reflexivity.
Qed.

(** ** reflectances and temperatures of the scenario *)
Lemma scene_common diag k s c c' pts wl w sl t : altitude c' = altitude c -> plain c' Cn2At1m = plain c Cn2At1m ->
  plain c' HaWindSpeed = plain c HaWindSpeed -> plain c' AircraftSpeed = plain c AircraftSpeed ->
  common_OTFs diag k s c' pts wl w sl t = common_OTFs diag k s c pts wl w sl t.
Proof. intros A B C D. unfold common_OTFs. rewrite A, B, C, D. reflexivity. Qed.
Lemma scene_ratings ni it diag s c itp tr tt br bt : snd (niirs ni it diag s (with_scene c tr tt br bt) itp) = snd (niirs ni it diag s c itp) /\
  fst (fst (niirs5 ni it diag s (with_scene c tr tt br bt) itp)) = fst (fst (niirs5 ni it diag s c itp)) /\
  snd (niirs5 ni it diag s (with_scene c tr tt br bt) itp) = snd (niirs5 ni it diag s c itp).
Proof.
  unfold niirs, niirs5. change (load_band ni it s (with_scene c tr tt br bt) itp) with (load_band ni it s c itp).
  destruct (load_band ni it s c itp) as [l|]; [|repeat split; reflexivity].
  unfold bookkeeping. destruct (Rleb _ _); destruct (contrast_part s l _) as [ct|]; cbn [fst snd bind]; try (repeat split; reflexivity).
  all: split; [|split; [reflexivity|]]; unfold niirs_rest, niirs5_rest.
  all: match goal with |- context [common_OTFs _ _ _ (set_plain _ _ ?c1) _ _ _ _ _] => idtac end.
  all: cbn [altitude ground_range set_plain with_scene].
  all: destruct (finite (curved_earth_slant_range 0 (altitude c) (ground_range c))); [|reflexivity]; cbn [bind].
  all: destruct (finite (m_int_time (ct_snr ct))); [|reflexivity]; cbn [bind].
  all: match goal with |- bind (common_OTFs _ _ ?s ?a ?p ?q ?r ?x ?y) _ = bind (common_OTFs _ _ _ ?b _ _ _ _ _) _ =>
         rewrite (scene_common diag Np s b a p q r x y eq_refl eq_refl eq_refl eq_refl) end; reflexivity.
Qed.
Lemma scene_otf diag s c tr tt br bt wl w : simulate_otf diag s (with_scene c tr tt br bt) wl w = simulate_otf diag s c wl w.
Proof. unfold simulate_otf. reflexivity. Qed.
Lemma scene_rest diag d s c tr tt br bt r m : simulate_rest diag d s (with_scene c tr tt br bt) r m = simulate_rest diag d s c r m.
Proof. reflexivity. Qed.
Lemma scene_pictures ni it diag d r s w tr tt br bt :
  snd (simulate_image ni it diag d r s (scene_of w tr tt br bt)) = snd (simulate_image ni it diag d r s w).
Proof.
  unfold simulate_image, step. cbn [scene_of sc heap loads with_scene cache altitude ground_range ihaze interp].
  repeat match goal with |- context [match ?x with _ => _ end] =>
    match x with cache _ => destruct x | interp _ => destruct x | ni _ _ _ => destruct x | it _ _ _ => destruct x end end; cbn;
  repeat match goal with |- context [nth_error ?a ?b] => destruct (nth_error a b) end; try reflexivity.
Qed.
