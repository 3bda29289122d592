(** * Prop_Stray: parameters of a sensor that an analysis does not use (C137) *)
From Coq Require Import Reals Lra List.
From Verif Require Import Base_XR Base_Np Model_Geo Model_Db Model_Scenario Model_Sensor Model_Rad Model_Otf Model_Img Model_Met Model_Sim
  Spec_Rad Spec_Met Spec_Stray Proof_NiirsDemo Proof_SimDemo Proof_GainDemo Proof_SimCal Proof_Stray.
Import ListNotations.
Open Scope R_scope.

(* stray light changes no rating ... *)
Theorem C137_stray_ratings : forall ni it diag s E c itp, niirs ni it diag (with_stray s E) c itp = niirs ni it diag s c itp /\
  niirs5 ni it diag (with_stray s E) c itp = (let '(s', c', r) := niirs5 ni it diag s c itp in (with_stray s' E, c', r)).
Proof. exact stray_ratings. Qed.
Print Assumptions C137_stray_ratings.
(* ... no photoelectron and no picture *)
Theorem C137_stray_pictures : forall ni it diag d r s E w atm t T,
  reflectance_to_photoelectrons atm (with_stray s E) t T = reflectance_to_photoelectrons atm s t T /\
  simulate_image ni it diag d r (with_stray s E) w = simulate_image ni it diag d r s w.
Proof. exact stray_pictures. Qed.
Print Assumptions C137_stray_pictures.
(* although it is documented as irradiance of the focal plane beside that of the scene *)
Theorem C137_documented_refuted : ~ (forall s wl irr i e, physical s -> positive_wavelengths wl ->
  sensor_other_irradiance s wl = Ok irr -> nth_error irr i = Some (Fin e) -> s_other_irr s <= e).
Proof. exact stray_refuted. Qed.
Print Assumptions C137_documented_refuted.
(* further noise terms, stacked frames and the limit on the well filling change no picture *)
Theorem C137_extras : forall ni it diag d r s noise n fill w atm t T,
  reflectance_to_photoelectrons atm (with_extras s noise n fill) t T = reflectance_to_photoelectrons atm s t T /\
  simulate_image ni it diag d r (with_extras s noise n fill) w = simulate_image ni it diag d r s w.
Proof. exact extras_pictures. Qed.
Print Assumptions C137_extras.

(* the reflectances and temperatures of the scenario change no rating, no sensor and no picture *)
Theorem C137_scene_ratings : forall ni it diag s c itp tr tt br bt, snd (niirs ni it diag s (with_scene c tr tt br bt) itp) = snd (niirs ni it diag s c itp) /\
  fst (fst (niirs5 ni it diag s (with_scene c tr tt br bt) itp)) = fst (fst (niirs5 ni it diag s c itp)) /\
  snd (niirs5 ni it diag s (with_scene c tr tt br bt) itp) = snd (niirs5 ni it diag s c itp).
Proof. exact scene_ratings. Qed.
Print Assumptions C137_scene_ratings.
Theorem C137_scene_pictures : forall ni it diag d r s w tr tt br bt,
  snd (simulate_image ni it diag d r s (scene_of w tr tt br bt)) = snd (simulate_image ni it diag d r s w).
Proof. exact scene_pictures. Qed.
Print Assumptions C137_scene_pictures.

(* a gigawatt per square metre and metre of wavelength: the same metrics *)
Example C137_example : exists mt, snd (niirs demo_load demo_load no_diag (visible [[1]] 1) demo_scen false) = Ok mt /\
  snd (niirs demo_load demo_load no_diag (with_stray (visible [[1]] 1) (10 ^ 9)) demo_scen false) = Ok mt.
Proof. exact stray_demo. Qed.
(* 1000 electrons of further noise, 16 frames, a well filled to a tenth: the same pictures *)
Example C137_example_extras : forall d, exists r, reference_init (sr_img demo_ref) (sr_gsd demo_ref) (Some (sr_pix demo_ref)) (Some (sr_refl demo_ref)) = Ok r /\
  exists w t bl n, simulate_image demo_load demo_load no_diag d r (red_cam [[1]]) demo_world = (w, Ok (t, bl, n)) /\
    simulate_image demo_load demo_load no_diag d r (with_extras (red_cam [[1]]) [1000] 16 0.1) demo_world = (w, Ok (t, bl, n)).
Proof.
  intros d. destruct given_demo as (_ & _ & _ & H). destruct (H d) as (r & Er & w & t & bl & n & E). exists r. split; [exact Er|].
  exists w, t, bl, n. split; [exact E|]. rewrite (proj2 (C137_extras _ _ _ _ _ _ _ _ _ _ [] 0 0)). exact E.
Qed.
(* a white target on black ground, both at 300 K *)
Example C137_example_scene : exists mt, snd (niirs demo_load demo_load no_diag (visible [[1]] 1) demo_scen false) = Ok mt /\
  snd (niirs demo_load demo_load no_diag (visible [[1]] 1) (with_scene demo_scen 1 300 0 300) false) = Ok mt.
Proof.
  destruct stray_demo as (mt & E & _). exists mt. split; [exact E|].
  rewrite (proj1 (C137_scene_ratings _ _ _ _ demo_scen _ 1 300 0 300)). exact E.
Qed.
