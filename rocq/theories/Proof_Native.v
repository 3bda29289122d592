(** * Proof_Native: a camera whose pixels match those of the reference picture *)
From Coq Require Import Reals Lra List Lia ZArith Psatz Bool.
From Verif Require Import Base_XR Base_Np Model_Geo Model_Noise Model_Scenario Model_Sensor Model_Rad Model_Db Model_Otf Model_Img Model_Met Model_Sim
  Spec_Img Spec_Blur Spec_Sim Proof_Weight Proof_Psf Proof_Image Proof_ImgX Proof_Sensor Proof_SimP.
Import ListNotations.
Open Scope R_scope.

Lemma native_apply T gsd rng otf kd df ifov B sp : rng <> 0 -> ifov * rng = gsd -> ifov <> 0 ->
  apply_otf_to_image T gsd Np rng otf kd df Py ifov = Ok (B, sp) ->
  exists k F, otf_to_psf otf kd df (Fin (2 * atan (gsd / 2 / rng))) = Ok k /\ filter2D T k = Ok F /\
    rows B = rows T /\ cols B = cols T /\ rows sp = rows k /\ cols sp = cols k /\
    (forall i j, (i < rows T)%nat -> (j < cols T)%nat -> px B i j = px F i j) /\
    (forall i j, (i < rows k)%nat -> (j < cols k)%nat -> px sp i j = px k i j).
Proof.
  intros Hr E Hi H. rewrite apply_val in H by assumption.
  destruct (otf_to_psf _ _ _ _) as [k|]; [|discriminate H]. cbn [bind] in H.
  destruct (filter2D T k) as [F|] eqn:EF; [|discriminate H]. cbn [bind] in H.
  replace (gsd / rng) with ifov in H by (rewrite <- E; field; exact Hr).
  destruct (filter_inv _ _ _ EF) as (NT & NK & Fr & Fc & _).
  destruct (resample_same (join Np Py) F ifov) as (B' & EB & Br & Bc & BV); [destruct NT; split; lia|exact Hi|].
  destruct (resample_same (join Np Py) k ifov NK Hi) as (sp' & ES & Sr & Sc & SV).
  rewrite EB in H. cbn [bind] in H. rewrite ES in H. cbn [bind] in H. apply ok_inj in H. injection H as <- <-.
  exists k, F. rewrite Br, Bc, Sr, Sc, Fr, Fc. rewrite Fr, Fc in BV. repeat split; auto.
Qed.
Lemma rest_size diag d s c r m T B X : simulate_rest diag d s c r m = Ok (T, B, X) ->
  s_f s <> 0 /\ rows T = rows (sr_img r) /\ cols T = cols (sr_img r).
Proof.
  unfold simulate_rest. destruct (reflectance_to_photoelectrons _ _ _ _) as [[[ref pe] [wl w]]|]; [|discriminate]. cbn [bind].
  destruct (simulate_otf _ _ _ _ _) as [[otf df]|]; [|discriminate]. cbn [bind].
  destruct (pydiv _ (s_f s)) as [ifov|] eqn:Ei; [|discriminate]. cbn [bind].
  destruct (img_to_reflectance _ _ _) as [ri|] eqn:ER; [|discriminate]. cbn [bind]. destruct (mapM finite pe); [|discriminate]. cbn [bind].
  destruct (to_photoelectrons _ _ _) as [T'|] eqn:ET; [|discriminate]. cbn [bind].
  destruct (apply_otf_to_image _ _ _ _ _ _ _ _ _) as [[B' sp]|] eqn:EA; [|discriminate]. cbn [bind].
  destruct (add_noise _ _ _) as [X'|] eqn:EN; [|discriminate]. cbn [bind]. intros H. apply ok_inj in H. injection H as -> -> ->.
  split.
  - unfold pydiv in Ei. destruct (Reqb (s_f s) 0) eqn:Z; [discriminate|]. apply Reqb_false in Z. exact Z.
  - unfold img_to_reflectance in ER. destruct (interp1d_table _ _); [|discriminate ER]. cbn [bind] in ER. apply ok_inj in ER. subst ri.
    unfold to_photoelectrons in ET. destruct (xall _ _); [|discriminate ET]. destruct (xall _ _); [|discriminate ET].
    destruct (interp_table _ _); [|discriminate ET]. cbn [bind] in ET. apply ok_inj in ET. subst T. split; reflexivity.
Qed.
Lemma noise_size d g B X : add_noise d g B = Ok X -> xrows X = rows B /\ xcols X = cols B.
Proof. unfold add_noise. destruct (rates_ok B); [|discriminate]. intros H. apply ok_inj in H. subst X. split; reflexivity. Qed.

Lemma native_sim ni it diag d r s w w1 T B X : simulate_image ni it diag d r s w = (w1, Ok (T, B, X)) ->
  slant_flat (sc w) <> 0 -> s_px s + s_py s <> 0 -> (s_px s + s_py s) / 2 * slant_flat (sc w) = sr_gsd r * s_f s ->
  rows T = rows (sr_img r) /\ cols T = cols (sr_img r) /\ rows B = rows (sr_img r) /\ cols B = cols (sr_img r) /\
  xrows X = rows (sr_img r) /\ xcols X = cols (sr_img r) /\
  exists k, (0 < rows k)%nat /\ (0 < cols k)%nat /\ sum_over (rows k) (cols k) (px k) = 1 /\
    forall e, (2 <= rows T)%nat -> (2 <= cols T)%nat -> mirrored (rows T) (cols T) (px T) e ->
    forall y x, (y < rows T)%nat -> (x < cols T)%nat -> px B y x = correlation (rows k) (cols k) (px k) e (Z.of_nat y) (Z.of_nat x).
Proof.
  intros H Hr Hp E. assert (H' := H). rewrite sim_world in H'. apply pair_equal_spec in H'. destruct H' as [W1 H'].
  destruct (observe ni it w) as [m|] eqn:O; [|discriminate H']. cbn [bind] in H'. rewrite W1 in H'.
  destruct (sim_reload ni it diag d r s w w1 _ H (ex_intro _ m O)) as (A1 & A2 & _).
  assert (SF : slant_flat (sc w1) = slant_flat (sc w)) by (unfold slant_flat; rewrite A1, A2; reflexivity).
  destruct (rest_size _ _ _ _ _ _ _ _ _ H') as (Hf & Tr & Tc).
  destruct (rest_inv _ _ _ _ _ _ _ _ _ H') as (otf & df & sp & ifov & Ei & EA & EN). rewrite SF in EA.
  destruct (native_apply T (sr_gsd r) (slant_flat (sc w)) otf Np df ifov B sp Hr) as (k & F & EK & EF & Br & Bc & _ & _ & BV & _); [| |exact EA|].
  { rewrite Ei. replace ((s_px s + s_py s) / 2 / s_f s * slant_flat (sc w)) with ((s_px s + s_py s) / 2 * slant_flat (sc w) / s_f s) by (field; exact Hf).
    rewrite E. field. exact Hf. }
  { rewrite Ei. intros C. apply Hp. apply (f_equal (fun z => z * 2 * s_f s)) in C. rewrite Rmult_0_l, Rmult_0_l in C. rewrite <- C. field. exact Hf. }
  destruct (noise_size _ _ _ _ EN) as (Xr & Xc). rewrite <- Tr, <- Tc, Xr, Xc, Br, Bc. repeat split; auto.
  destruct (filter_inv _ _ _ EF) as (_ & (K1 & K2) & _). exists k. split; [exact K1|]. split; [exact K2|].
  split; [rewrite <- isum_over; exact (psf_sum_one _ _ _ _ _ EK)|].
  intros e R2 C2 M y x Hy Hx. rewrite (BV y x Hy Hx). exact (filter_correlation T k F e EF R2 C2 M y x).
Qed.

(* the estimated camera and scenario *)
Lemma capture_focal ri alt s w : estimate_capture_parameters ri alt = Ok (s, w) ->
  s_px s = 20 / 10 ^ 6 /\ s_py s = 20 / 10 ^ 6 /\ s_f s * ri_gsd ri = alt * (20 / 10 ^ 6) /\ altitude (sc w) = alt /\ ground_range (sc w) = 0.
Proof.
  unfold estimate_capture_parameters. intros H. set (p := 20 / 10 ^ 6) in *.
  destruct (pydiv _ (ri_gsd ri)) as [f|] eqn:Ef; [|discriminate]. cbn [bind] in H.
  destruct (pydiv _ f) as [x|]; [|discriminate]. cbn [bind] in H.
  destruct (xdiv _ _); try discriminate.
  destruct (sensor_init _ _ _ _ _ _ _ _ _) as [s'|] eqn:E; [|discriminate].
  cbn [bind] in H. apply ok_inj in H. injection H as -> <-.
  unfold sensor_init in E. destruct (pydiv p p); [|discriminate E]. cbn [bind] in E.
  apply ok_inj in E. subst s. cbn [s_px s_py s_f].
  unfold pydiv in Ef. destruct (Reqb (ri_gsd ri) 0) eqn:G; [discriminate|]. apply Reqb_false in G. apply ok_inj in Ef. subst f.
  repeat split; try reflexivity. field. exact G.
Qed.
Lemma native_capture ri alt s w : 0 < alt -> estimate_capture_parameters ri alt = Ok (s, w) ->
  slant_flat (sc w) <> 0 /\ s_px s + s_py s <> 0 /\ (s_px s + s_py s) / 2 * slant_flat (sc w) = ri_gsd ri * s_f s.
Proof.
  intros Ha H. destruct (capture_focal _ _ _ _ H) as (Ex & Ey & E & Ea & Eg).
  assert (SF : slant_flat (sc w) = alt).
  { unfold slant_flat. rewrite Ea, Eg. replace (alt * alt + 0 * 0) with (alt * alt) by ring. apply sqrt_square. lra. }
  rewrite SF, Ex, Ey. split; [lra|]. split; [lra|]. rewrite (Rmult_comm (ri_gsd ri)), E. field.
Qed.
