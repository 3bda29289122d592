(** * Prop_Columns: which columns of an atmosphere file are used (C134) *)
From Coq Require Import Reals Lra Lia List.
From Verif Require Import Base_XR Base_Np Model_Geo Model_Db Model_Scenario Model_Sensor Model_Rad Model_Otf Model_Met Model_Img Model_Sim
  Spec_Rad Spec_Met Spec_Columns Proof_NiirsDemo Proof_Columns.
Import ListNotations.
Open Scope R_scope.

(* the radiance of a surface, row by row *)
Theorem C134_radiance : forall m r T, (forall i, (i < 1371)%nat -> m i 0%nat <> 0) ->
  total_radiance (atm_rows m) r T = map (fun i => Fin (file_radiance m r T i)) (seq 0 1371).
Proof. exact file_value. Qed.
Print Assumptions C134_radiance.

(* target and background of the general image quality equation *)
Theorem C134_giqe_radiance : forall m em, (forall i, (i < 1371)%nat -> m i 0%nat <> 0) ->
  giqe_radiance (atm_rows m) em =
  (map (fun i => Fin (file_radiance m (if Z.eqb em 0 then 0.15 else 0) 282 i)) (seq 0 1371),
   map (fun i => Fin (file_radiance m (if Z.eqb em 0 then 0.07 else 0) 280 i)) (seq 0 1371)).
Proof. exact file_targets. Qed.
Print Assumptions C134_giqe_radiance.

(* what niirs and niirs5 take for the path alone *)
Theorem C134_path : forall m, path_radiance (atm_rows m) = map (fun i => Fin (m i 2%nat + m i 4%nat)) (seq 0 1371).
Proof. exact file_haze. Qed.
Print Assumptions C134_path.

(* the rows niirs and niirs5 keep are those of the wavelengths of the optics, with their columns in place *)
Theorem C134_rows : forall ni it s c itp m rows, loaded ni it c itp m -> load_band ni it s c itp = Ok rows ->
  exists lo hi, nth_error (s_owl s) 0 = Some lo /\ nth_error (s_owl s) (length (s_owl s) - 1) = Some hi /\
    forall a, In a rows <-> exists i, (i < 1371)%nat /\ lo <= m i 0%nat <= hi /\
      a_wl a = m i 0%nat /\ a_trans a = m i 1%nat /\ a_path a = m i 2%nat /\ a_surf a = m i 3%nat /\ a_scat a = m i 4%nat /\ a_grnd a = m i 5%nat.
Proof. exact band_indices. Qed.
Print Assumptions C134_rows.

(* the radiance emitted by the surface (column 3) has no influence on any metric or picture *)
Theorem C134_surface_unused : forall ni it ni' it' diag s c itp, alike_but_surface ni ni' -> alike_but_surface it it' ->
  niirs ni it diag s c itp = niirs ni' it' diag s c itp /\ niirs5 ni it diag s c itp = niirs5 ni' it' diag s c itp.
Proof. exact surface_unused. Qed.
Print Assumptions C134_surface_unused.
Theorem C134_surface_unused_simulation : forall diag d s c r m m' t T, same_but_surface m m' ->
  reflectance_to_photoelectrons (atm_rows m) s t T = reflectance_to_photoelectrons (atm_rows m') s t T /\
  simulate_rest diag d s c r m = simulate_rest diag d s c r m'.
Proof. exact surface_unused_simulation. Qed.
Print Assumptions C134_surface_unused_simulation.

(* a file with 1, 2, 3, 4, 5, 6 in its first row: a mirror of reflectance 1 shows 3 + 5 + 6 / 0.15 *)
Example C134_example_row : let m i j := INR (i + j + 1) in
  (forall i, (i < 1371)%nat -> m i 0%nat <> 0) /\ nth 0 (total_radiance (atm_rows m) 1 300) NaN = Fin 48.
Proof.
  cbv zeta. assert (H : forall i, (i < 1371)%nat -> INR (i + 0 + 1) <> 0) by (intros; apply not_0_INR; lia). split; [exact H|].
  rewrite (C134_radiance (fun i j => INR (i + j + 1)) 1 300 H). change (seq 0 1371) with (0%nat :: seq 1 1370). cbn [map nth].
  unfold file_radiance. cbn [Nat.add INR]. f_equal. lra.
Qed.
(* the demonstration atmosphere with another surface column *)
Example C134_example_surface : let m' i j := if Nat.eqb j 3 then 7 else demo_m i j in
  same_but_surface demo_m m' /\ demo_m 0%nat 3%nat <> m' 0%nat 3%nat /\ alike_but_surface demo_load (fun _ _ _ => Ok m').
Proof.
  cbv zeta. assert (H : same_but_surface demo_m (fun i j => if Nat.eqb j 3 then 7 else demo_m i j)).
  { intros i j _ [<-|[<-|[<-|[<-|[<-|[]]]]]]; reflexivity. }
  split; [exact H|]. split; [cbn; lra|]. intros alt range haze. right. do 2 eexists. split; [reflexivity|]. split; [reflexivity | exact H].
Qed.
Example C134_example_rows : loaded demo_load demo_load demo_scen false demo_m /\
  exists rows, load_band demo_load demo_load (thermal [[1]] 1) demo_scen false = Ok rows.
Proof. split; [reflexivity|]. eexists. reflexivity. Qed.
