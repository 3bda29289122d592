(** * Proof_Even: the system transfer function acts point by point, and is even
    when there is no filter kernel *)
From Coq Require Import Reals Lra List Lia Bool FunctionalExtensionality.
From Verif Require Import Base_XR Base_Np Base_NpFacts Base_Interp Model_Geo Model_Scenario Model_Sensor Model_Otf
  Spec_System Proof_Geo Proof_Aper Proof_AperP Proof_Otf Proof_Turb Proof_Filter Proof_Weight Proof_System Proof_Niirs.
Import ListNotations.
Open Scope R_scope.

Definition neg (p : R * R) : R * R := (- fst p, - snd p).
Lemma radial_even u v : radial (- u) (- v) = radial u v.
Proof. unfold radial. do 2 f_equal. ring. Qed.
Lemma circ_even k u v l D eta : circular_aperture_OTF k (- u) (- v) l D eta = circular_aperture_OTF k u v l D eta.
Proof. unfold circular_aperture_OTF. rewrite radial_even. reflexivity. Qed.
Lemma wind_even k u v l D r0 t vel : wind_speed_turbulence_OTF k (- u) (- v) l D r0 t vel = wind_speed_turbulence_OTF k u v l D r0 t vel.
Proof. unfold wind_speed_turbulence_OTF, turbulence_OTF. rewrite radial_even. reflexivity. Qed.
Lemma sinc_div_even w u f : xsinc (xdiv (Fin (w * - u)) (Fin f)) = xsinc (xdiv (Fin (w * u)) (Fin f)).
Proof.
  unfold xdiv. destruct (Reqb f 0).
  - unfold inf_sgn. repeat rcase; reflexivity.
  - cbn [xsinc]. rewrite <- (Rsinc_even (w * u / f)). do 2 f_equal. unfold Rdiv. ring.
Qed.
Lemma detector_even u v wx wy f : detector_OTF (- u) (- v) wx wy f = detector_OTF u v wx wy f.
Proof. unfold detector_OTF. rewrite !sinc_div_even. reflexivity. Qed.
Lemma jitter_even u v sx sy : jitter_OTF (- u) (- v) sx sy = jitter_OTF u v sx sy.
Proof. unfold jitter_OTF. do 2 f_equal. ring. Qed.
Lemma drift_even u v ax ay : drift_OTF (- u) (- v) ax ay = drift_OTF u v ax ay.
Proof. unfold drift_OTF. rewrite !xsinc_fin, <- !Ropp_mult_distr_r, !Rsinc_even. reflexivity. Qed.
Lemma sq_div_even u L : L <> 0 -> xsq (xdiv (Fin (- u)) (Fin L)) = xsq (xdiv (Fin u) (Fin L)).
Proof. intros H. rewrite !xdiv_fin, !xsq_fin by exact H. f_equal. unfold Rdiv. ring. Qed.
Lemma wavefront_even u v l pv Lx Ly : Lx <> 0 -> Ly <> 0 -> wavefront_OTF (- u) (- v) l pv Lx Ly = wavefront_OTF u v l pv Lx Ly.
Proof. intros Hx Hy. unfold wavefront_OTF. rewrite !sq_div_even by assumption. reflexivity. Qed.

Lemma traverse_map {A B C} (f : B -> res C) (h : A -> B) l : traverse f (map h l) = traverse (fun x => f (h x)) l.
Proof.
  induction l as [|x l IH]; [reflexivity|]. cbn [map].
  change (traverse f (h x :: map h l)) with (let* y := f (h x) in let* r := traverse f (map h l) in Ok (y :: r)). rewrite IH. reflexivity.
Qed.
Lemma common_even diag k s c pts wl w sl ti : (length (s_kernel s) <= 1)%nat -> s_Lx s <> 0 -> s_Ly s <> 0 ->
  common_OTFs diag k s c (map neg pts) wl w sl ti = common_OTFs diag k s c pts wl w sl ti.
Proof.
  intros K Hx Hy. unfold common_OTFs.
  replace (Nat.ltb 1 (length (s_kernel s))) with false by (symmetry; apply Nat.ltb_ge; exact K).
  assert (E1 : (fun l => on_grid_res (map neg pts) (fun u v => circular_aperture_OTF Np u v l (s_D s) (s_eta s)))
    = (fun l => on_grid_res pts (fun u v => circular_aperture_OTF Np u v l (s_D s) (s_eta s)))).
  { apply functional_extensionality. intros l. unfold on_grid_res. rewrite traverse_map. f_equal.
    apply functional_extensionality. intros p. apply circ_even. }
  assert (E2 : polychromatic_turbulence_OTF k (map neg pts) wl w (altitude c) sl (s_D s)
           (plain c HaWindSpeed) (plain c Cn2At1m) (ti * s_ntdi s) (plain c AircraftSpeed)
     = polychromatic_turbulence_OTF k pts wl w (altitude c) sl (s_D s)
           (plain c HaWindSpeed) (plain c Cn2At1m) (ti * s_ntdi s) (plain c AircraftSpeed)).
  { unfold polychromatic_turbulence_OTF. destruct (altitude_along_slant_path _ _ _ _) as [[z h]|]; [|reflexivity]. cbn [bind].
    destruct (coherence_diameter _ _ _) as [r0|]; [|reflexivity]. cbn [bind].
    destruct (weighted_by_wavelength wl w (fun l => Ok [r0_function r0 l])); [|reflexivity]. cbn [bind].
    do 2 f_equal. apply functional_extensionality. intros l. rewrite traverse_map. f_equal.
    apply functional_extensionality. intros p. apply wind_even. }
  assert (E3 : forall g, (forall u v, g (- u) (- v) = g u v) -> on_grid (map neg pts) g = on_grid pts g).
  { intros g Hg. unfold on_grid. rewrite map_map. apply map_ext. intros p. apply Hg. }
  assert (E4 : (fun l => Ok (on_grid (map neg pts) (fun u v => wavefront_OTF u v l (xmul (Fin (s_pv s)) (xsq (xdiv (Fin (s_pv_wl s)) (Fin l)))) (s_Lx s) (s_Ly s))))
    = (fun l => Ok (on_grid pts (fun u v => wavefront_OTF u v l (xmul (Fin (s_pv s)) (xsq (xdiv (Fin (s_pv_wl s)) (Fin l)))) (s_Lx s) (s_Ly s))))).
  { apply functional_extensionality. intros l. f_equal. apply E3. intros; apply wavefront_even; assumption. }
  rewrite E1, E2, E4. rewrite (E3 (fun u v => detector_OTF u v (s_wx s) (s_wy s) (s_f s))) by (intros; apply detector_even).
  rewrite (E3 (fun u v => jitter_OTF u v (s_sx s) (s_sy s))) by (intros; apply jitter_even).
  rewrite (E3 (fun u v => drift_OTF u v _ _)) by (intros; apply drift_even). rewrite !map_map. reflexivity.
Qed.

(** ** point by point *)
Lemma map_seq_pt (F : R * R -> R) pts : map (fun j => Fin (F (pt pts j))) (seq 0 (length pts)) = map (fun p => Fin (F p)) pts.
Proof. symmetry. apply (row_seq (fun p => Fin (F p))). Qed.
Lemma avg_nonneg (ps : list (R * R)) (f : R * R -> R) : 0 < Rsum (map snd ps) -> (forall q, In q ps -> 0 <= snd q /\ 0 <= f q) ->
  0 <= Rsum (map (fun q => snd q * f q) ps) / Rsum (map snd ps).
Proof.
  intros S H. apply Rmult_le_pos; [|left; apply Rinv_0_lt_compat; exact S]. apply Proof_Noise.Rsum_nonneg. intros x Hx.
  apply in_map_iff in Hx. destruct Hx as (q & <- & Hq). destruct (H q Hq). apply Rmult_le_pos; assumption.
Qed.
Lemma turb_pos u v l D r a : 0 < turb u v l D r a.
Proof. unfold turb. apply exp_pos. Qed.
Lemma poly_pointwise k ps alt sl D v c ti ac nd :
  good_spectrum ps -> 0 < D -> 0 < sl -> 0 < c -> nadir_angle k 0 alt sl = Ok (Fin nd) ->
  exists T, (forall pts, exists r0b, polychromatic_turbulence_OTF k pts (map fst ps) (map (fun p => Fin (snd p)) ps) alt sl D v c ti ac
     = Ok (map (fun p => Fin (T p)) pts, r0b)) /\ (0 <= ac * ti -> forall p, 0 <= T p).
Proof.
  intros (N & W & S) HD Hs Hc E.
  destruct (r0_path k alt sl nd v c Hs Hc E) as (zp & hp & r & Ep & Er & Pr).
  set (tv := fun l p => getv (wind_speed_turbulence_OTF Np (fst p) (snd p) l D (r0_function (Fin r) l) ti ac)).
  assert (TV : forall q p, In q ps ->
      wind_speed_turbulence_OTF Np (fst p) (snd p) (fst q) D (r0_function (Fin r) (fst q)) ti ac = Ok (Fin (tv (fst q) p))).
  { intros q p Hq. destruct (r0_fun_fin r (fst q) Pr (proj1 (W q Hq))) as (r' & E' & P'). unfold tv. rewrite E'.
    rewrite wind_fin by (auto; apply W; auto). reflexivity. }
  exists (fun p => Rsum (map (fun q => snd q * tv (fst q) p) ps) / Rsum (map snd ps)). split.
  2:{ intros Ha p. apply avg_nonneg; [lra|]. intros q Hq. split; [apply W; exact Hq|].
      destruct (r0_fun_fin r (fst q) Pr (proj1 (W q Hq))) as (r' & E' & P'). unfold tv. rewrite E'. rewrite wind_fin by (auto; apply W; auto). cbn [getv].
      assert (Q := exp_pos (- ac * ti / r')). assert (Q1 : exp (- ac * ti / r') <= 1).
      { rewrite <- exp_0. destruct (Req_dec (- ac * ti / r') 0) as [->|Z]; [lra|]. left. apply exp_increasing.
        assert (0 < / r') by (apply Rinv_0_lt_compat; lra). unfold Rdiv in *. assert (0 <= ac * ti * / r') by (apply Rmult_le_pos; lra). nra. }
      assert (P1 := turb_pos (fst p) (snd p) (fst q) D r' 0.5). assert (P2 := turb_pos (fst p) (snd p) (fst q) D r' 0). nra. }
  intros pts.
  unfold polychromatic_turbulence_OTF. rewrite Ep. cbn [bind]. rewrite Er. cbn [bind].
  rewrite (weighted_avg ps _ (fun l _ => getx (r0_function (Fin r) l)) 1 N).
  2: lra.
  2:{ intros p Hp. destruct (r0_fun_fin r (fst p) Pr (proj1 (W p Hp))) as (r' & E' & _). rewrite E'. reflexivity. }
  cbn [bind seq map].
  rewrite (weighted_avg ps _ (fun l j => tv l (pt pts j)) (length pts) N).
  2: lra.
  2:{ intros q Hq. rewrite (traverse_ok _ (fun p => Fin (tv (fst q) p))) by (intros p _; apply TV; exact Hq).
      rewrite row_seq. reflexivity. }
  cbn [bind]. rewrite <- map_seq_pt. eexists. reflexivity.
Qed.
(* and only the detector and the drift can make it negative *)
Lemma common_sign diag k s c ps sl ti :
  good_spectrum ps -> good_optics s -> good_path c sl -> (length (s_kernel s) <= 1)%nat ->
  exists F N, (forall pts, exists o, common_OTFs diag k s c pts (map fst ps) (map (fun p => Fin (snd p)) ps) sl ti = Ok o
      /\ system_OTF o = map (fun p => Fin (F p)) pts)
    /\ (forall p, F p = N p * (Rsinc (s_wx s * fst p / s_f s) * Rsinc (s_wy s * snd p / s_f s))
                     * (Rsinc (s_dax s * ti * s_ntdi s * fst p) * Rsinc (s_day s * ti * s_ntdi s * snd p)))
    /\ (0 <= plain c AircraftSpeed * (ti * s_ntdi s) -> forall p, 0 <= N p).
Proof.
  intros GS GO GP K. assert (GS' := GS). destruct GS' as (N & W & S). destruct GO as (HD & He & Hf & Hx & Hy & Hpv).
  set (apv := fun l p => getv (circular_aperture_OTF Np (fst p) (snd p) l (s_D s) (s_eta s))).
  assert (TU : exists T, (forall pts, exists r0b, (if Rltb 0 (plain c Cn2At1m)
      then polychromatic_turbulence_OTF k pts (map fst ps) (map (fun p => Fin (snd p)) ps) (altitude c) sl (s_D s)
             (plain c HaWindSpeed) (plain c Cn2At1m) (ti * s_ntdi s) (plain c AircraftSpeed)
      else Ok (map (fun _ => Fin 1) pts, map (fun _ => Fin 1000000) pts))
      = Ok (map (fun p => Fin (T p)) pts, r0b)) /\ (0 <= plain c AircraftSpeed * (ti * s_ntdi s) -> forall p, 0 <= T p)).
  { rcase.
    - destruct GP as [GP | (Hs & Ha & Hu)]; [lra|].
      assert (End : exists nd, nadir_angle k 0 (altitude c) sl = Ok (Fin nd)).
      { eexists. apply Proof_Geo.nadir_ok; unfold r_earth in *; try lra.
        split; [|lra]. unfold Rabs. destruct (Rcase_abs _); lra. }
      destruct End as (nd & End).
      apply (poly_pointwise k ps (altitude c) sl (s_D s) (plain c HaWindSpeed) (plain c Cn2At1m) (ti * s_ntdi s) (plain c AircraftSpeed) nd GS HD Hs ltac:(assumption) End).
    - exists (fun _ => 1). split; [|intros; lra]. intros pts. eexists. reflexivity. }
  destruct TU as (T & ET & TP).
  set (pvl := fun l => s_pv s * (s_pv_wl s / l * (s_pv_wl s / l))).
  set (wv := fun l p => getx (wavefront_OTF (fst p) (snd p) l (Fin (pvl l)) (s_Lx s) (s_Ly s))).
  assert (WF : forall q p, In q ps ->
     wavefront_OTF (fst p) (snd p) (fst q) (xmul (Fin (s_pv s)) (xsq (xdiv (Fin (s_pv_wl s)) (Fin (fst q))))) (s_Lx s) (s_Ly s) = Fin (wv (fst q) p)).
  { intros q p Hq. destruct (W q Hq) as [Pq _].
    rewrite xdiv_fin, xsq_fin, xmul_fin by lra. unfold wv. fold (pvl (fst q)).
    destruct (wavefront_range (fst p) (snd p) (fst q) (pvl (fst q)) (s_Lx s) (s_Ly s) Hx Hy) as (h & E & _).
    { unfold pvl. apply Rmult_le_pos; [exact Hpv | apply sq_pos]. }
    rewrite E. reflexivity. }
  set (dx := s_dax s * ti * s_ntdi s). set (dy := s_day s * ti * s_ntdi s).
  set (A := fun p => Rsum (map (fun q => snd q * apv (fst q) p) ps) / Rsum (map snd ps)).
  set (V := fun p => Rsum (map (fun q => snd q * wv (fst q) p) ps) / Rsum (map snd ps)).
  set (Dv := fun p : R * R => getx (detector_OTF (fst p) (snd p) (s_wx s) (s_wy s) (s_f s))).
  set (Jv := fun p : R * R => getx (jitter_OTF (fst p) (snd p) (s_sx s) (s_sy s))).
  set (Rv := fun p : R * R => getx (drift_OTF (fst p) (snd p) dx dy)).
  exists (fun p => A p * T p * Dv p * Jv p * Rv p * V p * 1), (fun p => A p * T p * Jv p * V p). split; [|split].
  2:{ intros p. unfold Dv, Rv, dx, dy. rewrite detector_fin by exact Hf. rewrite drift_fin. cbn [getx]. ring. }
  2:{ intros Ha p. apply Rmult_le_pos; [apply Rmult_le_pos; [apply Rmult_le_pos|]|].
      - apply avg_nonneg; [lra|]. intros q Hq. split; [apply W; exact Hq|].
        destruct (circ_any Np (fst p) (snd p) (fst q) (s_D s) (s_eta s) (proj1 (W q Hq)) HD He) as (h & E & B & _). unfold apv. rewrite E. cbn [getv]. lra.
      - apply TP, Ha.
      - unfold Jv. rewrite jitter_fin. cbn [getx]. left. apply exp_pos.
      - apply avg_nonneg; [lra|]. intros q Hq. split; [apply W; exact Hq|]. unfold wv.
        destruct (wavefront_range (fst p) (snd p) (fst q) (pvl (fst q)) (s_Lx s) (s_Ly s) Hx Hy) as (h & E & B & _).
        { unfold pvl. apply Rmult_le_pos; [exact Hpv | apply sq_pos]. }
        rewrite E. cbn [getx]. assert (Q := exp_pos (- pvl (fst q))). lra. }
  intros pts. unfold common_OTFs. set (m := length pts).
  rewrite (weighted_avg ps _ (fun l j => apv l (pt pts j)) m N).
  2: lra.
  2:{ intros q Hq. unfold on_grid_res.
      rewrite (traverse_ok _ (fun p => Fin (apv (fst q) p))).
      - rewrite row_seq. reflexivity.
      - intros p _. destruct (circ_any Np (fst p) (snd p) (fst q) (s_D s) (s_eta s) (proj1 (W q Hq)) HD He) as (h & E & _).
        unfold apv. rewrite E. reflexivity. }
  cbn [bind]. destruct (ET pts) as (r0b & ->). cbn [bind].
  rewrite (weighted_avg ps _ (fun l j => wv l (pt pts j)) m N).
  2: lra.
  2:{ intros q Hq. unfold on_grid. rewrite row_seq. f_equal. apply map_ext. intros j. apply WF, Hq. }
  cbn [bind].
  replace (Nat.ltb 1 (length (s_kernel s))) with false by (symmetry; apply Nat.ltb_ge; exact K).
  cbn [bind]. unfold on_grid.
  change (fun j : nat => Fin (Rsum (map (fun p => snd p * apv (fst p) (pt pts j)) ps) / Rsum (map snd ps))) with (fun j => Fin (A (pt pts j))).
  change (fun j : nat => Fin (Rsum (map (fun p => snd p * wv (fst p) (pt pts j)) ps) / Rsum (map snd ps))) with (fun j => Fin (V (pt pts j))).
  unfold m. rewrite !map_seq_pt.
  rewrite (map_ext (fun p => detector_OTF (fst p) (snd p) (s_wx s) (s_wy s) (s_f s)) (fun p => Fin (Dv p))) by (intros p; unfold Dv; rewrite detector_fin by exact Hf; reflexivity).
  rewrite (map_ext (fun p => jitter_OTF (fst p) (snd p) (s_sx s) (s_sy s)) (fun p => Fin (Jv p))) by (intros p; unfold Jv; rewrite jitter_fin; reflexivity).
  rewrite (map_ext (fun p => drift_OTF (fst p) (snd p) _ _) (fun p => Fin (Rv p))) by reflexivity.
  do 6 (rewrite bmap2_maps; cbn [bind]).
  eexists; split; [reflexivity|]. cbn [system_OTF]. apply map_ext. intros p. rewrite !xmul_fin. reflexivity.
Qed.
Lemma common_pointwise diag k s c ps sl ti :
  good_spectrum ps -> good_optics s -> good_path c sl -> (length (s_kernel s) <= 1)%nat ->
  exists F, forall pts, exists o, common_OTFs diag k s c pts (map fst ps) (map (fun p => Fin (snd p)) ps) sl ti = Ok o
    /\ system_OTF o = map (fun p => Fin (F p)) pts.
Proof.
  intros GS GO GP K. destruct (common_sign diag k s c ps sl ti GS GO GP K) as (F & N & H & _). exists F. exact H.
Qed.
Lemma Rsinc_nonneg x : Rabs x <= 1 -> 0 <= Rsinc x.
Proof.
  intros H. assert (P : forall x, 0 <= x <= 1 -> 0 <= Rsinc x).
  { clear. intros x [H0 H1]. unfold Rsinc. rcase; [lra|]. assert (Q := PI_RGT_0). apply Rmult_le_pos.
    - apply sin_ge_0; nra.
    - left. apply Rinv_0_lt_compat. apply Rmult_lt_0_compat; lra. }
  unfold Rabs in H. destruct (Rcase_abs x); [rewrite <- Rsinc_even; apply P; lra | apply P; lra].
Qed.
