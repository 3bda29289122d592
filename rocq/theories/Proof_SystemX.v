(** * Proof_SystemX: every factor of the system transfer function by value, and
    the formula for the coherence diameter. *)
From Coq Require Import Reals Lra Psatz Bool List ZArith Lia.
From Verif Require Import Base_XR Base_Np Base_NpFacts Base_Interp Model_Geo Model_Scenario Model_Sensor Model_Otf
  Spec_Rad Spec_Otf Spec_System Spec_Chain Proof_Pe Proof_Geo Proof_Aper Proof_AperP Proof_Otf Proof_Turb Proof_Filter Proof_Weight Proof_System.
Import ListNotations.
Open Scope R_scope.

(** ** Coherence diameter *)
Lemma maxl_last a l b : a <= b -> (forall x, In x l -> x <= b) -> (a = b \/ In b l) -> maxl a l = b.
Proof.
  intros Ha Hl Hb. destruct (maxl_ge a l) as [A B]. destruct (maxl_in a l) as [E | E].
  - rewrite E in *. destruct Hb as [-> | Hb]; [reflexivity|]. generalize (B b Hb). lra.
  - generalize (Hl _ E). destruct Hb as [<- | Hb]; [lra|]. generalize (B b Hb). lra.
Qed.
Lemma incr_le (z : nat -> R) n : (forall j, (S j < n)%nat -> z j < z (S j)) ->
  forall i j, (i <= j)%nat -> (j < n)%nat -> z i <= z j.
Proof.
  intros H i j Hij. induction Hij as [|j Hij IH]; intros Hj; [lra|]. generalize (IH ltac:(lia)) (H j Hj). lra.
Qed.
Lemma zmax_last z n : (0 < n)%nat -> (forall j, (S j < n)%nat -> z j < z (S j)) -> zmax z n = z (n - 1)%nat.
Proof.
  intros Hn H. unfold zmax. apply maxl_last.
  - apply (incr_le z n H); lia.
  - intros x Hx. apply in_map_iff in Hx. destruct Hx as (i & <- & Hi). apply in_seq in Hi.
    apply (incr_le z n H); lia.
  - destruct n as [|[|n]]; [lia | left; reflexivity|]. right. apply in_map. apply in_seq. lia.
Qed.
Lemma pw_53 x : pw x (5 / 3) = five_thirds x.
Proof. unfold pw, five_thirds. rcase; destruct (Rlt_dec 0 x); try lra; reflexivity. Qed.

Lemma coherence_formula z c n lam r : 0 < lam -> (2 <= n)%nat -> 0 <= z 0%nat ->
  (forall j, (S j < n)%nat -> z j < z (S j)) ->
  coherence_diameter lam (map (fun i => Fin (z i)) (seq 0 n)) (map (fun i => Fin (c i)) (seq 0 n)) = Ok (Fin r) ->
  0 < r /\ Rpower r (- (5 / 3))
  = 0.423 * (2 * PI / lam) ^ 2
    * trapezoid (map (fun i => c i * five_thirds (z i / z (n - 1)%nat)) (seq 0 n)) (map z (seq 0 n)).
Proof.
  intros Hl Hn Hz0 Hz.
  assert (M : forall j, (j < n)%nat -> 0 <= z j).
  { intros j Hj. generalize (incr_le z n Hz 0%nat j ltac:(lia) Hj). lra. }
  assert (HZ : 0 < zmax z n).
  { rewrite zmax_last by (auto; lia). generalize (Hz 0%nat ltac:(lia)) (incr_le z n Hz 1%nat (n - 1)%nat ltac:(lia) ltac:(lia)). lra. }
  rewrite coherence_fin by (auto; try lia; lra). intros E. apply ok_inj, xpow_neg_fin in E; [|lra].
  destruct E as [P ->]. split; [apply exp_pos|].
  rewrite Rpower_mult. replace (- (3 / 5) * - (5 / 3)) with 1 by field. rewrite Rpower_1 by exact P.
  unfold path_int. rewrite zmax_last by (auto; lia).
  rewrite (map_ext (fun i => c i * pw (z i / z (n - 1)%nat) (5 / 3)) (fun i => c i * five_thirds (z i / z (n - 1)%nat)))
    by (intros; rewrite pw_53; reflexivity).
  set (t := trapezoid _ _). ring.
Qed.

(** ** Single factors *)
Lemma circ_value k u v l D eta : 0 < l -> 0 < D -> eta < 1 ->
  circular_aperture_OTF k u v l D eta = Ok (Fin (aperture_mtf D eta l u v)).
Proof.
  intros Hl HD He. unfold aperture_mtf. destruct (Rlt_dec 0 eta); [apply circ_annulus | apply circ_disc]; lra.
Qed.
Lemma line_sinc a x : line_ft a x = Rsinc (a * x).
Proof.
  unfold line_ft. destruct (Req_EM_T a 0) as [-> | N]; [rewrite Rmult_0_l, Rsinc_0; reflexivity | apply smear_sinc; auto].
Qed.
Lemma det_value u v wx wy f : f <> 0 -> detector_OTF u v wx wy f = Fin (line_ft (wx / f) u * line_ft (wy / f) v).
Proof.
  intros Hf. rewrite detector_fin, !line_sinc by auto. do 2 f_equal; f_equal; field; auto.
Qed.
Lemma drift_value u v ax ay : drift_OTF u v ax ay = Fin (line_ft ax u * line_ft ay v).
Proof. rewrite drift_fin, !line_sinc. reflexivity. Qed.
Lemma jitter_value u v sx sy : jitter_OTF u v sx sy = Fin (jitter_mtf_of sx sy u v).
Proof. rewrite jitter_fin. unfold jitter_mtf_of. do 2 f_equal. ring. Qed.
Lemma wav_value u v l pv pv_wl Lx Ly : 0 < l -> Lx <> 0 -> Ly <> 0 ->
  wavefront_OTF u v l (xmul (Fin pv) (xsq (xdiv (Fin pv_wl) (Fin l)))) Lx Ly
  = Fin (wavefront_mtf pv pv_wl Lx Ly l u v).
Proof.
  intros Hl Hx Hy. rewrite xdiv_fin, xsq_fin, xmul_fin by lra. rewrite wavefront_fin by auto.
  unfold wavefront_mtf. do 2 f_equal.
  replace (- (l * l) * (u / Lx * (u / Lx) + v / Ly * (v / Ly))) with (- ((l * u / Lx) ^ 2 + (l * v / Ly) ^ 2)) by (field; auto).
  set (e := exp _). field. lra.
Qed.
Lemma fried_value u v l D r a : 0 < l -> 0 < D -> 0 < r -> turb u v l D r a = fried r l D a (sqrt (u * u + v * v)).
Proof.
  intros Hl HD Hr. unfold turb, fried. fold (rad u v). generalize (rad_pos u v); intros Rp.
  destruct (Rlt_dec 0 (rad u v)) as [P | P].
  - rewrite !pw_val by (apply Rdiv_lt_0_compat; nra). reflexivity.
  - assert (E : rad u v = 0) by lra. rewrite E. unfold Rdiv. rewrite !Rmult_0_r, !Rmult_0_l, !pw_0.
    rewrite Rmult_0_r, Rmult_0_l. apply exp_0.
Qed.
Lemma wind_chain u v l D r td vel : 0 < l -> 0 < D -> 0 < r ->
  wind_speed_turbulence_OTF Np u v l D (Fin r) td vel = Ok (Fin (turbulence_mtf r l D (vel * td) u v)).
Proof.
  intros Hl HD Hr. rewrite wind_fin by auto. unfold turbulence_mtf. rewrite !fried_value by auto.
  replace (- vel * td / r) with (- (vel * td / r)) by (field; lra).
  replace 0.5 with (1 / 2) by lra. reflexivity.
Qed.
Lemma r_at_value r1 l : 0 < l -> r0_function (Fin r1) l = Fin (r_at r1 l).
Proof.
  intros Hl. unfold r0_function, r_at. rewrite xpow_fin by auto. rewrite !xmul_fin. f_equal.
  rewrite Rmult_assoc. f_equal.
  rewrite Rpower_Ropp, <- Rpower_mult_distr by (try lra; apply pow_lt; lra).
  rewrite Rmult_comm. f_equal.
  replace (1 / 10 ^ 6) with (/ 10 ^ 6) by (unfold Rdiv; ring).
  unfold Rpower. rewrite ln_Rinv by (apply pow_lt; lra). rewrite <- exp_Ropp. f_equal. ring.
Qed.
Lemma r_at_pos r1 l : 0 < r1 -> 0 < r_at r1 l.
Proof. intros. unfold r_at. apply Rmult_lt_0_compat; [lra | apply exp_pos]. Qed.

(** ** Means *)
Lemma mean_row (ps : list (R * R)) g (G : R -> R * R -> R) pts : NoDup (map fst ps) -> Rsum (map snd ps) <> 0 ->
  (forall p, In p ps -> g (fst p) = Ok (map (fun q => Fin (G (fst p) q)) pts)) ->
  weighted_by_wavelength (map fst ps) (map (fun p => Fin (snd p)) ps) g
  = Ok (map (fun q => Fin (spectral_mean ps (fun l => G l q))) pts).
Proof.
  intros N S H. rewrite (weighted_avg ps g (fun l j => G l (pt pts j)) (length pts) N S).
  - rewrite (row_seq (fun q => Fin (spectral_mean ps (fun l => G l q)))). reflexivity.
  - intros p Hp. rewrite (H p Hp), row_seq. reflexivity.
Qed.

(* polychromatic turbulence *)
Lemma poly_value k pts ps alt sl D wind c ti ac zp hp r1 : good_spectrum ps -> 0 < D -> 0 < r1 ->
  altitude_along_slant_path k 0 alt sl = Ok (zp, hp) ->
  coherence_diameter (1 / 10 ^ 6) zp (map (fun h => hufnagel_valley_turbulence_profile h wind c) hp) = Ok (Fin r1) ->
  polychromatic_turbulence_OTF k pts (map fst ps) (map (fun p => Fin (snd p)) ps) alt sl D wind c ti ac
  = Ok (map (fun q => Fin (spectral_mean ps (fun l => turbulence_mtf (r_at r1 l) l D (ac * ti) (fst q) (snd q)))) pts,
        [Fin (spectral_mean ps (r_at r1))]).
Proof.
  intros (N & W & S) HD Pr Ep Er. unfold polychromatic_turbulence_OTF. rewrite Ep. cbn [bind]. rewrite Er. cbn [bind].
  rewrite (mean_row ps _ (fun l _ => r_at r1 l) [(0, 0)] N).
  2: lra.
  2:{ intros p Hp. rewrite r_at_value by (apply W; auto). reflexivity. }
  cbn [bind map].
  rewrite (mean_row ps _ (fun l q => turbulence_mtf (r_at r1 l) l D (ac * ti) (fst q) (snd q)) pts N).
  2: lra.
  2:{ intros p Hp. destruct (W p Hp) as [Pl _]. apply traverse_ok. intros q _.
      rewrite r_at_value by auto. apply wind_chain; auto. apply r_at_pos; auto. }
  reflexivity.
Qed.

(** ** All factors of a successful call *)
Lemma traverse_nth {A B} (f : A -> res B) l r : traverse f l = Ok r ->
  forall j x, nth_error l j = Some x -> exists y, nth_error r j = Some y /\ f x = Ok y.
Proof.
  revert r. induction l as [|a l IH]; intros r E j x Hj; [destruct j; discriminate Hj|].
  change (traverse f (a :: l)) with (let* y := f a in let* r := traverse f l in Ok (y :: r)) in E.
  destruct (f a) as [y|] eqn:Ea; [|discriminate E]. cbn [bind] in E.
  destruct (traverse f l) as [t|] eqn:Et; [|discriminate E]. cbn [bind] in E. injection E as <-.
  destruct j as [|j]; simpl in Hj |- *.
  - injection Hj as <-. eauto.
  - apply (IH t eq_refl j x Hj).
Qed.

Lemma common_factors diag k s c pts ps sl ti o :
  good_spectrum ps -> good_optics s -> good_path c sl ->
  common_OTFs diag k s c pts (map fst ps) (map (fun p => Fin (snd p)) ps) sl ti = Ok o ->
  forall j u v, nth_error pts j = Some (u, v) ->
    nth_error (ap_OTF o) j = Some (Fin (spectral_mean ps (fun l => aperture_mtf (s_D s) (s_eta s) l u v)))
    /\ nth_error (det_OTF o) j = Some (Fin (line_ft (s_wx s / s_f s) u * line_ft (s_wy s / s_f s) v))
    /\ nth_error (jit_OTF o) j = Some (Fin (jitter_mtf_of (s_sx s) (s_sy s) u v))
    /\ nth_error (drft_OTF o) j
       = Some (Fin (line_ft (s_dax s * ti * s_ntdi s) u * line_ft (s_day s * ti * s_ntdi s) v))
    /\ nth_error (wav_OTF o) j
       = Some (Fin (spectral_mean ps (fun l => wavefront_mtf (s_pv s) (s_pv_wl s) (s_Lx s) (s_Ly s) l u v)))
    /\ ((length (s_kernel s) <= 1)%nat -> nth_error (filt_OTF o) j = Some (Fin 1))
    /\ ((1 < length (s_kernel s))%nat -> exists h, nth_error (filt_OTF o) j = Some h
          /\ filter_OTF diag u v (s_kernel s) (s_px s / s_f s) = Ok h)
    /\ (plain c Cn2At1m <= 0 -> nth_error (turb_OTF o) j = Some (Fin 1))
    /\ (0 < plain c Cn2At1m -> exists zp hp r1, 0 < r1
          /\ altitude_along_slant_path k 0 (altitude c) sl = Ok (zp, hp)
          /\ coherence_diameter (1 / 10 ^ 6) zp
               (map (fun h => hufnagel_valley_turbulence_profile h (plain c HaWindSpeed) (plain c Cn2At1m)) hp) = Ok (Fin r1)
          /\ nth_error (turb_OTF o) j
             = Some (Fin (spectral_mean ps (fun l =>
                 turbulence_mtf (r_at r1 l) l (s_D s) (plain c AircraftSpeed * (ti * s_ntdi s)) u v)))
          /\ r0_band o = [Fin (spectral_mean ps (r_at r1))]).
Proof.
  intros GS GO GP. assert (GS' := GS). destruct GS' as (N & W & S). destruct GO as (HD & He & Hf & Hx & Hy & Hpv).
  unfold common_OTFs.
  rewrite (mean_row ps _ (fun l q => aperture_mtf (s_D s) (s_eta s) l (fst q) (snd q)) pts N).
  2: lra.
  2:{ intros p Hp. apply traverse_ok. intros q _. apply circ_value; auto. apply W; auto. }
  cbn [bind].
  set (P := if Rltb 0 (plain c Cn2At1m) then _ else _).
  assert (TU : exists tu rb, P = Ok (tu, rb) /\ length tu = length pts
      /\ (plain c Cn2At1m <= 0 -> tu = map (fun _ => Fin 1) pts)
      /\ (0 < plain c Cn2At1m -> exists zp hp r1, 0 < r1
          /\ altitude_along_slant_path k 0 (altitude c) sl = Ok (zp, hp)
          /\ coherence_diameter (1 / 10 ^ 6) zp
               (map (fun h => hufnagel_valley_turbulence_profile h (plain c HaWindSpeed) (plain c Cn2At1m)) hp) = Ok (Fin r1)
          /\ tu = map (fun q => Fin (spectral_mean ps (fun l =>
                 turbulence_mtf (r_at r1 l) l (s_D s) (plain c AircraftSpeed * (ti * s_ntdi s)) (fst q) (snd q)))) pts
          /\ rb = [Fin (spectral_mean ps (r_at r1))])).
  { unfold P. rcase.
    - destruct GP as [GP | (Hs & Ha & Hu)]; [lra|].
      assert (End : exists nd, nadir_angle k 0 (altitude c) sl = Ok (Fin nd)).
      { eexists. apply Proof_Geo.nadir_ok; unfold r_earth in *; try lra.
        split; [|lra]. unfold Rabs. destruct (Rcase_abs _); lra. }
      destruct End as (nd & End).
      destruct (r0_path k (altitude c) sl nd (plain c HaWindSpeed) (plain c Cn2At1m) Hs ltac:(assumption) End)
        as (zp & hp & r1 & Ep & Er & Pr).
      do 2 eexists. split; [apply (poly_value k pts ps _ _ _ _ _ _ _ zp hp r1); auto|].
      split; [apply map_length|]. split; [lra|]. intros _. exists zp, hp, r1. auto 6.
    - do 2 eexists. split; [reflexivity|]. split; [apply map_length|]. split; [reflexivity | lra]. }
  clearbody P. destruct TU as (tu & rb & -> & Lt & T0 & T1). cbn [bind].
  rewrite (mean_row ps _ (fun l q => wavefront_mtf (s_pv s) (s_pv_wl s) (s_Lx s) (s_Ly s) l (fst q) (snd q)) pts N).
  2: lra.
  2:{ intros p Hp. unfold on_grid. f_equal. apply map_ext. intros q. apply wav_value; auto. apply W; auto. }
  cbn [bind].
  set (FI := if Nat.ltb 1 (length (s_kernel s)) then _ else _).
  assert (FO : forall fl, FI = Ok fl -> forall j u v, nth_error pts j = Some (u, v) ->
       ((length (s_kernel s) <= 1)%nat -> nth_error fl j = Some (Fin 1))
       /\ ((1 < length (s_kernel s))%nat -> exists h, nth_error fl j = Some h
          /\ filter_OTF diag u v (s_kernel s) (s_px s / s_f s) = Ok h)).
  { intros fl. unfold FI. destruct (Nat.ltb_spec 1 (length (s_kernel s))) as [L|L]; intros E j u v Hj.
    - split; [lia|]. intros _. rewrite pydiv_ok in E by auto. cbn [bind] in E.
      destruct (traverse_nth _ _ _ E j (u, v) Hj) as (y & Ey & Fy). exists y. split; [exact Ey | exact Fy].
    - split; [|lia]. intros _. injection E as <-. apply (map_nth_error (fun _ => Fin 1) j pts Hj). }
  clearbody FI. destruct FI as [fl|]; [|discriminate]. cbn [bind]. specialize (FO fl eq_refl).
  intros E j u v Hj.
  destruct (bmap2 xmul _ tu) as [m1|]; [|discriminate E]. cbn [bind] in E.
  destruct (bmap2 xmul m1 _) as [m2|]; [|discriminate E]. cbn [bind] in E.
  destruct (bmap2 xmul m2 _) as [m3|]; [|discriminate E]. cbn [bind] in E.
  destruct (bmap2 xmul m3 _) as [m4|]; [|discriminate E]. cbn [bind] in E.
  destruct (bmap2 xmul m4 _) as [m5|]; [|discriminate E]. cbn [bind] in E.
  destruct (bmap2 xmul m5 _) as [m6|]; [|discriminate E]. cbn [bind] in E.
  apply ok_inj in E. subst o. cbn [ap_OTF turb_OTF det_OTF jit_OTF drft_OTF wav_OTF filt_OTF r0_band].
  assert (NM : forall F : R * R -> xr, nth_error (map F pts) j = Some (F (u, v))) by (intros F; apply map_nth_error; exact Hj).
  unfold on_grid. rewrite !NM. cbn [fst snd].
  split; [reflexivity|]. split; [rewrite det_value by auto; reflexivity|].
  split; [rewrite jitter_value; reflexivity|]. split; [rewrite drift_value; reflexivity|]. split; [reflexivity|].
  split; [apply (FO j u v Hj)|]. split; [apply (FO j u v Hj)|].
  split; [intros Hc; rewrite (T0 Hc), NM; reflexivity|].
  intros Hc. destruct (T1 Hc) as (zp & hp & r1 & Pr & Ep & Er & Etu & Erb). exists zp, hp, r1.
  split; [exact Pr|]. split; [exact Ep|]. split; [exact Er|]. split; [rewrite Etu, NM; reflexivity | exact Erb].
Qed.
