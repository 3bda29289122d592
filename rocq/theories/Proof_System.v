(** * Proof_System: polychromatic turbulence and the system transfer function. *)
From Coq Require Import Reals Lra Psatz Bool List ZArith Lia.
From Verif Require Import Base_XR Base_Np Base_NpFacts Base_Interp Model_Geo Model_Scenario Model_Sensor Model_Otf
  Spec_Otf Spec_System Proof_Geo Proof_Aper Proof_AperP Proof_Otf Proof_Turb Proof_Filter Proof_Weight.
Import ListNotations.
Open Scope R_scope.

Definition getv (r : res xr) : R := match r with Ok (Fin h) => h | _ => 0 end.
Definition getx (r : xr) : R := match r with Fin h => h | _ => 0 end.

Lemma circ_any k u v l D eta : 0 < l -> 0 < D -> eta < 1 ->
  exists h, circular_aperture_OTF k u v l D eta = Ok (Fin h)
    /\ 0 <= h <= 1 /\ (u = 0 -> v = 0 -> h = 1).
Proof.
  intros Hl HD He. destruct (Rle_dec eta 0) as [H|H].
  - destruct (circ_mtf k u v l D eta Hl HD H) as (h & E & B & Z & _). eauto.
  - destruct (circ_annulus_mtf k u v l D eta Hl HD ltac:(lra)) as (h & E & B & Z & _). eauto.
Qed.

Lemma traverse_ok {A B} (f : A -> res B) (F : A -> B) l : (forall x, In x l -> f x = Ok (F x)) ->
  traverse f l = Ok (map F l).
Proof.
  induction l as [|x l IH]; intros H; [reflexivity|].
  change (traverse f (x :: l)) with (let* y := f x in let* r := traverse f l in Ok (y :: r)).
  rewrite H by (left; reflexivity). cbn [bind]. rewrite IH by (intros; apply H; right; auto). reflexivity.
Qed.
Lemma traverse_length {A B} (f : A -> res B) l r : traverse f l = Ok r -> length r = length l.
Proof.
  revert r. induction l as [|x l IH]; intros r E.
  - injection E as <-. reflexivity.
  - change (traverse f (x :: l)) with (let* y := f x in let* r := traverse f l in Ok (y :: r)) in E.
    destruct (f x) as [y|]; [|discriminate E]. cbn [bind] in E.
    destruct (traverse f l) as [t|]; [|discriminate E]. cbn [bind] in E. injection E as <-.
    simpl. f_equal. apply IH. reflexivity.
Qed.
(* a row of grid points by index *)
Definition pt (pts : list (R * R)) (j : nat) : R * R := nth j pts (0, 0).
Lemma row_seq {B} (F : R * R -> B) pts : map F pts = map (fun j => F (pt pts j)) (seq 0 (length pts)).
Proof. rewrite (list_as_map pts (0, 0)) at 1. rewrite map_map. reflexivity. Qed.

Lemma avg_bounds (ps : list (R * R)) (F : R * R -> R) lo hi :
  (forall p, In p ps -> 0 < fst p /\ 0 <= snd p) -> 0 < Rsum (map snd ps) ->
  (forall p, In p ps -> lo <= F p <= hi) ->
  lo <= Rsum (map (fun p => snd p * F p) ps) / Rsum (map snd ps) <= hi.
Proof.
  intros W S B. set (s := Rsum (map snd ps)) in *.
  assert (lo * s <= Rsum (map (fun p => snd p * F p) ps) <= hi * s).
  { unfold s. rewrite <- !Rsum_scal_l. split; apply Rsum_nonneg_le; intros p Hp;
      generalize (proj2 (W p Hp)) (B p Hp); intros; nra. }
  assert (Q : forall x, x / s * s = x) by (intros; field; lra).
  split; (apply Rmult_le_reg_r with s; [lra|]); rewrite Q; lra.
Qed.

(** ** Turbulence *)
Lemma r0_fun_fin r l : 0 < r -> 0 < l -> exists r', r0_function (Fin r) l = Fin r' /\ 0 < r'.
Proof.
  intros Hr Hl. unfold r0_function. rewrite xpow_fin by auto. rewrite !xmul_fin.
  eexists; split; [reflexivity|].
  apply Rmult_lt_0_compat; [apply Rmult_lt_0_compat; [lra | apply exp_pos] | apply exp_pos].
Qed.
(* scaling r0 from 1 um agrees with computing it at the wavelength itself *)
Lemma r0_consistent z c n lam r : 0 < lam ->
  (forall i, (i < n)%nat -> 0 <= z i) -> (exists j, (j < n)%nat /\ 0 < z j) ->
  coherence_diameter (1 / 10 ^ 6) (map (fun i => Fin (z i)) (seq 0 n)) (map (fun i => Fin (c i)) (seq 0 n)) = Ok (Fin r) ->
  coherence_diameter lam (map (fun i => Fin (z i)) (seq 0 n)) (map (fun i => Fin (c i)) (seq 0 n))
  = Ok (r0_function (Fin r) lam).
Proof.
  intros Hl Hz Hj E. assert (M : 0 < 1 / 10 ^ 6) by (apply Rdiv_lt_0_compat; [lra | apply pow_lt; lra]).
  destruct (coherence_wavelength z c n (1 / 10 ^ 6) (lam / (1 / 10 ^ 6)) r) as [_ E2]; auto.
  { apply Rdiv_lt_0_compat; lra. }
  replace (lam / (1 / 10 ^ 6) * (1 / 10 ^ 6)) with lam in E2 by (field; split; try lra; apply pow_nonzero; lra).
  rewrite E2. unfold r0_function. rewrite xpow_fin by auto. rewrite !xmul_fin. do 2 f_equal.
  unfold Rdiv at 1. rewrite <- Rpower_mult_distr by (auto; apply Rinv_0_lt_compat; lra).
  replace (Rpower (/ (1 / 10 ^ 6)) (6 / 5)) with (Rpower (1 / 10 ^ 6) (- (6 / 5))).
  - ring.
  - unfold Rpower. f_equal. rewrite (ln_Rinv (1 / 10 ^ 6)) by lra. ring.
Qed.

Lemma rev_seq_map {B} (f : nat -> B) n : rev (map f (seq 0 n)) = map (fun i => f (n - 1 - i)%nat) (seq 0 n).
Proof.
  induction n as [|n IH]; [reflexivity|].
  rewrite seq_S, map_app, rev_app_distr. cbn [map rev app plus]. rewrite IH.
  change (seq 0 (n + 1)) with (seq 0 (n + 1)). rewrite <- seq_S. cbn [seq map]. f_equal.
  - f_equal. lia.
  - rewrite <- seq_shift, map_map. apply map_ext. intros i. f_equal. lia.
Qed.

Lemma path_finite k alt sl nd : nadir_angle k 0 alt sl = Ok (Fin nd) ->
  exists h : nat -> R, altitude_along_slant_path k 0 alt sl
    = Ok (map (fun i => Fin (0 + INR i * ((sl - 0) / INR (n_path - 1)))) (seq 0 n_path),
          map (fun i => Fin (h i)) (seq 0 n_path)).
Proof.
  intros E. unfold altitude_along_slant_path. rewrite E. cbn [bind].
  set (a := r_earth + alt). unfold linspace. set (z := fun i => 0 + INR i * ((sl - 0) / INR (n_path - 1))).
  set (h := fun i => sqrt (a * a + z i * z i - 2 * a * z i * cos nd) - r_earth).
  exists (fun i => h (n_path - 1 - i)%nat). rewrite !map_map.
  rewrite (map_ext (fun x => xsub (xsqrt (xsub (Fin (a * a + z x * z x)) (xmul (Fin (2 * a * z x)) (xcos (Fin nd))))) (Fin r_earth))
             (fun x => Fin (h x))).
  - rewrite rev_seq_map. reflexivity.
  - intros i. cbn [xcos]. rewrite xmul_fin, xsub_fin, xsqrt_fin, xsub_fin; [reflexivity|].
    generalize (COS_bound nd) (sq_pos (a - z i)) (sq_pos (a + z i)); intros.
    destruct (Rle_dec 0 (a * z i)); nra.
Qed.
Lemma n_path_2 : (2 <= n_path)%nat.
Proof. apply Nat.leb_le. vm_compute. reflexivity. Qed.

Lemma r0_path k alt sl nd v c : 0 < sl -> 0 < c -> nadir_angle k 0 alt sl = Ok (Fin nd) ->
  exists zp hp r, altitude_along_slant_path k 0 alt sl = Ok (zp, hp)
    /\ coherence_diameter (1 / 10 ^ 6) zp (map (fun h => hufnagel_valley_turbulence_profile h v c) hp) = Ok (Fin r)
    /\ 0 < r.
Proof.
  intros Hs Hc E. destruct (path_finite k alt sl nd E) as (h & Ep). rewrite Ep.
  do 2 eexists.
  enough (G : exists r, coherence_diameter (1 / 10 ^ 6)
      (map (fun i => Fin (0 + INR i * ((sl - 0) / INR (n_path - 1)))) (seq 0 n_path))
      (map (fun h => hufnagel_valley_turbulence_profile h v c) (map (fun i => Fin (h i)) (seq 0 n_path))) = Ok (Fin r) /\ 0 < r).
  { destruct G as (r & Er & Pr). exists r. split; [reflexivity|]. split; [exact Er | exact Pr]. }
  assert (N2 := n_path_2). revert N2. clear Ep. generalize n_path. intros n N2. rewrite map_map.
  rewrite (map_ext (fun x => hufnagel_valley_turbulence_profile (Fin (h x)) v c) (fun x => Fin (hv (h x) v c))) by (intros; apply hv_fin).
  assert (P : forall y, 0 < hv y v c).
  { intros y. destruct (hv_props y v c c v ltac:(lra)) as (w & Ew & Pw & _). rewrite hv_fin in Ew. injection Ew as <-. exact Pw. }
  assert (D : 0 < (sl - 0) / INR (n - 1)).
  { apply Rdiv_lt_0_compat; [lra|]. apply lt_0_INR. lia. }
  destruct (coherence_finite (fun i => 0 + INR i * ((sl - 0) / INR (n - 1))) (fun i => hv (h i) v c) n (1 / 10 ^ 6) 1) as (r & Er & Pr).
  - apply Rdiv_lt_0_compat; [lra | apply pow_lt; lra].
  - simpl INR. lra.
  - intros j _. rewrite S_INR. lra.
  - intros j _. left. apply P.
  - lia.
  - apply P.
  - exists r. split; [exact Er | exact Pr].
Qed.

Lemma poly_row k pts ps alt sl D v c ti ac nd :
  good_spectrum ps -> 0 < D -> 0 < sl -> 0 < c -> nadir_angle k 0 alt sl = Ok (Fin nd) ->
  exists T r0b, polychromatic_turbulence_OTF k pts (map fst ps) (map (fun p => Fin (snd p)) ps) alt sl D v c ti ac
     = Ok (map (fun j => Fin (T j)) (seq 0 (length pts)), [Fin r0b])
    /\ 0 < r0b
    /\ (forall j, pt pts j = (0, 0) -> T j = 1)
    /\ (forall j, in_cutoff D ps (fst (pt pts j)) (snd (pt pts j)) -> 0 <= ac * ti -> 0 <= T j <= 1).
Proof.
  intros (N & W & S) HD Hs Hc E.
  destruct (r0_path k alt sl nd v c Hs Hc E) as (zp & hp & r & Ep & Er & Pr).
  unfold polychromatic_turbulence_OTF. rewrite Ep. cbn [bind]. rewrite Er. cbn [bind].
  rewrite (weighted_avg ps _ (fun l _ => getx (r0_function (Fin r) l)) 1 N).
  2: lra.
  2:{ intros p Hp. destruct (r0_fun_fin r (fst p) Pr (proj1 (W p Hp))) as (r' & E' & _). rewrite E'. reflexivity. }
  cbn [bind seq map].
  set (tv := fun l p => getv (wind_speed_turbulence_OTF Np (fst p) (snd p) l D (r0_function (Fin r) l) ti ac)).
  assert (TV : forall q p, In q ps -> exists r', 0 < r' /\ r0_function (Fin r) (fst q) = Fin r'
      /\ wind_speed_turbulence_OTF Np (fst p) (snd p) (fst q) D (r0_function (Fin r) (fst q)) ti ac = Ok (Fin (tv (fst q) p))).
  { intros q p Hq. destruct (r0_fun_fin r (fst q) Pr (proj1 (W q Hq))) as (r' & E' & P'). exists r'.
    split; [exact P'|]. split; [exact E'|]. unfold tv. rewrite E'. rewrite wind_fin by (auto; apply W; auto). reflexivity. }
  rewrite (weighted_avg ps _ (fun l j => tv l (pt pts j)) (length pts) N).
  2: lra.
  2:{ intros q Hq. rewrite (traverse_ok _ (fun p => Fin (tv (fst q) p))).
      - rewrite row_seq. reflexivity.
      - intros p _. destruct (TV q p Hq) as (r' & _ & _ & Ev). exact Ev. }
  cbn [bind]. eexists (fun j => _), _. split; [reflexivity|]. split; [|split].
  - apply Rdiv_lt_0_compat; [|exact S].
    assert (G : exists q, In q ps /\ 0 < snd q).
    { assert (G0 : forall l, (forall q, In q l -> 0 <= snd q) -> 0 < Rsum (map snd l) -> exists q : R * R, In q l /\ 0 < snd q).
      { induction l as [|q l IH]; intros Wl Sl; [unfold Rsum in Sl; simpl in Sl; lra|].
        cbn [map] in Sl. rewrite Rsum_cons in Sl.
        destruct (Rlt_dec 0 (snd q)) as [H|H]; [exists q; split; [left; reflexivity | exact H]|].
        destruct IH as (q' & I' & P').
        - intros; apply Wl; right; auto.
        - generalize (Wl q (or_introl eq_refl)). lra.
        - exists q'. split; [right; exact I' | exact P']. }
      apply G0; [intros; apply W; auto | exact S]. }
    destruct G as (q & Hq & Pq).
    assert (G1 : forall l, incl l ps -> 0 <= Rsum (map (fun p => snd p * getx (r0_function (Fin r) (fst p))) l)).
    { induction l as [|p l IH]; intros Hl; [unfold Rsum; simpl; lra|]. cbn [map]. rewrite Rsum_cons.
      destruct (r0_fun_fin r (fst p) Pr (proj1 (W p (Hl p (or_introl eq_refl))))) as (r' & E' & P'). rewrite E'. cbn [getx].
      generalize (proj2 (W p (Hl p (or_introl eq_refl)))); intros.
      assert (0 <= snd p * r') by (apply Rmult_le_pos; lra).
      assert (0 <= Rsum (map (fun p0 => snd p0 * getx (r0_function (Fin r) (fst p0))) l)) by (apply IH; intros z Hz; apply Hl; right; exact Hz).
      lra. }
    apply in_split in Hq. destruct Hq as (l1 & l2 & Eps).
    assert (I1 : incl l1 ps) by (rewrite Eps; intros z Hz; apply in_or_app; left; exact Hz).
    assert (I2 : incl l2 ps) by (rewrite Eps; intros z Hz; apply in_or_app; right; right; exact Hz).
    assert (Iq : In q ps) by (rewrite Eps; apply in_or_app; right; left; reflexivity).
    generalize (G1 l1 I1) (G1 l2 I2); intros A1 A2.
    rewrite Eps, map_app, Rsum_app. cbn [map]. rewrite Rsum_cons.
    destruct (r0_fun_fin r (fst q) Pr (proj1 (W q Iq))) as (r' & E' & P'). rewrite E'. cbn [getx].
    assert (0 < snd q * r') by (apply Rmult_lt_0_compat; lra). lra.
  - intros j Hj. cbv beta. rewrite Hj.
    assert (B : 1 <= Rsum (map (fun p => snd p * tv (fst p) (0, 0)) ps) / Rsum (map snd ps) <= 1); [|lra].
    apply (avg_bounds ps (fun p => tv (fst p) (0, 0))); auto. intros q Hq.
    destruct (TV q (0, 0) Hq) as (r' & P' & E' & Ev). cbn [fst snd] in Ev. rewrite E' in Ev.
    rewrite wind_fin in Ev by (auto; apply W; auto). rewrite !turb_0 in Ev. injection Ev as Ev. lra.
  - intros j Hj Hv. cbv beta.
    apply (avg_bounds ps (fun p => tv (fst p) (pt pts j))); auto. intros q Hq.
    destruct (TV q (pt pts j) Hq) as (r' & P' & E' & Ev). rewrite E' in Ev.
    destruct (wind_between Np (fst (pt pts j)) (snd (pt pts j)) (fst q) D r' ti ac (proj1 (W q Hq)) HD P' Hv)
      as (h & hs & hl & Eh & Es & El & B & _).
    rewrite Ev in Eh. injection Eh as <-.
    destruct (turbulence_in_cutoff (fst (pt pts j)) (snd (pt pts j)) (fst q) D r' 0.5 (proj1 (W q Hq)) HD P' ltac:(lra) (Hj q Hq))
      as (hs' & Es' & Bs & _).
    destruct (turbulence_in_cutoff (fst (pt pts j)) (snd (pt pts j)) (fst q) D r' 0 (proj1 (W q Hq)) HD P' ltac:(lra) (Hj q Hq))
      as (hl' & El' & Bl & _).
    rewrite Es in Es'. injection Es' as <-. rewrite El in El'. injection El' as <-. lra.
Qed.

(** ** common_OTFs on good inputs, no filter kernel *)
Lemma abs1 x : 0 <= x <= 1 -> Rabs x <= 1.
Proof. intros. rewrite Rabs_right; lra. Qed.

Definition comps (a t d ji dr w : R) : list R := [a; t; d; ji; dr; w].
Lemma prod_le a b : Rabs a <= 1 -> Rabs (a * b) <= Rabs b.
Proof. intros H. rewrite Rabs_mult. generalize (Rabs_pos a) (Rabs_pos b). nra. Qed.
Lemma prod6_le a t d ji dr w : Rabs a <= 1 -> Rabs t <= 1 -> Rabs d <= 1 -> Rabs ji <= 1 -> Rabs dr <= 1 -> Rabs w <= 1 ->
  forall x, In x (comps a t d ji dr w) -> Rabs (a * t * d * ji * dr * w) <= Rabs x.
Proof.
  intros Ha Ht Hd Hj Hr Hw x Hx. unfold comps in Hx. cbn [In] in Hx.
  destruct Hx as [<- | [<- | [<- | [<- | [<- | [<- | []]]]]]].
  - replace (a * t * d * ji * dr * w) with ((t * d * ji * dr * w) * a) by ring.
    apply prod_le; repeat (apply abs_mul_le_1; [|assumption]); assumption.
  - replace (a * t * d * ji * dr * w) with ((a * d * ji * dr * w) * t) by ring.
    apply prod_le; repeat (apply abs_mul_le_1; [|assumption]); assumption.
  - replace (a * t * d * ji * dr * w) with ((a * t * ji * dr * w) * d) by ring.
    apply prod_le; repeat (apply abs_mul_le_1; [|assumption]); assumption.
  - replace (a * t * d * ji * dr * w) with ((a * t * d * dr * w) * ji) by ring.
    apply prod_le; repeat (apply abs_mul_le_1; [|assumption]); assumption.
  - replace (a * t * d * ji * dr * w) with ((a * t * d * ji * w) * dr) by ring.
    apply prod_le; repeat (apply abs_mul_le_1; [|assumption]); assumption.
  - apply prod_le; repeat (apply abs_mul_le_1; [|assumption]); assumption.
Qed.

Lemma common_good diag k s c pts ps sl ti :
  good_spectrum ps -> good_optics s -> good_path c sl -> (length (s_kernel s) <= 1)%nat ->
  exists o, common_OTFs diag k s c pts (map fst ps) (map (fun p => Fin (snd p)) ps) sl ti = Ok o
    /\ length (system_OTF o) = length pts
    /\ forall j u v, nth_error pts j = Some (u, v) ->
       exists a t d ji dr w,
         nth_error (ap_OTF o) j = Some (Fin a) /\ nth_error (turb_OTF o) j = Some (Fin t)
         /\ nth_error (det_OTF o) j = Some (Fin d) /\ nth_error (jit_OTF o) j = Some (Fin ji)
         /\ nth_error (drft_OTF o) j = Some (Fin dr) /\ nth_error (wav_OTF o) j = Some (Fin w)
         /\ nth_error (filt_OTF o) j = Some (Fin 1)
         /\ nth_error (system_OTF o) j = Some (Fin (a * t * d * ji * dr * w))
         /\ (u = 0 -> v = 0 -> a * t * d * ji * dr * w = 1)
         /\ (in_cutoff (s_D s) ps u v -> 0 <= plain c AircraftSpeed * (ti * s_ntdi s) ->
             forall x, In x [a; t; d; ji; dr; w] -> Rabs x <= 1 /\ Rabs (a * t * d * ji * dr * w) <= Rabs x).
Proof.
  intros GS GO GP K. assert (GS' := GS). destruct GS' as (N & W & S). destruct GO as (HD & He & Hf & Hx & Hy & Hpv).
  set (m := length pts).
  unfold common_OTFs.
  (* aperture *)
  set (apv := fun l j => getv (circular_aperture_OTF Np (fst (pt pts j)) (snd (pt pts j)) l (s_D s) (s_eta s))).
  rewrite (weighted_avg ps _ apv m N).
  2: lra.
  2:{ intros q Hq. unfold on_grid_res.
      rewrite (traverse_ok _ (fun p => Fin (getv (circular_aperture_OTF Np (fst p) (snd p) (fst q) (s_D s) (s_eta s))))).
      - rewrite row_seq. reflexivity.
      - intros p _. destruct (circ_any Np (fst p) (snd p) (fst q) (s_D s) (s_eta s) (proj1 (W q Hq)) HD He) as (h & E & _).
        rewrite E. reflexivity. }
  cbn [bind].
  set (A := fun j => Rsum (map (fun p => snd p * apv (fst p) j) ps) / Rsum (map snd ps)).
  assert (TU : exists T r0b, (if Rltb 0 (plain c Cn2At1m)
      then polychromatic_turbulence_OTF k pts (map fst ps) (map (fun p => Fin (snd p)) ps) (altitude c) sl (s_D s)
             (plain c HaWindSpeed) (plain c Cn2At1m) (ti * s_ntdi s) (plain c AircraftSpeed)
      else Ok (map (fun _ => Fin 1) pts, map (fun _ => Fin 1000000) pts))
      = Ok (map (fun j => Fin (T j)) (seq 0 m), r0b)
      /\ (forall j, pt pts j = (0, 0) -> T j = 1)
      /\ (forall j, in_cutoff (s_D s) ps (fst (pt pts j)) (snd (pt pts j)) ->
            0 <= plain c AircraftSpeed * (ti * s_ntdi s) -> 0 <= T j <= 1)).
  { rcase.
    - destruct GP as [GP | (Hs & Ha & Hu)]; [lra|].
      assert (End : exists nd, nadir_angle k 0 (altitude c) sl = Ok (Fin nd)).
      { eexists. apply Proof_Geo.nadir_ok; unfold r_earth in *; try lra.
        split; [|lra]. unfold Rabs. destruct (Rcase_abs _); lra. }
      destruct End as (nd & End).
      destruct (poly_row k pts ps (altitude c) sl (s_D s) (plain c HaWindSpeed) (plain c Cn2At1m) (ti * s_ntdi s) (plain c AircraftSpeed) nd GS HD Hs ltac:(assumption) End)
        as (T & r0b & ET & _ & T0 & TC).
      exists T, [Fin r0b]. split; [exact ET|]. split; [exact T0 | exact TC].
    - exists (fun _ => 1). eexists. split; [rewrite (row_seq (fun _ => Fin 1)); reflexivity|].
      split; intros; [reflexivity | lra]. }
  destruct TU as (T & r0b & ET & T0 & TC). rewrite ET. cbn [bind]. clear ET.
  (* wavefront *)
  set (pvl := fun l => s_pv s * (s_pv_wl s / l * (s_pv_wl s / l))).
  set (wv := fun l j => getx (wavefront_OTF (fst (pt pts j)) (snd (pt pts j)) l (Fin (pvl l)) (s_Lx s) (s_Ly s))).
  assert (WF : forall q p, In q ps ->
     exists h, wavefront_OTF (fst p) (snd p) (fst q) (xmul (Fin (s_pv s)) (xsq (xdiv (Fin (s_pv_wl s)) (Fin (fst q))))) (s_Lx s) (s_Ly s) = Fin h
       /\ wavefront_OTF (fst p) (snd p) (fst q) (Fin (pvl (fst q))) (s_Lx s) (s_Ly s) = Fin h
       /\ 0 <= h <= 1 /\ (p = (0, 0) -> h = 1)).
  { intros q p Hq. destruct (W q Hq) as [Pq _].
    rewrite xdiv_fin, xsq_fin, xmul_fin by lra. fold (pvl (fst q)).
    destruct (wavefront_range (fst p) (snd p) (fst q) (pvl (fst q)) (s_Lx s) (s_Ly s) Hx Hy) as (h & E & B & Z & _).
    { unfold pvl. apply Rmult_le_pos; [exact Hpv | apply sq_pos]. }
    exists h. split; [exact E|]. split; [exact E|].
    split; [split; [apply Rle_trans with (2 := proj1 B); left; apply exp_pos | apply B]|].
    intros ->. apply Z; reflexivity. }
  rewrite (weighted_avg ps _ wv m N).
  2: lra.
  2:{ intros q Hq. unfold on_grid. rewrite row_seq. f_equal. apply map_ext. intros j.
      destruct (WF q (pt pts j) Hq) as (h & E1 & E2 & _). rewrite E1. unfold wv. rewrite E2. reflexivity. }
  cbn [bind].
  set (V := fun j => Rsum (map (fun p => snd p * wv (fst p) j) ps) / Rsum (map snd ps)).
  replace (Nat.ltb 1 (length (s_kernel s))) with false by (symmetry; apply Nat.ltb_ge; exact K).
  cbn [bind]. unfold on_grid. rewrite !(row_seq (fun _ => Fin 1)). fold m.
  rewrite !(row_seq (fun p => detector_OTF _ _ _ _ _)), !(row_seq (fun p => jitter_OTF _ _ _ _)), !(row_seq (fun p => drift_OTF _ _ _ _)). fold m.
  set (dx := s_dax s * ti * s_ntdi s). set (dy := s_day s * ti * s_ntdi s).
  set (Dv := fun j => getx (detector_OTF (fst (pt pts j)) (snd (pt pts j)) (s_wx s) (s_wy s) (s_f s))).
  set (Jv := fun j => getx (jitter_OTF (fst (pt pts j)) (snd (pt pts j)) (s_sx s) (s_sy s))).
  set (Rv := fun j => getx (drift_OTF (fst (pt pts j)) (snd (pt pts j)) dx dy)).
  assert (ED : forall j, detector_OTF (fst (pt pts j)) (snd (pt pts j)) (s_wx s) (s_wy s) (s_f s) = Fin (Dv j)).
  { intros j. unfold Dv. rewrite detector_fin by auto. reflexivity. }
  assert (EJ : forall j, jitter_OTF (fst (pt pts j)) (snd (pt pts j)) (s_sx s) (s_sy s) = Fin (Jv j)).
  { intros j. unfold Jv. rewrite jitter_fin. reflexivity. }
  assert (ER : forall j, drift_OTF (fst (pt pts j)) (snd (pt pts j)) dx dy = Fin (Rv j)) by reflexivity.
  rewrite (map_ext _ (fun j => Fin (Dv j)) ED), (map_ext _ (fun j => Fin (Jv j)) EJ), (map_ext _ (fun j => Fin (Rv j)) ER).
  change (fun j : nat => Fin (Rsum (map (fun p => snd p * apv (fst p) j) ps) / Rsum (map snd ps))) with (fun j => Fin (A j)).
  change (fun j : nat => Fin (Rsum (map (fun p => snd p * wv (fst p) j) ps) / Rsum (map snd ps))) with (fun j => Fin (V j)).
  rewrite bmap2_maps. cbn [bind]. rewrite bmap2_maps. cbn [bind]. rewrite bmap2_maps. cbn [bind].
  rewrite bmap2_maps. cbn [bind]. rewrite bmap2_maps. cbn [bind]. rewrite bmap2_maps. cbn [bind].
  eexists; split; [reflexivity|]. cbn [ap_OTF turb_OTF det_OTF jit_OTF drft_OTF wav_OTF filt_OTF system_OTF].
  split; [rewrite map_length, seq_length; reflexivity|].
  intros j u v Hj.
  assert (Lj : (j < m)%nat) by (apply nth_error_Some; rewrite Hj; discriminate).
  assert (Pj : pt pts j = (u, v)) by (unfold pt; apply nth_error_nth; exact Hj).
  assert (NS : forall F : nat -> xr, nth_error (map F (seq 0 m)) j = Some (F j)).
  { intros F. apply map_nth_error. rewrite (nth_error_nth' _ 0%nat) by (rewrite seq_length; exact Lj).
    rewrite seq_nth by exact Lj. reflexivity. }
  exists (A j), (T j), (Dv j), (Jv j), (Rv j), (V j). rewrite !NS.
  split; [reflexivity|]. split; [reflexivity|]. split; [reflexivity|]. split; [reflexivity|].
  split; [reflexivity|]. split; [reflexivity|]. split; [reflexivity|].
  split; [rewrite !xmul_fin, Rmult_1_r; reflexivity|].
  assert (BA : 0 <= A j <= 1 /\ (pt pts j = (0, 0) -> A j = 1)).
  { assert (F : forall q, In q ps -> 0 <= apv (fst q) j <= 1 /\ (pt pts j = (0, 0) -> apv (fst q) j = 1)).
    { intros q Hq. destruct (circ_any Np (fst (pt pts j)) (snd (pt pts j)) (fst q) (s_D s) (s_eta s) (proj1 (W q Hq)) HD He) as (h & E & B & Z).
      unfold apv. rewrite E. cbn [getv]. split; [exact B|]. intros Ej. rewrite Ej in Z. apply Z; reflexivity. }
    split; [apply (avg_bounds ps (fun p => apv (fst p) j)); auto; intros q Hq; apply F; auto|].
    intros Ej. assert (1 <= A j <= 1); [|lra].
    apply (avg_bounds ps (fun p => apv (fst p) j)); auto. intros q Hq. rewrite (proj2 (F q Hq) Ej). lra. }
  assert (BV : 0 <= V j <= 1 /\ (pt pts j = (0, 0) -> V j = 1)).
  { assert (F : forall q, In q ps -> 0 <= wv (fst q) j <= 1 /\ (pt pts j = (0, 0) -> wv (fst q) j = 1)).
    { intros q Hq. destruct (WF q (pt pts j) Hq) as (h & _ & E & B & Z).
      unfold wv. rewrite E. cbn [getx]. split; [exact B | exact Z]. }
    split; [apply (avg_bounds ps (fun p => wv (fst p) j)); auto; intros q Hq; apply F; auto|].
    intros Ej. assert (1 <= V j <= 1); [|lra].
    apply (avg_bounds ps (fun p => wv (fst p) j)); auto. intros q Hq. rewrite (proj2 (F q Hq) Ej). lra. }
  assert (BD : Rabs (Dv j) <= 1 /\ (pt pts j = (0, 0) -> Dv j = 1)).
  { destruct (detector_bounds (fst (pt pts j)) (snd (pt pts j)) (s_wx s) (s_wy s) (s_f s) Hf) as (h & E & B & Z & _).
    rewrite ED in E. injection E as <-. split; [exact B|]. intros Ej. rewrite Ej in Z. apply Z; reflexivity. }
  assert (BJ : 0 < Jv j <= 1 /\ (pt pts j = (0, 0) -> Jv j = 1)).
  { destruct (jitter_mtf (fst (pt pts j)) (snd (pt pts j)) (fst (pt pts j)) (snd (pt pts j)) (s_sx s) (s_sy s) (Rle_refl _) (Rle_refl _))
      as (h & h' & E & _ & B & _ & Z & _).
    rewrite EJ in E. injection E as <-. split; [exact B|]. intros Ej. rewrite Ej in Z. apply Z; reflexivity. }
  assert (BR : Rabs (Rv j) <= 1 /\ (pt pts j = (0, 0) -> Rv j = 1)).
  { destruct (drift_bounds (fst (pt pts j)) (snd (pt pts j)) dx dy) as (h & E & B & _ & Z & _).
    rewrite ER in E. injection E as <-. split; [exact B|]. intros Ej. rewrite Ej in Z. apply Z; reflexivity. }
  split.
  - intros -> ->. rewrite (proj2 BA Pj), (proj2 BV Pj), (proj2 BD Pj), (proj2 BJ Pj), (proj2 BR Pj), (T0 j Pj). ring.
  - intros Hc Hv x Hxx.
    assert (BT : 0 <= T j <= 1) by (apply TC; auto; rewrite Pj; exact Hc).
    assert (Q1 : Rabs (A j) <= 1) by (apply abs1; apply BA).
    assert (Q2 : Rabs (T j) <= 1) by (apply abs1; lra).
    assert (Q4 : Rabs (Jv j) <= 1) by (apply abs1; lra).
    assert (Q6 : Rabs (V j) <= 1) by (apply abs1; apply BV).
    split.
    + cbn [In] in Hxx. destruct Hxx as [<- | [<- | [<- | [<- | [<- | [<- | []]]]]]]; auto; [apply BD | apply BR].
    + apply prod6_le; auto; [apply BD | apply BR].
Qed.

(** ** Product structure in general *)
Lemma loop_length all (w : list xr) g m : length all = length w -> NoDup all ->
  (forall l r, In l all -> g l = Ok r -> length r = m) ->
  forall todo acc out, incl todo all -> length acc = m ->
  weighted_loop all w g todo acc = Ok out -> length out = m.
Proof.
  intros L N Hg. induction todo as [|y todo IH]; intros acc out Hi Ha E.
  - injection E as <-. exact Ha.
  - cbn [weighted_loop] in E. destruct (select_count all w y L) as (s & Es & Ls). rewrite Es in E. cbn [bind] in E.
    destruct (g y) as [r|] eqn:Er; [|discriminate E]. cbn [bind] in E.
    assert (Lr : length r = m) by (apply (Hg y r); auto; apply Hi; left; reflexivity).
    assert (C1 : count_occ Req_EM_T all y = 1%nat).
    { apply (proj1 (NoDup_count_occ' Req_EM_T all) N). apply Hi. left. reflexivity. }
    rewrite C1 in Ls. destruct s as [|s0 [|s1 s]]; try discriminate Ls.
    rewrite bmap2_scal in E. cbn [bind] in E.
    rewrite bmap2_len in E by (rewrite map_length; lia). cbn [bind] in E.
    apply IH in E; auto; [intros z Hz; apply Hi; right; exact Hz | rewrite map2_length, map_length; lia].
Qed.
Lemma weighted_length wl (w : list xr) g m out : length wl = length w -> NoDup wl ->
  (forall l r, In l wl -> g l = Ok r -> length r = m) ->
  weighted_by_wavelength wl w g = Ok out -> length out = m.
Proof.
  intros L N Hg. unfold weighted_by_wavelength.
  destruct w as [|w0 w]; [discriminate|]. cbn [map]. destruct wl as [|l0 rest]; [discriminate|].
  destruct (g l0) as [r|] eqn:Er; [|discriminate]. cbn [bind]. apply (loop_length _ _ g m); auto.
  - cbn [length] in *. rewrite map_length. lia.
  - intros z Hz. right. exact Hz.
  - rewrite map_length. apply (Hg l0 r); auto. left. reflexivity.
Qed.
Lemma nth_map2 {A B C} (f : A -> B -> C) l m j da db dc : (j < length l)%nat -> (j < length m)%nat ->
  nth j (map2 f l m) dc = f (nth j l da) (nth j m db).
Proof.
  revert l m. induction j as [|j IH]; intros [|x l] [|y m] H1 H2; simpl in *; try lia; [reflexivity|].
  apply IH; lia.
Qed.

Lemma common_product diag k s c pts wl w sl ti o : length wl = length w -> NoDup wl ->
  common_OTFs diag k s c pts wl w sl ti = Ok o ->
  length (system_OTF o) = length pts
  /\ forall j, (j < length pts)%nat ->
     let at_ l := nth j l NaN in
     at_ (system_OTF o) = xmul (xmul (xmul (xmul (xmul (xmul (at_ (ap_OTF o)) (at_ (turb_OTF o))) (at_ (det_OTF o)))
                            (at_ (jit_OTF o))) (at_ (drft_OTF o))) (at_ (wav_OTF o))) (at_ (filt_OTF o)).
Proof.
  intros L N. unfold common_OTFs.
  destruct (weighted_by_wavelength wl w _) as [ap|] eqn:Eap; [|discriminate]. cbn [bind].
  assert (Lap : length ap = length pts).
  { apply weighted_length with (m := length pts) in Eap; auto. intros l r _ E. apply traverse_length in E. exact E. }
  clear Eap. assert (TU : forall (x : res (list xr * list xr)), x = (if Rltb 0 (plain c Cn2At1m)
      then polychromatic_turbulence_OTF k pts wl w (altitude c) sl (s_D s)
             (plain c HaWindSpeed) (plain c Cn2At1m) (ti * s_ntdi s) (plain c AircraftSpeed)
      else Ok (map (fun _ => Fin 1) pts, map (fun _ => Fin 1000000) pts)) ->
      forall t r, x = Ok (t, r) -> length t = length pts).
  { intros x -> t r E. destruct (Rltb 0 (plain c Cn2At1m)).
    - unfold polychromatic_turbulence_OTF in E.
      destruct (altitude_along_slant_path _ _ _ _) as [[zp hp]|]; [|discriminate E]. cbn [bind] in E.
      destruct (coherence_diameter _ _ _) as [r0|]; [|discriminate E]. cbn [bind] in E.
      destruct (weighted_by_wavelength wl w _) as [rb|]; [|discriminate E]. cbn [bind] in E.
      destruct (weighted_by_wavelength wl w _) as [ot|] eqn:Eo; [|discriminate E]. cbn [bind] in E.
      injection E as <- _. apply weighted_length with (m := length pts) in Eo; auto.
      intros l r' _ E. apply traverse_length in E. exact E.
    - injection E as <- _. apply map_length. }
  specialize (TU _ eq_refl).
  destruct (if Rltb 0 (plain c Cn2At1m) then _ else _) as [[turb r0b]|] eqn:Etu; [|discriminate]. cbn [bind].
  assert (Ltu : length turb = length pts) by (apply (TU turb r0b); reflexivity). clear TU Etu.
  destruct (weighted_by_wavelength wl w _) as [wav|] eqn:Ew; [|discriminate]. cbn [bind].
  assert (Lwav : length wav = length pts).
  { apply weighted_length with (m := length pts) in Ew; auto. intros l r _ E. injection E as <-. unfold on_grid. apply map_length. }
  destruct (if Nat.ltb 1 (length (s_kernel s)) then _ else _) as [filt|] eqn:Ef; [|discriminate]. cbn [bind].
  assert (Lf : length filt = length pts).
  { destruct (Nat.ltb 1 (length (s_kernel s))).
    - destruct (pydiv (s_px s) (s_f s)) as [q|]; [|discriminate Ef]. cbn [bind] in Ef. apply traverse_length in Ef. exact Ef.
    - injection Ef as <-. apply map_length. }
  set (det := on_grid pts _). set (jit := on_grid pts _). set (drft := on_grid pts _).
  assert (Ld : length det = length pts) by (unfold det, on_grid; apply map_length).
  assert (Lj : length jit = length pts) by (unfold jit, on_grid; apply map_length).
  assert (Lr : length drft = length pts) by (unfold drft, on_grid; apply map_length).
  clearbody det jit drft.
  rewrite bmap2_len by lia. cbn [bind]. rewrite bmap2_len by (rewrite !map2_length; lia). cbn [bind].
  rewrite bmap2_len by (rewrite !map2_length; lia). cbn [bind].
  rewrite bmap2_len by (rewrite !map2_length; lia). cbn [bind].
  rewrite bmap2_len by (rewrite !map2_length; lia). cbn [bind].
  rewrite bmap2_len by (rewrite !map2_length; lia). cbn [bind].
  intros E. injection E as <-. cbn [ap_OTF turb_OTF det_OTF jit_OTF drft_OTF wav_OTF filt_OTF system_OTF].
  split; [rewrite !map2_length; lia|]. intros j Hj. cbv zeta.
  rewrite !(nth_map2 xmul _ _ j NaN NaN) by (rewrite ?map2_length; lia). reflexivity.
Qed.

(** ** Switching turbulence off *)
Lemma turbulence_off diag k s c pts wl w sl ti o : plain c Cn2At1m <= 0 ->
  common_OTFs diag k s c pts wl w sl ti = Ok o ->
  turb_OTF o = map (fun _ => Fin 1) pts.
Proof.
  intros H. unfold common_OTFs.
  destruct (weighted_by_wavelength wl w _) as [ap|]; [|discriminate]. cbn [bind].
  replace (Rltb 0 (plain c Cn2At1m)) with false by (symmetry; apply Rltb_false; lra). cbn [bind].
  destruct (weighted_by_wavelength wl w _) as [wav|]; [|discriminate]. cbn [bind].
  destruct (if Nat.ltb 1 (length (s_kernel s)) then _ else _) as [filt|]; [|discriminate]. cbn [bind].
  repeat (match goal with |- (let* m := ?b in _) = _ -> _ => destruct b as [?|]; [cbn [bind]|discriminate] end).
  intros E. injection E as <-. reflexivity.
Qed.
Lemma turbulence_off_indep diag k k' s c c' pts wl w sl sl' ti :
  plain c Cn2At1m <= 0 -> plain c' Cn2At1m <= 0 ->
  common_OTFs diag k s c pts wl w sl ti = common_OTFs diag k' s c' pts wl w sl' ti.
Proof.
  intros H H'. unfold common_OTFs.
  replace (Rltb 0 (plain c Cn2At1m)) with false by (symmetry; apply Rltb_false; lra).
  replace (Rltb 0 (plain c' Cn2At1m)) with false by (symmetry; apply Rltb_false; lra).
  reflexivity.
Qed.
