(** * Proof_Dull: more jitter, wavefront error or turbulence lowers the system
    transfer function at every frequency *)
From Coq Require Import Reals Lra List Lia ZArith Psatz Bool.
From Verif Require Import Base_XR Base_Np Base_NpFacts Base_Interp Model_Geo Model_Scenario Model_Sensor Model_Otf
  Spec_Rad Spec_Otf Spec_System Spec_Chain Spec_Trade Proof_Pe Proof_Geo Proof_Rad Proof_Lens Proof_Aper Proof_AperP Proof_Otf Proof_Turb Proof_Filter Proof_Weight
  Proof_System Proof_SystemX.
Import ListNotations.
Open Scope R_scope.

(** ** Means *)
Lemma mean_le ps F G : good_spectrum ps -> (forall p, In p ps -> F (fst p) <= G (fst p)) -> spectral_mean ps F <= spectral_mean ps G.
Proof.
  intros (N & W & S) H. unfold spectral_mean. apply Rmult_le_compat_r; [left; now apply Rinv_0_lt_compat|].
  apply Rsum_nonneg_le. intros p Hp. apply Rmult_le_compat_l; [apply W; auto | auto].
Qed.
Lemma mean_bounds ps F lo hi : good_spectrum ps -> (forall p, In p ps -> lo <= F (fst p) <= hi) -> lo <= spectral_mean ps F <= hi.
Proof. intros (N & W & S) H. apply (avg_bounds ps (fun p => F (fst p)) lo hi W S H). Qed.
Lemma sum_zero {A} (F : A -> R) l : (forall x, In x l -> F x = 0) -> Rsum (map F l) = 0.
Proof.
  induction l as [|x l IH]; intros H; [reflexivity|]. change (F x + Rsum (map F l) = 0). rewrite IH by (intros; apply H; now right).
  rewrite (H x) by now left. ring.
Qed.
Lemma mean_zero ps F : (forall p, In p ps -> F (fst p) = 0) -> spectral_mean ps F = 0.
Proof.
  intros H. unfold spectral_mean. rewrite (sum_zero (fun p => snd p * F (fst p))).
  - unfold Rdiv. ring.
  - intros p Hp. rewrite (H p Hp). ring.
Qed.

(** ** Single factors *)
Lemma abs_sq x y : Rabs x <= Rabs y -> x ^ 2 <= y ^ 2.
Proof. intros H. apply Rsqr_le_abs_1 in H. unfold Rsqr in H. nra. Qed.
Lemma jitter_le sx sy sx' sy' u v : Rabs sx <= Rabs sx' -> Rabs sy <= Rabs sy' ->
  0 < jitter_mtf_of sx' sy' u v <= jitter_mtf_of sx sy u v /\ jitter_mtf_of sx sy u v <= 1.
Proof.
  intros H1 H2. unfold jitter_mtf_of. split; [split; [apply exp_pos|]|].
  - apply exp_le. apply abs_sq in H1, H2.
    assert (A : (sx * u) ^ 2 <= (sx' * u) ^ 2) by (rewrite !Rpow_mult_distr; apply Rmult_le_compat_r; auto; apply pow2_ge_0).
    assert (B : (sy * v) ^ 2 <= (sy' * v) ^ 2) by (rewrite !Rpow_mult_distr; apply Rmult_le_compat_r; auto; apply pow2_ge_0).
    assert (P : 0 <= 2 * PI ^ 2) by (generalize (pow2_ge_0 PI); lra).
    apply Ropp_le_contravar. apply Rmult_le_compat_l; lra.
  - apply exp_le_1. generalize (pow2_ge_0 PI) (pow2_ge_0 (sx * u)) (pow2_ge_0 (sy * v)); intros.
    assert (0 <= PI ^ 2 * ((sx * u) ^ 2 + (sy * v) ^ 2)) by (apply Rmult_le_pos; lra). lra.
Qed.
Lemma wavefront_le pv pv' w Lx Ly l u v : 0 <= pv <= pv' ->
  0 < wavefront_mtf pv' w Lx Ly l u v <= wavefront_mtf pv w Lx Ly l u v /\ wavefront_mtf pv w Lx Ly l u v <= 1.
Proof.
  intros H. unfold wavefront_mtf. set (e := exp (- ((l * u / Lx) ^ 2 + (l * v / Ly) ^ 2))).
  assert (E : e <= 1) by (apply exp_le_1; generalize (pow2_ge_0 (l * u / Lx)) (pow2_ge_0 (l * v / Ly)); lra).
  set (q := (w / l) ^ 2). assert (Q : 0 <= q) by apply pow2_ge_0.
  assert (K : 0 <= q * (1 - e)) by (apply Rmult_le_pos; lra).
  split; [split; [apply exp_pos|]|].
  - apply exp_le. nra.
  - apply exp_le_1. nra.
Qed.
Lemma fried_le r r' l D a rho : 0 < l -> 0 < D -> 0 < r' <= r -> 0 <= a <= 1 / 2 -> l * rho <= 8 * D ->
  0 < fried r' l D a rho <= fried r l D a rho /\ fried r l D a rho <= 1.
Proof.
  intros Hl HD Hr Ha Hc. unfold fried. destruct (Rlt_dec 0 rho) as [P|P]; [|lra].
  assert (LR : 0 < l * rho) by (apply Rmult_lt_0_compat; auto).
  assert (C : Rpower (l * rho / D) (1 / 3) <= 2).
  { rewrite <- (pw_val (l * rho / D)) by (apply Rdiv_lt_0_compat; auto). rewrite <- pw_8. apply pw_le; [left; apply Rdiv_lt_0_compat; auto| |lra].
    apply Rmult_le_reg_r with D; [lra|]. unfold Rdiv. rewrite Rmult_assoc, Rinv_l by lra. lra. }
  assert (C0 : 0 < Rpower (l * rho / D) (1 / 3)) by apply exp_pos.
  set (q := Rpower (l * rho / D) (1 / 3)) in *. assert (K : 0 <= 1 - a * q) by nra.
  assert (M : Rpower (l * rho / r) (5 / 3) <= Rpower (l * rho / r') (5 / 3)).
  { apply Rle_Rpower_l; [lra|]. split; [apply Rdiv_lt_0_compat; lra|]. apply Rmult_le_compat_l; [lra|]. apply Rinv_le_contravar; lra. }
  assert (M0 : 0 < Rpower (l * rho / r) (5 / 3)) by apply exp_pos.
  set (p := Rpower (l * rho / r) (5 / 3)) in *. set (p' := Rpower (l * rho / r') (5 / 3)) in *.
  assert (p * (1 - a * q) <= p' * (1 - a * q)) by (apply Rmult_le_compat_r; lra).
  assert (0 <= p * (1 - a * q)) by (apply Rmult_le_pos; lra).
  split; [split; [apply exp_pos|]|].
  - apply exp_le. lra.
  - apply exp_le_1. lra.
Qed.
Lemma fried_alpha r l D rho : 0 < l -> 0 < D -> 0 < r -> fried r l D 0 rho <= fried r l D (1 / 2) rho.
Proof.
  intros Hl HD Hr. unfold fried. destruct (Rlt_dec 0 rho) as [P|P]; [|lra]. apply exp_le.
  assert (0 < Rpower (l * rho / D) (1 / 3)) by apply exp_pos. assert (0 < Rpower (l * rho / r) (5 / 3)) by apply exp_pos. 
  assert (0 < Rpower (l * rho / r) (5 / 3) * Rpower (l * rho / D) (1 / 3)) by (apply Rmult_lt_0_compat; auto). lra.
Qed.
Lemma turbulence_le r r' l D d u v : 0 < l -> 0 < D -> 0 < r' <= r -> 0 <= d -> l * sqrt (u * u + v * v) <= 8 * D ->
  0 < turbulence_mtf r' l D d u v <= turbulence_mtf r l D d u v /\ turbulence_mtf r l D d u v <= 1.
Proof.
  intros Hl HD Hr Hd Hc. unfold turbulence_mtf. cbv zeta. set (rho := sqrt (u * u + v * v)) in *.
  destruct (fried_le r r' l D (1 / 2) rho Hl HD Hr ltac:(lra) Hc) as ((A0 & A1) & A2).
  destruct (fried_le r r' l D 0 rho Hl HD Hr ltac:(lra) Hc) as ((B0 & B1) & B2).
  assert (C1 := fried_alpha r l D rho Hl HD ltac:(lra)).
  assert (E : exp (- (d / r')) <= exp (- (d / r))).
  { apply exp_le, Ropp_le_contravar. apply Rmult_le_compat_l; [lra|]. apply Rinv_le_contravar; lra. }
  assert (E0 : 0 < exp (- (d / r'))) by apply exp_pos.
  assert (E1 : exp (- (d / r)) <= 1) by (apply exp_le_1; assert (0 <= d / r) by (apply div_ge0; lra); lra).
  set (e := exp (- (d / r))) in *. set (e' := exp (- (d / r'))) in *.
  set (S := fried r l D (1 / 2) rho) in *. set (S' := fried r' l D (1 / 2) rho) in *.
  set (L := fried r l D 0 rho) in *. set (L' := fried r' l D 0 rho) in *.
  assert (e' * S' <= e' * S) by (apply Rmult_le_compat_l; lra).
  assert ((1 - e') * L' <= (1 - e') * L) by (apply Rmult_le_compat_l; lra).
  assert (0 <= (e - e') * (S - L)) by (apply Rmult_le_pos; lra).
  assert (0 < e' * S') by (apply Rmult_lt_0_compat; lra).
  assert (0 <= (1 - e') * L') by (apply Rmult_le_pos; lra).
  assert (e * S <= e * 1) by (apply Rmult_le_compat_l; lra).
  assert ((1 - e) * L <= (1 - e) * 1) by (apply Rmult_le_compat_l; lra).
  lra.
Qed.
Lemma aperture_01 D eta l u v : 0 < l -> 0 < D -> eta < 1 -> 0 <= aperture_mtf D eta l u v <= 1.
Proof.
  intros Hl HD He. destruct (circ_any Np u v l D eta Hl HD He) as (h & E & B & _).
  rewrite circ_value in E by auto. apply ok_inj in E. injection E as ->. exact B.
Qed.
Lemma aperture_far D eta l u v : 0 < l -> 0 < D -> eta < 1 -> D < l * sqrt (u * u + v * v) -> aperture_mtf D eta l u v = 0.
Proof.
  intros Hl HD He H.
  assert (X : 2 <= pupil_shift u v l D).
  { unfold pupil_shift. apply Rmult_le_reg_r with D; [lra|]. unfold Rdiv. rewrite (Rmult_assoc _ (/ D)), Rinv_l by lra. nra. }
  unfold aperture_mtf. destruct (Rlt_dec 0 eta).
  - rewrite annulus_far by lra. unfold Rdiv. ring.
  - rewrite overlap_disjoint by lra. unfold Rdiv. ring.
Qed.
Lemma line_abs a x : Rabs (line_ft a x) <= 1.
Proof. rewrite line_sinc. apply Rsinc_bound. Qed.

(** ** Turbulence along the path *)
Lemma hv_le h v v' c c' : c <= c' -> Rabs v <= Rabs v' -> hv h v c <= hv h v' c'.
Proof.
  intros Hc Hv. unfold hv. apply Rplus_le_compat; [apply Rplus_le_compat_r|].
  - apply Rmult_le_compat_r; [left; apply exp_pos|].
    apply Rmult_le_compat_r; [replace (h ^ 10) with (h ^ 5 * h ^ 5) by ring; apply sq_pos|].
    apply Rmult_le_compat_l; [left; apply tiny53|]. apply abs_sq in Hv. lra.
  - apply Rmult_le_compat_r; [left; apply exp_pos | exact Hc].
Qed.
Lemma ground_path alt sl : 0 < sl -> 0 <= alt <= sl -> sl <= 2 * 6378164 + alt ->
  forall k, exists nd, nadir_angle k 0 alt sl = Ok (Fin nd).
Proof.
  intros Hs Ha Hu k. eexists. apply Proof_Geo.nadir_ok; unfold r_earth in *; try lra.
  split; [|lra]. unfold Rabs. destruct (Rcase_abs _); lra.
Qed.
Lemma seq_asc (z : nat -> R) n : (forall j, (S j < n)%nat -> z j < z (S j)) -> forall k, (k <= n)%nat -> ascending (map z (seq (n - k) k)).
Proof.
  intros H k. induction k as [|k IH]; intros Hk; [exact I|]. destruct k as [|k]; [exact I|].
  assert (IH' := IH ltac:(lia)). replace (n - S k)%nat with (S (n - S (S k)))%nat in IH' by lia.
  cbn [seq map] in *. split; [|exact IH']. left. apply H. lia.
Qed.
Lemma coherence_le z c c' n lam r r' : 0 < lam -> (2 <= n)%nat -> 0 <= z 0%nat ->
  (forall j, (S j < n)%nat -> z j < z (S j)) -> (forall j, c j <= c' j) ->
  coherence_diameter lam (map (fun i => Fin (z i)) (seq 0 n)) (map (fun i => Fin (c i)) (seq 0 n)) = Ok (Fin r) ->
  coherence_diameter lam (map (fun i => Fin (z i)) (seq 0 n)) (map (fun i => Fin (c' i)) (seq 0 n)) = Ok (Fin r') -> r' <= r.
Proof.
  intros Hl Hn Hz0 Hz Hc E E'. apply coherence_formula in E; auto. apply coherence_formula in E'; auto.
  destruct E as [P E]. destruct E' as [P' E'].
  assert (L : Rpower r (- (5 / 3)) <= Rpower r' (- (5 / 3))).
  { rewrite E, E'. apply Rmult_le_compat_l; [apply Rmult_le_pos; [lra | apply pow2_ge_0]|].
    apply trapezoid_mono.
    - intros i _. apply Rmult_le_compat_r; [|apply Hc]. rewrite <- pw_53. apply pw_ge0.
    - generalize (seq_asc z n Hz n (Nat.le_refl n)). rewrite Nat.sub_diag. auto. }
  destruct (Rle_dec r' r) as [|N]; [assumption|]. exfalso.
  assert (Rpower r (5 / 3) < Rpower r' (5 / 3)) by (apply Rlt_Rpower_l; lra).
  rewrite !Rpower_Ropp in L. assert (0 < Rpower r (5 / 3)) by apply exp_pos.
  assert (/ Rpower r' (5 / 3) < / Rpower r (5 / 3)) by (apply Rinv_lt_contravar; [apply Rmult_lt_0_compat; lra | lra]). lra.
Qed.
Lemma air_le k alt sl zp hp wind wind' cn cn' r r' : 0 < sl -> 0 <= alt <= sl -> sl <= 2 * 6378164 + alt ->
  cn <= cn' -> Rabs wind <= Rabs wind' ->
  altitude_along_slant_path k 0 alt sl = Ok (zp, hp) ->
  coherence_diameter (1 / 10 ^ 6) zp (map (fun h => hufnagel_valley_turbulence_profile h wind cn) hp) = Ok (Fin r) ->
  coherence_diameter (1 / 10 ^ 6) zp (map (fun h => hufnagel_valley_turbulence_profile h wind' cn') hp) = Ok (Fin r') -> r' <= r.
Proof.
  intros Hs Ha Hu Hc Hw Ep. destruct (ground_path alt sl Hs Ha Hu k) as (nd & End).
  destruct (path_finite k alt sl nd End) as (h & Eh). rewrite Ep in Eh. apply ok_inj in Eh.
  assert (Ez := f_equal fst Eh). assert (Ex := f_equal snd Eh). cbn [fst snd] in Ez, Ex. subst zp hp. clear Eh Ep.
  rewrite !map_map.
  rewrite (map_ext (fun x => hufnagel_valley_turbulence_profile (Fin (h x)) wind cn) (fun x => Fin (hv (h x) wind cn))) by (intros; apply hv_fin).
  rewrite (map_ext (fun x => hufnagel_valley_turbulence_profile (Fin (h x)) wind' cn') (fun x => Fin (hv (h x) wind' cn'))) by (intros; apply hv_fin).
  assert (N2 := n_path_2). revert N2. generalize n_path. intros n N2.
  assert (D : 0 < (sl - 0) / INR (n - 1)) by (apply Rdiv_lt_0_compat; [lra|]; apply lt_0_INR; lia).
  apply (coherence_le (fun i => 0 + INR i * ((sl - 0) / INR (n - 1))) (fun i => hv (h i) wind cn) (fun i => hv (h i) wind' cn') n (1 / 10 ^ 6)).
  - apply Rdiv_lt_0_compat; [lra | apply pow_lt; lra].
  - exact N2.
  - simpl INR. lra.
  - intros j _. rewrite S_INR. lra.
  - intros j. apply hv_le; assumption.
Qed.

(** ** The product *)
Lemma nth_error_map2 {A B C} (f : A -> B -> C) l m j a b : nth_error l j = Some a -> nth_error m j = Some b ->
  nth_error (map2 f l m) j = Some (f a b).
Proof.
  revert m j. induction l as [|x l IH]; intros [|y m] [|j]; cbn; try discriminate.
  - intros [= ->] [= ->]. reflexivity.
  - apply IH.
Qed.
Definition comparable (ps : list (R * R)) : Prop := forall p q, In p ps -> In q ps -> fst p <= 8 * fst q.
Lemma system_product diag k s c pts ps sl ti o : good_spectrum ps -> good_optics s -> good_path c sl ->
  common_OTFs diag k s c pts (map fst ps) (map (fun p => Fin (snd p)) ps) sl ti = Ok o ->
  forall j u v, nth_error pts j = Some (u, v) -> exists t f, nth_error (turb_OTF o) j = Some (Fin t) /\ nth_error (filt_OTF o) j = Some f /\
    nth_error (system_OTF o) j = Some (xmul (Fin (spectral_mean ps (fun l => aperture_mtf (s_D s) (s_eta s) l u v) * t
      * (line_ft (s_wx s / s_f s) u * line_ft (s_wy s / s_f s) v) * jitter_mtf_of (s_sx s) (s_sy s) u v
      * (line_ft (s_dax s * ti * s_ntdi s) u * line_ft (s_day s * ti * s_ntdi s) v)
      * spectral_mean ps (fun l => wavefront_mtf (s_pv s) (s_pv_wl s) (s_Lx s) (s_Ly s) l u v))) f).
Proof.
  intros GS GO GP E j u v Ej.
  destruct (common_factors _ _ _ _ _ _ _ _ _ GS GO GP E j u v Ej) as (A & B & C & D & F & G1 & G2 & T1 & T2).
  assert (T : exists t, nth_error (turb_OTF o) j = Some (Fin t)).
  { destruct (Rlt_dec 0 (plain c Cn2At1m)) as [P|P].
    - destruct (T2 P) as (zp & hp & r1 & _ & _ & _ & T & _). eexists. exact T.
    - eexists. apply T1. lra. }
  assert (G : exists f, nth_error (filt_OTF o) j = Some f).
  { destruct (Nat.le_gt_cases (length (s_kernel s)) 1) as [L|L]; [eexists; apply G1, L|]. destruct (G2 L) as (h & Eh & _). eexists. exact Eh. }
  destruct T as (t & T). destruct G as (f & G). exists t, f. split; [exact T|]. split; [exact G|].
  assert (Hj : (j < length pts)%nat) by (apply nth_error_Some; rewrite Ej; discriminate).
  destruct (common_product diag k s c pts (map fst ps) (map (fun p => Fin (snd p)) ps) sl ti o) as (L & H); [now rewrite !map_length | apply GS | exact E|].
  specialize (H j Hj). cbv zeta in H.
  rewrite (nth_error_nth' (system_OTF o) NaN) by (rewrite L; exact Hj). rewrite H.
  rewrite (nth_error_nth _ _ NaN A), (nth_error_nth _ _ NaN T), (nth_error_nth _ _ NaN B), (nth_error_nth _ _ NaN C), (nth_error_nth _ _ NaN D), (nth_error_nth _ _ NaN F), (nth_error_nth _ _ NaN G).
  rewrite !xmul_fin. reflexivity.
Qed.
Lemma seven_le a t d j r w t' j' w' : 0 <= a -> 0 <= j' <= j -> 0 <= w' <= w -> (a = 0 \/ 0 <= t' <= t) ->
  Rabs (a * t' * d * j' * r * w') <= Rabs (a * t * d * j * r * w).
Proof.
  intros Ha Hj Hw [-> | Ht]; [rewrite !Rmult_0_l; lra|].
  replace (a * t' * d * j' * r * w') with ((a * t' * j' * w') * (d * r)) by ring.
  replace (a * t * d * j * r * w) with ((a * t * j * w) * (d * r)) by ring.
  rewrite (Rabs_mult (a * t' * j' * w')), (Rabs_mult (a * t * j * w)). apply Rmult_le_compat_r; [apply Rabs_pos|].
  assert (A1 : 0 <= a * t') by (apply Rmult_le_pos; lra). assert (A2 : a * t' <= a * t) by (apply Rmult_le_compat_l; lra).
  assert (B1 : 0 <= a * t' * j') by (apply Rmult_le_pos; lra). assert (B2 : a * t' * j' <= a * t * j) by (apply Rmult_le_compat; lra).
  assert (C1 : 0 <= a * t' * j' * w') by (apply Rmult_le_pos; lra). assert (C2 : a * t' * j' * w' <= a * t * j * w) by (apply Rmult_le_compat; lra).
  rewrite !Rabs_right by lra. exact C2.
Qed.
Lemma far_aperture ps D eta u v p : good_spectrum ps -> comparable ps -> 0 < D -> eta < 1 -> In p ps -> 8 * D < fst p * sqrt (u * u + v * v) ->
  spectral_mean ps (fun l => aperture_mtf D eta l u v) = 0.
Proof.
  intros (N & W & S) C HD He Hp H. apply mean_zero. intros q Hq. apply aperture_far; auto; [apply W; auto|].
  assert (fst p * sqrt (u * u + v * v) <= 8 * fst q * sqrt (u * u + v * v)) by (apply Rmult_le_compat_r; [apply sqrt_pos | apply C; auto]). lra.
Qed.
Lemma near_or_far ps D rho : (forall p, In p ps -> fst p * rho <= 8 * D) \/ exists p : R * R, In p ps /\ 8 * D < fst p * rho.
Proof.
  induction ps as [|q ps IH]; [left; intros p []|].
  destruct (Rle_dec (fst q * rho) (8 * D)) as [H|H]; [|right; exists q; split; [now left | lra]].
  destruct IH as [IH | (p & Hp & K)]; [left; intros p [<- | Hp]; auto | right; exists p; split; [now right | exact K]].
Qed.

Section Compare.
  Variables (diag : nat -> nat -> bool) (k : skind) (s : sensor) (sx sy pv : R) (c c' : scen) (pts : list (R * R)) (ps : list (R * R)) (sl ti : R) (o o' : otfs).
  Hypothesis GS : good_spectrum ps.
  Hypothesis GO : good_optics s.
  Hypothesis GP : good_path c sl.
  Hypothesis GP' : good_path c' sl.
  Hypothesis CM : comparable ps.
  Hypothesis Spd : 0 <= plain c AircraftSpeed * (ti * s_ntdi s).
  Hypothesis Jx : Rabs (s_sx s) <= Rabs sx.
  Hypothesis Jy : Rabs (s_sy s) <= Rabs sy.
  Hypothesis Wv : s_pv s <= pv.
  Hypothesis Al : altitude c' = altitude c.
  Hypothesis Ac : plain c' AircraftSpeed = plain c AircraftSpeed.
  Hypothesis Cn : plain c Cn2At1m <= plain c' Cn2At1m.
  Hypothesis Wi : Rabs (plain c HaWindSpeed) <= Rabs (plain c' HaWindSpeed).
  Hypothesis E : common_OTFs diag k s c pts (map fst ps) (map (fun p => Fin (snd p)) ps) sl ti = Ok o.
  Hypothesis E' : common_OTFs diag k (with_blur s sx sy pv) c' pts (map fst ps) (map (fun p => Fin (snd p)) ps) sl ti = Ok o'.

  Lemma turb_compare j u v t t' : nth_error pts j = Some (u, v) ->
    (forall p, In p ps -> fst p * sqrt (u * u + v * v) <= 8 * s_D s) ->
    nth_error (turb_OTF o) j = Some (Fin t) -> nth_error (turb_OTF o') j = Some (Fin t') -> 0 <= t' <= t /\ t <= 1.
  Proof.
    intros Ej Near Et Et'. destruct GO as (HD & He & Hf & Hx & Hy & Hpv).
    assert (GO' : good_optics (with_blur s sx sy pv)) by (repeat split; auto; cbn; lra).
    destruct (common_factors _ _ _ _ _ _ _ _ _ GS GO GP E j u v Ej) as (_ & _ & _ & _ & _ & _ & _ & T1 & T2).
    destruct (common_factors _ _ _ _ _ _ _ _ _ GS GO' GP' E' j u v Ej) as (_ & _ & _ & _ & _ & _ & _ & T1' & T2').
    cbn [with_blur s_D s_ntdi] in *.
    destruct GS as (N & W & S).
    assert (Up : forall r, 0 < r -> 0 <= spectral_mean ps (fun l => turbulence_mtf (r_at r l) l (s_D s) (plain c AircraftSpeed * (ti * s_ntdi s)) u v) <= 1).
    { intros r Pr. apply mean_bounds; [exact GS|]. intros p Hp. destruct (W p Hp) as [Pl _]. assert (Q := r_at_pos r (fst p) Pr).
      destruct (turbulence_le (r_at r (fst p)) (r_at r (fst p)) (fst p) (s_D s) (plain c AircraftSpeed * (ti * s_ntdi s)) u v) as (A & B); auto; lra. }
    destruct (Rlt_dec 0 (plain c Cn2At1m)) as [P|P].
    - destruct (T2 P) as (zp & hp & r & Pr & Ep & Er & ET & _). rewrite Et in ET. injection ET as ->.
      destruct (T2' ltac:(lra)) as (zp' & hp' & r' & Pr' & Ep' & Er' & ET & _). rewrite Et' in ET. injection ET as ->.
      rewrite Al in Ep'. rewrite Ac. rewrite Ep in Ep'. apply ok_inj in Ep'.
      assert (Ez := f_equal fst Ep'). assert (Ex := f_equal snd Ep'). cbn [fst snd] in Ez, Ex. subst zp' hp'. clear Ep'.
      destruct GP as [B | (B1 & B2 & B3)]; [lra|].
      assert (RR : r' <= r) by exact (air_le _ _ _ _ _ _ _ _ _ _ _ B1 B2 B3 Cn Wi Ep Er Er').
      split; [split; [apply (Up r' Pr')|] | apply (Up r Pr)].
      apply mean_le; [exact GS|]. intros p Hp. destruct (W p Hp) as [Pl _].
      apply turbulence_le; auto. split; [apply r_at_pos; auto|]. apply Rmult_le_compat_r; [left; apply exp_pos | exact RR].
    - rewrite (T1 ltac:(lra)) in Et. injection Et as <-. 
      destruct (Rlt_dec 0 (plain c' Cn2At1m)) as [P'|P'].
      + destruct (T2' P') as (zp' & hp' & r' & Pr' & Ep' & Er' & ET & _). rewrite Et' in ET. injection ET as ->.
        rewrite Ac. generalize (Up r' Pr'). lra.
      + rewrite (T1' ltac:(lra)) in Et'. injection Et' as <-. lra.
  Qed.

  Lemma filt_same : filt_OTF o' = filt_OTF o.
  Proof.
    assert (F : forall s c o, common_OTFs diag k s c pts (map fst ps) (map (fun p => Fin (snd p)) ps) sl ti = Ok o ->
       (if Nat.ltb 1 (length (s_kernel s)) then let* i := pydiv (s_px s) (s_f s) in on_grid_res pts (fun u v => filter_OTF diag u v (s_kernel s) i) else Ok (map (fun _ => Fin 1) pts)) = Ok (filt_OTF o)).
    { clear E E'. intros s0 c0 o0 H. unfold common_OTFs in H.
      destruct (weighted_by_wavelength _ _ _) as [ap|]; [cbn [bind] in H|discriminate H].
      match type of H with (let* (_, _) := ?x in _) = _ => destruct x as [[turb r0b]|] end; [cbn [bind] in H|discriminate H].
      destruct (weighted_by_wavelength _ _ _) as [wv|]; [cbn [bind] in H|discriminate H].
      match type of H with (let* filt := ?x in _) = _ => destruct x as [filt|] eqn:EF in H; [cbn [bind] in H|discriminate H] end.
      repeat (match type of H with (let* m := ?b in _) = _ => destruct b as [?|]; [cbn [bind] in H|discriminate H] end).
      apply ok_inj in H. subst o0. cbn [filt_OTF]. rewrite <- EF. reflexivity. }
    assert (A := F _ _ _ E). assert (B := F _ _ _ E'). cbn [with_blur s_kernel s_px s_f] in B. rewrite A in B. apply ok_inj in B. auto.
  Qed.

  Lemma system_compare : 0 < s_px s -> 0 < s_f s -> forall j u v, nth_error pts j = Some (u, v) -> exists a b,
    nth_error (system_OTF o) j = Some (Fin a) /\ nth_error (system_OTF o') j = Some (Fin b) /\ Rabs b <= Rabs a /\
    ((length (s_kernel s) <= 1)%nat -> Rabs a <= 1).
  Proof.
    intros Hp Hf j u v Ej. assert (FS := filt_same).
    destruct GO as (HD & He & _ & Hx & Hy & Hpv).
    assert (GO' : good_optics (with_blur s sx sy pv)) by (repeat split; auto; cbn; lra).
    destruct (system_product _ _ _ _ _ _ _ _ _ GS GO GP E j u v Ej) as (t & f & Et & Ef & Es).
    destruct (system_product _ _ _ _ _ _ _ _ _ GS GO' GP' E' j u v Ej) as (t' & f' & Et' & Ef' & Es').
    rewrite FS, Ef in Ef'. injection Ef' as <-. cbn [with_blur s_D s_eta s_wx s_wy s_f s_sx s_sy s_dax s_day s_ntdi s_pv s_pv_wl s_Lx s_Ly] in Es'.
    destruct (common_factors _ _ _ _ _ _ _ _ _ GS GO GP E j u v Ej) as (_ & _ & _ & _ & _ & G1 & G2 & _).
    assert (FF : exists h, f = Fin h /\ ((length (s_kernel s) <= 1)%nat -> h = 1)).
    { destruct (Nat.le_gt_cases (length (s_kernel s)) 1) as [L|L].
      - rewrite (G1 L) in Ef. injection Ef as <-. exists 1. split; reflexivity.
      - destruct (G2 L) as (h & Eh & Fh). rewrite Ef in Eh. injection Eh as <-.
        destruct (filter_bounds diag u v (s_kernel s) (s_px s / s_f s)) as (h & E1 & _); [now apply Rdiv_lt_0_compat|].
        rewrite E1 in Fh. apply ok_inj in Fh. exists h. split; [auto | intros; lia]. }
    destruct FF as (h & -> & H1). rewrite xmul_fin in Es, Es'.
    do 2 eexists. split; [exact Es|]. split; [exact Es'|].
    destruct GS as (N & W & S).
    assert (A : 0 <= spectral_mean ps (fun l => aperture_mtf (s_D s) (s_eta s) l u v) <= 1).
    { apply mean_bounds; [exact GS|]. intros p Ip. apply aperture_01; auto. apply W; auto. }
    destruct (jitter_le (s_sx s) (s_sy s) sx sy u v Jx Jy) as (J1 & J2).
    assert (V : 0 <= spectral_mean ps (fun l => wavefront_mtf pv (s_pv_wl s) (s_Lx s) (s_Ly s) l u v)
                <= spectral_mean ps (fun l => wavefront_mtf (s_pv s) (s_pv_wl s) (s_Lx s) (s_Ly s) l u v)
              /\ spectral_mean ps (fun l => wavefront_mtf (s_pv s) (s_pv_wl s) (s_Lx s) (s_Ly s) l u v) <= 1).
    { assert (Q := fun l => wavefront_le (s_pv s) pv (s_pv_wl s) (s_Lx s) (s_Ly s) l u v (conj Hpv Wv)).
      split; [split|].
      - apply (mean_bounds ps _ 0 1 GS). intros p _. destruct (Q (fst p)). lra.
      - apply (mean_le ps _ _ GS). intros p _. apply Q.
      - apply (mean_bounds ps _ 0 1 GS). intros p _. destruct (Q (fst p)). lra. }
    set (a := spectral_mean ps (fun l => aperture_mtf _ _ l u v)) in *.
    set (w := spectral_mean ps (fun l => wavefront_mtf (s_pv s) _ _ _ l u v)) in *.
    set (w' := spectral_mean ps (fun l => wavefront_mtf pv _ _ _ l u v)) in *.
    assert (T : (a = 0 \/ 0 <= t' <= t) /\ (a = 0 \/ 0 <= t <= 1)).
    { destruct (near_or_far ps (s_D s) (sqrt (u * u + v * v))) as [H | (p & Ip & H)].
      - destruct (turb_compare j u v t t' Ej H Et Et'). split; right; lra.
      - assert (a = 0) by (unfold a; apply (far_aperture ps (s_D s) (s_eta s) u v p); auto). tauto. }
    destruct T as [T T1]. split.
    - rewrite (Rabs_mult _ h), (Rabs_mult _ h). apply Rmult_le_compat_r; [apply Rabs_pos|].
      apply seven_le; try tauto; lra.
    - intros L. rewrite (H1 L), Rmult_1_r.
      destruct T1 as [-> | T1]; [rewrite !Rmult_0_l, Rabs_R0; lra|].
      repeat (apply abs_mul_le_1; [| first [apply line_abs | apply abs_mul_le_1; apply line_abs | apply abs1; lra]]).
      apply abs1; lra.
  Qed.
End Compare.
