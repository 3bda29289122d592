(** * Proof_OtfX: exact values of the elementwise transfer functions at natural
    frequencies, in units of each effect's own width. *)
From Coq Require Import Reals Lra Psatz Bool List ZArith Lia.
From Flocq Require Import Core.Raux.
From Verif Require Import Base_XR Base_Np Model_Geo Model_Otf Spec_Otf Proof_Aper Proof_Otf Proof_Turb.
Import ListNotations.
Open Scope R_scope.

Lemma PI_nz : PI <> 0.
Proof. generalize PI_RGT_0; lra. Qed.

Lemma cte_nyquist px py nx ny ph e f : f <> 0 -> px <> 0 -> py <> 0 ->
  cte_OTF (f / (2 * px)) 0 px py nx ny ph e f = Fin (exp (- 2 * ph * nx * (1 - e)))
  /\ cte_OTF 0 (f / (2 * py)) px py nx ny ph e f = Fin (exp (- 2 * ph * ny * (1 - e))).
Proof.
  intros Hf Hx Hy. rewrite !cte_fin by auto. unfold ctex. rewrite <- !exp_plus.
  replace (2 * PI * (px * (f / (2 * px))) / f) with PI by (field; auto).
  replace (2 * PI * (py * (f / (2 * py))) / f) with PI by (field; auto).
  replace (2 * PI * (px * 0) / f) with 0 by (field; auto).
  replace (2 * PI * (py * 0) / f) with 0 by (field; auto).
  rewrite cos_PI, cos_0. split; do 2 f_equal; ring.
Qed.

(* a quarter of the sampling frequency: half the attenuation of Nyquist *)
Lemma cte_quarter px py nx ny ph e f : f <> 0 -> px <> 0 -> py <> 0 ->
  cte_OTF (f / (4 * px)) (f / (4 * py)) px py nx ny ph e f = Fin (exp (- ph * (nx + ny) * (1 - e))).
Proof.
  intros Hf Hx Hy. rewrite !cte_fin by auto. unfold ctex. rewrite <- !exp_plus.
  replace (2 * PI * (px * (f / (4 * px))) / f) with (PI / 2) by (field; auto).
  replace (2 * PI * (py * (f / (4 * py))) / f) with (PI / 2) by (field; auto).
  rewrite cos_PI2. do 2 f_equal; ring.
Qed.

Lemma jitter_units s t sx sy : sx <> 0 -> sy <> 0 ->
  jitter_OTF (s / (2 * PI * sx)) (t / (2 * PI * sy)) sx sy = Fin (exp (- (s * s + t * t) / 2)).
Proof. intros. rewrite jitter_fin. do 2 f_equal. field. generalize PI_nz; auto. Qed.

Lemma gaussian_units s t bx byy : bx <> 0 -> byy <> 0 ->
  gaussian_OTF (s / bx) (t / byy) bx byy = Ok (Fin (exp (- PI * (s * s + t * t)))).
Proof. intros. rewrite gaussian_fin by auto. do 3 f_equal. field. auto. Qed.

Lemma defocus_units s t D wx wy : wx <> 0 -> wy <> 0 ->
  defocus_OTF (2 * s / (PI * wx)) (2 * t / (PI * wy)) D wx wy = Fin (exp (- (s * s + t * t))).
Proof. intros. rewrite defocus_gauss_fin. do 2 f_equal. field. generalize PI_nz; auto. Qed.

(** ** Aggregation with any pitch: the array factor *)
Lemma agg_array u v wx wy px py f n : f <> 0 -> (0 < n)%nat ->
  exists h d ax ay, detector_OTF_with_aggregation u v wx wy px py f n = Ok (Fin h)
    /\ detector_OTF u v wx wy f = Fin d /\ h = ax * ay * d
    /\ INR n * sin (PI * (px * u / f)) * ax = sin (INR n * (PI * (px * u / f)))
    /\ INR n * sin (PI * (py * v / f)) * ay = sin (INR n * (PI * (py * v / f))).
Proof.
  intros Hf Hn. assert (Hn' : INR n <> 0) by (apply not_0_INR; lia).
  rewrite agg_fin, detector_fin by auto.
  exists (aggR n (px * u / f) / INR n * Rsinc (wx * u / f) * (aggR n (py * v / f) / INR n * Rsinc (wy * v / f))).
  exists (Rsinc (wx * u / f) * Rsinc (wy * v / f)).
  exists (aggR n (px * u / f) / INR n), (aggR n (py * v / f) / INR n).
  split; [reflexivity|]. split; [reflexivity|]. split; [ring|].
  split.
  - replace (INR n * (PI * (px * u / f))) with (PI * (INR n * (px * u / f))) by ring.
    rewrite <- dirichlet. set (y := px * u / f). field. auto.
  - replace (INR n * (PI * (py * v / f))) with (PI * (INR n * (py * v / f))) by ring.
    rewrite <- dirichlet. set (y := py * v / f). field. auto.
Qed.

(* at multiples of the sampling frequency all pixels see the same phase, up to
   the sign of a half-pixel shift *)
Lemma aggR_int n (m : Z) : (0 < n)%nat -> Z.even (m * (Z.of_nat n - 1)) = true -> aggR n (IZR m) = INR n.
Proof.
  intros Hn He. unfold aggR.
  assert (E : forall i, cos (2 * PI * (INR i * IZR m - (INR n - 1) * IZR m / 2)) = 1).
  { intros i. apply Z.even_spec in He. destruct He as [k Hk].
    assert (Q : (INR n - 1) * IZR m = 2 * IZR k).
    { rewrite INR_IZR_INZ, <- minus_IZR, <- mult_IZR, <- mult_IZR. f_equal. lia. }
    rewrite Q. replace (2 * PI * (INR i * IZR m - 2 * IZR k / 2)) with (0 + 2 * PI * IZR (Z.of_nat i * m - k)).
    - rewrite cos_period_Z. apply cos_0.
    - rewrite minus_IZR, mult_IZR, <- INR_IZR_INZ. field. }
  assert (G : forall l, Rsum (map (fun i => cos (2 * PI * (INR i * IZR m - (INR n - 1) * IZR m / 2))) l) = INR (length l)).
  { induction l as [|a l IH]; [reflexivity|]. cbn [map length]. rewrite S_INR, <- IH.
    unfold Rsum. cbn [fold_right]. rewrite E. ring. }
  rewrite G, seq_length. reflexivity.
Qed.

(** ** Diffusion *)
Lemma diffusion_value u v alpha ald al0 f : f <> 0 -> 0 < al0 -> 0 < alpha -> 0 < ald ->
  exists L, 0 < L <= al0 /\ / (L * L) = / (al0 * al0) + (2 * PI / f) * (2 * PI / f) * (u * u + v * v)
    /\ diffusion_OTF u v alpha ald al0 f
       = Ok (Fin ((1 - exp (- (alpha * ald)) / (1 + alpha * L)) / (1 - exp (- (alpha * ald)) / (1 + alpha * al0)))).
Proof.
  intros Hf Ha Hal Hd. destruct (diffusion_fin u v alpha ald al0 f Hf Ha Hal Hd) as (E & B & P).
  set (al := sqrt _) in *. exists al. split; [exact B|]. split.
  - assert (S : 0 <= u * u + v * v) by (generalize (sq_pos u) (sq_pos v); lra).
    assert (Q : 2 * PI * sqrt (u * u + v * v) / f * (2 * PI * sqrt (u * u + v * v) / f)
                = (2 * PI / f) * (2 * PI / f) * (u * u + v * v)).
    { rewrite <- (sqrt_sqrt (u * u + v * v) S) at 3. field. auto. }
    assert (Z : 0 < 1 / (al0 * al0) + (2 * PI / f) * (2 * PI / f) * (u * u + v * v)).
    { assert (0 < 1 / (al0 * al0)) by (apply Rdiv_lt_0_compat; nra).
      generalize (sq_pos (2 * PI / f)). nra. }
    assert (W : al * al = 1 / (1 / (al0 * al0) + (2 * PI / f) * (2 * PI / f) * (u * u + v * v))).
    { unfold al. rewrite Q. apply sqrt_sqrt. left. apply Rdiv_lt_0_compat; lra. }
    rewrite W. unfold Rdiv at 1. rewrite Rmult_1_l, Rinv_inv. unfold Rdiv at 1. rewrite Rmult_1_l. reflexivity.
  - rewrite E. unfold dpar. do 3 f_equal; replace (- alpha * ald) with (- (alpha * ald)) by ring; reflexivity.
Qed.

(** ** Turbulence *)
Lemma rad_scale k u v : 0 <= k -> rad (k * u) (k * v) = k * rad u v.
Proof.
  intros Hk. unfold rad. replace (k * u * (k * u) + k * v * (k * v)) with ((k * k) * (u * u + v * v)) by ring.
  rewrite sqrt_mult; [|nra| generalize (sq_pos u) (sq_pos v); lra]. rewrite sqrt_square; auto.
Qed.
Lemma pw_mult a b p : 0 < a -> 0 <= b -> pw (a * b) p = pw a p * pw b p.
Proof.
  intros Ha [Hb|<-].
  - rewrite !pw_val by nra. unfold Rpower. rewrite ln_mult by auto. rewrite Rmult_plus_distr_l, exp_plus. reflexivity.
  - rewrite Rmult_0_r, pw_0. ring.
Qed.
Lemma turb_laws u v l D r k : 0 < l -> 0 < D -> 0 < r -> 0 < k ->
  exists hl hk hs, turbulence_OTF u v l D (Fin r) 0 = Fin hl
    /\ turbulence_OTF (k * u) (k * v) l D (Fin r) 0 = Fin hk
    /\ (forall a, turbulence_OTF u v l D (Fin r) a = Fin (hs a))
    /\ 0 < hl /\ (l * sqrt (u * u + v * v) = r -> hl = exp (- 3.44))
    /\ ln hk = Rpower k (5 / 3) * ln hl
    /\ (forall a, 0 < sqrt (u * u + v * v) ->
          ln (hs a) = ln hl * (1 - a * Rpower (l * sqrt (u * u + v * v) / D) (1 / 3))).
Proof.
  intros Hl HD Hr Hk. exists (turb u v l D r 0), (turb (k * u) (k * v) l D r 0), (turb u v l D r).
  split; [apply turb_fin; auto|]. split; [apply turb_fin; auto|]. split; [intros; apply turb_fin; auto|].
  split; [apply turb_pos|]. fold (rad u v). generalize (rad_pos u v); intros Rp. split; [|split].
  - intros E. unfold turb. rewrite E. replace (r / r) with 1 by (field; lra). rewrite pw_1. f_equal. ring.
  - unfold turb. rewrite !ln_exp, rad_scale by lra.
    replace (l * (k * rad u v) / r) with (k * (l * rad u v / r)) by (field; lra).
    rewrite pw_mult by (auto; apply div_ge0; nra). rewrite (pw_val k) by auto. ring.
  - intros a Hp. unfold turb. rewrite !ln_exp. rewrite (pw_val (l * rad u v / D)); [ring|].
    apply Rdiv_lt_0_compat; nra.
Qed.

Lemma wind_value k u v l D r td vel : 0 < l -> 0 < D -> 0 < r ->
  exists h hs hl, wind_speed_turbulence_OTF k u v l D (Fin r) td vel = Ok (Fin h)
    /\ turbulence_OTF u v l D (Fin r) 0.5 = Fin hs /\ turbulence_OTF u v l D (Fin r) 0 = Fin hl
    /\ h - hl = exp (- (vel * td / r)) * (hs - hl).
Proof.
  intros Hl HD Hr. rewrite wind_fin, !turb_fin by auto. do 3 eexists.
  split; [reflexivity|]. split; [reflexivity|]. split; [reflexivity|].
  replace (- vel * td / r) with (- (vel * td / r)) by (field; lra). ring.
Qed.

(** ** Time delay and integration: the mean of the m steps' phasors *)
Lemma Rsum_map_ext {A} (g h : A -> R) l : (forall x, g x = h x) -> Rsum (map g l) = Rsum (map h l).
Proof. intros E. f_equal. apply map_ext. exact E. Qed.
Lemma Rsum_opp {A} (g : A -> R) l : Rsum (map (fun x => - g x) l) = - Rsum (map g l).
Proof. induction l as [|a l IH]; unfold Rsum in *; simpl; [ring|]. rewrite IH. ring. Qed.

Lemma tdi_phasors x w n p b f m : f <> 0 -> b <> 0 -> (0 < m)%nat -> n * p = INR m ->
  let xi := w * x / (f * b) in
  exists re im, tdi_OTF x w n p b f = (Fin re, Fin im)
    /\ INR m * re = Rsinc xi * Rsum (map (fun i => cos (2 * PI * xi * (b - 1) * INR i)) (seq 0 m))
    /\ INR m * im = - Rsinc xi * Rsum (map (fun i => sin (2 * PI * xi * (b - 1) * INR i)) (seq 0 m)).
Proof.
  intros Hf Hb Hm E xi.
  assert (Mp : 0 < INR m) by (apply lt_0_INR; auto).
  assert (Hfb : f * b <> 0) by (apply Rmult_integral_contrapositive_currified; auto).
  rewrite tdi_fin by (auto; rewrite E; lra). cbv zeta. rewrite (tdi_steps_nat _ _ _ E), E. fold xi.
  do 2 eexists. split; [reflexivity|]. unfold tre, tim. split.
  - rewrite (Rsum_map_ext (fun i => cos (-2 * PI * xi * (b - 1) * INR i)) (fun i => cos (2 * PI * xi * (b - 1) * INR i))).
    + field. lra.
    + intros i. rewrite <- cos_neg. f_equal. ring.
  - rewrite (Rsum_map_ext (fun i => sin (-2 * PI * xi * (b - 1) * INR i)) (fun i => - sin (2 * PI * xi * (b - 1) * INR i))).
    + rewrite Rsum_opp. field. lra.
    + intros i. rewrite <- sin_neg. f_equal. ring.
Qed.

(* magnitude of the phasor mean: a Dirichlet kernel *)
Lemma phasor_tel t m : 2 * sin (t / 2) * tre t m = sin (t * (INR m - / 2)) + sin (t / 2)
  /\ 2 * sin (t / 2) * tim t m = cos (t / 2) - cos (t * (INR m - / 2)).
Proof.
  induction m as [|m [I1 I2]].
  - unfold tre, tim, Rsum; simpl. replace (t * (0 - / 2)) with (- (t / 2)) by field.
    rewrite sin_neg, cos_neg. split; ring.
  - rewrite tre_S, tim_S, S_INR, !Rmult_plus_distr_l, I1, I2.
    replace (t * (INR m + 1 - / 2)) with (t * INR m + t / 2) by field.
    replace (t * (INR m - / 2)) with (t * INR m - t / 2) by field.
    rewrite sin_plus, sin_minus, cos_plus, cos_minus. split; ring.
Qed.
Lemma phasor_mag t m : (sin (t / 2)) ^ 2 * (tre t m ^ 2 + tim t m ^ 2) = (sin (INR m * (t / 2))) ^ 2.
Proof.
  destruct (phasor_tel t m) as [I1 I2].
  assert (A : 2 * sin (t / 2) * tre t m = 2 * sin (INR m * (t / 2)) * cos ((INR m - 1) * (t / 2))).
  { rewrite I1. replace (t * (INR m - / 2)) with (INR m * (t / 2) + (INR m - 1) * (t / 2)) by field.
    replace (sin (t / 2)) with (sin (INR m * (t / 2) - (INR m - 1) * (t / 2))) by (f_equal; field).
    rewrite sin_plus, sin_minus. ring. }
  assert (B : 2 * sin (t / 2) * tim t m = 2 * sin (INR m * (t / 2)) * sin ((INR m - 1) * (t / 2))).
  { rewrite I2. replace (t * (INR m - / 2)) with (INR m * (t / 2) + (INR m - 1) * (t / 2)) by field.
    replace (cos (t / 2)) with (cos (INR m * (t / 2) - (INR m - 1) * (t / 2))) by (f_equal; field).
    rewrite cos_plus, cos_minus. ring. }
  generalize (sin2_cos2 ((INR m - 1) * (t / 2))). unfold Rsqr. intros C.
  set (s := sin (t / 2)) in *. set (q := sin (INR m * (t / 2))) in *.
  set (c1 := cos ((INR m - 1) * (t / 2))) in *. set (s1 := sin ((INR m - 1) * (t / 2))) in *.
  assert (A' : s * tre t m = q * c1) by lra. assert (B' : s * tim t m = q * s1) by lra.
  replace (s ^ 2 * (tre t m ^ 2 + tim t m ^ 2)) with ((s * tre t m) ^ 2 + (s * tim t m) ^ 2) by ring.
  rewrite A', B'. replace ((q * c1) ^ 2 + (q * s1) ^ 2) with (q ^ 2 * (s1 * s1 + c1 * c1)) by ring.
  rewrite C. ring.
Qed.
Lemma tdi_magnitude x w n p b f m : f <> 0 -> b <> 0 -> (0 < m)%nat -> n * p = INR m ->
  let xi := w * x / (f * b) in let d := PI * xi * (b - 1) in
  exists re im, tdi_OTF x w n p b f = (Fin re, Fin im)
    /\ (INR m * sin d) ^ 2 * (re ^ 2 + im ^ 2) = (Rsinc xi * sin (INR m * d)) ^ 2.
Proof.
  intros Hf Hb Hm E xi d.
  assert (Mp : 0 < INR m) by (apply lt_0_INR; auto).
  assert (Hfb : f * b <> 0) by (apply Rmult_integral_contrapositive_currified; auto).
  rewrite tdi_fin by (auto; rewrite E; lra). cbv zeta. rewrite (tdi_steps_nat _ _ _ E), E. fold xi.
  do 2 eexists. split; [reflexivity|].
  set (t := -2 * PI * xi * (b - 1)). generalize (phasor_mag t m).
  replace (t / 2) with (- d) by (unfold t, d; field). intros G.
  replace (sin (INR m * - d)) with (- sin (INR m * d)) in G by (rewrite <- sin_neg; f_equal; ring).
  rewrite sin_neg in G.
  transitivity (Rsinc xi ^ 2 * ((- sin d) ^ 2 * (tre t m ^ 2 + tim t m ^ 2))); [field; lra|].
  rewrite G. ring.
Qed.

(** ** Wavefront *)
Lemma wavefront_units s t l pv Lx Ly : l <> 0 -> Lx <> 0 -> Ly <> 0 ->
  wavefront_OTF (s * Lx / l) (t * Ly / l) l (Fin pv) Lx Ly = Fin (exp (- pv * (1 - exp (- (s * s + t * t))))).
Proof. intros. rewrite wavefront_fin by auto. do 6 f_equal. field. auto. Qed.

Lemma wavefront2_parabola u v c w : c <> 0 ->
  let x := sqrt (u * u + v * v) / c in
  wavefront_OTF_2 u v c w = Fin (1 - (w / 0.18) ^ 2 * (4 * x * (1 - x))).
Proof. intros Hc x. rewrite wavefront2_fin by auto. f_equal. unfold rad. fold x. lra. Qed.

(** ** Turbulence profile, radii *)
Lemma hv_published h v a :
  hufnagel_valley_turbulence_profile (Fin h) v a
  = Fin (0.00594 * (v / 27) ^ 2 * (h / 10 ^ 5) ^ 10 * exp (- (h / 1000))
         + 2.7 / 10 ^ 16 * exp (- (h / 1500)) + a * exp (- (h / 100))).
Proof.
  rewrite hv_fin. f_equal. unfold hv.
  replace (- h / 1000) with (- (h / 1000)) by field. replace (- h / 1500) with (- (h / 1500)) by field.
  replace (- h / 100) with (- (h / 100)) by field.
  set (e1 := exp _). set (e2 := exp (- (h / 1500))). set (e3 := exp (- (h / 100))).
  assert (Q : 5.94 / 10 ^ 53 * (v / 27 * (v / 27)) * h ^ 10 = 0.00594 * (v / 27) ^ 2 * (h / 10 ^ 5) ^ 10).
  { set (g := v / 27). replace ((h / 10 ^ 5) ^ 10) with (h ^ 10 * / 10 ^ 50).
    - replace (5.94 / 10 ^ 53) with (0.00594 * / 10 ^ 50) by lra. ring.
    - unfold Rdiv. rewrite Rpow_mult_distr. f_equal. rewrite pow_inv. f_equal. rewrite <- pow_mult. reflexivity. }
  rewrite Q. reflexivity.
Qed.

Lemma object_radii_value D R0 R1 : R0 <> 0 -> R1 <> 0 ->
  exists w, object_domain_defocus_radii D R0 R1 = Ok w /\ w * R0 * R1 = 0.62 * D * (R1 - R0).
Proof.
  intros H0 H1. unfold object_domain_defocus_radii. rewrite !pydiv_ok by auto. cbn [bind].
  eexists; split; [reflexivity|].
  replace (0.62 * D * (R1 - R0)) with (0.62 * D * (R1 * (R0 * / R0) - R0 * (R1 * / R1))); [|rewrite !Rinv_r by auto; ring].
  unfold Rdiv. ring.
Qed.

Lemma agg_in_phase wx wy px py f n (m1 m2 : Z) : f <> 0 -> px <> 0 -> py <> 0 -> Nat.odd n = true ->
  detector_OTF_with_aggregation (IZR m1 * (f / px)) (IZR m2 * (f / py)) wx wy px py f n
  = Ok (detector_OTF (IZR m1 * (f / px)) (IZR m2 * (f / py)) wx wy f).
Proof.
  intros Hf Hx Hy Ho. assert (Hn : (0 < n)%nat) by (destruct n; [discriminate|lia]).
  assert (Hn' : INR n <> 0) by (apply not_0_INR; lia).
  assert (Ev : forall m, Z.even (m * (Z.of_nat n - 1)) = true).
  { intros m. apply Nat.odd_spec in Ho. destruct Ho as [k ->]. apply Z.even_spec. exists (m * Z.of_nat k)%Z. lia. }
  rewrite agg_fin, detector_fin by auto.
  replace (px * (IZR m1 * (f / px)) / f) with (IZR m1) by (field; auto).
  replace (py * (IZR m2 * (f / py)) / f) with (IZR m2) by (field; auto).
  rewrite !aggR_int by auto. do 2 f_equal.
  set (a := Rsinc _). set (b := Rsinc _). field. auto.
Qed.
