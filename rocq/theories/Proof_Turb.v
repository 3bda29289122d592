(** * Proof_Turb: turbulence, time-delay integration, wavefront and scalar helpers. *)
From Coq Require Import Reals Lra Psatz Bool List ZArith Lia.
From Flocq Require Import Core.Raux.
From Verif Require Import Base_XR Base_Np Model_Geo Model_Otf Spec_Otf Proof_Aper Proof_Otf.
Import ListNotations.
Open Scope R_scope.

(** ** Powers of a non-negative base *)
Definition pw (x p : R) : R := if Rltb 0 x then Rpower x p else 0.
Lemma xpow_pw a p : 0 <= a -> 0 < p -> xpow (Fin a) p = Fin (pw a p).
Proof. intros. unfold pw. simpl. repeat rcase; try lra; reflexivity. Qed.
Lemma pw_0 p : pw 0 p = 0.
Proof. unfold pw. rcase; [lra|reflexivity]. Qed.
Lemma pw_pos x p : 0 < x -> 0 < pw x p.
Proof. intros. unfold pw. rcase; [apply exp_pos | lra]. Qed.
Lemma pw_ge0 x p : 0 <= pw x p.
Proof. unfold pw. rcase; [left; apply exp_pos | lra]. Qed.
Lemma pw_val x p : 0 < x -> pw x p = Rpower x p.
Proof. intros. unfold pw. rcase; [reflexivity | lra]. Qed.
Lemma pw_lt x y p : 0 <= x -> x < y -> 0 < p -> pw x p < pw y p.
Proof.
  intros Hx H Hp. destruct (Req_dec x 0) as [-> | N].
  - rewrite pw_0. apply pw_pos. lra.
  - rewrite !pw_val by lra. apply exp_increasing, Rmult_lt_compat_l; [lra|]. apply ln_increasing; lra.
Qed.
Lemma pw_le x y p : 0 <= x -> x <= y -> 0 < p -> pw x p <= pw y p.
Proof.
  intros Hx H Hp. destruct (Req_dec x y) as [-> | N]; [lra|]. left. apply pw_lt; lra.
Qed.
Lemma pw_1 p : pw 1 p = 1.
Proof. rewrite pw_val by lra. unfold Rpower. rewrite ln_1, Rmult_0_r. apply exp_0. Qed.
Lemma pw_8 : pw 8 (1 / 3) = 2.
Proof.
  rewrite pw_val by lra. replace 8 with (Rpower 2 3).
  - rewrite Rpower_mult. replace (3 * (1 / 3)) with 1 by field. apply Rpower_1. lra.
  - replace 3 with (INR 3) by (simpl; ring). rewrite Rpower_pow by lra. simpl. ring.
Qed.

(** ** turbulence_OTF *)
Definition rad (u v : R) : R := sqrt (u * u + v * v).
Lemma rad_pos u v : 0 <= rad u v.
Proof. apply sqrt_pos. Qed.
Definition turb (u v l D r a : R) : R :=
  exp (- 3.44 * pw (l * rad u v / r) (5 / 3) * (1 - a * pw (l * rad u v / D) (1 / 3))).
Lemma div_ge0 a b : 0 <= a -> 0 < b -> 0 <= a / b.
Proof. intros. apply Rmult_le_pos; [lra|]. left. apply Rinv_0_lt_compat. lra. Qed.
Lemma turb_fin u v l D r a : 0 < l -> 0 < D -> 0 < r ->
  turbulence_OTF u v l D (Fin r) a = Fin (turb u v l D r a).
Proof.
  intros Hl HD Hr. unfold turbulence_OTF, turb. rewrite radial_fin. fold (rad u v).
  generalize (rad_pos u v); intros.
  rewrite xmul_fin, !xdiv_fin by lra.
  rewrite !xpow_pw by (try lra; apply div_ge0; nra).
  cbn [xmul xsub xexp]. reflexivity.
Qed.
Lemma turb_pos u v l D r a : 0 < turb u v l D r a.
Proof. apply exp_pos. Qed.
Lemma turb_0 l D r a : turb 0 0 l D r a = 1.
Proof.
  unfold turb, rad. replace (0 * 0 + 0 * 0) with 0 by ring. rewrite sqrt_0, Rmult_0_r.
  unfold Rdiv at 1. rewrite Rmult_0_l, pw_0, Rmult_0_r, Rmult_0_l. apply exp_0.
Qed.

Lemma turb_in_cutoff u v l D r a : 0 < l -> 0 < D -> 0 < r -> 0 <= a <= 1 ->
  l * rad u v <= D -> turb u v l D r a <= 1.
Proof.
  intros Hl HD Hr Ha Hc. apply exp_le_1.
  assert (pw (l * rad u v / D) (1 / 3) <= 1).
  { apply Rle_trans with (pw 1 (1 / 3)); [|rewrite pw_1; lra]. apply pw_le; [apply div_ge0; auto; generalize (rad_pos u v); nra| |lra].
    apply Rmult_le_reg_r with D; [lra|]. unfold Rdiv. rewrite Rmult_assoc, Rinv_l by lra. lra. }
  generalize (pw_ge0 (l * rad u v / D) (1 / 3)) (pw_ge0 (l * rad u v / r) (5 / 3)); intros.
  assert (0 <= 1 - a * pw (l * rad u v / D) (1 / 3)) by nra.
  assert (0 <= pw (l * rad u v / r) (5 / 3) * (1 - a * pw (l * rad u v / D) (1 / 3))) by (apply Rmult_le_pos; lra).
  lra.
Qed.
Lemma turb_mono_alpha u v l D r a b : a <= b -> turb u v l D r a <= turb u v l D r b.
Proof.
  intros H. apply exp_le. generalize (pw_ge0 (l * rad u v / D) (1 / 3)) (pw_ge0 (l * rad u v / r) (5 / 3)); intros.
  assert (a * pw (l * rad u v / D) (1 / 3) <= b * pw (l * rad u v / D) (1 / 3)) by nra.
  nra.
Qed.
Lemma turb_long u v l D r : turb u v l D r 0 <= 1.
Proof. apply exp_le_1. generalize (pw_ge0 (l * rad u v / r) (5 / 3)); intros. lra. Qed.
Lemma turb_short_gt u v l D r : 0 < l -> 0 < D -> 0 < r -> 8 * D < l * rad u v -> 1 < turb u v l D r 0.5.
Proof.
  intros Hl HD Hr H. rewrite <- exp_0. apply exp_increasing.
  assert (2 < pw (l * rad u v / D) (1 / 3)).
  { rewrite <- pw_8. apply pw_lt; [lra| |lra].
    apply Rmult_lt_reg_r with D; [lra|]. unfold Rdiv. rewrite Rmult_assoc, Rinv_l by lra. lra. }
  assert (0 < pw (l * rad u v / r) (5 / 3)) by (apply pw_pos, Rdiv_lt_0_compat; lra).
  nra.
Qed.
Lemma turb_short_le u v l D r : 0 < l -> 0 < D -> 0 < r -> l * rad u v <= 8 * D -> turb u v l D r 0.5 <= 1.
Proof.
  intros Hl HD Hr H. apply exp_le_1.
  assert (pw (l * rad u v / D) (1 / 3) <= 2).
  { rewrite <- pw_8. apply pw_le; [apply div_ge0; auto; generalize (rad_pos u v); nra| |lra].
    apply Rmult_le_reg_r with D; [lra|]. unfold Rdiv. rewrite Rmult_assoc, Rinv_l by lra. lra. }
  generalize (pw_ge0 (l * rad u v / r) (5 / 3)); intros. nra.
Qed.

Lemma turbulence_in_cutoff u v l D r a : 0 < l -> 0 < D -> 0 < r -> 0 <= a <= 1 ->
  l * sqrt (u * u + v * v) <= D ->
  exists h, turbulence_OTF u v l D (Fin r) a = Fin h /\ 0 < h <= 1 /\ (u = 0 -> v = 0 -> h = 1).
Proof.
  intros Hl HD Hr Ha Hc. rewrite turb_fin by auto. eexists; split; [reflexivity|].
  split; [split; [apply turb_pos | apply turb_in_cutoff; auto]|]. intros -> ->. apply turb_0.
Qed.
Lemma turbulence_short_vs_long u v l D r : 0 < l -> 0 < D -> 0 < r ->
  exists hs hl, turbulence_OTF u v l D (Fin r) 0.5 = Fin hs /\ turbulence_OTF u v l D (Fin r) 0 = Fin hl
    /\ 0 < hl <= 1 /\ hl <= hs
    /\ (8 * D < l * sqrt (u * u + v * v) <-> 1 < hs).
Proof.
  intros Hl HD Hr. rewrite !turb_fin by auto. do 2 eexists. split; [reflexivity|]. split; [reflexivity|].
  split; [split; [apply turb_pos | apply turb_long]|].
  split; [apply turb_mono_alpha; lra|]. fold (rad u v). split.
  - apply turb_short_gt; auto.
  - intros H. destruct (Rlt_le_dec (8 * D) (l * rad u v)); [assumption|].
    generalize (turb_short_le u v l D r Hl HD Hr r0). lra.
Qed.
(* monotone in the turbulence strength: larger r0 blurs less *)
Lemma turbulence_mono_r0 u v l D r r' : 0 < l -> 0 < D -> 0 < r -> r <= r' ->
  exists h h', turbulence_OTF u v l D (Fin r) 0 = Fin h /\ turbulence_OTF u v l D (Fin r') 0 = Fin h' /\ h <= h'.
Proof.
  intros Hl HD Hr Hr'. rewrite !turb_fin by lra. do 2 eexists. split; [reflexivity|]. split; [reflexivity|].
  apply exp_le. generalize (rad_pos u v); intros.
  assert (pw (l * rad u v / r') (5 / 3) <= pw (l * rad u v / r) (5 / 3)).
  { apply pw_le; [apply div_ge0; nra| |lra]. apply Rmult_le_compat_l; [nra|]. apply Rinv_le_contravar; lra. }
  lra.
Qed.
(* no turbulence: r0 infinite (as coherence_diameter returns for a zero profile) *)
Lemma turbulence_r0_inf u v l D a : 0 < l -> 0 < D -> turbulence_OTF u v l D PInf a = Fin 1.
Proof.
  intros Hl HD. unfold turbulence_OTF. rewrite radial_fin, xmul_fin. fold (rad u v).
  generalize (rad_pos u v); intros.
  rewrite (xdiv_fin _ D) by lra. change (xdiv (Fin (l * rad u v)) PInf) with (Fin 0).
  rewrite xpow_zero by lra. rewrite xpow_pw by (try lra; apply div_ge0; nra).
  rewrite !xmul_fin, xsub_fin, xmul_fin, xexp_fin, Rmult_0_r, Rmult_0_l, exp_0. reflexivity.
Qed.

(** ** wind_speed_turbulence_OTF *)
Lemma wind_fin k u v l D r td vel : 0 < l -> 0 < D -> 0 < r ->
  wind_speed_turbulence_OTF k u v l D (Fin r) td vel
  = Ok (Fin (exp (- vel * td / r) * turb u v l D r 0.5 + (1 - exp (- vel * td / r)) * turb u v l D r 0)).
Proof.
  intros Hl HD Hr. unfold wind_speed_turbulence_OTF. rewrite kdiv_ok by lra. cbn [bind].
  rewrite !turb_fin by auto. cbn [xexp xmul xadd xsub]. reflexivity.
Qed.
Lemma wind_between k u v l D r td vel : 0 < l -> 0 < D -> 0 < r -> 0 <= vel * td ->
  exists h hs hl, wind_speed_turbulence_OTF k u v l D (Fin r) td vel = Ok (Fin h)
    /\ turbulence_OTF u v l D (Fin r) 0.5 = Fin hs /\ turbulence_OTF u v l D (Fin r) 0 = Fin hl
    /\ hl <= h <= hs /\ (vel * td = 0 -> h = hs).
Proof.
  intros Hl HD Hr Hv. rewrite wind_fin, !turb_fin by auto. do 3 eexists.
  split; [reflexivity|]. split; [reflexivity|]. split; [reflexivity|].
  assert (W : 0 < exp (- vel * td / r) <= 1).
  { apply exp_le_1. generalize (div_ge0 _ _ Hv Hr). unfold Rdiv. lra. }
  generalize (turb_mono_alpha u v l D r 0 0.5 ltac:(lra)); intros.
  split; [nra|]. intros E. replace (- vel * td / r) with 0.
  - rewrite exp_0. ring.
  - unfold Rdiv. replace (- vel * td * / r) with (- (vel * td) * / r) by ring. rewrite E. ring.
Qed.
Lemma wind_mono k u v l D r td vel td' vel' : 0 < l -> 0 < D -> 0 < r -> vel * td <= vel' * td' ->
  exists h h', wind_speed_turbulence_OTF k u v l D (Fin r) td vel = Ok (Fin h)
    /\ wind_speed_turbulence_OTF k u v l D (Fin r) td' vel' = Ok (Fin h') /\ h' <= h.
Proof.
  intros Hl HD Hr Hv. rewrite !wind_fin by auto. do 2 eexists. split; [reflexivity|]. split; [reflexivity|].
  assert (W : exp (- vel' * td' / r) <= exp (- vel * td / r)).
  { apply exp_le. apply Rmult_le_compat_r; [left; apply Rinv_0_lt_compat; lra | lra]. }
  generalize (turb_mono_alpha u v l D r 0 0.5 ltac:(lra)); intros. nra.
Qed.
Lemma wind_r0_zero u v l D td vel :
  wind_speed_turbulence_OTF Py u v l D (Fin 0) td vel = Err ZeroDivisionError.
Proof.
  unfold wind_speed_turbulence_OTF, kdiv. replace (Reqb 0 0) with true by (symmetry; apply Reqb_true; reflexivity).
  reflexivity.
Qed.

(** ** tdi_OTF *)
Definition tre (t : R) (m : nat) : R := Rsum (map (fun i => cos (t * INR i)) (seq 0 m)).
Definition tim (t : R) (m : nat) : R := Rsum (map (fun i => sin (t * INR i)) (seq 0 m)).
Lemma fold_left_ext {A B} (f g : B -> A -> B) l a : (forall b x, f b x = g b x) -> fold_left f l a = fold_left g l a.
Proof. intros H. revert a. induction l as [|x l IH]; intros a; simpl; [reflexivity|]. rewrite H. apply IH. Qed.
Lemma tdi_steps_nat x p m : x * p = INR m -> tdi_steps x p = m.
Proof.
  intros E. unfold tdi_steps. rewrite E, INR_IZR_INZ.
  rewrite (Zceil_IZR (Z.of_nat m)). apply Nat2Z.id.
Qed.
Lemma tdi_fin x w n p b f : f * b <> 0 -> n * p <> 0 ->
  let t := -2 * PI * (w * x / (f * b)) * (b - 1) in
  tdi_OTF x w n p b f
  = (Fin (Rsinc (w * x / (f * b)) * tre t (tdi_steps n p) / (n * p)),
     Fin (Rsinc (w * x / (f * b)) * tim t (tdi_steps n p) / (n * p))).
Proof.
  intros Hf Hn t. unfold tdi_OTF. rewrite xdiv_fin by auto.
  rewrite (fold_left_ext _ (fun acc i => xadd acc (Fin (cos (t * INR i))))) by (intros; reflexivity).
  rewrite (fold_left_ext (fun acc i => xadd acc (xsin _)) (fun acc i => xadd acc (Fin (sin (t * INR i))))) by (intros; reflexivity).
  rewrite !fold_left_xadd, !Rplus_0_l. fold (tre t (tdi_steps n p)) (tim t (tdi_steps n p)).
  rewrite xsinc_fin, !xmul_fin, !xdiv_fin by auto. reflexivity.
Qed.
Lemma tre_S t m : tre t (S m) = tre t m + cos (t * INR m).
Proof. unfold tre. rewrite seq_S, map_app, Rsum_app. simpl map. unfold Rsum at 2. simpl. ring. Qed.
Lemma tim_S t m : tim t (S m) = tim t m + sin (t * INR m).
Proof. unfold tim. rewrite seq_S, map_app, Rsum_app. simpl map. unfold Rsum at 2. simpl. ring. Qed.
Lemma phasor_sum t m : tre t m * tre t m + tim t m * tim t m <= INR m * INR m.
Proof.
  induction m as [|m IH]; [unfold tre, tim; simpl; lra|].
  rewrite tre_S, tim_S, S_INR. set (a := tre t m) in *. set (b := tim t m) in *.
  set (c := cos (t * INR m)). set (s := sin (t * INR m)).
  assert (CS : s * s + c * c = 1) by (unfold s, c; generalize (sin2_cos2 (t * INR m)); unfold Rsqr; lra).
  assert (P : 0 <= INR m) by apply pos_INR.
  assert (B : a * c + b * s <= INR m).
  { destruct (Rle_lt_dec (a * c + b * s) (INR m)); [assumption|exfalso].
    assert (INR m * INR m < (a * c + b * s) * (a * c + b * s)) by nra.
    assert ((a * c + b * s) * (a * c + b * s) = (a * a + b * b) * (s * s + c * c) - (a * s - b * c) * (a * s - b * c)) by ring.
    generalize (sq_pos (a * s - b * c)). rewrite CS in *. nra. }
  replace ((a + c) * (a + c) + (b + s) * (b + s)) with (a * a + b * b + 2 * (a * c + b * s) + (s * s + c * c)) by ring.
  rewrite CS. nra.
Qed.
Lemma tre_0 m : tre 0 m = INR m.
Proof. induction m as [|m IH]; [reflexivity|]. rewrite tre_S, IH, Rmult_0_l, cos_0, S_INR. reflexivity. Qed.
Lemma tim_0 m : tim 0 m = 0.
Proof. induction m as [|m IH]; [reflexivity|]. rewrite tim_S, IH, Rmult_0_l, sin_0. ring. Qed.

Lemma tdi_whole x w n p b f m : f <> 0 -> b <> 0 -> (0 < m)%nat -> n * p = INR m ->
  exists re im, tdi_OTF x w n p b f = (Fin re, Fin im)
    /\ re * re + im * im <= 1
    /\ (x = 0 -> re = 1 /\ im = 0)
    /\ (b = 1 -> re = Rsinc (w * x / f) /\ im = 0).
Proof.
  intros Hf Hb Hm E.
  assert (Mp : 0 < INR m) by (apply lt_0_INR; auto).
  assert (Hfb : f * b <> 0) by (apply Rmult_integral_contrapositive_currified; auto).
  rewrite tdi_fin by (auto; rewrite E; lra). cbv zeta.
  rewrite (tdi_steps_nat _ _ _ E), E.
  set (t := -2 * PI * (w * x / (f * b)) * (b - 1)).
  do 2 eexists. split; [reflexivity|]. split; [|split].
  - set (s := Rsinc (w * x / (f * b))).
    replace (s * tre t m / INR m * (s * tre t m / INR m) + s * tim t m / INR m * (s * tim t m / INR m))
      with (s * s * ((tre t m * tre t m + tim t m * tim t m) / (INR m * INR m))) by (field; lra).
    assert (s * s <= 1).
    { generalize (Rsinc_bound (w * x / (f * b))). fold s. intros B. apply Rabs_le_inv in B. nra. }
    assert ((tre t m * tre t m + tim t m * tim t m) / (INR m * INR m) <= 1).
    { apply Rmult_le_reg_r with (INR m * INR m); [nra|]. unfold Rdiv. rewrite Rmult_assoc, Rinv_l by nra.
      generalize (phasor_sum t m). lra. }
    assert (0 <= (tre t m * tre t m + tim t m * tim t m) / (INR m * INR m)).
    { apply div_ge0; [generalize (sq_pos (tre t m)) (sq_pos (tim t m)); lra | nra]. }
    generalize (sq_pos s). nra.
  - intros ->. assert (T : t = 0) by (unfold t; field; split; auto).
    replace (w * 0 / (f * b)) with 0 by (field; split; auto).
    rewrite T, tre_0, tim_0, Rsinc_0. split; field; lra.
  - intros ->. assert (T : t = 0) by (unfold t; ring).
    rewrite T, tre_0, tim_0, Rmult_1_r. split; field; lra.
Qed.

Lemma tdi_fractional w n p b f : f <> 0 -> b <> 0 -> 0 < n * p -> (forall m : nat, n * p <> INR m) ->
  exists re, tdi_OTF 0 w n p b f = (Fin re, Fin 0) /\ 1 < re
   /\ re = IZR (Zceil (n * p)) / (n * p).
Proof.
  intros Hf Hb Hp Hn. assert (Hfb : f * b <> 0) by (apply Rmult_integral_contrapositive_currified; auto).
  rewrite tdi_fin by (auto; lra). cbv zeta.
  replace (w * 0 / (f * b)) with 0 by (field; split; auto).
  replace (-2 * PI * 0 * (b - 1)) with 0 by ring. rewrite tre_0, tim_0, Rsinc_0.
  assert (C := Zceil_ub (n * p)).
  assert (Cp : (0 < Zceil (n * p))%Z) by (apply lt_IZR; lra).
  assert (Ei : INR (tdi_steps n p) = IZR (Zceil (n * p))).
  { unfold tdi_steps. rewrite INR_IZR_INZ, Z2Nat.id by lia. reflexivity. }
  assert (n * p < IZR (Zceil (n * p))).
  { destruct (Req_dec (n * p) (IZR (Zceil (n * p)))) as [E|E]; [|lra]. rewrite <- Ei in E. destruct (Hn _ E). }
  rewrite Ei. exists (IZR (Zceil (n * p)) / (n * p)). split; [f_equal; f_equal; unfold Rdiv; ring|].
  split; [|reflexivity].
  apply Rmult_lt_reg_r with (n * p); [lra|]. unfold Rdiv. rewrite Rmult_assoc, Rinv_l by lra. lra.
Qed.

(** ** Wavefront *)
Lemma wavefront_fin u v l pv Lx Ly : Lx <> 0 -> Ly <> 0 ->
  wavefront_OTF u v l (Fin pv) Lx Ly
  = Fin (exp (- pv * (1 - exp (- (l * l) * (u / Lx * (u / Lx) + v / Ly * (v / Ly)))))).
Proof.
  intros Hx Hy. unfold wavefront_OTF. rewrite !xdiv_fin by auto. rewrite !xsq_fin.
  cbn [xadd xmul xexp xsub xopp]. reflexivity.
Qed.
Lemma wavefront_range u v l pv Lx Ly : Lx <> 0 -> Ly <> 0 -> 0 <= pv ->
  exists h, wavefront_OTF u v l (Fin pv) Lx Ly = Fin h
    /\ exp (- pv) <= h <= 1 /\ (u = 0 -> v = 0 -> h = 1) /\ (pv = 0 -> h = 1).
Proof.
  intros Hx Hy Hp. rewrite wavefront_fin by auto. eexists; split; [reflexivity|].
  assert (A : 0 < exp (- (l * l) * (u / Lx * (u / Lx) + v / Ly * (v / Ly))) <= 1).
  { apply exp_le_1. generalize (sq_pos l) (sq_pos (u / Lx)) (sq_pos (v / Ly)); intros. nra. }
  set (a := exp (- (l * l) * (u / Lx * (u / Lx) + v / Ly * (v / Ly)))) in *.
  split; [split; [apply exp_le; nra | apply exp_le_1; nra]|]. split.
  - intros Hu Hv. assert (Ea : a = 1).
    { unfold a. rewrite Hu, Hv. replace (- (l * l) * (0 / Lx * (0 / Lx) + 0 / Ly * (0 / Ly))) with 0 by (field; auto).
      apply exp_0. }
    rewrite Ea. replace (- pv * (1 - 1)) with 0 by ring. apply exp_0.
  - intros ->. rewrite Ropp_0, Rmult_0_l. apply exp_0.
Qed.
Lemma wavefront_mono u v u' v' l pv Lx Ly : Lx <> 0 -> Ly <> 0 -> 0 <= pv -> Rabs u <= Rabs u' -> Rabs v <= Rabs v' ->
  exists h h', wavefront_OTF u v l (Fin pv) Lx Ly = Fin h /\ wavefront_OTF u' v' l (Fin pv) Lx Ly = Fin h' /\ h' <= h.
Proof.
  intros Hx Hy Hp Hu Hv. rewrite !wavefront_fin by auto. do 2 eexists. split; [reflexivity|]. split; [reflexivity|].
  apply exp_le.
  assert (exp (- (l * l) * (u' / Lx * (u' / Lx) + v' / Ly * (v' / Ly)))
          <= exp (- (l * l) * (u / Lx * (u / Lx) + v / Ly * (v / Ly)))).
  { apply exp_le.
    assert (S : forall a b L, L <> 0 -> Rabs a <= Rabs b -> a / L * (a / L) <= b / L * (b / L)).
    { intros a b L HL Hab. apply Rsqr_le_abs_1 in Hab. unfold Rsqr in Hab.
      replace (a / L * (a / L)) with (a * a * (/ L * / L)) by (field; auto).
      replace (b / L * (b / L)) with (b * b * (/ L * / L)) by (field; auto).
      apply Rmult_le_compat_r; [apply sq_pos | lra]. }
    generalize (S u u' Lx Hx Hu) (S v v' Ly Hy Hv) (sq_pos l); intros. nra. }
  nra.
Qed.

Lemma wavefront2_fin u v c w : c <> 0 ->
  wavefront_OTF_2 u v c w
  = Fin (1 - w / 0.18 * (w / 0.18) * (1 - 4 * ((rad u v / c - 0.5) * (rad u v / c - 0.5)))).
Proof.
  intros Hc. unfold wavefront_OTF_2. rewrite radial_fin, xdiv_fin by auto.
  rewrite xsub_fin, xsq_fin. cbn [xmul xsub]. reflexivity.
Qed.
Lemma wavefront2_cases u v c w : 0 < c ->
  exists h, wavefront_OTF_2 u v c w = Fin h
    /\ (u = 0 -> v = 0 -> h = 1)
    /\ (sqrt (u * u + v * v) = c -> h = 1)
    /\ (sqrt (u * u + v * v) = c / 2 -> h = 1 - (w / 0.18) ^ 2)
    /\ (sqrt (u * u + v * v) <= c -> 1 - (w / 0.18) ^ 2 <= h <= 1)
    /\ (w <> 0 -> c < sqrt (u * u + v * v) -> 1 < h).
Proof.
  intros Hc. rewrite wavefront2_fin by lra. eexists; split; [reflexivity|].
  set (W := w / 0.18 * (w / 0.18)). assert (HW : 0 <= W) by apply sq_pos.
  replace ((w / 0.18) ^ 2) with W by (unfold W; ring).
  assert (P := rad_pos u v).
  repeat split.
  - intros -> ->. unfold rad. replace (0 * 0 + 0 * 0) with 0 by ring. rewrite sqrt_0.
    unfold Rdiv at 1 2. rewrite Rmult_0_l. lra.
  - intros E. fold (rad u v) in E. rewrite E. replace (c / c) with 1 by (field; lra). lra.
  - intros E. fold (rad u v) in E. rewrite E. replace (c / 2 / c) with 0.5 by (field_simplify; lra). lra.
  - generalize (sq_pos (rad u v / c - 0.5)); intros. nra.
  - fold (rad u v) in H.
    assert (B : 0 <= rad u v / c <= 1).
    { split; [apply div_ge0; lra|]. apply Rmult_le_reg_r with c; [lra|]. unfold Rdiv. rewrite Rmult_assoc, Rinv_l by lra. lra. }
    set (x := rad u v / c) in *. assert (0 <= 1 - 4 * ((x - 0.5) * (x - 0.5))) by nra. nra.
  - intros Hw Hr. fold (rad u v) in Hr.
    assert (B : 1 < rad u v / c).
    { apply Rmult_lt_reg_r with c; [lra|]. unfold Rdiv. rewrite Rmult_assoc, Rinv_l by lra. lra. }
    set (x := rad u v / c) in *.
    assert (0 < W).
    { unfold W. assert (w / 0.18 <> 0) by (unfold Rdiv; apply Rmult_integral_contrapositive_currified; [auto|lra]). nra. }
    assert (1 - 4 * ((x - 0.5) * (x - 0.5)) < 0) by nra. nra.
Qed.

(** ** hufnagel_valley_turbulence_profile *)
Definition hv (h v c : R) : R :=
  5.94 / 10 ^ 53 * ((v / 27) * (v / 27)) * h ^ 10 * exp (- h / 1000)
  + 2.7 / 10 ^ 16 * exp (- h / 1500) + c * exp (- h / 100).
Lemma hv_fin h v c : hufnagel_valley_turbulence_profile (Fin h) v c = Fin (hv h v c).
Proof.
  unfold hufnagel_valley_turbulence_profile, hv. rewrite xpown_fin. cbn [xopp].
  rewrite !xdiv_fin by lra. cbn [xexp xmul xadd]. reflexivity.
Qed.
Lemma tiny53 : 0 < 5.94 / 10 ^ 53.
Proof. apply Rdiv_lt_0_compat; [lra | apply pow_lt; lra]. Qed.
Lemma tiny16 : 0 < 2.7 / 10 ^ 16.
Proof. apply Rdiv_lt_0_compat; [lra | apply pow_lt; lra]. Qed.
Lemma hv_t1 h v : 0 <= 5.94 / 10 ^ 53 * ((v / 27) * (v / 27)) * h ^ 10 * exp (- h / 1000).
Proof.
  generalize tiny53; intros. apply Rmult_le_pos; [|left; apply exp_pos].
  apply Rmult_le_pos; [apply Rmult_le_pos; [lra | apply sq_pos]|].
  replace (h ^ 10) with (h ^ 5 * h ^ 5) by ring. apply sq_pos.
Qed.
Lemma hv_props h v c c' v' : 0 <= c ->
  exists y, hufnagel_valley_turbulence_profile (Fin h) v c = Fin y /\ 0 < y
    /\ (h = 0 -> y = 2.7 / 10 ^ 16 + c)
    /\ (c < c' -> exists y', hufnagel_valley_turbulence_profile (Fin h) v c' = Fin y' /\ y < y')
    /\ (Rabs v <= Rabs v' -> exists y', hufnagel_valley_turbulence_profile (Fin h) v' c = Fin y' /\ y <= y'
          /\ (Rabs v < Rabs v' -> h <> 0 -> y < y')).
Proof.
  intros Hc. rewrite hv_fin. eexists; split; [reflexivity|]. repeat split.
  - unfold hv. generalize (hv_t1 h v) (exp_pos (- h / 100)) (exp_pos (- h / 1500)) tiny16; intros.
    assert (0 <= c * exp (- h / 100)) by (apply Rmult_le_pos; lra).
    assert (0 < 2.7 / 10 ^ 16 * exp (- h / 1500)) by (apply Rmult_lt_0_compat; lra). lra.
  - intros ->. unfold hv. rewrite pow_i by lia.
    replace (- 0 / 1500) with 0 by field. replace (- 0 / 100) with 0 by field. rewrite exp_0. lra.
  - intros H. rewrite hv_fin. eexists; split; [reflexivity|]. unfold hv.
    generalize (exp_pos (- h / 100)); intros. nra.
  - intros H. rewrite hv_fin. eexists; split; [reflexivity|].
    assert (S : v / 27 * (v / 27) <= v' / 27 * (v' / 27)).
    { apply Rsqr_le_abs_1 in H. unfold Rsqr in H. lra. }
    split.
    + unfold hv. apply Rplus_le_compat_r, Rplus_le_compat_r. apply Rmult_le_compat_r; [left; apply exp_pos|].
      apply Rmult_le_compat_r; [replace (h ^ 10) with (h ^ 5 * h ^ 5) by ring; apply sq_pos|].
      apply Rmult_le_compat_l; [left; apply tiny53 | exact S].
    + intros HL Hh. unfold hv. apply Rplus_lt_compat_r, Rplus_lt_compat_r.
      apply Rmult_lt_compat_r; [apply exp_pos|].
      apply Rmult_lt_compat_r.
      { replace (h ^ 10) with (h ^ 5 * h ^ 5) by ring. assert (h ^ 5 <> 0) by (apply pow_nonzero; auto). nra. }
      apply Rmult_lt_compat_l; [apply tiny53|]. apply Rsqr_lt_abs_1 in HL. unfold Rsqr in HL. lra.
Qed.

(** ** Radii and dark current *)
Lemma object_radii D R0 R1 : R0 <> 0 -> R1 <> 0 ->
  exists w, object_domain_defocus_radii D R0 R1 = Ok w
    /\ object_domain_defocus_radii D R1 R0 = Ok (- w)
    /\ (D <> 0 -> (w = 0 <-> R0 = R1)).
Proof.
  intros H0 H1. unfold object_domain_defocus_radii. rewrite !pydiv_ok by auto. cbn [bind].
  eexists; split; [reflexivity|]. split; [f_equal; lra|]. intros HD. split.
  - intros E. assert (1 / R0 - 1 / R1 = 0).
    { apply Rmult_eq_reg_l with (0.62 * D); [lra|]. apply Rmult_integral_contrapositive_currified; [lra|auto]. }
    assert (E2 : 1 / R0 = 1 / R1) by lra. unfold Rdiv in E2. rewrite !Rmult_1_l in E2.
    rewrite <- (Rinv_inv R0), E2. apply Rinv_inv.
  - intros ->. lra.
Qed.
Lemma object_radii_zero D R1 : object_domain_defocus_radii D 0 R1 = Err ZeroDivisionError
  /\ (R1 <> 0 -> object_domain_defocus_radii D R1 0 = Err ZeroDivisionError).
Proof.
  unfold object_domain_defocus_radii. split; [rewrite pydiv_zero; reflexivity|].
  intros H. rewrite pydiv_ok by auto. cbn [bind]. rewrite pydiv_zero. reflexivity.
Qed.
Lemma image_radii D f a b dz1 dz2 : f <> 0 ->
  exists w1 w2, image_domain_defocus_radii D dz1 f = Ok w1 /\ image_domain_defocus_radii D dz2 f = Ok w2
    /\ image_domain_defocus_radii D (a * dz1 + b * dz2) f = Ok (a * w1 + b * w2)
    /\ w1 * (f * f) = 0.62 * D * dz1.
Proof.
  intros Hf. assert (f * f <> 0) by (apply Rmult_integral_contrapositive_currified; auto).
  unfold image_domain_defocus_radii. rewrite !pydiv_ok by auto. do 2 eexists.
  split; [reflexivity|]. split; [reflexivity|]. split.
  - f_equal. unfold Rdiv. ring.
  - unfold Rdiv. rewrite Rmult_assoc, Rinv_l by auto. ring.
Qed.
Lemma image_radii_zero D dz : image_domain_defocus_radii D dz 0 = Err ZeroDivisionError.
Proof. unfold image_domain_defocus_radii. rewrite Rmult_0_l. apply pydiv_zero. Qed.
Lemma dark_current jd wx wy : wx <> 0 -> wy <> 0 ->
  dark_current_from_density jd wx wy * (1.60217662 / 10 ^ 19) / (wx * wy) = jd.
Proof.
  intros Hx Hy. unfold dark_current_from_density, qc.
  assert (Q : 1.60217662 / 10 ^ 19 <> 0).
  { unfold Rdiv. apply Rmult_integral_contrapositive_currified; [lra|]. apply Rinv_neq_0_compat, pow_nonzero. lra. }
  set (q := 1.60217662 / 10 ^ 19) in *. field. auto.
Qed.
