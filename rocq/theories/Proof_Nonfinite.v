(** * Proof_Nonfinite: where the transfer functions are infinite or not a number. *)
From Coq Require Import Reals Lra Bool List Lia.
From Verif Require Import Base_XR Base_Np Base_NpFacts Model_Geo Model_Sensor Model_Otf Spec_Nonfinite Proof_Raises Proof_Rad Proof_Edge.
Import ListNotations.
Open Scope R_scope.

(* decide the comparisons of a goal *)
Ltac cmp :=
  repeat match goal with
  | |- context [Rltb ?a ?b] => first [rewrite (proj2 (Rltb_true a b)) by lra | rewrite (proj2 (Rltb_false a b)) by lra]
  | |- context [Rleb ?a ?b] => first [rewrite (proj2 (Rleb_true a b)) by lra | rewrite (proj2 (Rleb_false a b)) by lra]
  | |- context [Reqb ?a ?b] => first [rewrite (proj2 (Reqb_true a b)) by lra | rewrite (proj2 (Reqb_false a b)) by lra]
  end.

Lemma xmul_nan_r x : xmul x NaN = NaN.
Proof. destruct x; reflexivity. Qed.
Lemma xadd_nan_r x : xadd x NaN = NaN.
Proof. destruct x; reflexivity. Qed.
Lemma xdiv_zero a : xdiv (Fin a) (Fin 0) = inf_sgn a.
Proof. cbn. cmp. reflexivity. Qed.
Lemma xdiv_fin a b : b <> 0 -> xdiv (Fin a) (Fin b) = Fin (a / b).
Proof. intros H. cbn. now rewrite (proj2 (Reqb_false b 0) H). Qed.
Lemma inf_sgn_pos a : 0 < a -> inf_sgn a = PInf.
Proof. intros. unfold inf_sgn. cmp. reflexivity. Qed.
Lemma inf_sgn_neg a : a < 0 -> inf_sgn a = NInf.
Proof. intros. unfold inf_sgn. cmp. reflexivity. Qed.
Lemma inf_sgn_0 : inf_sgn 0 = NaN.
Proof. unfold inf_sgn. cmp. reflexivity. Qed.
Lemma xpow_pos a p : 0 < a -> xpow (Fin a) p = Fin (Rpower a p).
Proof. intros. cbn. cmp. reflexivity. Qed.
Lemma xpow_0 p : 0 < p -> xpow (Fin 0) p = Fin 0.
Proof. intros. cbn. cmp. reflexivity. Qed.
Lemma xpow_inf p : 0 < p -> xpow PInf p = PInf.
Proof. intros. cbn. cmp. reflexivity. Qed.

Lemma quot_pos a b : 0 <= a -> 0 < b -> 0 <= a / b.
Proof. intros. apply Rmult_le_pos; [auto | left; now apply Rinv_0_lt_compat]. Qed.

(** ** detector *)
Lemma sinc_over_0 a : xsinc (xdiv (Fin a) (Fin 0)) = NaN.
Proof. rewrite xdiv_zero. unfold inf_sgn. destruct (Rltb 0 a); [reflexivity|]. destruct (Rltb a 0); reflexivity. Qed.
Lemma detector_nan u v wx wy f :
  (f = 0 -> detector_OTF u v wx wy f = NaN) /\ (f <> 0 -> exists h, detector_OTF u v wx wy f = Fin h).
Proof.
  split; [intros -> | intros H]; unfold detector_OTF.
  - now rewrite sinc_over_0.
  - rewrite !xdiv_fin by auto. eexists; reflexivity.
Qed.

(** ** turbulence *)
Lemma radial_rho u v : radial u v = Fin (rho u v).
Proof. unfold radial, xsqrt, rho. rewrite (proj2 (Rltb_false _ _)); [reflexivity|]. pose proof (Rle_0_sqr u). pose proof (Rle_0_sqr v). unfold Rsqr in *. lra. Qed.
Lemma rho_pos u v : 0 <= rho u v.
Proof. apply sqrt_pos. Qed.
Lemma rho_0 u v : rho u v = 0 <-> u = 0 /\ v = 0.
Proof.
  unfold rho. split.
  - intros H. apply sqrt_eq_0 in H; [|pose proof (Rle_0_sqr u); pose proof (Rle_0_sqr v); unfold Rsqr in *; lra].
    pose proof (Rle_0_sqr u). pose proof (Rle_0_sqr v). unfold Rsqr in *.
    split; [assert (u * u = 0) by lra | assert (v * v = 0) by lra];
      match goal with E : ?x * ?x = 0 |- _ => apply Rmult_integral in E; tauto end.
  - intros (-> & ->). replace (0 * 0 + 0 * 0) with 0 by ring. apply sqrt_0.
Qed.

Lemma xpow_fin a p : 0 <= a -> 0 < p -> exists h, xpow (Fin a) p = Fin h.
Proof. intros Ha Hp. destruct (Req_dec a 0) as [->|N]; [rewrite xpow_0 by auto | rewrite xpow_pos by lra]; eauto. Qed.

Lemma turb_finite u v l D r a : 0 <= l -> 0 < D -> 0 < r -> exists h, turbulence_OTF u v l D (Fin r) a = Fin h.
Proof.
  intros Hl HD Hr. unfold turbulence_OTF. rewrite radial_rho. change (xmul (Fin l) (Fin (rho u v))) with (Fin (l * rho u v)).
  assert (P : 0 <= l * rho u v) by (apply Rmult_le_pos; [auto | apply rho_pos]).
  rewrite !xdiv_fin by lra.
  destruct (xpow_fin (l * rho u v / r) (5 / 3)) as (x & ->); [apply quot_pos; lra | lra|].
  destruct (xpow_fin (l * rho u v / D) (1 / 3)) as (y & ->); [apply quot_pos; lra | lra|].
  eexists; reflexivity.
Qed.
Lemma turb_no_wave u v D r a : 0 < D -> 0 < r -> turbulence_OTF u v 0 D (Fin r) a = Fin 1.
Proof.
  intros HD Hr. unfold turbulence_OTF. rewrite radial_rho. change (xmul (Fin 0) (Fin (rho u v))) with (Fin (0 * rho u v)). rewrite Rmult_0_l, !xdiv_fin by lra.
  replace (0 / r) with 0 by (field; lra). replace (0 / D) with 0 by (field; lra).
  rewrite !xpow_0 by lra. cbn. f_equal. rewrite <- exp_0. f_equal. ring.
Qed.
Lemma turb_no_aperture u v l r a : 0 <= l -> 0 < r ->
  (0 < l * rho u v -> 0 < a -> turbulence_OTF u v l 0 (Fin r) a = PInf) /\
  (0 < l * rho u v -> a < 0 -> turbulence_OTF u v l 0 (Fin r) a = Fin 0) /\
  (l * rho u v = 0 \/ a = 0 -> turbulence_OTF u v l 0 (Fin r) a = NaN).
Proof.
  intros Hl Hr. unfold turbulence_OTF. rewrite radial_rho. change (xmul (Fin l) (Fin (rho u v))) with (Fin (l * rho u v)). rewrite xdiv_zero, xdiv_fin by lra.
  assert (Q : forall x, 0 < x -> 0 < x / r) by (intros; apply Rdiv_lt_0_compat; lra).
  split; [|split].
  - intros P A. rewrite (inf_sgn_pos _ P), (xpow_inf (1 / 3)) by lra. rewrite (xpow_pos _ (5 / 3) (Q _ P)). cbn [xmul]. rewrite inf_sgn_pos by auto. cbn.
    rewrite inf_sgn_pos; [reflexivity|]. pose proof (exp_pos (5 / 3 * ln (l * rho u v / r))) as E. unfold Rpower. lra.
  - intros P A. rewrite (inf_sgn_pos _ P), (xpow_inf (1 / 3)) by lra. rewrite (xpow_pos _ (5 / 3) (Q _ P)). cbn [xmul]. rewrite inf_sgn_neg by auto. cbn.
    rewrite inf_sgn_neg; [reflexivity|]. pose proof (exp_pos (5 / 3 * ln (l * rho u v / r))) as E. unfold Rpower. lra.
  - assert (P0 : 0 <= l * rho u v) by (apply Rmult_le_pos; [auto | apply rho_pos]).
    intros H. replace (xmul (Fin a) (xpow (inf_sgn (l * rho u v)) (1 / 3))) with NaN.
    { change (xsub (Fin 1) NaN) with NaN. now rewrite xmul_nan_r. }
    destruct (Req_dec (l * rho u v) 0) as [E|E].
    + rewrite E, inf_sgn_0. reflexivity.
    + destruct H as [H| ->]; [contradiction|]. rewrite inf_sgn_pos, xpow_inf by lra. cbn. now rewrite inf_sgn_0.
Qed.

Lemma wind_no_aperture k u v l r t vel : 0 <= l -> 0 < r -> wind_speed_turbulence_OTF k u v l 0 (Fin r) t vel = Ok NaN.
Proof.
  intros Hl Hr. unfold wind_speed_turbulence_OTF.
  replace (kdiv k (Fin (- vel * t)) (Fin r)) with (@Ok xr (Fin (- vel * t / r)))
    by (unfold kdiv; destruct k; cbn; rewrite (proj2 (Reqb_false r 0)) by lra; reflexivity).
  cbn [bind]. rewrite (proj2 (proj2 (turb_no_aperture u v l r 0 Hl Hr))) by auto. rewrite xmul_nan_r, xadd_nan_r. reflexivity.
Qed.
Lemma wind_finite k u v l D r t vel : 0 <= l -> 0 < D -> 0 < r -> exists h, wind_speed_turbulence_OTF k u v l D (Fin r) t vel = Ok (Fin h).
Proof.
  intros Hl HD Hr. unfold wind_speed_turbulence_OTF.
  replace (kdiv k (Fin (- vel * t)) (Fin r)) with (@Ok xr (Fin (- vel * t / r)))
    by (unfold kdiv; destruct k; cbn; rewrite (proj2 (Reqb_false r 0)) by lra; reflexivity).
  cbn [bind]. destruct (turb_finite u v l D r 0.5 Hl HD Hr) as (x & ->). destruct (turb_finite u v l D r 0 Hl HD Hr) as (y & ->).
  eexists; reflexivity.
Qed.

(** ** wavefront *)
Lemma sq_over_0 x : xsq (xdiv (Fin x) (Fin 0)) = PInf \/ xsq (xdiv (Fin x) (Fin 0)) = NaN.
Proof. rewrite xdiv_zero. unfold inf_sgn. destruct (Rltb 0 x); [left; reflexivity|]. destruct (Rltb x 0); [left|right]; reflexivity. Qed.
Lemma sq_over x L : L <> 0 -> exists y, xsq (xdiv (Fin x) (Fin L)) = Fin y /\ 0 <= y.
Proof. intros H. rewrite xdiv_fin by auto. eexists; split; [reflexivity|]. apply Rle_0_sqr. Qed.
Lemma wavefront_no_wave u v p Lx Ly :
  (Lx <> 0 -> Ly <> 0 -> wavefront_OTF u v 0 (Fin p) Lx Ly = Fin 1) /\
  (Lx = 0 \/ Ly = 0 -> wavefront_OTF u v 0 (Fin p) Lx Ly = NaN) /\
  (Lx <> 0 -> Ly <> 0 -> wavefront_OTF u v 0 PInf Lx Ly = NaN).
Proof.
  assert (Z : forall x, xmul (Fin (- (0 * 0))) x = match x with Fin r => Fin (- (0 * 0) * r) | _ => NaN end).
  { intros [r| | |]; cbn; auto; rewrite ?Ropp_involutive; replace (- (0 * 0)) with 0 by ring; replace (0 * 0) with 0 by ring; apply inf_sgn_0. }
  unfold wavefront_OTF. rewrite Z. split; [|split].
  - intros Hx Hy. destruct (sq_over u Lx Hx) as (a & -> & _), (sq_over v Ly Hy) as (b & -> & _). cbn.
    replace (- (0 * 0) * (a + b)) with 0 by ring. rewrite exp_0. f_equal. rewrite <- exp_0. f_equal. ring.
  - intros H.
    assert (E : xadd (xsq (xdiv (Fin u) (Fin Lx))) (xsq (xdiv (Fin v) (Fin Ly))) = PInf \/
                xadd (xsq (xdiv (Fin u) (Fin Lx))) (xsq (xdiv (Fin v) (Fin Ly))) = NaN).
    { assert (C : forall x L, xsq (xdiv (Fin x) (Fin L)) = PInf \/ xsq (xdiv (Fin x) (Fin L)) = NaN \/
        (L <> 0 /\ exists y, xsq (xdiv (Fin x) (Fin L)) = Fin y)).
      { intros x L. destruct (Req_dec L 0) as [->|N]; [destruct (sq_over_0 x); auto|].
        right; right. split; auto. destruct (sq_over x L N) as (y & E & _). eauto. }
      destruct (C u Lx) as [-> | [-> | (N & y & ->)]], (C v Ly) as [-> | [-> | (N' & y' & ->)]]; cbn; auto.
      exfalso. tauto. }
    destruct E as [-> | ->]; reflexivity.
  - intros Hx Hy. destruct (sq_over u Lx Hx) as (a & -> & _), (sq_over v Ly Hy) as (b & -> & _). cbn.
    replace (- (0 * 0) * (a + b)) with 0 by ring. rewrite exp_0. replace (1 + - (1)) with 0 by ring.
    rewrite Ropp_0. unfold inf_sgn. cmp. reflexivity.
Qed.

Lemma wavefront_finite u v l p Lx Ly : Lx <> 0 -> Ly <> 0 -> exists h, wavefront_OTF u v l (Fin p) Lx Ly = Fin h.
Proof.
  intros Hx Hy. unfold wavefront_OTF. destruct (sq_over u Lx Hx) as (a & -> & _), (sq_over v Ly Hy) as (b & -> & _). eexists; reflexivity.
Qed.

(** ** weights that are all zero *)
Lemma nans_map2 a : nans a -> forall b, nans (map2 xadd a b).
Proof.
  induction a as [|x a IH]; intros H [|y b] z Hz; cbn in Hz; try contradiction.
  destruct Hz as [<-|Hz]; [now rewrite (H x (or_introl eq_refl))|].
  eapply IH; eauto. intros z' Hz'. apply H. now right.
Qed.
Lemma nans_bmap2 a b r : nans a -> bmap2 xadd a b = Ok r -> nans r.
Proof.
  intros H. unfold bmap2. destruct (Nat.eqb _ _); [intros E; inversion E; now apply nans_map2|].
  assert (L : forall x, x = NaN -> nans (map (xadd x) b)) by (intros x -> z Hz; apply in_map_iff in Hz as (? & <- & _); reflexivity).
  assert (Rr : forall y, nans (map (fun x => xadd x y) a)).
  { intros y z Hz. apply in_map_iff in Hz as (x & <- & Hx). now rewrite (H x Hx). }
  destruct a as [|x [|x' a]].
  - destruct b as [|y [|y' b]]; intros E; inversion E; intros z [].
  - intros E. inversion E. apply L. apply H. now left.
  - destruct b as [|y [|y' b]]; intros E; inversion E. exact (Rr y).
Qed.
Lemma zero_weights wl w g r : (forall x, In x w -> x = Fin 0) -> weighted_by_wavelength wl w g = Ok r -> nans r.
Proof.
  intros Hw. unfold weighted_by_wavelength.
  assert (S : xsum w = Fin 0).
  { clear - Hw. induction w as [|x w IH]; [reflexivity|]. cbn. unfold xsum in IH. rewrite IH by (intros; apply Hw; now right).
    rewrite (Hw x (or_introl eq_refl)). cbn. f_equal. ring. }
  rewrite S. destruct w as [|w0 w]; [discriminate|]. cbn [map]. rewrite (Hw w0 (or_introl eq_refl)), xdiv_zero, inf_sgn_0.
  destruct wl as [|l0 rest]; [discriminate|]. intros E. apply bind_ok in E as (g0 & _ & E).
  assert (N : nans (map (xmul NaN) g0)) by (intros z Hz; apply in_map_iff in Hz as (? & <- & _); reflexivity).
  revert E N. generalize (map (xmul NaN) g0). generalize rest at 2. induction rest0 as [|x todo IH]; intros acc E N.
  - inversion E. now subst.
  - cbn [weighted_loop] in E. apply bind_ok in E as (? & _ & E). apply bind_ok in E as (? & _ & E). apply bind_ok in E as (? & _ & E).
    apply bind_ok in E as (a & Ea & E). eapply IH; eauto. eapply nans_bmap2; eauto.
Qed.

(** ** coherence diameter of one sample, of two, and with one turbulence value *)
Lemma one_sample lam z c : lam <> 0 -> coherence_diameter lam [z] [c] = Ok PInf.
Proof.
  intros H. unfold coherence_diameter. cbn. unfold pydiv. rewrite (proj2 (Reqb_false lam 0) H). cbn [bind]. cbn.
  rewrite !Rmult_0_l. cmp. reflexivity.
Qed.
Lemma trapezoid_zero z : Spec_Rad.trapezoid (map (fun _ => 0) z) z = 0.
Proof. induction z as [|a [|b z] IH]; [reflexivity | reflexivity |]. cbn in *. rewrite IH. field. Qed.
Lemma fold_max_ge l : forall x, x <= fold_left Rmax l x /\ forall y, In y l -> y <= fold_left Rmax l x.
Proof.
  induction l as [|y l IH]; intros x; [split; [apply Rle_refl | intros ? []]|]. cbn [fold_left]. destruct (IH (Rmax x y)) as (A & B).
  pose proof (Rmax_l x y). pose proof (Rmax_r x y). split; [lra|]. intros w [<-|W]; [lra | now apply B].
Qed.
Lemma no_turbulence lam z c : lam <> 0 -> (forall x, In x z -> 0 <= x) -> (exists x, In x z /\ 0 < x) ->
  c = [Fin 0] \/ c = repeat (Fin 0) (length z) -> coherence_diameter lam (map Fin z) c = Ok PInf.
Proof.
  intros Hl Hz (x0 & Hi & Hx) Hc. destruct z as [|x z]; [contradiction|]. unfold coherence_diameter.
  change (map Fin (x :: z)) with (Fin x :: map Fin z) at 1. rewrite xmaxl_fin. cbn [bind].
  set (m := fold_left Rmax z x).
  assert (Hm : 0 < m) by (destruct (fold_max_ge z x) as (A & B); destruct Hi as [<-|Hi]; [fold m in A; lra | specialize (B _ Hi); fold m in B; lra]).
  clearbody m. rewrite map_map.
  assert (P : forall y, In y (x :: z) -> exists h, xpow (xdiv (Fin y) (Fin m)) (5 / 3) = Fin h).
  { intros y Hy. rewrite xdiv_fin by lra. apply xpow_fin; [apply quot_pos; auto | lra]. }
  assert (E : bmap2 xmul c (map (fun y => xpow (xdiv (Fin y) (Fin m)) (5 / 3)) (x :: z)) = Ok (map Fin (map (fun _ => 0) (x :: z)))).
  { set (l := x :: z) in *. clearbody l. clear - P Hc.
    assert (A : map2 xmul (repeat (Fin 0) (length l)) (map (fun y => xpow (xdiv (Fin y) (Fin m)) (5 / 3)) l) = map Fin (map (fun _ => 0) l)).
    { clear Hc. induction l as [|y l IH]; [reflexivity|]. cbn [length repeat map map2]. f_equal.
      - destruct (P y (or_introl eq_refl)) as (h & ->). cbn. f_equal. ring.
      - apply IH. intros; apply P; now right. }
    assert (B : map (xmul (Fin 0)) (map (fun y => xpow (xdiv (Fin y) (Fin m)) (5 / 3)) l) = map Fin (map (fun _ => 0) l)).
    { clear Hc A. rewrite !map_map. apply map_ext_in. intros y Hy. destruct (P y Hy) as (h & ->). cbn. f_equal. ring. }
    destruct Hc as [-> | ->]; unfold bmap2.
    - destruct (Nat.eqb _ _) eqn:N; [|f_equal; exact B]. apply Nat.eqb_eq in N. rewrite map_length in N. cbn in N.
      rewrite <- N in A. cbn [repeat] in A. f_equal. exact A.
    - rewrite repeat_length, map_length, Nat.eqb_refl. f_equal. exact A. }
  rewrite E. cbn [bind]. rewrite trapz_fin by now rewrite map_length. rewrite trapezoid_zero. cbn [bind].
  unfold pydiv. rewrite (proj2 (Reqb_false lam 0) Hl). cbn [bind]. cbn [xmul]. rewrite !Rmult_0_l. cbn. cmp. reflexivity.
Qed.
Lemma two_samples lam L c : lam <> 0 -> 0 < L -> 0 < c ->
  coherence_diameter lam [Fin 0; Fin L] [Fin c; Fin c] = Ok (Fin (Rpower (3 / 4) (3 / 5) * uniform_r0 lam c L)).
Proof.
  intros Hl HL Hc. unfold uniform_r0, coherence_diameter. cbn [xmaxl fold_left].
  assert (M : xmax (Fin 0) (Fin L) = Fin L) by (cbn; cmp; reflexivity).
  rewrite M. cbn [bind map]. rewrite !xdiv_fin by lra. replace (0 / L) with 0 by (field; lra). replace (L / L) with 1 by (field; lra).
  rewrite xpow_0, xpow_pos by lra. unfold Rpower at 1. rewrite ln_1, Rmult_0_r, exp_0. cbn.
  unfold pydiv. rewrite (proj2 (Reqb_false lam 0) Hl). cbn [bind]. cmp. cbn.
  assert (Q : 0 < (2 * PI / lam) * (2 * PI / lam)).
  { assert (2 * PI / lam <> 0) by (apply Rmult_integral_contrapositive; split; [pose proof PI_RGT_0; lra | now apply Rinv_neq_0_compat]).
    pose proof (Rsqr_pos_lt _ H). exact H0. }
  set (q := 2 * PI / lam) in *. clearbody q.
  set (d := 0.423). assert (Hd : 0 < d) by (unfold d; lra). clearbody d.
  replace (((L + - 0) * (c * 1 + c * 0) / 2 + 0) * d * (q * q)) with (4 / 3 * (d * (q * (q * 1)) * (c * (3 / 8 * L)))) by field.
  assert (P : 0 < d * (q * (q * 1)) * (c * (3 / 8 * L))) by (rewrite Rmult_1_r; apply Rmult_lt_0_compat; [apply Rmult_lt_0_compat; [lra | exact Q] | apply Rmult_lt_0_compat; lra]).
  set (X := d * (q * (q * 1)) * (c * (3 / 8 * L))) in *. clearbody X.
  cmp. do 2 f_equal. rewrite <- Rpower_mult_distr by lra. f_equal.
  unfold Rpower. f_equal. replace (4 / 3) with (/ (3 / 4)) by lra. rewrite ln_Rinv by lra. ring.
Qed.

(** ** an aperture obscured altogether *)
Lemma asin_pos x : 0 < x <= 1 -> 0 < asin x.
Proof.
  intros Hx. destruct (Rlt_dec 0 (asin x)) as [H|H]; auto. exfalso.
  assert (B := asin_bound x). assert (P := PI_RGT_0). pose proof (sin_ge_0 (- asin x) ltac:(lra) ltac:(lra)) as S.
  rewrite sin_neg, sin_asin in S by lra. lra.
Qed.
Lemma sum_0 x : 0 <= x <= 1 ->
  let a := 2 / PI * (acos x - x * sqrt (1 - x * x)) in
  let phi := acos (1 - 2 * (x * x)) in
  2 * sin phi / PI + 2 * phi / PI - 2 = - 2 * a /\ phi = 2 * asin x.
Proof.
  intros Hx a phi. assert (P := PI_RGT_0).
  assert (E : phi = 2 * asin x).
  { unfold phi. rewrite <- (acos_cos (2 * asin x)).
    - f_equal. rewrite cos_2a_sin, sin_asin by lra. ring.
    - assert (B := asin_bound x). assert (0 <= asin x); [|lra].
      destruct (Req_dec x 0) as [->|N]; [rewrite asin_0; lra|]. left. apply asin_pos. lra. }
  split; auto. rewrite E. unfold a. rewrite sin_2a, sin_asin, cos_asin by lra. rewrite acos_asin by lra. unfold Rsqr.
  field. lra.
Qed.

Lemma full_obscuration k u v l D : 0 < l -> 0 < D ->
  circular_aperture_OTF k u v l D 1 = if Reqb (rho u v) 0 then Ok PInf else Ok NaN.
Proof.
  intros Hl HD. unfold circular_aperture_OTF. rewrite radial_rho.
  replace (kdiv k (Fin D) (Fin l)) with (@Ok xr (Fin (D / l)))
    by (unfold kdiv; destruct k; cbn; rewrite (proj2 (Reqb_false l 0)) by lra; reflexivity).
  cbn [bind]. assert (Hr : 0 < D / l) by (apply Rdiv_lt_0_compat; lra). set (r := D / l) in *. clearbody r.
  assert (Hp := rho_pos u v). set (p := rho u v) in *. clearbody p. rewrite (proj2 (Rltb_true 0 1)) by lra.
  rewrite !(xdiv_fin p 1), !(xdiv_fin p r) by lra. rewrite (xdiv_fin (p / 1) r) by lra.
  replace (p / 1 / r) with (p / r) by (field; lra). set (x := p / r).
  assert (Hx : 0 <= x) by (apply quot_pos; lra). assert (Ep : p = x * r) by (unfold x; field; lra).
  assert (E1 : xlt (Fin p) (xdiv (xmul (Fin (1 - 1)) (Fin r)) (Fin 2)) = false).
  { cbn [xmul]. rewrite xdiv_fin by lra. cbn. apply Rltb_false. replace ((1 - 1) * r / 2) with 0 by field. lra. }
  rewrite E1.
  assert (E2 : xdiv (xdiv (xsub (Fin (1 + 1 * 1)) (xsq (xdiv (xmul (Fin 2) (Fin p)) (Fin r)))) (Fin 2)) (Fin 1) = Fin (1 - 2 * (x * x))).
  { cbn [xmul]. rewrite (xdiv_fin (2 * p) r) by lra. cbn [xsq xmul xsub xopp xadd]. rewrite !xdiv_fin by lra. f_equal. unfold x. field. lra. }
  rewrite E2.
  assert (E3 : xle (Fin p) (xdiv (xmul (Fin (1 + 1)) (Fin r)) (Fin 2)) = Rleb x 1).
  { cbn [xmul]. rewrite xdiv_fin by lra. cbn. replace ((1 + 1) * r / 2) with (1 * r) by field. rewrite Ep.
    destruct (Rleb x 1) eqn:B; [apply Rleb_true in B; apply Rleb_true; apply Rmult_le_compat_r; lra|].
    apply Rleb_false in B. apply Rleb_false. apply Rmult_lt_compat_r; lra. }
  rewrite E3.
  destruct (Rle_dec x 1) as [L|L].
  - rewrite (proj2 (Rleb_true x 1) L). destruct (sum_0 x (conj Hx L)) as (S & Ephi).
    assert (A1 : xacos (Fin x) = Fin (acos x)) by (cbn; cmp; reflexivity).
    assert (Q : 0 <= x * x <= 1) by nra.
    assert (A2 : xacos (Fin (1 - 2 * (x * x))) = Fin (acos (1 - 2 * (x * x)))) by (cbn; cmp; reflexivity).
    assert (A3 : xsqrt (xsub (Fin 1) (xsq (Fin x))) = Fin (sqrt (1 - x * x))).
    { cbn. rewrite (proj2 (Rltb_false _ _)) by lra. do 2 f_equal. }
    rewrite A1, A2, A3, Ephi. rewrite Ephi in S.
    replace (xdiv (Fin (2 * asin x)) (Fin 2)) with (Fin (asin x)) by (rewrite xdiv_fin by lra; f_equal; field).
    set (a := 2 / PI * (acos x - x * sqrt (1 - x * x))) in *.
    destruct (Req_dec x 0) as [Z|Z].
    + rewrite Z in *. rewrite asin_0 in *. replace p with 0 by lra.
      assert (T : xtan (Fin 0) = Fin 0) by (cbn; rewrite cos_0; cmp; rewrite tan_0; reflexivity). rewrite T.
      replace (xdiv (xmul (Fin (1 + 1)) (Fin 0)) (Fin (1 - 1))) with NaN
        by (cbn [xmul]; replace (1 - 1) with 0 by ring; rewrite xdiv_zero; replace ((1 + 1) * 0) with 0 by ring; now rewrite inf_sgn_0).
      cbn [xatan]. rewrite xmul_nan_r. unfold xsub at 3. cbn [xopp]. rewrite xadd_nan_r. rewrite (proj2 (Reqb_true 0 0) eq_refl).
      cbn [xnan_to_num xsub xopp xmul xadd b2x]. replace (1 - 1 * 1) with 0 by ring. rewrite xdiv_zero. f_equal. apply inf_sgn_pos.
      rewrite acos_0. assert (P := PI_RGT_0). replace (2 / PI * (PI / 2 + - (0 * sqrt (1 - 0 * 0)))) with 1 by (field; lra).
      replace (2 * (1 * 1) / PI * (PI / 2 + - (0 * sqrt (1 - 0 * 0)))) with 1 by (field; lra). lra.
    + rewrite (proj2 (Reqb_false p 0)) by (intros Hz; apply Z; unfold x; rewrite Hz; field; lra).
      assert (T : xatan (xdiv (xmul (Fin (1 + 1)) (xtan (Fin (asin x)))) (Fin (1 - 1))) = Fin (PI / 2)).
      { replace (1 - 1) with 0 by ring. cbn [xtan]. destruct (Reqb (cos (asin x)) 0) eqn:C.
        - cbn [xmul]. rewrite inf_sgn_pos by lra. cbn. cmp. reflexivity.
        - apply Reqb_false in C. cbn [xmul]. rewrite xdiv_zero, inf_sgn_pos; [reflexivity|].
          assert (B := asin_bound x). assert (0 < asin x) by (apply asin_pos; lra).
          assert (asin x < PI / 2) by (destruct (Req_dec (asin x) (PI / 2)) as [F|F]; [rewrite F, cos_PI2 in C; contradiction | lra]).
          assert (0 < tan (asin x)) by (apply tan_gt_0; lra). lra. }
      rewrite T.
      cbn [xsin xmul]. rewrite !(xdiv_fin _ PI) by (apply PI_neq0). cbn [xnan_to_num xsub xopp xmul xadd b2x].
      replace (1 - 1 * 1) with 0 by ring. rewrite xdiv_zero. f_equal. rewrite <- inf_sgn_0. f_equal.
      assert (P := PI_RGT_0). unfold a in S.
      transitivity (2 * (2 / PI * (acos x - x * sqrt (1 - x * x))) + (2 * sin (2 * asin x) / PI + 2 * (2 * asin x) / PI - 2)); [|rewrite S; ring].
      field. lra.
  - rewrite (proj2 (Rleb_false x 1)) by lra. rewrite (proj2 (Reqb_false p 0)) by (intros Hz; apply L; unfold x; rewrite Hz; replace (0 / r) with 0 by (field; lra); lra).
    assert (Q : 1 < x * x) by nra.
    assert (A1 : xacos (Fin x) = NaN) by (cbn; cmp; reflexivity).
    assert (A2 : xacos (Fin (1 - 2 * (x * x))) = NaN) by (cbn; cmp; reflexivity).
    rewrite A1, A2. cbn. replace (1 - 1 * 1) with 0 by ring. cmp. f_equal. rewrite <- inf_sgn_0. f_equal. ring.
Qed.

(** ** the statements of C130 *)
Lemma turbulence_cases u v l D r a : 0 <= l -> 0 <= D -> 0 < r ->
  (0 < D -> exists h, turbulence_OTF u v l D (Fin r) a = Fin h) /\
  (D = 0 -> 0 < l -> (u <> 0 \/ v <> 0) -> 0 < a -> turbulence_OTF u v l D (Fin r) a = PInf) /\
  (D = 0 -> 0 < l -> (u <> 0 \/ v <> 0) -> a < 0 -> turbulence_OTF u v l D (Fin r) a = Fin 0) /\
  (D = 0 -> l = 0 \/ (u = 0 /\ v = 0) \/ a = 0 -> turbulence_OTF u v l D (Fin r) a = NaN).
Proof.
  intros Hl HD Hr. split; [now intros; apply turb_finite|].
  assert (Q : 0 < l -> (u <> 0 \/ v <> 0) -> 0 < l * rho u v).
  { intros Hl' Hu. apply Rmult_lt_0_compat; auto. destruct (rho_pos u v) as [H|H]; auto. symmetry in H. apply rho_0 in H. tauto. }
  destruct (turb_no_aperture u v l r a Hl Hr) as (A & B & C).
  split; [|split]; intros ->; auto.
  intros H. apply C. destruct H as [->|[H|H]]; [left; ring | left; apply rho_0 in H; rewrite H; ring | now right].
Qed.
Lemma two_thirds : 0.841 <= Rpower (3 / 4) (3 / 5) <= 0.842.
Proof.
  assert (P : Rpower (3 / 4) (3 / 5) ^ 5 = (3 / 4) ^ 3).
  { rewrite <- !Rpower_pow by (try apply exp_pos; lra). rewrite Rpower_mult. f_equal. replace (INR 5) with 5 by (cbn; ring). replace (INR 3) with 3 by (cbn; ring). field. }
  assert (X : 0 < Rpower (3 / 4) (3 / 5)) by apply exp_pos. set (x := Rpower (3 / 4) (3 / 5)) in *. clearbody x.
  split.
  - destruct (Rle_dec 0.841 x) as [H|H]; auto. exfalso. assert (x ^ 5 < 0.841 ^ 5); [|lra].
    destruct (pow_incr x 0.841 5 ltac:(lra)); [lra|]. exfalso. cbn in *. nra.
  - destruct (Rle_dec x 0.842) as [H|H]; auto. exfalso. assert (0.842 ^ 5 <= x ^ 5) by (apply pow_incr; lra). lra.
Qed.
Lemma aperture_cases k u v l D : 0 < l -> 0 < D ->
  circular_aperture_OTF k 0 0 l D 1 = Ok PInf /\ (u <> 0 \/ v <> 0 -> circular_aperture_OTF k u v l D 1 = Ok NaN).
Proof.
  intros Hl HD. split; [|intros H]; rewrite full_obscuration by auto.
  - rewrite (proj2 (Reqb_true _ _)); [reflexivity|]. apply rho_0. auto.
  - rewrite (proj2 (Reqb_false _ _)); [reflexivity|]. intros E. apply rho_0 in E. tauto.
Qed.
