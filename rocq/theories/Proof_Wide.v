(** * Proof_Wide: bands of more than three octaves *)
From Coq Require Import Reals Lra List Lia Psatz.
From Coquelicot Require Import Coquelicot.
From Verif Require Proof_Turn.
From Verif Require Import Base_XR Base_Np Model_Geo Model_Db Model_Scenario Model_Sensor Model_Otf
  Spec_Otf Spec_System Spec_Chain Proof_Otf Proof_Turb Proof_Aper Proof_AperP Proof_System Proof_SystemX Proof_Weight Proof_Dull.
Import ListNotations.
Open Scope R_scope.

Lemma lens1_pos x : 0 <= x < 1 -> 0 < lens1 x.
Proof.
  intros Hx. unfold lens1. destruct (Rle_dec x 1) as [_|]; [|lra].
  assert (A : 0 < acos x <= PI / 2).
  { split; [|rewrite <- acos_0; apply acos_le; lra].
    destruct (acos_bound x) as [[G|G] _]; [exact G|]. assert (C := cos_acos x ltac:(lra)). rewrite <- G, cos_0 in C. lra. }
  assert (S : sqrt (1 - x * x) = sin (acos x)) by (rewrite sin_acos by lra; reflexivity).
  rewrite S. assert (SL : sin (acos x) < acos x) by (apply sin_lt_x; lra).
  assert (0 <= sin (acos x)) by (apply sin_ge_0; generalize PI_RGT_0; lra). nra.
Qed.
Lemma aperture_of_x D l u v : 0 < l -> 0 < D -> aperture_mtf D 0 l u v = 2 / PI * lens1 (xarg u v l D).
Proof.
  intros Hl HD. assert (E := circ_plain Np u v l D 0 Hl HD (Rle_refl 0)). rewrite circ_value in E by lra.
  apply ok_inj in E. injection E as E. exact E.
Qed.
Lemma mean_ge_one ps F p : good_spectrum ps -> (forall q, In q ps -> 0 <= F (fst q)) -> In p ps ->
  snd p / Rsum (map snd ps) * F (fst p) <= spectral_mean ps F.
Proof.
  intros (_ & W & T) HF Hp. unfold spectral_mean.
  replace (snd p / Rsum (map snd ps) * F (fst p)) with (snd p * F (fst p) / Rsum (map snd ps)) by (field; lra).
  apply Rmult_le_compat_r; [left; apply Rinv_0_lt_compat, T|]. clear T.
  induction ps as [|a ps IH]; [destruct Hp|]. change (Rsum (map (fun q => snd q * F (fst q)) (a :: ps))) with (snd a * F (fst a) + Rsum (map (fun q => snd q * F (fst q)) ps)).
  assert (P : forall l, (forall q, In q l -> 0 <= F (fst q)) -> (forall q, In q l -> 0 < fst q /\ 0 <= snd q) -> 0 <= Rsum (map (fun q => snd q * F (fst q)) l)).
  { induction l as [|b l IHl]; intros H1 H2; [apply Rle_refl|].
    change (0 <= snd b * F (fst b) + Rsum (map (fun q => snd q * F (fst q)) l)).
    assert (0 <= snd b * F (fst b)) by (apply Rmult_le_pos; [apply (H2 b) | apply (H1 b)]; left; reflexivity).
    assert (0 <= Rsum (map (fun q => snd q * F (fst q)) l)); [|lra].
    apply IHl; intros q Hq; [apply (H1 q) | apply (H2 q)]; right; exact Hq. }
  destruct Hp as [->|Hp].
  - assert (0 <= Rsum (map (fun q => snd q * F (fst q)) ps)); [|lra].
    apply P; intros q Hq; [apply (HF q) | apply (W q)]; right; exact Hq.
  - assert (0 <= snd a * F (fst a)) by (apply Rmult_le_pos; [apply (W a) | apply (HF a)]; left; reflexivity).
    assert (snd p * F (fst p) <= Rsum (map (fun q => snd q * F (fst q)) ps)); [|lra].
    apply IH; [intros q Hq; apply W; right; exact Hq | intros q Hq; apply HF; right; exact Hq | exact Hp].
Qed.
Lemma fried_pos r l D a rho : 0 < fried r l D a rho.
Proof. unfold fried. destruct (Rlt_dec 0 rho); [apply exp_pos | lra]. Qed.
Lemma turbulence_ge r l D d u v : 0 < r -> 0 <= d ->
  0 <= turbulence_mtf r l D d u v /\ exp (- (d / r)) * fried r l D (1 / 2) (sqrt (u * u + v * v)) <= turbulence_mtf r l D d u v.
Proof.
  intros Hr Hd. unfold turbulence_mtf. cbv zeta. set (rho := sqrt _).
  assert (E0 := exp_pos (- (d / r))).
  assert (E1 : exp (- (d / r)) <= 1) by (apply exp_le_1; assert (0 <= d / r) by (apply div_ge0; lra); lra).
  assert (A := fried_pos r l D (1 / 2) rho). assert (B := fried_pos r l D 0 rho).
  assert (0 <= (1 - exp (- (d / r))) * fried r l D 0 rho) by (apply Rmult_le_pos; lra).
  assert (0 < exp (- (d / r)) * fried r l D (1 / 2) rho) by (apply Rmult_lt_0_compat; lra). lra.
Qed.
(* beyond eight times the cutoff the short exposure grows with the aperture *)
Lemma fried_grows r l D rho X : 0 < r -> 0 < D -> r <= D -> 8 < X -> 0 < rho -> l * rho = X * D ->
  1 + 3.44 * (1 / 2 * Rpower X (1 / 3) - 1) * (X * D / r) <= fried r l D (1 / 2) rho /\ 0 < 1 / 2 * Rpower X (1 / 3) - 1.
Proof.
  intros Hr HD HrD HX Hrho E.
  assert (C : 2 < Rpower X (1 / 3)).
  { replace 2 with (Rpower 8 (1 / 3)); [apply Rlt_Rpower_l; lra|].
    replace 8 with (Rpower 2 3) by (rewrite (Rpower_pow 3 2 ltac:(lra)) || (replace 3 with (INR 3) by (cbn; lra); rewrite Rpower_pow by lra; lra)).
    rewrite Rpower_mult. replace (3 * (1 / 3)) with 1 by lra. apply Rpower_1. lra. }
  split; [|lra]. unfold fried. destruct (Rlt_dec 0 rho) as [_|]; [|lra]. rewrite E.
  replace (X * D / D) with X by (field; lra).
  set (q := Rpower X (1 / 3)) in *.
  assert (Y : 1 <= X * D / r).
  { apply Rmult_le_reg_r with r; [lra|]. unfold Rdiv. rewrite Rmult_assoc, Rinv_l by lra. nra. }
  set (y := X * D / r) in *.
  assert (Q : y <= Rpower y (5 / 3)).
  { rewrite <- (Rpower_1 y) at 1 by lra. apply Rle_Rpower; lra. }
  set (z := Rpower y (5 / 3)) in *.
  apply Rle_trans with (1 + (- 3.44 * z * (1 - 1 / 2 * q))); [|apply exp_ineq1_le].
  assert (0 <= (z - y) * (1 / 2 * q - 1)) by (apply Rmult_le_pos; lra). lra.
Qed.
Definition plain_camera (D px : R) : sensor := {|
  s_D := D; s_f := 1; s_px := px; s_py := px; s_wx := px; s_wy := px / px * px; s_eta := 0;
  s_owl := []; s_otr := []; s_qwl := []; s_qe := [];
  s_int_time := 1; s_dark := 0; s_other_irr := 0; s_read := 0; s_max_n := 100000000; s_max_fill := 1; s_bits := 100; s_ntdi := 1;
  s_T_shield := 70; s_T_opt := 270; s_e_opt := 0; s_t_filt := 1; s_T_filt := 70; s_e_filt := 0;
  s_sx := 0; s_sy := 0; s_dax := 0; s_day := 0; s_pv := 0; s_pv_wl := 0.633 / 10 ^ 6;
  s_Lx := D; s_Ly := D; s_other_noise := [0]; s_kernel := [[1]]; s_frames := 1 |}.
Lemma plain_camera_init D px : 0 < px -> sensor_init D 1 px [] 0 None None None default_kw = Ok (plain_camera D px).
Proof. intros H. unfold sensor_init. unfold pydiv. destruct (Reqb px 0) eqn:E; [apply Reqb_true in E; lra|]. reflexivity. Qed.
Lemma plain_camera_good D px : 0 < D -> good_optics (plain_camera D px).
Proof. intros H. unfold good_optics. cbn. repeat split; lra. Qed.
Lemma line_ft_0 a : line_ft a 0 = 1.
Proof.
  unfold line_ft. destruct (Req_EM_T a 0) as [|N]; [reflexivity|]. rewrite smear_sinc by exact N. rewrite Rmult_0_r.
  unfold Rsinc. now rewrite (proj2 (Reqb_true 0 0) eq_refl).
Qed.
Lemma line_ft_half u : 0 < u -> line_ft (/ (2 * u) / 1) u = 2 / PI.
Proof.
  intros H. assert (P : 0 < / (2 * u)) by (apply Rinv_0_lt_compat; lra). unfold line_ft. destruct (Req_EM_T _ 0) as [Z|N]; [lra|].
  rewrite smear_sinc by exact N. replace (/ (2 * u) / 1 * u) with (1 / 2) by (field; lra).
  unfold Rsinc. rewrite (proj2 (Reqb_false (1 / 2) 0)) by lra.
  replace (PI * (1 / 2)) with (PI / 2) by lra. rewrite sin_PI2. field. generalize PI_RGT_0; lra.
Qed.

Lemma wide_band diag k c ps sl ti p q M : good_spectrum ps -> In p ps -> In q ps -> 0 < snd p -> 0 < snd q ->
  8 * fst q < fst p -> good_path c sl -> 0 < plain c Cn2At1m -> 0 <= plain c AircraftSpeed * ti ->
  exists D px s u o a, 0 < D /\ 0 < px /\ sensor_init D 1 px [] 0 None None None default_kw = Ok s /\ good_optics s /\
    common_OTFs diag k s c [(u, 0)] (map fst ps) (map (fun x => Fin (snd x)) ps) sl ti = Ok o /\
    system_OTF o = [Fin a] /\ M < a.
Proof.
  intros GS Ip Iq Wp Wq H8 GP Cn Sp.
  assert (Lq : 0 < fst q) by apply (proj1 (proj2 GS) q Iq).
  set (lp := fst p) in *. set (lq := fst q) in *.
  (* the coherence diameter does not depend on the camera *)
  assert (R1 : exists r1, 0 < r1 /\ forall D px u o, 0 < D ->
    common_OTFs diag k (plain_camera D px) c [(u, 0)] (map fst ps) (map (fun x => Fin (snd x)) ps) sl ti = Ok o ->
    nth_error (turb_OTF o) 0 = Some (Fin (spectral_mean ps (fun l => turbulence_mtf (r_at r1 l) l D (plain c AircraftSpeed * (ti * 1)) u 0)))).
  { destruct (common_good diag k (plain_camera 1 1) c [(0, 0)] ps sl ti GS (plain_camera_good 1 1 ltac:(lra)) GP ltac:(cbn; lia)) as (o & E & _).
    destruct (common_factors _ _ _ _ _ _ _ _ _ GS (plain_camera_good 1 1 ltac:(lra)) GP E 0%nat 0 0 eq_refl) as (_ & _ & _ & _ & _ & _ & _ & _ & T).
    destruct (T Cn) as (zp & hp & r1 & P1 & A1 & B1 & _). exists r1. split; [exact P1|].
    intros D px u o' HD E'.
    destruct (common_factors _ _ _ _ _ _ _ _ _ GS (plain_camera_good D px HD) GP E' 0%nat u 0 eq_refl) as (_ & _ & _ & _ & _ & _ & _ & _ & T').
    destruct (T' Cn) as (zp' & hp' & r1' & P1' & A1' & B1' & T1' & _).
    rewrite A1 in A1'. apply ok_inj in A1'. injection A1' as <- <-. rewrite B1 in B1'. apply ok_inj in B1'. injection B1' as <-. exact T1'. }
  destruct R1 as (r1 & P1 & TR).
  set (r := r_at r1 lp). assert (Hr : 0 < r) by (apply Rmult_lt_0_compat; [exact P1 | apply exp_pos]).
  set (W := Rsum (map snd ps)). assert (HW : 0 < W) by apply GS.
  set (xq := (1 + 8 * lq / lp) / 2).
  assert (Lp : 0 < lp) by lra.
  assert (Q0 : 0 < 8 * lq / lp < 1).
  { split; [apply Rdiv_lt_0_compat; lra|]. apply Rmult_lt_reg_r with lp; [lra|]. unfold Rdiv. rewrite Rmult_assoc, Rinv_l by lra. lra. }
  assert (Hxq : 8 * lq / lp < xq < 1) by (unfold xq; lra).
  set (X := xq * lp / lq).
  assert (HX : 8 < X).
  { unfold X. apply Rmult_lt_reg_r with (lq / lp); [apply Rdiv_lt_0_compat; lra|].
    replace (8 * (lq / lp)) with (8 * lq / lp) by (field; lra). replace (xq * lp / lq * (lq / lp)) with xq by (field; lra). lra. }
  set (A := snd q / W * (2 / PI * lens1 xq)).
  assert (HA : 0 < A).
  { unfold A. assert (L1 := lens1_pos xq ltac:(lra)). assert (0 < 2 / PI) by (apply Rdiv_lt_0_compat; generalize PI_RGT_0; lra).
    assert (0 < snd q / W) by (apply Rdiv_lt_0_compat; lra). apply Rmult_lt_0_compat; [lra|]. apply Rmult_lt_0_compat; lra. }
  set (e := exp (- (plain c AircraftSpeed * (ti * 1) / r))). assert (He : 0 < e) by apply exp_pos.
  set (B := snd p / W * e). assert (HB : 0 < B) by (apply Rmult_lt_0_compat; [apply Rdiv_lt_0_compat; lra | exact He]).
  set (g := 1 / 2 * Rpower X (1 / 3) - 1).
  assert (Hg : 0 < g) by apply (fried_grows 1 1 1 X X ltac:(lra) ltac:(lra) ltac:(lra) HX ltac:(lra) ltac:(lra)).
  set (S := 3.44 * g * X / r). assert (HS : 0 < S).
  { unfold S. apply Rdiv_lt_0_compat; [|lra]. apply Rmult_lt_0_compat; lra. }
  set (K := A * B * S * (2 / PI)). assert (HK : 0 < K).
  { unfold K. assert (0 < 2 / PI) by (apply Rdiv_lt_0_compat; generalize PI_RGT_0; lra). apply Rmult_lt_0_compat; [|assumption]. apply Rmult_lt_0_compat; [|exact HS]. apply Rmult_lt_0_compat; assumption. }
  set (D := r + Rabs M / K).
  assert (HM : 0 <= Rabs M / K) by (apply div_ge0; [apply Rabs_pos | lra]).
  assert (HD : 0 < D) by (unfold D; lra).
  assert (KM : M < K * D).
  { unfold D. replace (K * (r + Rabs M / K)) with (K * r + Rabs M) by (field; lra). assert (0 < K * r) by (apply Rmult_lt_0_compat; lra).
    generalize (Rle_abs M). lra. }
  set (u := xq * D / lq). assert (Hu : 0 < u) by (apply Rdiv_lt_0_compat; [apply Rmult_lt_0_compat; lra | lra]).
  assert (Su : sqrt (u * u + 0 * 0) = u) by (replace (u * u + 0 * 0) with (u * u) by ring; apply sqrt_square; lra).
  exists D, (/ (2 * u)), (plain_camera D (/ (2 * u))), u.
  assert (Px : 0 < / (2 * u)) by (apply Rinv_0_lt_compat; lra).
  destruct (common_good diag k (plain_camera D (/ (2 * u))) c [(u, 0)] ps sl ti GS (plain_camera_good _ _ HD) GP ltac:(cbn; lia)) as (o & E & Le & _).
  destruct (system_product _ _ _ _ _ _ _ _ _ GS (plain_camera_good _ _ HD) GP E 0%nat u 0 eq_refl) as (t & f & Et & Ef & Es).
  destruct (common_factors _ _ _ _ _ _ _ _ _ GS (plain_camera_good _ _ HD) GP E 0%nat u 0 eq_refl) as (_ & _ & _ & _ & _ & F1 & _).
  rewrite F1 in Ef by (cbn; lia). injection Ef as <-.
  rewrite (TR _ _ _ _ HD E) in Et. injection Et as <-.
  rewrite xmul_fin in Es.
  cbn [plain_camera s_D s_eta s_wx s_wy s_f s_sx s_sy s_dax s_day s_ntdi s_pv s_pv_wl s_Lx s_Ly] in Es.
  match type of Es with _ = Some (Fin ?a) => exists o, a end.
  split; [exact HD|]. split; [exact Px|]. split; [apply plain_camera_init, Px|]. split; [apply plain_camera_good, HD|].
  split; [exact E|]. split.
  { destruct (system_OTF o) as [|x [|y l]]; [discriminate Le| |discriminate Le]. cbn in Es. now injection Es as ->. }
  rewrite line_ft_0, line_ft_half by exact Hu. rewrite line_ft_0.
  replace (0 * ti * 1) with 0 by ring.
  replace (line_ft 0 u) with 1 by (unfold line_ft; destruct (Req_EM_T 0 0); [reflexivity | lra]).
  replace (jitter_mtf_of 0 0 u 0) with 1 by (unfold jitter_mtf_of; symmetry; rewrite <- exp_0; f_equal; ring).
  rewrite (Proof_Turn.mean_ext ps (fun l => wavefront_mtf 0 _ D D l u 0) (fun _ => 1)).
  2: { intros x. unfold wavefront_mtf. rewrite <- exp_0. f_equal. ring. }
  replace (spectral_mean ps (fun _ => 1)) with 1.
  2: { assert (Bd := mean_bounds ps (fun _ => 1) 1 1 GS ltac:(intros; lra)). lra. }
  set (am := spectral_mean ps (fun l => aperture_mtf D 0 l u 0)).
  set (tm := spectral_mean ps _).
  assert (Am : A <= am).
  { unfold A, am. replace (2 / PI * lens1 xq) with (aperture_mtf D 0 lq u 0).
    - apply (mean_ge_one ps (fun l => aperture_mtf D 0 l u 0) q GS); [|exact Iq].
      intros x Hx. apply aperture_01; [apply GS, Hx | exact HD | lra].
    - rewrite aperture_of_x by lra. do 2 f_equal. unfold xarg. rewrite Su. unfold u. field. lra. }
  assert (Tm : B * (S * D) <= tm).
  { assert (d0 : 0 <= plain c AircraftSpeed * (ti * 1)) by lra.
    apply Rle_trans with (snd p / W * turbulence_mtf (r_at r1 lp) lp D (plain c AircraftSpeed * (ti * 1)) u 0).
    - destruct (turbulence_ge r lp D (plain c AircraftSpeed * (ti * 1)) u 0 Hr d0) as (_ & G). rewrite Su in G. fold r.
      destruct (fried_grows r lp D u X Hr HD ltac:(unfold D; lra) HX Hu) as (G1 & _). { unfold X, u. field. lra. }
      fold g in G1. fold e in G. unfold B. rewrite Rmult_assoc. apply Rmult_le_compat_l; [left; apply Rdiv_lt_0_compat; lra|].
      apply Rle_trans with (2 := G). apply Rmult_le_compat_l; [lra|]. apply Rle_trans with (2 := G1).
      unfold S. replace (3.44 * g * X / r * D) with (3.44 * g * (X * D / r)) by (field; lra). lra.
    - unfold tm. apply (mean_ge_one ps (fun l => turbulence_mtf (r_at r1 l) l D (plain c AircraftSpeed * (ti * 1)) u 0) p GS); [|exact Ip].
      intros x Hx. apply turbulence_ge; [|exact d0]. apply Rmult_lt_0_compat; [exact P1 | apply exp_pos]. }
  assert (SD : 0 < S * D) by (apply Rmult_lt_0_compat; lra).
  assert (0 < B * (S * D)) by (apply Rmult_lt_0_compat; lra).
  assert (A * (B * (S * D)) <= am * tm) by (apply Rmult_le_compat; lra).
  assert (P2 : 0 < 2 / PI) by (apply Rdiv_lt_0_compat; generalize PI_RGT_0; lra).
  apply Rlt_le_trans with (1 := KM). unfold K.
  replace (A * B * S * (2 / PI) * D) with (A * (B * (S * D)) * (2 / PI)) by ring.
  replace (am * tm * (2 / PI * 1) * 1 * (1 * 1) * 1) with (am * tm * (2 / PI)) by ring.
  rewrite ?Rmult_1_r. apply Rmult_le_compat_r; lra.
Qed.
