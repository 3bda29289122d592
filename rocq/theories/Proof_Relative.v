(** * Proof_Relative: relative error of the edge responses and what it does to the rating (C133) *)
From Coq Require Import Reals Lra Lia List Psatz.
From Coquelicot Require Import Coquelicot.
From Verif Require Import Base_XR Base_Np Model_Geo Model_Db Model_Scenario Model_Sensor Model_Rad Model_Otf Model_Met
  Spec_Geo Spec_Rad Spec_Otf Spec_Chain Spec_Met Spec_Whole Spec_Rating Spec_EdgeError Spec_EdgeSystem Spec_Conditioning
  Proof_Giqe Proof_EdgeError Proof_NiirsDemo Proof_TradeDemo Proof_DullDemo Proof_StackDemo Proof_Rating Proof_EdgeSystem Proof_Conditioning.
Import ListNotations.
Open Scope R_scope.

Lemma sin_chord z : 0 <= z <= PI / 2 -> 2 / PI * z <= sin z.
Proof.
  intros H. assert (P := PI_RGT_0). destruct (Req_dec z 0) as [->|N]; [rewrite sin_0; lra|]. destruct (Req_dec z (PI / 2)) as [->|N'].
  { rewrite sin_PI2. apply Req_le. field. lra. }
  (* sin is concave: compare the mean slopes on both sides of z *)
  destruct (MVT_cor2 sin cos 0 z ltac:(lra)) as (u & Hu & Bu); [intros; apply derivable_pt_lim_sin|].
  destruct (MVT_cor2 sin cos z (PI / 2) ltac:(lra)) as (v & Hv & Bv); [intros; apply derivable_pt_lim_sin|].
  rewrite sin_0 in Hu. rewrite sin_PI2 in Hv. assert (C : cos v <= cos u) by (apply cos_decr_1; lra).
  assert (D : 0 <= sin z * (PI / 2) - z).
  { replace (sin z * (PI / 2) - z) with (sin z * (PI / 2 - z) - z * (1 - sin z)) by ring. rewrite Hv. replace (sin z) with (cos u * z) by lra.
    replace (cos u * z * (PI / 2 - z) - z * (cos v * (PI / 2 - z))) with (z * (PI / 2 - z) * (cos u - cos v)) by ring.
    apply Rmult_le_pos; [apply Rmult_le_pos|]; lra. }
  apply (Rmult_le_reg_r (PI / 2)); [lra|]. replace (2 / PI * z * (PI / 2)) with z by (field; lra). lra.
Qed.
Lemma wave_low i W w : 0 < i -> 0 < W -> i * W <= 1 / 2 -> 0 <= w <= W -> 2 * i <= wave (i * (1 / 2)) w.
Proof.
  intros Hi HW B Hw. assert (P := PI_RGT_0). unfold wave. destruct (Req_EM_T w 0) as [E|E].
  - assert (P2 := PI2_3_2). nra.
  - assert (B2 : i * w <= 1 / 2) by nra. replace (2 * PI * (i * (1 / 2)) * w) with (PI * (i * w)) by field.
    assert (0 <= i * w) by nra. assert (S := sin_chord (PI * (i * w))). assert (0 <= PI * (i * w) <= PI / 2) by nra. specialize (S ltac:(lra)).
    apply (Rmult_le_reg_r w); [lra|]. replace (sin (PI * (i * w)) / w * w) with (sin (PI * (i * w))) by (field; lra).
    replace (2 / PI * (PI * (i * w))) with (2 * i * w) in S by (field; lra). exact S.
Qed.
Lemma slope_large m W L i J : 0 < W -> gentle m W L -> m W = 0 -> m 0 = 1 -> (forall w, 0 <= w <= W -> 0 <= m w) -> 0 < i -> i * W <= 1 / 2 ->
  is_RInt (fun w => m w * wave (i * (1 / 2)) w) 0 W J -> 1 <= L /\ i * W / L <= J.
Proof.
  intros HW G E0 E1 Pos Hi B HJ.
  assert (HL : 1 <= L).
  { specialize (G 0 W ltac:(lra) ltac:(lra)). rewrite E0, E1 in G. replace (1 - 0) with 1 in G by ring. replace (0 - W) with (- W) in G by ring.
    rewrite Rabs_Ropp, !Rabs_pos_eq in G by lra. replace (L / W * W) with L in G by (field; lra). exact G. }
  split; [exact HL|]. set (c := W / L). assert (Hc : 0 < c <= W).
  { unfold c. split; [apply Rdiv_lt_0_compat; lra|]. apply (Rmult_le_reg_r L); [lra|]. unfold Rdiv. rewrite Rmult_assoc, Rinv_l, Rmult_1_r by lra. nra. }
  set (f := fun w => m w * wave (i * (1 / 2)) w) in *. assert (EX : ex_RInt f 0 W) by (exists J; exact HJ).
  assert (X1 : ex_RInt f 0 c) by (apply (ex_RInt_Chasles_1 (V := R_CompleteNormedModule) f 0 c W); [lra | exact EX]).
  assert (X2 : ex_RInt f c W) by (apply (ex_RInt_Chasles_2 (V := R_CompleteNormedModule) f 0 c W); [lra | exact EX]).
  assert (S : J = RInt f 0 c + RInt f c W).
  { rewrite <- (is_RInt_unique _ _ _ _ HJ). symmetry. apply (RInt_Chasles f 0 c W X1 X2). }
  assert (low : is_RInt (fun w => 2 * i * (1 - w / c)) 0 c (i * c)).
  { assert (H : is_RInt (fun w => 2 * i * (1 - w / c)) 0 c (minus (2 * i * (c - c ^ 2 / (2 * c))) (2 * i * (0 - 0 ^ 2 / (2 * c))))).
    { apply (is_RInt_derive (fun w => 2 * i * (w - w ^ 2 / (2 * c)))).
      - intros w _. auto_derive; [trivial|]. field. lra.
      - intros w _. apply (continuous_mult (fun _ => 2 * i)); [apply continuous_const|]. apply (continuous_minus (fun _ => 1) (fun w => w / c)); [apply continuous_const|].
        apply (continuous_mult (fun w => w) (fun _ => / c)); [apply continuous_id | apply continuous_const]. }
    replace (i * c) with (minus (2 * i * (c - c ^ 2 / (2 * c))) (2 * i * (0 - 0 ^ 2 / (2 * c)))); [exact H|]. unfold minus, plus, opp. simpl. field. lra. }
  assert (A : i * c <= RInt f 0 c).
  { rewrite <- (is_RInt_unique _ _ _ _ low). apply RInt_le; [lra | exists (i * c); exact low | exact X1|].
    intros w Hw. unfold f. assert (M := G 0 w ltac:(lra) ltac:(lra)). rewrite E1 in M. replace (Rabs (0 - w)) with w in M by (replace (0 - w) with (- w) by ring; rewrite Rabs_Ropp, Rabs_pos_eq; lra).
    apply Rabs_le_inv in M. assert (Q : L / W * w = w / c) by (unfold c; field; lra). rewrite Q in M. assert (V := wave_low i W w Hi HW B ltac:(lra)).
    assert (0 <= 1 - w / c). { assert (w / c <= 1); [|lra]. apply (Rmult_le_reg_r c); [lra|]. unfold Rdiv. rewrite Rmult_assoc, Rinv_l, Rmult_1_r, Rmult_1_l by lra. lra. }
    rewrite Rmult_comm. apply Rmult_le_compat; lra. }
  assert (A2 : 0 <= RInt f c W).
  { apply RInt_ge_0; [lra | exact X2|]. intros w Hw. unfold f. apply Rmult_le_pos; [apply Pos; lra|]. assert (V := wave_low i W w Hi HW B ltac:(lra)). lra. }
  replace (i * W / L) with (i * c) by (unfold c; field; lra). lra.
Qed.

Lemma within_of k X r E : 1 <= k -> 0 < X -> Rabs (r - X) <= E -> E <= (1 - 1 / k) * X -> within k X r.
Proof.
  intros K HX A B. apply Rabs_le_inv in A. assert (I : 0 < / k <= 1) by (split; [apply Rinv_0_lt_compat; lra | rewrite <- Rinv_1; apply Rinv_le_contravar; lra]).
  unfold within. split; [exact K|]. unfold Rdiv in *. rewrite Rmult_1_l in B. assert (k * / k = 1) by (apply Rinv_r; lra). split; [lra|].
  assert (2 - / k <= k) by nra. nra.
Qed.
Lemma slope_ratio m W L n i e e' : 0 < W -> gentle m W L -> m W = 0 -> m 0 = 1 -> (forall w, 0 <= w <= W -> 0 <= m w) -> 0 < i -> i * W <= 1 / 2 -> (0 < n)%nat ->
  blurred_edge m W (i * (1 / 2)) e -> blurred_edge m W (i * - (1 / 2)) e' -> forall k, 1 <= k -> relative_share (PI * i * W) L W n <= 1 - 1 / k ->
  0 < e - e' /\ 2 * edge_error (PI * Rabs i * W) L W n <= (1 - 1 / k) * (e - e').
Proof.
  intros HW G E0 E1 Pos Hi B Hn He He' k K H. assert (P := PI_RGT_0). assert (N : 0 < INR n) by (apply lt_0_INR; lia).
  assert (O := blurred_odd _ _ _ _ He). replace (- (i * (1 / 2))) with (i * - (1 / 2)) in O by ring. assert (Q := blurred_unique _ _ _ _ _ He' O).
  destruct He as (J & HJ & ->). destruct (slope_large m W L i J HW G E0 E1 Pos Hi B HJ) as (HL & Low).
  assert (X : e' = 1 / 2 - J / PI) by lra. rewrite X. replace (1 / 2 + J / PI - (1 / 2 - J / PI)) with (2 * J / PI) by (field; lra).
  assert (J0 : 0 < i * W / L) by (apply Rdiv_lt_0_compat; [apply Rmult_lt_0_compat|]; lra).
  split; [apply Rdiv_lt_0_compat; lra|]. rewrite (Rabs_pos_eq i) by lra.
  replace (2 * edge_error (PI * i * W) L W n) with (relative_share (PI * i * W) L W n * (2 * (i * W / L) / PI)) by (unfold edge_error, relative_share; field; repeat split; lra).
  assert (K1 : 0 <= 1 - 1 / k). { assert (1 / k <= 1); [|lra]. apply (Rmult_le_reg_r k); [lra|]. unfold Rdiv. rewrite Rmult_assoc, Rinv_l by lra. lra. }
  apply Rle_trans with ((1 - 1 / k) * (2 * (i * W / L) / PI)).
  - apply Rmult_le_compat_r; [left; apply Rdiv_lt_0_compat; lra | exact H].
  - apply Rmult_le_compat_l; [exact K1|]. apply div_le; lra.
Qed.
Lemma relative_ratio m W L n ifov k : 0 < W -> gentle m W L -> transfer m W -> m 0 = 1 -> (forall w, 0 <= w <= W -> 0 <= m w) -> 0 < ifov -> ifov * W <= 1 / 2 -> (0 < n)%nat ->
  1 <= k -> relative_share (PI * ifov * W) L W n <= 1 - 1 / k ->
  exists r e e', relative_edge_response (samples m W n) (W / INR n) ifov = Ok (Fin r) /\
    blurred_edge m W (ifov * (1 / 2)) e /\ blurred_edge m W (ifov * - (1 / 2)) e' /\ 0 < e - e' /\ within k (e - e') r.
Proof.
  intros HW G T E1 Pos Hi B Hn K H.
  assert (HL : 0 <= L). { specialize (G 0 W ltac:(lra) ltac:(lra)). rewrite E1, (proj2 T) in G. replace (1 - 0) with 1 in G by ring. replace (0 - W) with (- W) in G by ring.
    rewrite Rabs_Ropp, !Rabs_pos_eq in G by lra. replace (L / W * W) with L in G by (field; lra). lra. }
  destruct (relative_near m W L n ifov HW HL Hn G T) as (r & e & e' & R & A & A' & D).
  destruct (slope_ratio m W L n ifov e e' HW G (proj2 T) E1 Pos Hi B Hn A A' k K H) as (P & Q).
  exists r, e, e'. split; [exact R|]. split; [exact A|]. split; [exact A'|]. split; [exact P|]. exact (within_of k _ r _ K P D Q).
Qed.

(** ** the rating *)
Lemma rating5_slopes r r' w s k M : 0 < r -> 0 < s -> within k r r' -> Rabs (log10 r) <= M -> Rabs (log10 r') <= M ->
  Rabs (rating5 r' w s - rating5 r w s) <= (3.32 + 8 * M ^ 3) * log10 k.
Proof.
  intros Hr Hs K A B. assert (W1 : within 1 1 1) by (unfold within; lra).
  assert (H := rating5_moves r r' 1 1 s s k 1 M Hr Rlt_0_1 Hs Hs K W1 A B). replace (1 / s - 1 / s) with 0 in H by ring. rewrite Rabs_R0, Rmult_0_r, Rplus_0_r in H.
  replace (log10 1) with 0 in H by (unfold log10; rewrite ln_1; unfold Rdiv; ring). rewrite Rmult_0_r, Rplus_0_r in H.
  rewrite Rabs_minus_sym. replace (rating5 r w s - rating5 r' w s) with (rating5 r 1 s - rating5 r' 1 s) by (unfold rating5; ring). exact H.
Qed.
Lemma cube_root p : 0 < p -> exists r, 0 < r /\ r ^ 3 = p.
Proof.
  intros H. exists (Rpower p (/ 3)). split; [apply exp_pos|]. rewrite <- Rpower_pow by apply exp_pos. rewrite Rpower_mult.
  replace (/ 3 * INR 3) with 1 by (cbn; field). now apply Rpower_1.
Qed.
Lemma niirs5_rated ni it diag s c itp m em tr q : loaded ni it c itp m -> good_camera s ->
  (em = true <-> emissive_band s) -> good_atmosphere s em (atm_rows m) -> 0 < altitude c -> response_curves s tr q ->
  (0 < plain c Cn2At1m -> 0 <= plain c AircraftSpeed) -> forall s1 c1 mt snr, niirs5 ni it diag s c itp = (s1, c1, Ok mt) ->
  m_snr (ct_snr (f_contrast mt)) = Fin snr -> 0 < snr -> 0 < s_frames s ->
  let L := dist (above earth_radius 0 (ground_range c / earth_radius)) (above earth_radius (altitude c) 0) in
  exists rows lmin r1, seen_rows s (atm_rows m) rows /\ (0 < plain c Cn2At1m -> seeing c L r1) /\
    let ps := charge_spectrum s tr q (giqe_target em) rows in
    In lmin (map fst ps) /\ (forall p, In p ps -> lmin <= fst p) /\
    let t := share s (Rmax (charge s tr q (giqe_target em) rows) (charge s tr q (giqe_background em) rows)) * s_int_time s in
    let W := s_D s / lmin in
    let mtf u v := Rabs (system_mtf (with_int_time s t) c ps r1 u v) in
    let T := if Rlt_dec 0 (plain c Cn2At1m) then 1.8 * (s_D s / r_at r1 lmin) else 0 in
    forall lmax k, (forall p, In p ps -> fst p <= lmax) -> (0 < plain c Cn2At1m -> lmax <= 4 * lmin) -> 1 <= k ->
    s_px s / s_f s * W <= 1 / 2 -> s_py s / s_f s * W <= 1 / 2 ->
    relative_share (PI * (s_px s / s_f s) * W)
      (T + roughness W (s_eta s) lmin lmax (s_wx s / s_f s) (s_sx s) (s_dax s * (t * s_ntdi s)) (s_pv s) (s_pv_wl s) (s_Lx s)) W 50 <= 1 - 1 / k ->
    relative_share (PI * (s_py s / s_f s) * W)
      (T + roughness W (s_eta s) lmin lmax (s_wy s / s_f s) (s_sy s) (s_day s * (t * s_ntdi s)) (s_pv s) (s_pv_wl s) (s_Ly s)) W 50 <= 1 - 1 / k ->
    exists x x' y y' r r' gw v,
      blurred_edge (fun w => mtf w 0) W (s_px s / s_f s * (1 / 2)) x /\ blurred_edge (fun w => mtf w 0) W (s_px s / s_f s * - (1 / 2)) x' /\
      blurred_edge (fun w => mtf 0 w) W (s_py s / s_f s * (1 / 2)) y /\ blurred_edge (fun w => mtf 0 w) W (s_py s / s_f s * - (1 / 2)) y' /\
      0 < x - x' /\ 0 < y - y' /\ 0 < r' /\ r' ^ 3 = Rmax (x - x') (y - y') * Rmin (x - x') (y - y') ^ 2 /\
      f_rer mt = Fin r /\ within k r' r /\ f_gsd_w mt = Fin gw /\ f_niirs mt = Fin v /\
      forall M, Rabs (log10 r) <= M -> Rabs (log10 r') <= M ->
        Rabs (v - rating5 r' gw (sqrt (s_frames s) * snr)) <= (3.32 + 8 * M ^ 3) * log10 k.
Proof.
  intros Hload Hcam Hem Hatm Halt Hrc Hac s1 c1 mt snr H Hsnr Psnr Pfr L.
  destruct (niirs5_shape ni it diag s c itp m em tr q Hload Hcam Hem Hatm Halt Hrc Hac s1 c1 mt H) as (rows & lmin & r1 & V & SE & I1 & I2 & S).
  exists rows, lmin, r1. split; [exact V|]. split; [exact SE|]. split; [exact I1|]. split; [exact I2|]. intros t W mtf T lmax k B H4 K Bx By Sx Sy.
  destruct (good_ps s tr q em rows _ lmin Hatm V I1) as (L0 & _).
  destruct Hcam as (_ & _ & (HD & _) & Hf & Hpx & Hpy).
  assert (HW : 0 < W) by (apply Rdiv_lt_0_compat; lra).
  assert (Ix : 0 < s_px s / s_f s) by (apply Rdiv_lt_0_compat; lra). assert (Iy : 0 < s_py s / s_f s) by (apply Rdiv_lt_0_compat; lra).
  destruct (S lmax B H4) as (r0 & r90 & x & x' & y & y' & E0 & E9 & X1 & X2 & Y1 & Y2 & X3 & Y3 & Gx & Zx & Gy & Zy & One & RT).
  fold t in X1, X2, Y1, Y2, X3, Y3, Gx, Zx, Gy, Zy, One. fold W in X1, X2, Y1, Y2, X3, Y3, Gx, Zx, Gy, Zy. fold T in X3, Y3, Gx, Gy.
  destruct (slope_ratio (fun w => mtf w 0) W _ 50 (s_px s / s_f s) x x' HW Gx Zx One (fun w _ => Rabs_pos _) Ix Bx ltac:(lia) X1 X2 k K Sx) as (Px & Qx).
  destruct (slope_ratio (fun w => mtf 0 w) W _ 50 (s_py s / s_f s) y y' HW Gy Zy One (fun w _ => Rabs_pos _) Iy By ltac:(lia) Y1 Y2 k K Sy) as (Py & Qy).
  assert (Wx := within_of k _ _ _ K Px X3 Qx). assert (Wy := within_of k _ _ _ K Py Y3 Qy).
  assert (P0 := within_pos _ _ _ Px Wx). assert (P9 := within_pos _ _ _ Py Wy).
  assert (P : forall a b, 0 < a -> 0 < b -> 0 < Rmax a b /\ 0 < Rmin a b) by (intros; split; [apply Rmax_case | apply Rmin_case]; assumption).
  destruct (P _ _ P0 P9) as (M1 & M2). destruct (P _ _ Px Py) as (N1 & N2).
  destruct (RT snr Hsnr M1 ltac:(lra) Pfr ltac:(lra)) as (r & gw & R0 & R1 & R2 & R3 & R4).
  destruct (cube_root (Rmax (x - x') (y - y') * Rmin (x - x') (y - y') ^ 2)) as (r' & R0' & R1'); [apply Rmult_lt_0_compat; [exact N1 | now apply pow_lt]|].
  destruct (within_max _ _ _ _ _ Wx Wy) as (WM & Wm).
  assert (WR := within_cube k _ _ _ _ r' r N1 N2 WM Wm R0' R0 R1' R1).
  exists x, x', y, y', r, r', gw. eexists.
  split; [exact X1|]. split; [exact X2|]. split; [exact Y1|]. split; [exact Y2|]. split; [exact Px|]. split; [exact Py|]. split; [exact R0'|]. split; [exact R1'|].
  split; [exact R2|]. split; [exact WR|]. split; [exact R3|]. split; [exact R4|].
  intros M A A'. apply rating5_slopes; auto. apply Rmult_lt_0_compat; [now apply sqrt_lt_R0 | exact Psnr].
Qed.

(** ** a thermal camera in calm air *)
Lemma thermal_share lmin i W det : 8 / 10 ^ 6 <= lmin <= 12 / 10 ^ 6 -> W = 0.3 / lmin -> i = 2 / 10 ^ 6 -> det = 2 / 10 ^ 6 -> forall d pl,
  i * W <= 1 / 2 /\ relative_share (PI * i * W) (0 + roughness W 0.4 lmin (12 / 10 ^ 6) det 0 (0 * d) 0 pl 1) W 50 <= 1 - 1 / 1.3.
Proof.
  intros Hl -> -> -> d pl. assert (P := PI_RGT_0). assert (P4 := PI_4). assert (P3 : 3 < PI) by (generalize PI2_3_2; lra).
  set (u := / lmin). assert (U : 1000000 / 12 <= u <= 125000).
  { unfold u. split; [apply (Rmult_le_reg_r lmin); [lra|]; rewrite Rinv_l by lra; lra|]. apply (Rmult_le_reg_r lmin); [lra|]. rewrite Rinv_l by lra. lra. }
  assert (UW : 0.3 / lmin = 0.3 * u) by reflexivity. assert (U0 : 0 < lmin) by lra. rewrite UW. split; [lra|].
  assert (R : 0 + roughness (0.3 * u) 0.4 lmin (12 / 10 ^ 6) (2 / 10 ^ 6) 0 (0 * d) 0 pl 1 = 80 / 10 ^ 6 * (u * / PI) + PI * (3 / 10 ^ 7 * u)).
  { unfold roughness. rewrite Rmult_0_l, !Rabs_R0, (Rabs_pos_eq (2 / 10 ^ 6)), Rmax_right by lra. replace (12 / 10 ^ 6 / lmin) with (12 / 10 ^ 6 * u) by reflexivity.
    unfold Rdiv. rewrite !Rmult_0_l, !Rmult_0_r, !Rmult_0_l, !Rinv_mult. lra. }
  rewrite R. assert (IP : 0 < / PI <= 0.3334) by (split; [apply Rinv_0_lt_compat; lra|]; apply Rle_trans with (/ 3); [apply Rinv_le_contravar; lra | lra]).
  set (L := 80 / 10 ^ 6 * (u * / PI) + PI * (3 / 10 ^ 7 * u)).
  assert (A : PI * L <= 10.6). { replace (PI * L) with (80 / 10 ^ 6 * u * (PI * / PI) + PI * PI * (3 / 10 ^ 7 * u)) by (unfold L; ring). rewrite Rinv_r by lra. assert (PI * PI <= 16) by nra. nra. }
  assert (B : 0 <= L <= 3.49). { unfold L. assert (0 < u * / PI <= 125000 * 0.3334) by nra. nra. }
  unfold relative_share. replace (INR 50) with 50 by (rewrite INR_IZR_INZ; reflexivity).
  assert (C : PI * (2 / 10 ^ 6) * (0.3 * u) <= 0.3) by nra. assert (C0 : 0 <= PI * (2 / 10 ^ 6) * (0.3 * u)) by nra.
  set (a := PI * (2 / 10 ^ 6) * (0.3 * u)) in *.
  assert (D : a / (2 * 10 ^ 6 * (0.3 * u)) <= 1 / 10 ^ 6).
  { apply (Rmult_le_reg_r (2 * 10 ^ 6 * (0.3 * u))); [lra|]. unfold Rdiv at 1. rewrite Rmult_assoc, Rinv_l, Rmult_1_r by lra. lra. }
  assert (D0 : 0 <= a / (2 * 10 ^ 6 * (0.3 * u))) by (apply Rmult_le_pos; [lra | left; apply Rinv_0_lt_compat; lra]).
  set (e := a / (2 * 10 ^ 6 * (0.3 * u))) in *. apply Rle_trans with (10.6 * 0.0196); [|lra].
  apply Rmult_le_compat; try lra. apply Rmult_le_pos; lra.
Qed.
Lemma calm_rated : exists s1 c1 mt snr v r r' gw, niirs5 demo_load demo_load no_diag (thermal [[1]] 1) calm false = (s1, c1, Ok mt) /\
  m_snr (ct_snr (f_contrast mt)) = Fin snr /\ 0 < snr /\ f_niirs mt = Fin v /\ f_rer mt = Fin r /\ f_gsd_w mt = Fin gw /\ 0 < r' /\ within 1.3 r' r /\
  forall M, Rabs (log10 r) <= M -> Rabs (log10 r') <= M -> Rabs (v - rating5 r' gw (sqrt 1 * snr)) <= (3.32 + 8 * M ^ 3) * log10 1.3.
Proof.
  destruct calm_demo as (A & B & C & D & E & (tr & q & F) & G & s1 & c1 & mt & H). destruct windy_demo as (_ & _ & _ & _ & _ & _ & _ & _ & _ & Bd).
  destruct (bright_cases demo_load demo_load no_diag (thermal [[1]] 1) calm false demo_m A) with (ct := f_contrast mt) as (snr & Es & _ & Ps).
  - apply B.
  - apply B.
  - apply D.
  - apply D.
  - left. apply C. reflexivity.
  - right. exists s1, c1, mt. split; [exact H | reflexivity].
  - specialize (Ps (demo_exposes _ _ _ _) (thermal_sees _ _)).
    assert (Z : ~ 0 < plain calm Cn2At1m) by (cbn; lra).
    destruct (niirs5_rated demo_load demo_load no_diag (thermal [[1]] 1) calm false demo_m true tr q A B C D E F (fun X => False_ind _ (Z X)) s1 c1 mt snr H Es Ps Rlt_0_1)
      as (rows & lmin & r1 & V & _ & I1 & I2 & S).
    specialize (Bd tr q rows V). assert (Bl : 8 / 10 ^ 6 <= lmin <= 12 / 10 ^ 6). { apply in_map_iff in I1. destruct I1 as (p & <- & Hp). auto. }
    cbv zeta in S. destruct (Rlt_dec 0 (plain calm Cn2At1m)) as [X|_]; [contradiction|].
    assert (I : s_px (thermal [[1]] 1) / s_f (thermal [[1]] 1) = 2 / 10 ^ 6) by (cbn; lra).
    destruct (S (12 / 10 ^ 6) 1.3) as (x & x' & y & y' & r & r' & gw & v & _ & _ & _ & _ & _ & _ & R0 & _ & R1 & R2 & R3 & R4 & R5).
    + intros p Hp. apply Bd. exact Hp.
    + intros X. contradiction.
    + lra.
    + exact (proj1 (thermal_share lmin _ _ (2 / 10 ^ 6) Bl eq_refl I eq_refl 0 0)).
    + exact (proj1 (thermal_share lmin _ _ (2 / 10 ^ 6) Bl eq_refl I eq_refl 0 0)).
    + exact (proj2 (thermal_share lmin _ _ _ Bl eq_refl I I _ _)).
    + exact (proj2 (thermal_share lmin _ _ _ Bl eq_refl I I _ _)).
    + exists s1, c1, mt, snr, v, r, r', gw. repeat (split; [assumption|]). exact R5.
Qed.
