(** * Proof_Conditioning: how far errors of the inputs move the ratings (C133) *)
From Coq Require Import Reals Lra Lia List Psatz.
From Coquelicot Require Import Coquelicot.
From Verif Require Import Base_XR Base_Np Model_Geo Model_Db Model_Scenario Model_Sensor Model_Rad Model_Otf Model_Met
  Spec_Geo Spec_Rad Spec_Otf Spec_Chain Spec_Met Spec_Whole Spec_Rating Spec_EdgeError Spec_EdgeSystem Spec_Conditioning
  Proof_Giqe Proof_EdgeError Proof_NiirsDemo Proof_StackDemo Proof_Rating Proof_EdgeSystem.
Import ListNotations.
Open Scope R_scope.

Lemma log10_within k x x' : 0 < x -> within k x x' -> Rabs (log10 x - log10 x') <= log10 k.
Proof.
  intros Hx (Hk & A & B). assert (K : 0 < x / k) by (apply Rdiv_lt_0_compat; lra).
  assert (X : 0 < x') by lra. assert (U := log10_le _ _ X B). assert (V := log10_le _ _ K A). rewrite log10_mult in U by lra. rewrite log10_div in V by lra.
  apply Rabs_le. lra.
Qed.
Lemma within_pos k x x' : 0 < x -> within k x x' -> 0 < x'.
Proof. intros Hx (Hk & A & _). apply Rlt_le_trans with (2 := A). apply Rdiv_lt_0_compat; lra. Qed.
Lemma div_le p q d : p <= q -> 0 < d -> p / d <= q / d.
Proof. intros. unfold Rdiv. apply Rmult_le_compat_r; [left; apply Rinv_0_lt_compat|]; lra. Qed.
Lemma within_max k x y x' y' : within k x x' -> within k y y' -> within k (Rmax x y) (Rmax x' y') /\ within k (Rmin x y) (Rmin x' y').
Proof.
  intros (K & A & B) (_ & C & D). split; (split; [exact K|]).
  - split.
    + apply (Rmax_case x y (fun m => m / k <= Rmax x' y')); [apply Rle_trans with (1 := A); apply Rmax_l | apply Rle_trans with (1 := C); apply Rmax_r].
    + apply Rmax_lub; [apply Rle_trans with (1 := B) | apply Rle_trans with (1 := D)]; apply Rmult_le_compat_l; try lra; [apply Rmax_l | apply Rmax_r].
  - split.
    + apply Rmin_glb; [apply Rle_trans with (2 := A) | apply Rle_trans with (2 := C)]; apply div_le; try lra; [apply Rmin_l | apply Rmin_r].
    + apply (Rmin_case x y (fun m => Rmin x' y' <= k * m)); [apply Rle_trans with (2 := B); apply Rmin_l | apply Rle_trans with (2 := D); apply Rmin_r].
Qed.
Lemma cube_reg a b : 0 <= a -> 0 <= b -> a ^ 3 <= b ^ 3 -> a <= b.
Proof. intros A B H. destruct (Rle_or_lt a b) as [L|L]; [exact L|]. exfalso. assert (b ^ 3 < a ^ 3) by (assert (0 <= b * b) by nra; assert (b * b < a * a) by nra; nra). lra. Qed.
Lemma within_cube k M m M' m' r r' : 0 < M -> 0 < m -> within k M M' -> within k m m' -> 0 < r -> 0 < r' -> r ^ 3 = M * m ^ 2 -> r' ^ 3 = M' * m' ^ 2 -> within k r r'.
Proof.
  intros HM Hm (K & A & B) (_ & C & D) Hr Hr' E E'. split; [exact K|].
  assert (PM : 0 < M / k) by (apply Rdiv_lt_0_compat; lra). assert (Pm : 0 < m / k) by (apply Rdiv_lt_0_compat; lra).
  split; apply cube_reg; try lra.
  - left. apply Rdiv_lt_0_compat; lra.
  - replace ((r / k) ^ 3) with (r ^ 3 / k ^ 3) by (field; lra). rewrite E, E'. replace (M * m ^ 2 / k ^ 3) with (M / k * (m / k) ^ 2) by (field; lra).
    apply Rmult_le_compat; try lra; [apply pow_le; lra|]. apply pow_incr. lra.
  - left. apply Rmult_lt_0_compat; lra.
  - replace ((k * r) ^ 3) with (k ^ 3 * r ^ 3) by ring. rewrite E, E'. replace (k ^ 3 * (M * m ^ 2)) with (k * M * (k * m) ^ 2) by ring.
    apply Rmult_le_compat; try lra; [apply pow_le; lra|]. apply pow_incr. lra.
Qed.
Lemma quartic a b M : Rabs a <= M -> Rabs b <= M -> Rabs (a ^ 4 - b ^ 4) <= 4 * M ^ 3 * Rabs (a - b).
Proof.
  intros A B. replace (a ^ 4 - b ^ 4) with ((a ^ 3 + a ^ 2 * b + a * b ^ 2 + b ^ 3) * (a - b)) by ring. rewrite Rabs_mult.
  apply Rmult_le_compat_r; [apply Rabs_pos|]. assert (0 <= M) by (apply Rle_trans with (2 := A); apply Rabs_pos).
  assert (P : forall i j, Rabs (a ^ i * b ^ j) <= M ^ (i + j)).
  { intros i j. rewrite Rabs_mult, <- !RPow_abs, pow_add. apply Rmult_le_compat; try (apply pow_le; apply Rabs_pos); apply pow_incr; split; auto; apply Rabs_pos. }
  generalize (P 3%nat 0%nat) (P 2%nat 1%nat) (P 1%nat 2%nat) (P 0%nat 3%nat). cbn [Nat.add]. rewrite !pow_1, !pow_O, Rmult_1_r, Rmult_1_l. intros.
  replace (a ^ 3 + a ^ 2 * b + a * b ^ 2 + b ^ 3) with ((a ^ 3 + a ^ 2 * b) + (a * b ^ 2 + b ^ 3)) by ring.
  eapply Rle_trans; [apply Rabs_triang|]. generalize (Rabs_triang (a ^ 3) (a ^ 2 * b)) (Rabs_triang (a * b ^ 2) (b ^ 3)). lra.
Qed.
Lemma rating5_moves r r' w w' s s' k j M : 0 < r -> 0 < w -> 0 < s -> 0 < s' -> within k r r' -> within j w w' -> Rabs (log10 r) <= M -> Rabs (log10 r') <= M ->
  Rabs (rating5 r w s - rating5 r' w' s') <= (3.32 + 8 * M ^ 3) * log10 k + 3.32 * log10 j + (6.308 * M + 1.8) * Rabs (1 / s - 1 / s').
Proof.
  intros Hr Hw Hs Hs' K J A B. assert (Lk := log10_within _ _ _ Hr K).
  assert (Hw' := within_pos _ _ _ Hw J). assert (Lj := log10_within _ _ _ Hw J).
  assert (I := inch_pos). unfold rating5. rewrite !log10_div by lra.
  set (L := log10 r) in *. set (L' := log10 r') in *. set (W := log10 w) in *. set (W' := log10 w') in *.
  assert (T : 0 < 1 / s) by (apply Rdiv_lt_0_compat; lra). assert (T' : 0 < 1 / s') by (apply Rdiv_lt_0_compat; lra).
  replace (- 1.9 / s) with (- (1.9 * (1 / s))) by (unfold Rdiv; lra). replace (- 1.9 / s') with (- (1.9 * (1 / s'))) by (unfold Rdiv; lra).
  replace (1.8 / s) with (1.8 * (1 / s)) by (unfold Rdiv; lra). replace (1.8 / s') with (1.8 * (1 / s')) by (unfold Rdiv; lra).
  set (t := 1 / s) in *. set (t' := 1 / s') in *.
  assert (X := exp_lip (- (1.9 * t)) (- (1.9 * t')) ltac:(lra) ltac:(lra)).
  assert (E : 0 < exp (- (1.9 * t)) < 1) by (split; [apply exp_pos|]; rewrite <- exp_0; apply exp_increasing; lra).
  set (e := exp (- (1.9 * t))) in *. set (e' := exp (- (1.9 * t'))) in *.
  assert (X' : Rabs (e - e') <= 1.9 * Rabs (t - t')).
  { replace (- (1.9 * t) - - (1.9 * t')) with (1.9 * - (t - t')) in X by ring. rewrite Rabs_mult, Rabs_Ropp, (Rabs_pos_eq 1.9) in X by lra. exact X. }
  assert (Q := quartic L L' M A B). assert (M0 : 0 <= M) by (apply Rle_trans with (2 := A); apply Rabs_pos).
  replace (9.57 - 3.32 * (W - log10 inch) + 3.32 * (1 - e) * L - 2 * L ^ 4 - 1.8 * t - (9.57 - 3.32 * (W' - log10 inch) + 3.32 * (1 - e') * L' - 2 * L' ^ 4 - 1.8 * t'))
    with ((- (3.32 * (W - W')) + 3.32 * ((1 - e) * (L - L'))) + (- (3.32 * ((e - e') * L')) + (- (2 * (L ^ 4 - L' ^ 4)) + - (1.8 * (t - t'))))) by ring.
  assert (N1 : Rabs (- (3.32 * (W - W'))) <= 3.32 * log10 j) by (rewrite Rabs_Ropp, Rabs_mult, (Rabs_pos_eq 3.32) by lra; lra).
  assert (N2 : Rabs (3.32 * ((1 - e) * (L - L'))) <= 3.32 * log10 k).
  { rewrite !Rabs_mult, (Rabs_pos_eq 3.32), (Rabs_pos_eq (1 - e)) by lra. assert (D := Rabs_pos (L - L')). nra. }
  assert (N3 : Rabs (- (3.32 * ((e - e') * L'))) <= 6.308 * M * Rabs (t - t')).
  { rewrite Rabs_Ropp, !Rabs_mult, (Rabs_pos_eq 3.32) by lra.
    assert (Rabs (e - e') * Rabs L' <= 1.9 * Rabs (t - t') * M) by (apply Rmult_le_compat; auto using Rabs_pos). lra. }
  assert (N4 : Rabs (- (2 * (L ^ 4 - L' ^ 4))) <= 8 * M ^ 3 * log10 k).
  { rewrite Rabs_Ropp, Rabs_mult, (Rabs_pos_eq 2) by lra. assert (P3 : 0 <= 4 * M ^ 3) by (assert (0 <= M ^ 3) by (apply pow_le; lra); lra).
    assert (4 * M ^ 3 * Rabs (L - L') <= 4 * M ^ 3 * log10 k) by (apply Rmult_le_compat_l; lra). lra. }
  assert (N5 : Rabs (- (1.8 * (t - t'))) <= 1.8 * Rabs (t - t')) by (rewrite Rabs_Ropp, Rabs_mult, (Rabs_pos_eq 1.8) by lra; lra).
  eapply Rle_trans; [apply Rabs_triang|]. eapply Rle_trans; [apply Rplus_le_compat; apply Rabs_triang|].
  eapply Rle_trans; [apply Rplus_le_compat_l; apply Rplus_le_compat_l; apply Rabs_triang|].
  set (d := Rabs (t - t')) in *. clearbody d. lra.
Qed.
Lemma giqe5_moves x y x' y' g g' s s' a k j : 0 < x -> 0 < y -> 0 < g -> 0 < s -> 0 < s' -> 0 < sin a -> within k x x' -> within k y y' -> within j g g' ->
  exists v v' w w' r r', giqe5 (Fin x) (Fin y) (Fin g) (Fin s) (Fin a) = (Fin v, Fin w, Fin r) /\
    giqe5 (Fin x') (Fin y') (Fin g') (Fin s') (Fin a) = (Fin v', Fin w', Fin r') /\ within k r r' /\ within j w w' /\
    forall M, Rabs (log10 r) <= M -> Rabs (log10 r') <= M ->
      Rabs (v - v') <= (3.32 + 8 * M ^ 3) * log10 k + 3.32 * log10 j + (6.308 * M + 1.8) * Rabs (1 / s - 1 / s').
Proof.
  intros Hx Hy Hg Hs Hs' Ha Kx Ky J. assert (Hx' := within_pos _ _ _ Hx Kx). assert (Hy' := within_pos _ _ _ Hy Ky). assert (Hg' := within_pos _ _ _ Hg J).
  assert (P : forall a b, 0 < a -> 0 < b -> 0 < Rmax a b /\ 0 < Rmin a b) by (intros; split; [apply Rmax_case | apply Rmin_case]; assumption).
  destruct (P x y Hx Hy) as (U & V). destruct (P x' y' Hx' Hy') as (U' & V').
  destruct (cube_exists (Rmax x y * Rmin x y ^ 2)) as (r & Hr & R); [apply Rmult_lt_0_compat; [lra | apply pow_lt; lra]|].
  destruct (cube_exists (Rmax x' y' * Rmin x' y' ^ 2)) as (r' & Hr' & R'); [apply Rmult_lt_0_compat; [lra | apply pow_lt; lra]|].
  destruct (within_max _ _ _ _ _ Kx Ky) as (WM & Wm). assert (WR := within_cube k _ _ _ _ r r' U V WM Wm Hr Hr' R R').
  assert (B : 0 < Rpower (sin a) (1 / 4)) by apply exp_pos. set (b := Rpower (sin a) (1 / 4)) in *.
  assert (WG : within j (g / b) (g' / b)).
  { destruct J as (J1 & J2 & J3). split; [exact J1|]. split; [replace (g / b / j) with (g / j / b) by (field; lra) | replace (j * (g / b)) with (j * g / b) by (field; lra)]; apply div_le; lra. }
  exists (rating5 r (g / b) s), (rating5 r' (g' / b) s'), (g / b), (g' / b), r, r'.
  split; [apply giqe5_signed; auto; lra|]. split; [apply giqe5_signed; auto; lra|]. split; [exact WR|]. split; [exact WG|].
  intros M A A'. apply rating5_moves; auto. apply Rdiv_lt_0_compat; lra.
Qed.
Lemma giqe3_moves r r' g g' h h' n n' s s' k j : 0 < r -> 0 < g -> s <> 0 -> s' <> 0 -> within k r r' -> within j g g' ->
  exists v v', giqe3 (Fin r) (Fin g) (Fin h) (Fin n) (Fin s) = Fin v /\ giqe3 (Fin r') (Fin g') (Fin h') (Fin n') (Fin s') = Fin v' /\
    Rabs (v - v') <= 3.32 * (log10 k + log10 j) + 1.48 * Rabs (h - h') + Rabs (n / s - n' / s').
Proof.
  intros Hr Hg Hs Hs' K J. assert (Hr' := within_pos _ _ _ Hr K). assert (Hg' := within_pos _ _ _ Hg J). assert (I := inch_pos).
  do 2 eexists. split; [apply giqe3_value; auto|]. split; [apply giqe3_value; auto|]. rewrite !log10_div by lra.
  assert (A := log10_within _ _ _ Hr K). assert (B := log10_within _ _ _ Hg J).
  set (L := log10 r) in *. set (L' := log10 r') in *. set (G := log10 g) in *. set (G' := log10 g') in *.
  apply Rabs_le_inv in A, B. unfold Rabs at 2 3. apply Rabs_le. destruct (Rcase_abs (h - h')), (Rcase_abs (n / s - n' / s')); lra.
Qed.

Lemma giqe4_moves r r' g g' h h' n n' s s' a k j : 0 < r -> 0 < g -> s <> 0 -> s' <> 0 -> 0 < sin a -> within k r r' -> within j g g' ->
  exists v v' p p', giqe4 (Fin r) (Fin g) (Fin h) (Fin n) (Fin s) (Fin a) = (Fin v, Fin p) /\
    giqe4 (Fin r') (Fin g') (Fin h') (Fin n') (Fin s') (Fin a) = (Fin v', Fin p') /\
    let d := 2.817 * log10 k + 3.32 * log10 j + 0.656 * Rabs (h - h') + 0.334 * Rabs (n / s - n' / s') in
    ((0.9 <= r <-> 0.9 <= r') -> Rabs (v - v') <= d) /\
    Rabs (v - v') <= d + 0.16 * Rmax (Rabs (log10 (p / inch))) (Rabs (log10 (p' / inch))) + 1.258 * log10 (1 / 0.9).
Proof.
  intros Hr Hg Hs Hs' Ha K J. assert (Hr' := within_pos _ _ _ Hr K). assert (Hg' := within_pos _ _ _ Hg J). assert (I := inch_pos).
  do 4 eexists. split; [apply giqe4_formula; auto|]. split; [apply giqe4_formula; auto|]. cbv zeta.
  assert (S : 0 < sqrt (sin a)) by (apply sqrt_lt_R0; exact Ha).
  assert (P : 0 < g / sqrt (sin a)) by (apply Rdiv_lt_0_compat; assumption). assert (P' : 0 < g' / sqrt (sin a)) by (apply Rdiv_lt_0_compat; assumption).
  assert (N : log10 (1 / 0.9) = - log10 0.9) by (rewrite log10_div, log10_1 by lra; ring).
  assert (N0 : log10 0.9 <= 0) by (rewrite <- log10_1; apply log10_le; lra).
  assert (A := log10_within _ _ _ Hr K). assert (B := log10_within _ _ _ Hg J).
  assert (K0 : 0 <= log10 k) by (eapply Rle_trans; [apply Rabs_pos | exact A]).
  assert (J0 : 0 <= log10 j) by (eapply Rle_trans; [apply Rabs_pos | exact B]).
  assert (E : log10 (g / sqrt (sin a) / inch) - log10 (g' / sqrt (sin a) / inch) = log10 g - log10 g') by (rewrite !log10_div by lra; ring).
  rewrite N. assert (M1 := Rmax_l (Rabs (log10 (g / sqrt (sin a) / inch))) (Rabs (log10 (g' / sqrt (sin a) / inch)))).
  assert (M2 := Rmax_r (Rabs (log10 (g / sqrt (sin a) / inch))) (Rabs (log10 (g' / sqrt (sin a) / inch)))).
  set (top := Rmax _ _) in *. replace (0.334 * n / s) with (0.334 * (n / s)) by (field; exact Hs). replace (0.334 * n' / s') with (0.334 * (n' / s')) by (field; exact Hs').
  assert (U := log10_le 0.9 r ltac:(lra)). assert (V := log10_le 0.9 r' ltac:(lra)).
  assert (U' := log10_le r 0.9 Hr). assert (V' := log10_le r' 0.9 Hr').
  set (L := log10 r) in *. set (L' := log10 r') in *. set (G := log10 (g / sqrt (sin a) / inch)) in *. set (G' := log10 (g' / sqrt (sin a) / inch)) in *.
  rewrite <- E in B. set (q := n / s) in *. set (q' := n' / s') in *. set (l9 := log10 0.9) in *. set (lk := log10 k) in *. set (lj := log10 j) in *.
  clearbody L L' G G' q q' l9 lk lj top. clear E N K J P P' S.
  assert (H1 := Rle_abs (h - h')). assert (H2 := Rle_abs (- (h - h'))). rewrite Rabs_Ropp in H2. set (ah := Rabs (h - h')) in *.
  assert (Q1 := Rle_abs (q - q')). assert (Q2 := Rle_abs (- (q - q'))). rewrite Rabs_Ropp in Q2. set (aq := Rabs (q - q')) in *.
  apply Rabs_le_inv in A, B. apply Rabs_le_inv in M1, M2. clearbody ah aq.
  split.
  - intros Side. apply Rabs_le. destruct (Rle_dec 0.9 r) as [C|C], (Rle_dec 0.9 r') as [C'|C']; try (exfalso; tauto); lra.
  - apply Rabs_le. destruct (Rle_dec 0.9 r) as [C|C], (Rle_dec 0.9 r') as [C'|C'].
    + lra.
    + specialize (U C). specialize (V' ltac:(lra)). lra.
    + specialize (V C'). specialize (U' ltac:(lra)). lra.
    + lra.
Qed.
