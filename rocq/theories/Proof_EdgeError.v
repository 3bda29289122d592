(** * Proof_EdgeError: sampling error of the edge response *)
From Coq Require Import Reals Lra Lia List.
From Coquelicot Require Import Coquelicot.
From Verif Require Import Base_XR Base_Np Model_Geo Model_Rad Model_Otf Model_Met Spec_Rad Spec_Met Spec_EdgeError Proof_Edge Proof_Nonfinite.
Import ListNotations.
Open Scope R_scope.

Lemma Rabs_le_inv x y : Rabs x <= y -> - y <= x <= y.
Proof. intros H. pose proof (Rle_abs x). pose proof (Rle_abs (- x)). rewrite Rabs_Ropp in *. lra. Qed.

(** ** sin(c w) / w as an integral *)
Lemma const_int (a b c : R) : is_RInt (fun _ : R => c) a b ((b - a) * c).
Proof. exact (is_RInt_const a b c). Qed.
Lemma wave_int k w : is_RInt (fun t => 2 * PI * k * cos (2 * PI * k * w * t)) 0 1 (wave k w).
Proof.
  unfold wave. set (c := 2 * PI * k). destruct (Req_EM_T w 0) as [->|N].
  - apply (is_RInt_ext (fun _ => c)).
    + intros t _. change (c = c * cos (c * 0 * t)). rewrite Rmult_0_r, Rmult_0_l, cos_0. ring.
    + assert (Z := const_int 0 1 c). rewrite Rminus_0_r, Rmult_1_l in Z. exact Z.
  - replace (sin (c * w) / w) with (minus (sin (c * w * 1) / w) (sin (c * w * 0) / w)).
    2: { unfold minus, plus, opp; cbn. rewrite Rmult_1_r, Rmult_0_r, sin_0. field. exact N. }
    apply (is_RInt_derive (fun t => sin (c * w * t) / w)).
    + intros t _. auto_derive; auto. field. exact N.
    + intros t _. apply (ex_derive_continuous (fun t => c * cos (c * w * t))). auto_derive. auto.
Qed.
Lemma cos_lip a b : Rabs (cos a - cos b) <= Rabs (a - b).
Proof.
  destruct (MVT_gen cos b a (fun x => - sin x)) as (c & _ & E).
  - intros x _. auto_derive; auto. ring.
  - intros x _. apply continuity_cos.
  - rewrite E, Rabs_mult, Rabs_Ropp. assert (B := SIN_bound c). assert (Rabs (sin c) <= 1) by (apply Rabs_le; lra).
    pose proof (Rabs_pos (a - b)). nra.
Qed.
Lemma wave_bound k w : Rabs (wave k w) <= Rabs (2 * PI * k).
Proof.
  assert (Z := const_int 0 1 (Rabs (2 * PI * k))). rewrite Rminus_0_r, Rmult_1_l in Z.
  apply (norm_RInt_le (fun t => 2 * PI * k * cos (2 * PI * k * w * t)) (fun _ => Rabs (2 * PI * k)) 0 1); [lra | | apply wave_int | exact Z].
  intros t _. unfold norm; cbn; unfold abs; cbn. rewrite Rabs_mult. assert (B := COS_bound (2 * PI * k * w * t)).
  assert (Rabs (cos (2 * PI * k * w * t)) <= 1) by (apply Rabs_le; lra). pose proof (Rabs_pos (2 * PI * k)). nra.
Qed.
Lemma wave_lip k v w : Rabs (wave k v - wave k w) <= (2 * PI * k) ^ 2 / 2 * Rabs (v - w).
Proof.
  set (c := 2 * PI * k).
  assert (I : is_RInt (fun t => c ^ 2 * Rabs (v - w) * t) 0 1 (c ^ 2 / 2 * Rabs (v - w))).
  { replace (c ^ 2 / 2 * Rabs (v - w)) with (minus (c ^ 2 * Rabs (v - w) * (1 ^ 2 / 2)) (c ^ 2 * Rabs (v - w) * (0 ^ 2 / 2))).
    2: { unfold minus, plus, opp; cbn. field. }
    apply (is_RInt_derive (fun t => c ^ 2 * Rabs (v - w) * (t ^ 2 / 2))).
    - intros t _. auto_derive; auto. field.
    - intros t _. apply (ex_derive_continuous (fun t => c ^ 2 * Rabs (v - w) * t)). auto_derive. auto. }
  refine (norm_RInt_le (fun t => minus (c * cos (c * v * t)) (c * cos (c * w * t))) _ 0 1 _ _ _ _ _ I); [lra | |].
  - intros t Ht. unfold norm, minus, plus, opp; cbn; unfold abs; cbn.
    replace (c * cos (c * v * t) + - (c * cos (c * w * t))) with (c * (cos (c * v * t) - cos (c * w * t))) by ring.
    rewrite Rabs_mult. assert (L := cos_lip (c * v * t) (c * w * t)).
    replace (c * v * t - c * w * t) with (c * ((v - w) * t)) in L by ring. rewrite !Rabs_mult, (Rabs_pos_eq t) in L by lra.
    replace (c * (c * 1) * Rabs (v - w) * t) with (Rabs c * Rabs c * Rabs (v - w) * t).
    2: { rewrite <- Rabs_mult, (Rabs_pos_eq (c * c)) by (pose proof (Rle_0_sqr c); unfold Rsqr in *; lra). ring. }
    pose proof (Rabs_pos c). nra.
  - apply (is_RInt_minus _ _ _ _ _ _ (wave_int k v) (wave_int k w)).
Qed.

(** ** one cell, then all *)
Definition lipschitz (f : R -> R) (K : R) : Prop := forall a b, Rabs (f a - f b) <= K * Rabs (a - b).
Lemma lipschitz_continuous f K : lipschitz f K -> forall x, continuous f x.
Proof.
  intros H x. apply continuity_pt_filterlim. intros e He.
  assert (K0 : 0 <= K).
  { pose proof (H 1 0) as B. rewrite Rminus_0_r, Rabs_R1 in B. pose proof (Rabs_pos (f 1 - f 0)). lra. }
  exists (e / (K + 1)). split; [apply Rdiv_lt_0_compat; lra|]. intros y (_ & Hy). unfold dist in *; cbn in *. unfold R_dist in *.
  eapply Rle_lt_trans; [apply H|]. apply Rle_lt_trans with ((K + 1) * Rabs (y - x)); [pose proof (Rabs_pos (y - x)); nra|].
  apply Rlt_le_trans with ((K + 1) * (e / (K + 1))); [apply Rmult_lt_compat_l; lra|]. right. field. lra.
Qed.
Lemma ramp_int K a b : is_RInt (fun t => K * (t - a)) a b (K * (b - a) ^ 2 / 2).
Proof.
  replace (K * (b - a) ^ 2 / 2) with (minus (K * (b - a) ^ 2 / 2) (K * (a - a) ^ 2 / 2)) by (unfold minus, plus, opp; cbn; field).
  apply (is_RInt_derive (fun t => K * (t - a) ^ 2 / 2)).
  - intros t _. auto_derive; auto. field.
  - intros t _. apply (ex_derive_continuous (fun t => K * (t - a))). auto_derive. auto.
Qed.
Lemma pmar_int K a b : is_RInt (fun t => K * (b - t)) a b (K * (b - a) ^ 2 / 2).
Proof.
  replace (K * (b - a) ^ 2 / 2) with (minus (- (K * (b - b) ^ 2 / 2)) (- (K * (b - a) ^ 2 / 2))) by (unfold minus, plus, opp; cbn; field).
  apply (is_RInt_derive (fun t => - (K * (b - t) ^ 2 / 2))).
  - intros t _. auto_derive; auto. field.
  - intros t _. apply (ex_derive_continuous (fun t => K * (b - t))). auto_derive. auto.
Qed.
Lemma cell f K a h J : lipschitz f K -> 0 <= h -> is_RInt f a (a + h) J -> Rabs (h * (f a + f (a + h)) / 2 - J) <= K * h ^ 2 / 4.
Proof.
  intros H Hh HJ. assert (C := lipschitz_continuous f K H). set (c := a + h / 2).
  destruct (ex_RInt_continuous f a c (fun z _ => C z)) as (J1 & H1). destruct (ex_RInt_continuous f c (a + h) (fun z _ => C z)) as (J2 & H2).
  assert (E : J = J1 + J2).
  { rewrite <- (is_RInt_unique _ _ _ _ HJ). apply is_RInt_unique. apply (is_RInt_Chasles f a c (a + h) J1 J2 H1 H2). }
  assert (B1 : Rabs (J1 - h / 2 * f a) <= K * (h / 2) ^ 2 / 2).
  { replace (h / 2) with (c - a) by (unfold c; field).
    refine (norm_RInt_le (fun t => minus (f t) (f a)) (fun t => K * (t - a)) a c _ _ _ _ _ (ramp_int K a c)); [unfold c; lra | |].
    - intros t Ht. unfold norm, minus, plus, opp; cbn; unfold abs; cbn. pose proof (H t a) as B. rewrite (Rabs_pos_eq (t - a)) in B by lra. exact B.
    - apply (is_RInt_minus _ _ _ _ _ _ H1). apply (const_int a c (f a)). }
  assert (B2 : Rabs (J2 - h / 2 * f (a + h)) <= K * (h / 2) ^ 2 / 2).
  { replace (h / 2) with ((a + h) - c) by (unfold c; field).
    refine (norm_RInt_le (fun t => minus (f t) (f (a + h))) (fun t => K * ((a + h) - t)) c (a + h) _ _ _ _ _ (pmar_int K c (a + h))); [unfold c; lra | |].
    - intros t Ht. unfold norm, minus, plus, opp; cbn; unfold abs; cbn. pose proof (H t (a + h)) as B.
      rewrite (Rabs_minus_sym t), (Rabs_pos_eq ((a + h) - t)) in B by lra. exact B.
    - apply (is_RInt_minus _ _ _ _ _ _ H2). apply (const_int c (a + h) (f (a + h))). }
  rewrite E. apply Rabs_le_inv in B1. apply Rabs_le_inv in B2. apply Rabs_le. lra.
Qed.
Lemma trapezoid_cells (y x : nat -> R) f h E : (forall i, x (S i) - x i = h) -> (forall a b, ex_RInt f a b) ->
  (forall i J, is_RInt f (h * INR i) (h * INR (S i)) J -> Rabs (h * (y i + y (S i)) / 2 - J) <= E) ->
  forall n s, exists J, is_RInt f (h * INR s) (h * INR (s + n)) J /\
    Rabs (trapezoid (map y (seq s (S n))) (map x (seq s (S n))) - J) <= INR n * E.
Proof.
  intros Hx Hi Hc. induction n as [|n IH]; intros s.
  - exists 0. rewrite Nat.add_0_r. split; [apply (is_RInt_point f)|]. cbn. rewrite Rminus_0_r, Rabs_R0. lra.
  - destruct (IH (S s)) as (J & HJ & B). destruct (Hi (h * INR s) (h * INR (S s))) as (I & HI).
    exists (I + J). split; [replace (s + S n)%nat with (S s + n)%nat by lia; apply (is_RInt_Chasles f _ _ _ _ _ HI HJ)|].
    change (seq s (S (S n))) with (s :: S s :: seq (S (S s)) n). change (seq (S s) (S n)) with (S s :: seq (S (S s)) n) in B.
    cbn [map trapezoid] in *. rewrite Hx. specialize (Hc s I HI). rewrite S_INR.
    apply Rabs_le_inv in B. apply Rabs_le_inv in Hc. apply Rabs_le. lra.
Qed.

(** ** the transfer function continued by its end values *)
Definition clamp (W w : R) : R := Rmax 0 (Rmin w W).
Lemma clamp_in W w : 0 <= W -> 0 <= clamp W w <= W.
Proof. intros H. unfold clamp. split; [apply Rmax_l|]. apply Rmax_lub; [exact H | apply Rmin_r]. Qed.
Lemma clamp_id W w : 0 <= w <= W -> clamp W w = w.
Proof. intros H. unfold clamp. rewrite Rmin_left by lra. apply Rmax_right. lra. Qed.
Lemma clamp_lip W a b : Rabs (clamp W a - clamp W b) <= Rabs (a - b).
Proof. unfold clamp, Rmax, Rmin. repeat destruct (Rle_dec _ _); unfold Rabs; repeat destruct (Rcase_abs _); lra. Qed.

Definition integrand (m : R -> R) (W k w : R) : R := m (clamp W w) * wave k w / PI.
Lemma integrand_lip m W L k : 0 < W -> 0 <= L -> gentle m W L -> transfer m W ->
  lipschitz (integrand m W k) ((Rabs (2 * PI * k) * (L / W) + (2 * PI * k) ^ 2 / 2) / PI).
Proof.
  intros HW HL G (T & _) a b. unfold integrand. assert (P := PI_RGT_0). set (c := 2 * PI * k).
  replace (m (clamp W a) * wave k a / PI - m (clamp W b) * wave k b / PI)
    with (((m (clamp W a) - m (clamp W b)) * wave k a + m (clamp W b) * (wave k a - wave k b)) / PI) by (field; lra).
  unfold Rdiv at 1. rewrite Rabs_mult, (Rabs_pos_eq (/ PI)) by (left; now apply Rinv_0_lt_compat).
  replace ((Rabs c * (L / W) + c ^ 2 / 2) / PI * Rabs (a - b)) with ((Rabs c * (L / W) * Rabs (a - b) + c ^ 2 / 2 * Rabs (a - b)) * / PI) by (unfold Rdiv; ring).
  apply Rmult_le_compat_r; [left; now apply Rinv_0_lt_compat|].
  eapply Rle_trans; [apply Rabs_triang|]. rewrite !Rabs_mult. apply Rplus_le_compat.
  - assert (A := G _ _ (clamp_in W a ltac:(lra)) (clamp_in W b ltac:(lra))). assert (B := clamp_lip W a b). assert (C := wave_bound k a). fold c in C.
    assert (Q : 0 <= L / W) by (apply Rmult_le_pos; [lra | left; now apply Rinv_0_lt_compat]).
    rewrite Rmult_comm, (Rmult_assoc (Rabs c)). apply Rmult_le_compat; try apply Rabs_pos; [exact C|].
    eapply Rle_trans; [exact A|]. now apply Rmult_le_compat_l.
  - assert (A := T _ (clamp_in W b ltac:(lra))). assert (B := wave_lip k a b). fold c in B.
    rewrite <- (Rmult_1_l (c ^ 2 / 2 * Rabs (a - b))). apply Rmult_le_compat; try apply Rabs_pos; assumption.
Qed.

Lemma edge_near m W L n x ifov : 0 < W -> 0 <= L -> (0 < n)%nat -> gentle m W L -> transfer m W ->
  exists e, blurred_edge m W (ifov * x) e /\
    Rabs (edge_at (samples m W n) (W / INR n) ifov x - e) <= edge_error (2 * PI * Rabs (ifov * x) * W) L W n.
Proof.
  intros HW HL Hn G T. assert (P := PI_RGT_0). set (k := ifov * x). set (c := 2 * PI * k). set (h := W / INR n).
  assert (N0 : 0 < INR n) by (apply lt_0_INR; lia). assert (Hh : 0 < h) by (apply Rdiv_lt_0_compat; lra).
  assert (Wn : h * INR n = W) by (unfold h; field; lra).
  set (F := integrand m W k). set (K := (Rabs c * (L / W) + c ^ 2 / 2) / PI).
  assert (LF : lipschitz F K) by (apply integrand_lip; auto).
  assert (CF := lipschitz_continuous F K LF).
  assert (FI : forall a b, ex_RInt F a b) by (intros a b; apply (ex_RInt_continuous F); intros; apply CF).
  set (eps := / 10 ^ 6). assert (He : 0 < eps) by (unfold eps; lra).
  set (y := fun i => m (clamp W (h * INR i)) * wave k (freq_of h i) / PI).
  set (D := c ^ 2 / 2 * eps / PI).
  assert (Yi : forall i, Rabs (y i - F (h * INR i)) <= D).
  { intros i. unfold y, F, integrand, D. replace (m (clamp W (h * INR i)) * wave k (freq_of h i) / PI - m (clamp W (h * INR i)) * wave k (h * INR i) / PI)
      with (m (clamp W (h * INR i)) * (wave k (freq_of h i) - wave k (h * INR i)) / PI) by (field; lra).
    unfold Rdiv at 1 3. rewrite Rabs_mult, (Rabs_pos_eq (/ PI)) by (left; now apply Rinv_0_lt_compat).
    apply Rmult_le_compat_r; [left; now apply Rinv_0_lt_compat|]. rewrite Rabs_mult.
    assert (A := proj1 T _ (clamp_in W (h * INR i) ltac:(lra))). assert (B := wave_lip k (freq_of h i) (h * INR i)). fold c in B.
    replace (freq_of h i - h * INR i) with eps in B by (unfold freq_of, eps; ring). rewrite (Rabs_pos_eq eps) in B by lra.
    rewrite <- (Rmult_1_l (c ^ 2 * / 2 * eps)). apply Rmult_le_compat; try apply Rabs_pos; assumption. }
  destruct (trapezoid_cells y (freq_of h) F h (K * h ^ 2 / 4 + h * D)) with (n := (n - 1)%nat) (s := 0%nat) as (J & HJ & B).
  { intros i. unfold freq_of. rewrite S_INR. ring. }
  { exact FI. }
  { intros i J HJ. rewrite S_INR in HJ. replace (h * (INR i + 1)) with (h * INR i + h) in HJ by ring.
    assert (C := cell F K (h * INR i) h J LF ltac:(lra) HJ). replace (h * INR i + h) with (h * INR (S i)) in C by (rewrite S_INR; ring).
    assert (Y1 := Yi i). assert (Y2 := Yi (S i)). apply Rabs_le_inv in C. apply Rabs_le_inv in Y1. apply Rabs_le_inv in Y2.
    apply Rabs_le. nra. }
  rewrite Nat.add_0_l in HJ. change (INR 0) with 0 in HJ. rewrite Rmult_0_r in HJ.
  replace (S (n - 1)) with n in B by lia.
  set (z := h * INR (n - 1)) in *.
  assert (Zw : z = W - h) by (unfold z; rewrite minus_INR by lia; cbn [INR]; rewrite Rmult_minus_distr_l, Wn; ring).
  destruct (FI z W) as (J1 & H1).
  assert (B1 : Rabs J1 <= Rabs c * (L / W) / PI * (W - z) ^ 2 / 2).
  { refine (norm_RInt_le F (fun t => Rabs c * (L / W) / PI * (W - t)) z W _ _ _ _ H1 (pmar_int _ z W)); [lra|].
    intros t Ht. unfold norm; cbn; unfold abs; cbn. unfold F, integrand.
    assert (Rt : 0 <= t <= W). { split; [|lra]. apply Rle_trans with z; [unfold z; apply Rmult_le_pos; [lra | apply pos_INR] | lra]. }
    rewrite clamp_id by exact Rt. unfold Rdiv at 1. rewrite !Rabs_mult, (Rabs_pos_eq (/ PI)) by (left; now apply Rinv_0_lt_compat).
    replace (Rabs c * (L / W) / PI * (W - t)) with (L / W * (W - t) * Rabs c * / PI) by (unfold Rdiv; ring).
    apply Rmult_le_compat_r; [left; now apply Rinv_0_lt_compat|]. apply Rmult_le_compat; try apply Rabs_pos.
    - assert (A := G t W ltac:(lra) ltac:(lra)). rewrite (proj2 T), Rminus_0_r, (Rabs_minus_sym t), (Rabs_pos_eq (W - t)) in A by lra. exact A.
    - exact (wave_bound k t). }
  exists (1 / 2 + (J + J1)). split.
  - exists (PI * (J + J1)). split; [|field; lra].
    apply (is_RInt_ext (fun w => scal PI (F w))).
    + intros w Hw. rewrite Rmin_left, Rmax_right in Hw by lra. unfold F, integrand. rewrite clamp_id by lra. unfold scal; cbn; unfold mult; cbn. field. lra.
    + apply (is_RInt_scal F 0 W PI (J + J1)). exact (is_RInt_Chasles F 0 z W J J1 HJ H1).
  - assert (E : edge_at (samples m W n) h ifov x = 1 / 2 + trapezoid (map y (seq 0 n)) (map (freq_of h) (seq 0 n))).
    { unfold edge_at, samples. rewrite map_length, seq_length. do 2 f_equal. apply map_ext_in. intros i Hi. apply in_seq in Hi.
      rewrite (nth_indep _ 0 (m (h * INR 0))) by (rewrite map_length, seq_length; lia).
      rewrite (map_nth (fun i => m (h * INR i))), seq_nth by lia. rewrite Nat.add_0_l. unfold y.
      assert (Ri : 0 <= h * INR i <= W).
      { split; [apply Rmult_le_pos; [lra | apply pos_INR]|]. rewrite <- Wn. apply Rmult_le_compat_l; [lra | apply le_INR; lia]. }
      rewrite clamp_id by exact Ri. unfold wave. destruct (Req_EM_T (freq_of h i) 0) as [Z|Z]; [unfold freq_of in Z; exfalso; fold eps in Z; lra|].
      fold k. replace (2 * PI * freq_of h i * k) with (2 * PI * k * freq_of h i) by ring. field. lra. }
    rewrite E. unfold edge_error. set (a := 2 * PI * Rabs k * W).
    assert (Ac : a = Rabs c * W) by (unfold a, c; rewrite !Rabs_mult, (Rabs_pos_eq PI), (Rabs_pos_eq 2) by lra; ring).
    assert (C2 : c ^ 2 = Rabs c ^ 2) by (rewrite <- !Rsqr_pow2; apply Rsqr_abs).
    assert (S1 : INR (n - 1) * (K * h ^ 2 / 4 + h * D) <= INR n * (K * h ^ 2 / 4 + h * D)).
    { apply Rmult_le_compat_r; [|apply le_INR; lia].
      assert (0 <= D) by (eapply Rle_trans; [apply Rabs_pos | apply (Yi 0%nat)]).
      assert (0 <= K). { eapply Rle_trans; [apply Rabs_pos|]. pose proof (LF 1 0) as Q. rewrite Rminus_0_r, Rabs_R1, Rmult_1_r in Q. exact Q. }
      assert (0 <= h * D) by (apply Rmult_le_pos; lra). assert (0 <= K * h ^ 2) by (apply Rmult_le_pos; [lra | apply pow2_ge_0]). lra. }
    assert (S2 : INR n * (K * h ^ 2 / 4 + h * D) + Rabs c * (L / W) / PI * (W - z) ^ 2 / 2 =
      ((a * L + a ^ 2 / 2) / (4 * INR n) + a * L / (2 * INR n ^ 2) + a ^ 2 / (2 * 10 ^ 6 * W)) / PI).
    { rewrite Zw. unfold K, D, eps. rewrite C2, Ac. unfold h. field. repeat split; lra. }
    rewrite <- S2. apply Rabs_le_inv in B. apply Rabs_le_inv in B1. apply Rabs_le. lra.
Qed.

Lemma response_near m W L n x ifov : 0 < W -> 0 <= L -> (0 < n)%nat -> gentle m W L -> transfer m W ->
  exists r e, edge_response x (samples m W n) (W / INR n) ifov = Ok (Fin r) /\ blurred_edge m W (ifov * x) e /\
    Rabs (r - e) <= edge_error (2 * PI * Rabs (ifov * x) * W) L W n.
Proof.
  intros HW HL Hn G T. destruct (edge_near m W L n x ifov HW HL Hn G T) as (e & E & B).
  exists (edge_at (samples m W n) (W / INR n) ifov x), e. split; [|auto]. apply er_value.
  left. apply Rdiv_lt_0_compat; [lra | apply lt_0_INR; lia].
Qed.
Lemma wave_odd k w : wave (- k) w = - wave k w.
Proof.
  unfold wave. destruct (Req_EM_T w 0) as [_|N]; [ring|]. replace (2 * PI * - k * w) with (- (2 * PI * k * w)) by ring.
  rewrite sin_neg. field. exact N.
Qed.
Lemma blurred_odd m W k e : blurred_edge m W k e -> blurred_edge m W (- k) (1 - e).
Proof.
  intros (J & H & ->). exists (- J). split; [|field; apply PI_neq0].
  apply (is_RInt_ext (fun w => opp (m w * wave k w))); [|exact (is_RInt_opp _ _ _ _ H)].
  intros w _. rewrite wave_odd. unfold opp; cbn. ring.
Qed.
Lemma relative_near m W L n ifov : 0 < W -> 0 <= L -> (0 < n)%nat -> gentle m W L -> transfer m W ->
  exists r e e', relative_edge_response (samples m W n) (W / INR n) ifov = Ok (Fin r) /\
    blurred_edge m W (ifov * (1 / 2)) e /\ blurred_edge m W (ifov * - (1 / 2)) e' /\
    Rabs (r - (e - e')) <= 2 * edge_error (PI * Rabs ifov * W) L W n.
Proof.
  intros HW HL Hn G T. destruct (edge_near m W L n (1 / 2) ifov HW HL Hn G T) as (e & E & B).
  exists (2 * edge_at (samples m W n) (W / INR n) ifov (1 / 2) - 1), e, (1 - e). split; [|split; [exact E|split]].
  - apply rer_value. left. apply Rdiv_lt_0_compat; [lra | apply lt_0_INR; lia].
  - replace (ifov * - (1 / 2)) with (- (ifov * (1 / 2))) by ring. now apply blurred_odd.
  - replace (2 * PI * Rabs (ifov * (1 / 2)) * W) with (PI * Rabs ifov * W) in B
      by (rewrite Rabs_mult, (Rabs_pos_eq (1 / 2)) by lra; field).
    apply Rabs_le_inv in B. apply Rabs_le. lra.
Qed.

(** ** a perfect lens *)
Lemma lens_value k l D w : 0 < l -> 0 < D -> 0 <= w -> circular_aperture_OTF k w 0 l D 0 = Ok (Fin (lens (D / l) w)).
Proof.
  intros Hl HD Hw. unfold circular_aperture_OTF. rewrite radial_rho.
  replace (kdiv k (Fin D) (Fin l)) with (@Ok xr (Fin (D / l)))
    by (unfold kdiv; destruct k; cbn; rewrite (proj2 (Reqb_false l 0)) by lra; reflexivity).
  cbn [bind]. assert (Hr : 0 < D / l) by (apply Rdiv_lt_0_compat; lra). set (r := D / l) in *. clearbody r.
  replace (Spec_Nonfinite.rho w 0) with w.
  2: { unfold Spec_Nonfinite.rho. rewrite Rmult_0_l, Rplus_0_r. symmetry. now apply sqrt_square. }
  rewrite (proj2 (Rltb_false 0 0)) by lra. rewrite (xdiv_fin w r) by lra. f_equal.
  assert (X0 : 0 <= w / r) by (apply quot_pos; lra). unfold lens. destruct (Rle_dec w r) as [H|H].
  - assert (X1 : w / r <= 1). { apply (Rmult_le_reg_r r); [lra|]. unfold Rdiv. rewrite Rmult_assoc, Rinv_l by lra. lra. }
    set (x := w / r) in *. clearbody x. assert (A : xacos (Fin x) = Fin (acos x)) by (cbn; cmp; reflexivity). rewrite A.
    assert (A3 : xsqrt (xsub (Fin 1) (xsq (Fin x))) = Fin (sqrt (1 - x * x))).
    { cbn. rewrite (proj2 (Rltb_false _ _)) by nra. reflexivity. }
    rewrite A3. cbn [xmul xsub xopp xadd xnan_to_num]. reflexivity.
  - assert (X1 : 1 < w / r). { apply (Rmult_lt_reg_r r); [lra|]. unfold Rdiv. rewrite Rmult_assoc, Rinv_l by lra. lra. }
    set (x := w / r) in *. clearbody x. assert (A : xacos (Fin x) = NaN) by (cbn; cmp; reflexivity). rewrite A. reflexivity.
Qed.
Lemma arc_slope t t' : 0 <= t <= PI / 2 -> 0 <= t' <= PI / 2 -> t <= t' ->
  0 <= (2 * t' - sin (2 * t')) - (2 * t - sin (2 * t)) <= 4 * (cos t - cos t').
Proof.
  intros Ht Ht' L. assert (P := PI_RGT_0). split.
  - destruct (MVT_gen (fun t => 2 * t - sin (2 * t)) t t' (fun t => 2 - 2 * cos (2 * t))) as (c & _ & E).
    + intros z _. auto_derive; auto. ring.
    + intros z _. apply continuity_pt_filterlim. apply (ex_derive_continuous (fun t => 2 * t - sin (2 * t))). auto_derive. auto.
    + rewrite E. apply Rmult_le_pos; [|lra]. pose proof (COS_bound (2 * c)). lra.
  - destruct (MVT_gen (fun t => - (4 * cos t) - (2 * t - sin (2 * t))) t t' (fun t => 4 * sin t - (2 - 2 * cos (2 * t)))) as (c & C & E).
    + intros z _. auto_derive; auto. ring.
    + intros z _. apply continuity_pt_filterlim. apply (ex_derive_continuous (fun t => - (4 * cos t) - (2 * t - sin (2 * t)))). auto_derive. auto.
    + rewrite Rmin_left, Rmax_right in C by lra.
      assert (0 <= (4 * sin c - (2 - 2 * cos (2 * c))) * (t' - t)); [|lra]. apply Rmult_le_pos; [|lra].
      rewrite cos_2a_sin. assert (0 <= sin c) by (apply sin_ge_0; lra). assert (S := SIN_bound c). nra.
Qed.
Lemma acos_range x : 0 <= x <= 1 -> 0 <= acos x <= PI / 2.
Proof. intros H. assert (B := acos_bound x). split; [lra|]. rewrite <- acos_0. destruct (Req_dec x 0) as [->|N]; [lra|].
  destruct (Rle_dec (acos x) (acos 0)) as [A|A]; auto. exfalso.
  assert (C : cos (acos x) < cos (acos 0)) by (apply cos_decreasing_1; pose proof (acos_bound 0); lra). rewrite !cos_acos in C by lra. lra. Qed.
Lemma lens_arc W w : 0 < W -> 0 <= w <= W -> lens W w = (2 * acos (w / W) - sin (2 * acos (w / W))) / PI /\ 0 <= acos (w / W) <= PI / 2 /\ cos (acos (w / W)) = w / W.
Proof.
  intros HW Hw. assert (X : 0 <= w / W <= 1).
  { split; [apply quot_pos; lra|]. apply (Rmult_le_reg_r W); [lra|]. unfold Rdiv. rewrite Rmult_assoc, Rinv_l by lra. lra. }
  unfold lens. destruct (Rle_dec w W); [|lra]. split; [|split; [now apply acos_range | apply cos_acos; lra]].
  rewrite sin_2a, cos_acos, sin_acos by lra. unfold Rsqr. field. split; [lra | apply PI_neq0].
Qed.
Lemma lens_gentle W : 0 < W -> gentle (lens W) W (4 / PI).
Proof.
  intros HW a b Ha Hb. assert (P := PI_RGT_0).
  assert (K : forall a b, 0 <= a <= W -> 0 <= b <= W -> a <= b -> Rabs (lens W a - lens W b) <= 4 / PI / W * Rabs (a - b)).
  { clear a b Ha Hb. intros a b Ha Hb L. destruct (lens_arc W a HW Ha) as (-> & A & Ca), (lens_arc W b HW Hb) as (-> & B & Cb).
    set (t := acos (a / W)) in *. set (t' := acos (b / W)) in *.
    assert (Q : a / W <= b / W) by (apply Rmult_le_compat_r; [left; now apply Rinv_0_lt_compat | lra]).
    assert (T : t' <= t). { destruct (Rle_dec t' t); auto. exfalso. assert (cos t' < cos t) by (apply cos_decreasing_1; lra). lra. }
    destruct (arc_slope t' t B A T) as (S1 & S2). rewrite Ca, Cb in S2. rewrite (Rabs_minus_sym a), (Rabs_pos_eq (b - a)) by lra.
    replace ((2 * t - sin (2 * t)) / PI - (2 * t' - sin (2 * t')) / PI) with (((2 * t - sin (2 * t)) - (2 * t' - sin (2 * t'))) * / PI) by (field; lra).
    rewrite Rabs_pos_eq by (apply Rmult_le_pos; [lra | left; now apply Rinv_0_lt_compat]).
    replace (4 / PI / W * (b - a)) with (4 * (b / W - a / W) * / PI) by (field; lra).
    apply Rmult_le_compat_r; [left; now apply Rinv_0_lt_compat | exact S2]. }
  destruct (Rle_dec a b); [now apply K|]. rewrite (Rabs_minus_sym (lens W a)), (Rabs_minus_sym a). apply K; lra.
Qed.
Lemma lens_transfer W : 0 < W -> transfer (lens W) W.
Proof.
  intros HW. assert (P := PI_RGT_0).
  assert (E : lens W W = 0).
  { unfold lens. destruct (Rle_dec W W); [|lra]. replace (W / W) with 1 by (field; lra). rewrite acos_1. replace (1 - 1 * 1) with 0 by ring. rewrite sqrt_0. ring. }
  split; [|exact E]. intros w Hw. destruct (lens_arc W w HW Hw) as (-> & A & _).
  destruct (arc_slope 0 (acos (w / W)) ltac:(lra) A ltac:(lra)) as (S1 & _). destruct (arc_slope (acos (w / W)) (PI / 2) A ltac:(lra) ltac:(lra)) as (S2 & _).
  rewrite Rmult_0_r, sin_0 in S1. replace (2 * (PI / 2)) with PI in S2 by field. rewrite sin_PI in S2.
  rewrite Rabs_pos_eq; [|apply Rmult_le_pos; [lra | left; now apply Rinv_0_lt_compat]].
  apply (Rmult_le_reg_r PI); [lra|]. unfold Rdiv. rewrite Rmult_assoc, Rinv_l by lra. lra.
Qed.
Lemma lens_sampled l D n : 0 < l -> 0 < D -> (0 < n)%nat ->
  mapM (fun i => circular_aperture_OTF Np (D / l / INR n * INR i) 0 l D 0) (seq 0 n) = Ok (map Fin (samples (lens (D / l)) (D / l) n)).
Proof.
  intros Hl HD Hn. unfold samples. apply (mapM_fin _ (fun i => lens (D / l) (D / l / INR n * INR i))).
  intros i. apply lens_value; auto. apply Rmult_le_pos; [|apply pos_INR]. apply quot_pos; [|apply lt_0_INR; lia].
  left. apply Rdiv_lt_0_compat; lra.
Qed.

(** ** pixels so coarse that the sine runs through a whole period between two samples *)
Definition peak (w : R) : R := Rmax 0 (1 - w / 10000).
Lemma peak_gentle : gentle peak 500000 50.
Proof.
  intros a b Ha Hb. unfold peak, Rmax. repeat destruct (Rle_dec _ _); unfold Rabs; repeat destruct (Rcase_abs _); lra.
Qed.
Lemma peak_transfer : transfer peak 500000.
Proof.
  split; [intros w Hw|]; unfold peak, Rmax; repeat destruct (Rle_dec _ _); try (apply Rabs_le); lra.
Qed.
Lemma trapezoid_step y0 y1 y x0 x1 x : trapezoid (y0 :: y1 :: y) (x0 :: x1 :: x) = (x1 - x0) * (y0 + y1) / 2 + trapezoid (y1 :: y) (x1 :: x).
Proof. reflexivity. Qed.
Lemma trapezoid_null (x : nat -> R) l : trapezoid (map (fun _ => 0) l) (map x l) = 0.
Proof.
  induction l as [|i l IH]; [reflexivity|]. destruct l as [|j l]; [reflexivity|]. cbn [map] in *. rewrite trapezoid_step, IH. lra.
Qed.
Lemma trapezoid_first y0 (x : nat -> R) n : trapezoid (y0 :: map (fun _ => 0) (seq 1 (S n))) (map x (seq 0 (S (S n)))) = (x 1%nat - x 0%nat) * y0 / 2.
Proof.
  assert (E := trapezoid_null x (seq 1 (S n))). change (seq 0 (S (S n))) with (0 :: seq 1 (S n))%nat.
  change (seq 1 (S n)) with (1 :: seq 2 n)%nat in *. cbn [map] in *. rewrite trapezoid_step, E. lra.
Qed.
Lemma peak_edge : edge_at (samples peak 500000 50) (500000 / INR 50) (2 / 10 ^ 4) (1 / 2) = 1 / 2 + 10000 * (sin (2 * PI / 10 ^ 10) / (PI / 10 ^ 6)) / 2.
Proof.
  assert (N : INR 50 = 50) by (rewrite INR_IZR_INZ; reflexivity). assert (P := PI_RGT_0).
  unfold edge_at, samples. rewrite map_length, seq_length. f_equal.
  set (h := 500000 / INR 50). assert (Eh : h = 10000) by (unfold h; rewrite N; lra).
  transitivity (trapezoid ((sin (2 * PI / 10 ^ 10) / (PI / 10 ^ 6)) :: map (fun _ => 0) (seq 1 49)) (map (freq_of h) (seq 0 50))).
  - f_equal. change (seq 0 50) with (0%nat :: seq 1 49) at 2. cbn [map]. f_equal.
    + change (seq 0 50) with (0%nat :: seq 1 49). cbn [map nth]. unfold freq_of, peak. change (INR 0) with 0. rewrite !Rmult_0_r.
      rewrite Rmax_right by lra. replace (1 - 0 / 10000) with 1 by lra. rewrite Rmult_1_l. f_equal; [f_equal; lra | lra].
    + apply map_ext_in. intros i Hi. apply in_seq in Hi.
      rewrite (nth_indep _ 0 (peak (h * INR 0))) by (rewrite map_length, seq_length; lia).
      rewrite (map_nth (fun i => peak (h * INR i))), seq_nth by lia. rewrite Nat.add_0_l.
      replace (peak (h * INR i)) with 0; [unfold Rdiv; ring|]. unfold peak. rewrite Rmax_left; [reflexivity|].
      rewrite Eh. assert (1 <= INR i) by (change 1 with (INR 1); apply le_INR; lia). lra.
  - rewrite (trapezoid_first _ (freq_of h) 48). unfold freq_of. change (INR 0) with 0. change (INR 1) with 1. rewrite Eh. field. lra.
Qed.
Lemma peak_wrong : exists r e e', relative_edge_response (samples peak 500000 50) (500000 / INR 50) (2 / 10 ^ 4) = Ok (Fin r) /\
  blurred_edge peak 500000 (2 / 10 ^ 4 * (1 / 2)) e /\ blurred_edge peak 500000 (2 / 10 ^ 4 * - (1 / 2)) e' /\ 1.99 <= r /\ e - e' <= 1.5.
Proof.
  assert (P := PI_RGT_0). assert (P4 := PI_4). assert (N : INR 50 = 50) by (rewrite INR_IZR_INZ; reflexivity).
  set (k := 2 / 10 ^ 4 * (1 / 2)). assert (Ek : k = / 10 ^ 4) by (unfold k; lra).
  assert (LF := integrand_lip peak 500000 50 k ltac:(lra) ltac:(lra) peak_gentle peak_transfer).
  assert (CF := lipschitz_continuous _ _ LF). set (F := integrand peak 500000 k) in *.
  destruct (ex_RInt_continuous F 0 5000 (fun z _ => CF z)) as (J1 & H1). destruct (ex_RInt_continuous F 5000 500000 (fun z _ => CF z)) as (J2 & H2).
  assert (E : blurred_edge peak 500000 k (1 / 2 + (J1 + J2))).
  { exists (PI * (J1 + J2)). split; [|field; lra]. apply (is_RInt_ext (fun w => scal PI (F w))).
    - intros w Hw. rewrite Rmin_left, Rmax_right in Hw by lra. unfold F, integrand. rewrite clamp_id by lra. unfold scal; cbn; unfold mult; cbn. field. lra.
    - apply (is_RInt_scal F 0 500000 PI (J1 + J2)). exact (is_RInt_Chasles F 0 5000 500000 J1 J2 H1 H2). }
  exists (2 * edge_at (samples peak 500000 50) (500000 / INR 50) (2 / 10 ^ 4) (1 / 2) - 1), (1 / 2 + (J1 + J2)), (1 - (1 / 2 + (J1 + J2))).
  split; [apply rer_value; rewrite N; lra|]. split; [exact E|]. split; [replace (2 / 10 ^ 4 * - (1 / 2)) with (- k) by (unfold k; lra); now apply blurred_odd|].
  split.
  - rewrite peak_edge. set (t := 2 * PI / 10 ^ 10).
    assert (Q : (1 - / 10 ^ 3) * (2 / 10 ^ 4) <= sin t / (PI / 10 ^ 6)).
    { assert (B := wave_lip k (/ 10 ^ 6) 0). apply Rabs_le_inv in B. destruct B as (B & _). unfold wave in B.
      destruct (Req_EM_T (/ 10 ^ 6) 0) as [Z|_]; [lra|]. destruct (Req_EM_T 0 0) as [_|Z]; [|lra].
      replace (2 * PI * k * / 10 ^ 6) with t in B by (unfold t; rewrite Ek; lra). rewrite Rminus_0_r, (Rabs_pos_eq (/ 10 ^ 6)) in B by lra.
      assert (C : (2 * PI * k) ^ 2 / 2 * / 10 ^ 6 <= 2 * PI * k * / 10 ^ 3) by (rewrite Ek; nra).
      apply (Rmult_le_reg_r PI); [lra|]. replace (sin t / (PI / 10 ^ 6) * PI) with (sin t / / 10 ^ 6) by (field; lra).
      rewrite Ek in *. lra. }
    lra.
  - assert (B1 : J1 <= 2 * k * (3 / 8 * 10000)).
    { assert (I : is_RInt (fun w => 2 * k * (1 - w / 10000)) 0 5000 (2 * k * (3 / 8 * 10000))).
      { replace (2 * k * (3 / 8 * 10000)) with (minus (2 * k * (5000 - 5000 ^ 2 / 20000)) (2 * k * (0 - 0 ^ 2 / 20000))) by (unfold minus, plus, opp; cbn; lra).
        apply (is_RInt_derive (fun w => 2 * k * (w - w ^ 2 / 20000))).
        - intros w _. auto_derive; auto. field.
        - intros w _. apply (ex_derive_continuous (fun w => 2 * k * (1 - w / 10000))). auto_derive. auto. }
      refine (is_RInt_le F _ 0 5000 J1 _ ltac:(lra) H1 I _). intros w Hw. unfold F, integrand. rewrite clamp_id by lra.
      unfold peak. rewrite Rmax_right by lra. assert (B := wave_bound k w). apply Rabs_le_inv in B. rewrite (Rabs_pos_eq (2 * PI * k)) in B by nra.
      replace (2 * k * (1 - w / 10000)) with ((1 - w / 10000) * (2 * PI * k) / PI) by (field; lra).
      apply Rmult_le_compat_r; [left; now apply Rinv_0_lt_compat|]. apply Rmult_le_compat_l; lra. }
    assert (B2 : J2 <= 0).
    { assert (I := const_int 5000 500000 0). rewrite Rmult_0_r in I.
      refine (is_RInt_le F _ 5000 500000 J2 _ ltac:(lra) H2 I _). intros w Hw. unfold F, integrand. rewrite clamp_id by lra.
      unfold peak, Rmax. destruct (Rle_dec 0 (1 - w / 10000)) as [L|L]; [|unfold Rdiv; lra].
      unfold wave. destruct (Req_EM_T w 0) as [Z|_]; [lra|].
      assert (S : sin (2 * PI * k * w) <= 0). { apply sin_le_0; rewrite Ek; nra. }
      replace ((1 - w / 10000) * (sin (2 * PI * k * w) / w) / PI) with (- ((1 - w / 10000) * (- sin (2 * PI * k * w)) * / w * / PI)) by (field; lra).
      assert (0 <= (1 - w / 10000) * (- sin (2 * PI * k * w)) * / w * / PI); [|lra].
      repeat apply Rmult_le_pos; try lra; left; apply Rinv_0_lt_compat; lra. }
    rewrite Ek in B1. lra.
Qed.
Lemma blurred_unique m W k e e' : blurred_edge m W k e -> blurred_edge m W k e' -> e = e'.
Proof. intros (J & H & ->) (J' & H' & ->). rewrite <- (is_RInt_unique _ _ _ _ H), <- (is_RInt_unique _ _ _ _ H'). reflexivity. Qed.
Lemma uniform : ~ (forall m W L n ifov, 0 < W -> 0 <= L -> (50 <= n)%nat -> 0 < ifov -> gentle m W L -> transfer m W ->
  exists r e e', relative_edge_response (samples m W n) (W / INR n) ifov = Ok (Fin r) /\
    blurred_edge m W (ifov * (1 / 2)) e /\ blurred_edge m W (ifov * - (1 / 2)) e' /\ Rabs (r - (e - e')) <= 0.4).
Proof.
  intros H. destruct (H peak 500000 50 50%nat (2 / 10 ^ 4) ltac:(lra) ltac:(lra) ltac:(lia) ltac:(lra) peak_gentle peak_transfer) as (r & e & e' & A & B & C & D).
  destruct peak_wrong as (r1 & e1 & e1' & A1 & B1 & C1 & U & V). rewrite A in A1. injection A1 as ->.
  rewrite (blurred_unique _ _ _ _ _ B B1), (blurred_unique _ _ _ _ _ C C1) in D. apply Rabs_le_inv in D. lra.
Qed.

Lemma lens_near l D n ifov : 0 < l -> 0 < D -> (0 < n)%nat ->
  exists mtf r e e', mapM (fun i => circular_aperture_OTF Np (D / l / INR n * INR i) 0 l D 0) (seq 0 n) = Ok (map Fin mtf) /\
    relative_edge_response mtf (D / l / INR n) ifov = Ok (Fin r) /\
    blurred_edge (lens (D / l)) (D / l) (ifov * (1 / 2)) e /\ blurred_edge (lens (D / l)) (D / l) (ifov * - (1 / 2)) e' /\
    Rabs (r - (e - e')) <= 2 * edge_error (PI * Rabs ifov * (D / l)) (4 / PI) (D / l) n.
Proof.
  intros Hl HD Hn. assert (P := PI_RGT_0). assert (HW : 0 < D / l) by (apply Rdiv_lt_0_compat; lra).
  destruct (relative_near (lens (D / l)) (D / l) (4 / PI) n ifov HW ltac:(left; apply Rdiv_lt_0_compat; lra) Hn (lens_gentle _ HW) (lens_transfer _ HW)) as (r & e & e' & H).
  exists (samples (lens (D / l)) (D / l) n), r, e, e'. split; [now apply lens_sampled | exact H].
Qed.
