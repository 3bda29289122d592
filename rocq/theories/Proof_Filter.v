(** * Proof_Filter: the image filter transfer function. *)
From Coq Require Import Reals Lra Psatz Bool List ZArith Lia.
From Flocq Require Import Core.Raux.
From Coquelicot Require Import Coquelicot.
From Verif Require Import Base_XR Base_Np Model_Geo Model_Otf Spec_Otf Spec_Filter Proof_Otf Proof_Turb.
Import ListNotations.
Open Scope R_scope.

(** ** Wrapping *)
Lemma pymod_range x m : 0 < m -> 0 <= pymod x m < m.
Proof.
  intros Hm. unfold pymod. assert (A := Zfloor_lb (x / m)). assert (B := Zfloor_ub (x / m)).
  set (z := IZR (Zfloor (x / m))) in *.
  assert (E : x = m * (x / m)) by (field; lra).
  split; rewrite E at 1; nra.
Qed.
Lemma pymod_period x m (k : Z) : m <> 0 -> pymod (x + IZR k * m) m = pymod x m.
Proof.
  intros Hm. unfold pymod.
  replace ((x + IZR k * m) / m) with (x / m + IZR k) by (field; auto).
  replace (Zfloor (x / m + IZR k)) with (Zfloor (x / m) + k)%Z.
  - rewrite plus_IZR. ring.
  - symmetry. apply Zfloor_imp. rewrite !plus_IZR.
    generalize (Zfloor_lb (x / m)) (Zfloor_ub (x / m)). lra.
Qed.
Lemma wrap_period x n (k : Z) : n <> 0 -> wrap_val (x + IZR k * (2 * n)) n = wrap_val x n.
Proof.
  intros Hn. unfold wrap_val.
  replace (x + IZR k * (2 * n) + n) with (x + n + IZR k * (2 * n)) by ring.
  rewrite pymod_period by lra. reflexivity.
Qed.
Lemma wrap_range x n : 0 < n -> 0 <= wrap_val x n + n < 2 * n.
Proof. intros Hn. unfold wrap_val. generalize (pymod_range (x + n) (2 * n)). lra. Qed.
Lemma wrap_inside x n : 0 < n -> - n <= x < n -> wrap_val x n = x.
Proof.
  intros Hn Hx. unfold wrap_val, pymod.
  assert (B : 0 <= (x + n) / (2 * n) < 1).
  { split; [apply div_ge0; lra|]. apply Rmult_lt_reg_r with (2 * n); [lra|].
    unfold Rdiv. rewrite Rmult_assoc, Rinv_l by lra. lra. }
  replace (Zfloor ((x + n) / (2 * n))) with 0%Z by (symmetry; apply Zfloor_imp; simpl; lra).
  ring.
Qed.

Lemma cell_range x : 0 <= x <= 99 -> (cell x <= 98)%nat /\ 0 <= x - INR (cell x) <= 1.
Proof.
  intros [H0 H1]. unfold cell. change (n_filt - 2)%nat with 98%nat.
  split; [apply Nat.le_min_l|].
  assert (A := Zfloor_lb x). assert (B := Zfloor_ub x).
  assert (P : (0 <= Zfloor x)%Z) by (apply le_IZR; apply IZR_le; apply Zfloor_lub; simpl; lra).
  assert (E : INR (Z.to_nat (Zfloor x)) = IZR (Zfloor x)) by (rewrite INR_IZR_INZ, Z2Nat.id by lia; reflexivity).
  destruct (Nat.le_gt_cases 98 (Z.to_nat (Zfloor x))) as [L|L].
  - rewrite Nat.min_l by auto. apply le_INR in L. rewrite E in L.
    replace (INR 98) with 98 in * by (rewrite INR_IZR_INZ; reflexivity). lra.
  - rewrite Nat.min_r by lia. rewrite E. lra.
Qed.
Lemma cell_at (n : nat) x : (n <= 98)%nat -> INR n <= x < INR n + 1 -> cell x = n.
Proof.
  intros Hn Hx. unfold cell. replace (Zfloor x) with (Z.of_nat n).
  - rewrite Nat2Z.id. apply Nat.min_r. exact Hn.
  - symmetry. apply Zfloor_imp. rewrite plus_IZR, <- INR_IZR_INZ. exact Hx.
Qed.

Lemma tri_bounds d f00 f01 f10 f11 s t lo hi : 0 <= s <= 1 -> 0 <= t <= 1 ->
  lo <= f00 <= hi -> lo <= f01 <= hi -> lo <= f10 <= hi -> lo <= f11 <= hi ->
  lo <= tri d f00 f01 f10 f11 s t <= hi.
Proof.
  intros Hs Ht H0 H1 H2 H3. unfold tri. destruct d; rcase.
  - replace (f00 + s * (f01 - f00) + t * (f11 - f01)) with ((1 - s) * f00 + (s - t) * f01 + t * f11) by ring. nra.
  - replace (f00 + t * (f10 - f00) + s * (f11 - f10)) with ((1 - t) * f00 + (t - s) * f10 + s * f11) by ring. nra.
  - replace (f00 + s * (f01 - f00) + t * (f10 - f00)) with ((1 - s - t) * f00 + s * f01 + t * f10) by ring. nra.
  - replace (f11 + (1 - s) * (f10 - f11) + (1 - t) * (f01 - f11)) with ((s + t - 1) * f11 + (1 - s) * f10 + (1 - t) * f01) by ring. nra.
Qed.

(** ** Size of the transform *)
Definition absum (kernel : list (list R)) : R :=
  Rsum (map (fun a => Rsum (map (fun b => Rabs (kget kernel a b)) (seq 0 n_filt))) (seq 0 n_filt)).

Lemma Rsum_le {A} (f g : A -> R) l : (forall x, f x <= g x) -> Rsum (map f l) <= Rsum (map g l).
Proof. intros H. induction l as [|x l IH]; simpl; [lra|]. generalize (H x). lra. Qed.
Lemma Cmod_sum {A} (f g : A -> R) l :
  Cmod (Rsum (map f l), Rsum (map g l)) <= Rsum (map (fun x => Cmod (f x, g x)) l).
Proof.
  induction l as [|x l IH].
  - simpl. unfold Cmod. simpl. replace (0 * (0 * 1) + 0 * (0 * 1)) with 0 by ring. rewrite sqrt_0. lra.
  - simpl. apply Rle_trans with (2 := Rplus_le_compat_l _ _ _ IH).
    exact (Cmod_triangle (f x, g x) (Rsum (map f l), Rsum (map g l))).
Qed.
Lemma xfer_Cmod kernel i j :
  exists j' k', xfer kernel i j = Cmod (dft_re kernel j' k', dft_im kernel j' k').
Proof.
  exists ((i + n_filt / 2) mod n_filt)%nat, ((j + n_filt / 2) mod n_filt)%nat.
  unfold xfer, Cmod. cbn [fst snd]. f_equal. ring.
Qed.
Lemma dft_bound kernel j k : Cmod (dft_re kernel j k, dft_im kernel j k) <= absum kernel.
Proof.
  unfold dft_re, dft_im, absum. eapply Rle_trans; [apply Cmod_sum|]. apply Rsum_le. intros a.
  eapply Rle_trans; [apply Cmod_sum|]. apply Rsum_le. intros b.
  unfold Cmod. cbn [fst snd]. set (t := 2 * PI * (INR (j * a) + INR (k * b)) / INR n_filt).
  set (c := kget kernel a b). rewrite <- (sqrt_Rsqr_abs c). right. f_equal. unfold Rsqr.
  generalize (sin2_cos2 t). unfold Rsqr. intros E.
  replace ((c * cos t) ^ 2 + (- (c * sin t)) ^ 2) with (c * c * (sin t * sin t + cos t * cos t)) by ring.
  rewrite E. ring.
Qed.
Lemma xfer_bounds kernel i j : 0 <= xfer kernel i j <= absum kernel.
Proof.
  destruct (xfer_Cmod kernel i j) as (j' & k' & ->). split; [apply Cmod_ge_0 | apply dft_bound].
Qed.

Lemma filter_bounded diag u v kernel ifov : 0 < ifov ->
  exists h, filter_OTF diag u v kernel ifov = Ok (Fin h)
    /\ 0 <= h <= Rsum (map (fun a => Rsum (map (fun b => Rabs (kget kernel a b)) (seq 0 100))) (seq 0 100))
    /\ (forall lo hi, (forall i j, (i < 100)%nat -> (j < 100)%nat -> lo <= xfer kernel i j <= hi) -> lo <= h <= hi).
Proof.
  intros Hi. unfold filter_OTF. rewrite pydiv_ok by lra. cbn [bind].
  set (n := 0.5 / ifov). assert (Hn : 0 < n) by (apply Rdiv_lt_0_compat; lra).
  replace (INR (n_filt - 1)) with 99 by (change (n_filt - 1)%nat with 99%nat; rewrite INR_IZR_INZ; reflexivity).
  set (x := (wrap_val u n + n) / (2 * n) * 99). set (y := (n - wrap_val v n) / (2 * n) * 99).
  assert (U : forall z, 0 <= z <= 2 * n -> 0 <= z / (2 * n) * 99 <= 99).
  { intros z Hz. assert (0 <= z / (2 * n) <= 1); [|lra].
    split; [apply div_ge0; lra|]. apply Rmult_le_reg_r with (2 * n); [lra|].
    unfold Rdiv. rewrite Rmult_assoc, Rinv_l by lra. lra. }
  assert (X : 0 <= x <= 99) by (apply U; generalize (wrap_range u n Hn); lra).
  assert (Y : 0 <= y <= 99) by (apply U; generalize (wrap_range v n Hn); lra).
  destruct (cell_range x X) as [Xc Xs]. destruct (cell_range y Y) as [Yc Ys].
  eexists; split; [reflexivity|]. split.
  - apply tri_bounds; auto; apply xfer_bounds.
  - intros lo hi B. apply tri_bounds; auto; apply B; lia.
Qed.

Lemma filter_periodic diag u v kernel ifov (m1 m2 : Z) : ifov <> 0 ->
  filter_OTF diag (u + IZR m1 / ifov) (v + IZR m2 / ifov) kernel ifov = filter_OTF diag u v kernel ifov.
Proof.
  intros Hi. unfold filter_OTF. rewrite pydiv_ok by auto. cbn [bind].
  set (n := 0.5 / ifov).
  assert (Hn : n <> 0) by (unfold n, Rdiv; apply Rmult_integral_contrapositive_currified; [lra | apply Rinv_neq_0_compat; auto]).
  assert (E : forall m, IZR m / ifov = IZR m * (2 * n)) by (intros; unfold n, Rdiv; lra).
  rewrite !E, !wrap_period by auto. reflexivity.
Qed.
Lemma filter_zero_ifov diag u v kernel : filter_OTF diag u v kernel 0 = Err ZeroDivisionError.
Proof. unfold filter_OTF. rewrite pydiv_zero. reflexivity. Qed.

(** ** The zero-frequency sample *)
Lemma Rsum_zero {A} (f : A -> R) l : (forall x, In x l -> f x = 0) -> Rsum (map f l) = 0.
Proof.
  intros H. induction l as [|x l IH]; [reflexivity|].
  simpl. rewrite (H x) by (left; reflexivity). rewrite IH by (intros; apply H; right; auto). ring.
Qed.
Lemma Rsum_map_ext {A} (f g : A -> R) l : (forall x, In x l -> f x = g x) -> Rsum (map f l) = Rsum (map g l).
Proof. intros H. f_equal. apply map_ext_in. exact H. Qed.

Lemma dft_dc kernel : dft_im kernel 0 0 = 0
  /\ dft_re kernel 0 0 = Rsum (map (fun a => Rsum (map (fun b => kget kernel a b) (seq 0 100))) (seq 0 100)).
Proof.
  unfold dft_im, dft_re. split.
  - apply Rsum_zero. intros a _. apply Rsum_zero. intros b _.
    replace (2 * PI * (INR (0 * a) + INR (0 * b)) / INR n_filt) with 0.
    + rewrite sin_0. ring.
    + rewrite !Nat.mul_0_l. simpl (INR 0). unfold Rdiv. ring.
  - apply Rsum_map_ext. intros a _. apply Rsum_map_ext. intros b _.
    replace (2 * PI * (INR (0 * a) + INR (0 * b)) / INR n_filt) with 0.
    + rewrite cos_0. ring.
    + rewrite !Nat.mul_0_l. simpl (INR 0). unfold Rdiv. ring.
Qed.

Lemma filter_dc_sample diag kernel ifov : 0 < ifov ->
  filter_OTF diag (0.5 / ifov / 99) (- (0.5 / ifov / 99)) kernel ifov
  = Ok (Fin (Rabs (Rsum (map (fun a => Rsum (map (fun b => kget kernel a b) (seq 0 100))) (seq 0 100))))).
Proof.
  intros Hi. unfold filter_OTF. rewrite pydiv_ok by lra. cbn [bind].
  set (n := 0.5 / ifov). assert (Hn : 0 < n) by (apply Rdiv_lt_0_compat; lra).
  replace (INR (n_filt - 1)) with 99 by (change (n_filt - 1)%nat with 99%nat; rewrite INR_IZR_INZ; reflexivity).
  rewrite !wrap_inside by lra.
  replace ((n / 99 + n) / (2 * n) * 99) with 50 by (field; lra).
  replace ((n - - (n / 99)) / (2 * n) * 99) with 50 by (field; lra).
  assert (I50 : INR 50 = 50) by (rewrite INR_IZR_INZ; reflexivity).
  rewrite (cell_at 50 50) by (try lia; rewrite I50; lra). rewrite I50.
  do 2 f_equal.
  assert (X : xfer kernel 50 50 = Rabs (dft_re kernel 0 0)).
  { unfold xfer. change ((50 + n_filt / 2) mod n_filt)%nat with 0%nat.
    rewrite (proj1 (dft_dc kernel)). rewrite Rmult_0_r, Rplus_0_r. apply sqrt_Rsqr_abs. }
  replace (50 - 50) with 0 by ring. unfold tri.
  rewrite X, (proj2 (dft_dc kernel)).
  destruct (diag 50%nat 50%nat); rcase; try lra; ring.
Qed.

(** ** The witness: a two-tap average *)
Definition two_tap : list (list R) := [[1 / 2; 1 / 2]; [0; 0]].
Lemma two_tap_row a : (1 <= a)%nat -> forall b, kget two_tap a b = 0.
Proof.
  intros Ha b. unfold kget, two_tap. destruct a as [|[|a]]; [lia| |].
  - destruct b as [|[|[|b]]]; reflexivity.
  - simpl. destruct a; destruct b; reflexivity.
Qed.
Lemma two_tap_col b : (2 <= b)%nat -> kget two_tap 0 b = 0.
Proof. intros Hb. unfold kget, two_tap. destruct b as [|[|[|b]]]; try lia; reflexivity. Qed.
Lemma two_tap_sum (c : nat -> nat -> R) :
  Rsum (map (fun a => Rsum (map (fun b => kget two_tap a b * c a b) (seq 0 100))) (seq 0 100))
  = 1 / 2 * c 0%nat 0%nat + 1 / 2 * c 0%nat 1%nat.
Proof.
  change (seq 0 100) with (0%nat :: seq 1 99) at 2. cbn [map]. unfold Rsum at 1. cbn [fold_right].
  fold (Rsum (map (fun a => Rsum (map (fun b => kget two_tap a b * c a b) (seq 0 100))) (seq 1 99))).
  rewrite (Rsum_zero _ (seq 1 99)).
  - change (seq 0 100) with (0%nat :: 1%nat :: seq 2 98). cbn [map]. unfold Rsum. cbn [fold_right].
    fold (Rsum (map (fun b => kget two_tap 0 b * c 0%nat b) (seq 2 98))).
    rewrite (Rsum_zero _ (seq 2 98)).
    + unfold kget, two_tap. cbn [nth]. ring.
    + intros b Hb. apply in_seq in Hb. rewrite two_tap_col by lia. ring.
  - intros a Ha. apply in_seq in Ha. apply Rsum_zero. intros b _. rewrite two_tap_row by lia. ring.
Qed.
Lemma two_tap_total : Rsum (map (fun a => Rsum (map (fun b => kget two_tap a b) (seq 0 100))) (seq 0 100)) = 1.
Proof.
  transitivity (1 / 2 * 1 + 1 / 2 * 1); [|field].
  rewrite <- (two_tap_sum (fun _ _ => 1)). apply Rsum_map_ext. intros a _. apply Rsum_map_ext. intros b _. ring.
Qed.
Lemma two_tap_xfer_at j k : dft_re two_tap j k * dft_re two_tap j k + dft_im two_tap j k * dft_im two_tap j k
  = cos (PI * INR k / 100) * cos (PI * INR k / 100).
Proof.
  assert (I100 : INR n_filt = 100) by (unfold n_filt; rewrite INR_IZR_INZ; reflexivity).
  assert (Ere : dft_re two_tap j k = 1 / 2 + 1 / 2 * cos (2 * (PI * INR k / 100))).
  { etransitivity; [exact (two_tap_sum (fun a b => cos (2 * PI * (INR (j * a) + INR (k * b)) / INR n_filt)))|]. cbv beta.
    rewrite I100, !Nat.mul_0_r, Nat.mul_1_r. simpl (INR 0).
    replace (2 * PI * (0 + 0) / 100) with 0 by field. rewrite cos_0.
    replace (2 * PI * (0 + INR k) / 100) with (2 * (PI * INR k / 100)) by field. ring. }
  assert (Eim : dft_im two_tap j k = - (1 / 2 * sin (2 * (PI * INR k / 100)))).
  { transitivity (1 / 2 * - sin (2 * PI * (INR (j * 0) + INR (k * 0)) / INR n_filt)
                  + 1 / 2 * - sin (2 * PI * (INR (j * 0) + INR (k * 1)) / INR n_filt)).
    - rewrite <- (two_tap_sum (fun a b => - sin (2 * PI * (INR (j * a) + INR (k * b)) / INR n_filt))).
      apply Rsum_map_ext. intros a _. apply Rsum_map_ext. intros b _. ring.
    - rewrite I100, !Nat.mul_0_r, Nat.mul_1_r. simpl (INR 0).
      replace (2 * PI * (0 + 0) / 100) with 0 by field. rewrite sin_0.
      replace (2 * PI * (0 + INR k) / 100) with (2 * (PI * INR k / 100)) by field. ring. }
  rewrite Ere, Eim, cos_2a_cos, sin_2a. set (t := PI * INR k / 100).
  generalize (sin2_cos2 t). unfold Rsqr. intros E.
  replace ((1 / 2 + 1 / 2 * (2 * cos t * cos t - 1)) * (1 / 2 + 1 / 2 * (2 * cos t * cos t - 1))
     + - (1 / 2 * (2 * sin t * cos t)) * - (1 / 2 * (2 * sin t * cos t)))
    with (cos t * cos t * (sin t * sin t + cos t * cos t)) by field.
  rewrite E. ring.
Qed.

Lemma filter_two_tap diag ifov : 0 < ifov ->
  filter_OTF diag 0 0 two_tap ifov = Ok (Fin ((1 + cos (PI / 100)) / 2)).
Proof.
  intros Hi. unfold filter_OTF. rewrite pydiv_ok by lra. cbn [bind].
  set (n := 0.5 / ifov). assert (Hn : 0 < n) by (apply Rdiv_lt_0_compat; lra).
  replace (INR (n_filt - 1)) with 99 by (change (n_filt - 1)%nat with 99%nat; rewrite INR_IZR_INZ; reflexivity).
  rewrite !wrap_inside by lra.
  replace ((0 + n) / (2 * n) * 99) with (99 / 2) by (field; lra).
  replace ((n - 0) / (2 * n) * 99) with (99 / 2) by (field; lra).
  assert (I49 : INR 49 = 49) by (rewrite INR_IZR_INZ; reflexivity).
  rewrite (cell_at 49 (99 / 2)) by (try lia; rewrite I49; lra). rewrite I49.
  do 2 f_equal. generalize PI_RGT_0; intros P.
  assert (C : 0 < cos (PI / 100)) by (apply cos_gt_0; lra).
  assert (X0 : forall i, xfer two_tap i 50 = 1).
  { intros i. unfold xfer. rewrite two_tap_xfer_at.
    change ((50 + n_filt / 2) mod n_filt)%nat with 0%nat. simpl (INR 0).
    replace (PI * 0 / 100) with 0 by field. rewrite cos_0, Rmult_1_l. apply sqrt_1. }
  assert (X9 : forall i, xfer two_tap i 49 = cos (PI / 100)).
  { intros i. unfold xfer. rewrite two_tap_xfer_at.
    change ((49 + n_filt / 2) mod n_filt)%nat with 99%nat.
    replace (PI * INR 99 / 100) with (PI - PI / 100) by (rewrite INR_IZR_INZ; simpl; field).
    rewrite Rtrigo_facts.cos_pi_minus. replace (- cos (PI / 100) * - cos (PI / 100)) with (cos (PI / 100) * cos (PI / 100)) by ring.
    apply sqrt_square. lra. }
  change (49 + 1)%nat with 50%nat. rewrite !X0, !X9.
  unfold tri. destruct (diag 49%nat 49%nat); rcase; lra.
Qed.
Lemma filter_dc_refuted : exists kernel,
  Rsum (map (fun a => Rsum (map (fun b => kget kernel a b) (seq 0 100))) (seq 0 100)) = 1
  /\ forall diag ifov, 0 < ifov -> exists h, filter_OTF diag 0 0 kernel ifov = Ok (Fin h) /\ h < 1.
Proof.
  exists two_tap. split; [exact two_tap_total|]. intros diag ifov Hi.
  rewrite filter_two_tap by auto. eexists; split; [reflexivity|].
  generalize PI_RGT_0; intros P.
  assert (cos (PI / 100) < cos 0); [apply cos_decreasing_1; lra|]. rewrite cos_0 in *. lra.
Qed.

(** ** The grid samples are exact *)
Lemma sum2_ext f g : (forall a b, f a b = g a b) -> sum2 f = sum2 g.
Proof.
  intros H. unfold sum2. apply Rsum_map_ext. intros a _. apply Rsum_map_ext. intros b _. apply H.
Qed.
Lemma Rsum_opp {A} (f : A -> R) l : Rsum (map (fun x => - f x) l) = - Rsum (map f l).
Proof. induction l as [|x l IH]; simpl; [ring|]. rewrite IH. ring. Qed.
Lemma sum2_opp f : sum2 (fun a b => - f a b) = - sum2 f.
Proof.
  unfold sum2. rewrite <- Rsum_opp. apply Rsum_map_ext. intros a _. apply Rsum_opp.
Qed.
Lemma sin_period_Z x (m : Z) : sin (x + 2 * PI * IZR m) = sin x.
Proof.
  rewrite <- !cos_shift. replace (PI / 2 - (x + 2 * PI * IZR m)) with (PI / 2 - x + 2 * PI * IZR (- m)) by (rewrite opp_IZR; ring).
  apply cos_period_Z.
Qed.
Definition frq (i : nat) : R := (INR i - 50) / 100.
Lemma shift_frq i : (i < 100)%nat -> exists z : Z, INR ((i + n_filt / 2) mod n_filt) / 100 = frq i + IZR z.
Proof.
  intros Hi. change (n_filt / 2)%nat with 50%nat. change n_filt with 100%nat. unfold frq.
  destruct (Nat.lt_ge_cases i 50) as [L|L].
  - exists 1%Z. rewrite Nat.mod_small by lia. rewrite plus_INR.
    replace (INR 50) with 50 by (rewrite INR_IZR_INZ; reflexivity). lra.
  - exists 0%Z. replace (i + 50)%nat with ((i - 50) + 1 * 100)%nat by lia.
    rewrite Nat.mod_add, Nat.mod_small by lia. rewrite minus_INR by lia.
    replace (INR 50) with 50 by (rewrite INR_IZR_INZ; reflexivity). lra.
Qed.
Lemma xfer_gain kernel i j : (i < 100)%nat -> (j < 100)%nat -> xfer kernel i j = gain kernel (frq i) (frq j).
Proof.
  intros Hi Hj. unfold xfer, gain.
  destruct (shift_frq i Hi) as (zi & Ei). destruct (shift_frq j Hj) as (zj & Ej).
  set (i' := ((i + n_filt / 2) mod n_filt)%nat) in *. set (j' := ((j + n_filt / 2) mod n_filt)%nat) in *.
  assert (PH : forall a b, 2 * PI * (INR (i' * a) + INR (j' * b)) / INR n_filt
      = 2 * PI * (frq i * INR a + frq j * INR b) + 2 * PI * IZR (zi * Z.of_nat a + zj * Z.of_nat b)).
  { intros a b. rewrite plus_IZR, !mult_IZR, <- !INR_IZR_INZ, !mult_INR.
    replace (INR n_filt) with 100 by (change n_filt with 100%nat; rewrite INR_IZR_INZ; reflexivity).
    replace (INR i') with (100 * (INR i' / 100)) by lra. replace (INR j') with (100 * (INR j' / 100)) by lra.
    rewrite Ei, Ej. field. }
  assert (RE : dft_re kernel i' j' = sum2 (fun a b => coef kernel a b * cos (2 * PI * (frq i * INR a + frq j * INR b)))).
  { unfold dft_re. change n_filt with 100%nat in *.
    apply (sum2_ext (fun a b => kget kernel a b * cos (2 * PI * (INR (i' * a) + INR (j' * b)) / INR 100))).
    intros a b. rewrite PH. change (kget kernel a b) with (coef kernel a b). f_equal. apply cos_period_Z. }
  assert (IM : dft_im kernel i' j' = - sum2 (fun a b => coef kernel a b * sin (2 * PI * (frq i * INR a + frq j * INR b)))).
  { unfold dft_im. rewrite <- sum2_opp. change n_filt with 100%nat in *.
    apply (sum2_ext (fun a b => - (kget kernel a b * sin (2 * PI * (INR (i' * a) + INR (j' * b)) / INR 100)))).
    intros a b. rewrite PH. change (kget kernel a b) with (coef kernel a b). f_equal. f_equal. apply sin_period_Z. }
  rewrite RE, IM. f_equal. ring.
Qed.

Lemma filter_bounds diag u v kernel ifov : 0 < ifov ->
  exists h, filter_OTF diag u v kernel ifov = Ok (Fin h)
    /\ 0 <= h <= sum2 (fun a b => Rabs (coef kernel a b))
    /\ (forall lo hi, (forall x y, lo <= gain kernel x y <= hi) -> lo <= h <= hi).
Proof.
  intros Hi. destruct (filter_bounded diag u v kernel ifov Hi) as (h & E & B & L).
  exists h. split; [exact E|]. split; [exact B|]. intros lo hi G. apply L. intros i j Li Lj.
  rewrite xfer_gain by auto. apply G.
Qed.

(* grid coordinates: column j sits at u = nyquist (2 j / 99 - 1), row i at
   v = nyquist (1 - 2 i / 99); the value there is the response (j - 50)/100
   cycles per column and (i - 50)/100 cycles per row *)
Lemma filter_samples diag kernel ifov i j : 0 < ifov -> (0 < i < 100)%nat -> (j < 99)%nat ->
  filter_OTF diag (0.5 / ifov * (2 * INR j / 99 - 1)) (0.5 / ifov * (1 - 2 * INR i / 99)) kernel ifov
  = Ok (Fin (gain kernel ((INR i - 50) / 100) ((INR j - 50) / 100))).
Proof.
  intros Hi Li Lj. fold (frq i) (frq j). rewrite <- xfer_gain by lia.
  unfold filter_OTF. rewrite pydiv_ok by lra. cbn [bind].
  set (n := 0.5 / ifov). assert (Hn : 0 < n) by (apply Rdiv_lt_0_compat; lra).
  replace (INR (n_filt - 1)) with 99 by (change (n_filt - 1)%nat with 99%nat; rewrite INR_IZR_INZ; reflexivity).
  assert (J0 := pos_INR j). assert (I0 : 1 <= INR i) by (apply (le_INR 1); lia).
  assert (J1 : INR j <= 98) by (replace 98 with (INR 98) by (rewrite INR_IZR_INZ; reflexivity); apply le_INR; lia).
  assert (I1 : INR i <= 99) by (replace 99 with (INR 99) by (rewrite INR_IZR_INZ; reflexivity); apply le_INR; lia).
  rewrite !wrap_inside; try assumption.
  2:{ split; [apply Rle_trans with (n * -1); [lra | apply Rmult_le_compat_l; lra]|].
      rewrite <- (Rmult_1_r n) at 2. apply Rmult_lt_compat_l; lra. }
  2:{ split; [apply Rle_trans with (n * -1); [lra | apply Rmult_le_compat_l; lra]|].
      rewrite <- (Rmult_1_r n) at 2. apply Rmult_lt_compat_l; lra. }
  replace ((n * (2 * INR j / 99 - 1) + n) / (2 * n) * 99) with (INR j) by (field; lra).
  replace ((n - n * (1 - 2 * INR i / 99)) / (2 * n) * 99) with (INR i) by (field; lra).
  rewrite (cell_at j (INR j)) by (try lia; split; lra). rewrite Rminus_diag_eq by reflexivity.
  destruct (Nat.eq_dec i 99) as [-> | Ni].
  - replace (cell (INR 99)) with 98%nat.
    2:{ unfold cell. change (n_filt - 2)%nat with 98%nat.
        replace (Zfloor (INR 99)) with 99%Z by (rewrite INR_IZR_INZ; symmetry; apply Zfloor_IZR). reflexivity. }
    replace (INR 99 - INR 98) with 1 by (rewrite !INR_IZR_INZ; simpl; lra).
    change (98 + 1)%nat with 99%nat. do 2 f_equal. unfold tri. destruct (diag _ _); rcase; try lra; ring.
  - rewrite (cell_at i (INR i)) by (try lia; split; lra). rewrite Rminus_diag_eq by reflexivity.
    do 2 f_equal. unfold tri. destruct (diag _ _); rcase; try lra; ring.
Qed.
