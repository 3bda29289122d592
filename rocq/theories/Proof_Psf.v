(** * Proof_Psf: point spread functions from transfer functions. *)
From Coq Require Import Reals Lra Psatz Bool List ZArith Lia Permutation.
From Flocq Require Import Core.Raux.
From Verif Require Import Base_XR Base_Np Model_Geo Model_Otf Model_Img Spec_Img Proof_Otf Proof_Filter Proof_Weight.
Import ListNotations.
Open Scope R_scope.

(** ** Rotating an index *)
Lemma mod_shift_list n k : (k <= n)%nat -> (0 < n)%nat ->
  map (fun i => (i + k) mod n)%nat (seq 0 n) = seq k (n - k) ++ seq 0 k.
Proof.
  intros Hk Hn. replace (seq 0 n) with (seq 0 (n - k) ++ seq (0 + (n - k)) k) by (rewrite <- seq_app; f_equal; lia).
  rewrite map_app. f_equal.
  - apply nth_ext with (d := ((0 + k) mod n)%nat) (d' := 0%nat).
    + rewrite map_length, !seq_length. reflexivity.
    + intros i Hi. rewrite map_length, seq_length in Hi.
      rewrite (map_nth (fun i => (i + k) mod n)%nat). rewrite !seq_nth by exact Hi.
      rewrite Nat.mod_small by lia. lia.
  - apply nth_ext with (d := ((0 + k) mod n)%nat) (d' := 0%nat).
    + rewrite map_length, !seq_length. reflexivity.
    + intros i Hi. rewrite map_length, seq_length in Hi.
      rewrite (map_nth (fun i => (i + k) mod n)%nat). rewrite !seq_nth by exact Hi.
      replace (0 + (n - k) + i + k)%nat with (i + 1 * n)%nat by lia.
      rewrite Nat.mod_add, Nat.mod_small by lia. lia.
Qed.
Lemma Rsum_perm l l' : Permutation l l' -> Rsum l = Rsum l'.
Proof. induction 1; unfold Rsum in *; cbn [fold_right]; lra. Qed.
Lemma Rsum_rotate (F : nat -> R) n k : (k <= n)%nat -> (0 < n)%nat ->
  Rsum (map (fun i => F ((i + k) mod n)%nat) (seq 0 n)) = Rsum (map F (seq 0 n)).
Proof.
  intros Hk Hn. rewrite <- (map_map (fun i => (i + k) mod n)%nat F), mod_shift_list by auto.
  apply Rsum_perm. apply Permutation_map.
  rewrite Permutation_app_comm. replace (seq 0 n) with (seq 0 k ++ seq k (n - k)); [reflexivity|].
  change k with (0 + k)%nat at 2. rewrite <- seq_app. f_equal. lia.
Qed.
Lemma fsh_congr n i : (0 < n)%nat -> exists z : Z,
  INR (fsh n i) = INR i - ctr n + INR n * IZR z.
Proof.
  intros Hn. unfold fsh, ctr.
  assert (D := Nat.div_mod (i + (n - n / 2)) n ltac:(lia)).
  assert (H2 : (n / 2 <= n)%nat) by (apply Nat.div_le_upper_bound; lia).
  exists (1 - Z.of_nat ((i + (n - n / 2)) / n))%Z.
  rewrite minus_IZR, <- INR_IZR_INZ.
  apply (f_equal INR) in D. rewrite !plus_INR, mult_INR, minus_INR in D by exact H2. nra.
Qed.
(* p -> p', the index the shifted spectrum reads *)
Lemma fsh_congr_freq n p : (0 < n)%nat -> exists z : Z,
  INR p = INR (fsh n p) - INR (n - n / 2) + INR n * IZR z.
Proof.
  intros Hn. unfold fsh.
  assert (D := Nat.div_mod (p + (n - n / 2)) n ltac:(lia)).
  exists (Z.of_nat ((p + (n - n / 2)) / n))%Z. rewrite <- INR_IZR_INZ.
  apply (f_equal INR) in D. rewrite !plus_INR, mult_INR in D. lra.
Qed.
Lemma INR_sub_Z a b : exists z : Z, INR a - INR b = IZR z.
Proof. exists (Z.of_nat a - Z.of_nat b)%Z. rewrite minus_IZR, <- !INR_IZR_INZ. reflexivity. Qed.
Lemma phase_congr n p i : (0 < n)%nat -> exists z : Z,
  INR p * INR (fsh n i) / INR n = (INR (fsh n p) - INR (n - n / 2)) * (INR i - ctr n) / INR n + IZR z.
Proof.
  intros Hn. assert (P : 0 < INR n) by (apply lt_0_INR; exact Hn).
  destruct (fsh_congr n i Hn) as (zi & Ei). destruct (fsh_congr_freq n p Hn) as (zp & Ep).
  rewrite Ei, Ep. set (a := INR (fsh n p) - INR (n - n / 2)). set (b := INR i - ctr n).
  destruct (INR_sub_Z (fsh n p) (n - n / 2)) as (za & Ea). fold a in Ea.
  destruct (INR_sub_Z i (n / 2)) as (zb & Eb). change (INR i - INR (n / 2)) with b in Eb.
  exists (za * zi + zb * zp + Z.of_nat n * zi * zp)%Z.
  rewrite !plus_IZR, !mult_IZR, <- INR_IZR_INZ, <- Ea, <- Eb. field. lra.
Qed.

Lemma psf_raw_ft otf i j : (0 < crows otf)%nat -> (0 < ccols otf)%nat ->
  px (psf_raw otf) i j
  = inverse_ft (crows otf) (ccols otf) (INR (crows otf - crows otf / 2)) (INR (ccols otf - ccols otf / 2))
      (re otf) (im otf) i j.
Proof.
  intros Hn Hm. unfold psf_raw, inverse_ft, ifft_re, sum_over. cbn [px].
  set (n := crows otf) in *. set (m := ccols otf) in *.
  set (G := fun p q => let ph := 2 * PI * ((INR p - INR (n - n / 2)) * (INR i - ctr n) / INR n
                 + (INR q - INR (m - m / 2)) * (INR j - ctr m) / INR m) in
                 (re otf p q * cos ph - im otf p q * sin ph) / (INR n * INR m)).
  transitivity (Rsum (map (fun p => Rsum (map (fun q => G (fsh n p) (fsh m q)) (seq 0 m))) (seq 0 n))).
  - apply Rsum_map_ext. intros p _. apply Rsum_map_ext. intros q _. cbv zeta. unfold G.
    destruct (phase_congr n p i Hn) as (z1 & E1). destruct (phase_congr m q j Hm) as (z2 & E2).
    rewrite E1, E2.
    set (A := (INR (fsh n p) - INR (n - n / 2)) * (INR i - ctr n) / INR n).
    set (B := (INR (fsh m q) - INR (m - m / 2)) * (INR j - ctr m) / INR m).
    replace (2 * PI * (A + IZR z1 + (B + IZR z2))) with (2 * PI * (A + B) + 2 * PI * IZR (z1 + z2)) by (rewrite plus_IZR; ring).
    rewrite cos_period_Z, sin_period_Z. reflexivity.
  - transitivity (Rsum (map (fun p => Rsum (map (fun q => G (fsh n p) q) (seq 0 m))) (seq 0 n))).
    + apply Rsum_map_ext. intros p _. unfold fsh at 2.
      apply (Rsum_rotate (fun q => G (fsh n p) q)); lia.
    + unfold fsh. apply (Rsum_rotate (fun p => Rsum (map (fun q => G p q) (seq 0 m)))); lia.
Qed.
Lemma even_half n : Nat.even n = true -> INR (n - n / 2) = ctr n.
Proof.
  intros H. apply Nat.even_spec in H. destruct H as (k & ->). unfold ctr. f_equal.
  rewrite Nat.mul_comm, Nat.div_mul by lia. lia.
Qed.
Lemma odd_half n : Nat.odd n = true -> INR (n - n / 2) = ctr n + 1.
Proof.
  intros H. apply Nat.odd_spec in H. destruct H as (k & ->). unfold ctr.
  replace ((2 * k + 1) / 2)%nat with k by (apply Nat.div_unique with 1%nat; lia).
  rewrite <- S_INR. f_equal. lia.
Qed.
Lemma psf_even otf i j : (0 < crows otf)%nat -> (0 < ccols otf)%nat ->
  Nat.even (crows otf) = true -> Nat.even (ccols otf) = true ->
  px (psf_raw otf) i j
  = inverse_ft (crows otf) (ccols otf) (ctr (crows otf)) (ctr (ccols otf)) (re otf) (im otf) i j.
Proof. intros Hn Hm En Em. rewrite psf_raw_ft, !even_half by auto. reflexivity. Qed.
Lemma psf_odd otf i j : (0 < crows otf)%nat -> (0 < ccols otf)%nat ->
  Nat.odd (crows otf) = true -> Nat.odd (ccols otf) = true ->
  px (psf_raw otf) i j
  = inverse_ft (crows otf) (ccols otf) (ctr (crows otf) + 1) (ctr (ccols otf) + 1) (re otf) (im otf) i j.
Proof. intros Hn Hm En Em. rewrite psf_raw_ft, !odd_half by auto. reflexivity. Qed.

(** ** Effect of the wrong shift on symmetric transfer functions *)
Lemma Rsum_plus {A} (f g : A -> R) l : Rsum (map (fun x => f x + g x) l) = Rsum (map f l) + Rsum (map g l).
Proof. induction l as [|x l IH]; unfold Rsum in *; cbn [map fold_right]; [lra|]. rewrite IH. lra. Qed.
Lemma sum_over_ext n m f g : (forall p q, (p < n)%nat -> (q < m)%nat -> f p q = g p q) -> sum_over n m f = sum_over n m g.
Proof.
  intros H. unfold sum_over. apply Rsum_map_ext. intros p Hp. apply Rsum_map_ext. intros q Hq.
  apply in_seq in Hp, Hq. apply H; lia.
Qed.
Lemma sum_over_plus n m f g : sum_over n m (fun p q => f p q + g p q) = sum_over n m f + sum_over n m g.
Proof. unfold sum_over. rewrite <- Rsum_plus. apply Rsum_map_ext. intros p _. apply Rsum_plus. Qed.
Lemma sum_over_scal n m c f : sum_over n m (fun p q => c * f p q) = c * sum_over n m f.
Proof. unfold sum_over. rewrite <- Rsum_scal_l. apply Rsum_map_ext. intros p _. apply Rsum_scal_l. Qed.
Lemma Rsum_rev (F : nat -> R) n : Rsum (map (fun i => F (n - 1 - i)%nat) (seq 0 n)) = Rsum (map F (seq 0 n)).
Proof.
  apply Rsum_perm. replace (map (fun i => F (n - 1 - i)%nat) (seq 0 n)) with (rev (map F (seq 0 n))).
  - apply Permutation_sym, Permutation_rev.
  - apply nth_ext with (d := 0) (d' := 0); [rewrite rev_length, !map_length; reflexivity|].
    intros i Hi. rewrite rev_length, map_length, seq_length in Hi.
    rewrite rev_nth by (rewrite map_length, seq_length; exact Hi). rewrite map_length, seq_length.
    rewrite !(nth_indep _ 0 (F 0%nat)) by (rewrite map_length, seq_length; lia).
    rewrite (map_nth F). rewrite seq_nth by lia.
    rewrite (nth_indep _ (F 0%nat) (F (n - 1 - 0)%nat)) by (rewrite map_length, seq_length; lia).
    rewrite (map_nth (fun i => F (n - 1 - i)%nat)), seq_nth by lia. f_equal. lia.
Qed.
Lemma sum_over_rev n m f : sum_over n m (fun p q => f (n - 1 - p)%nat (m - 1 - q)%nat) = sum_over n m f.
Proof.
  unfold sum_over. rewrite <- (Rsum_rev (fun p => Rsum (map (f p) (seq 0 m)))).
  apply Rsum_map_ext. intros p _. apply (Rsum_rev (f (n - 1 - p)%nat)).
Qed.
Lemma odd_rev n p : Nat.odd n = true -> (p < n)%nat -> INR (n - 1 - p) - ctr n = - (INR p - ctr n).
Proof.
  intros H Hp. apply Nat.odd_spec in H. destruct H as (k & ->). unfold ctr.
  replace ((2 * k + 1) / 2)%nat with k by (apply Nat.div_unique with 1%nat; lia).
  replace (2 * k + 1 - 1 - p)%nat with (2 * k - p)%nat by lia. rewrite minus_INR, mult_INR by lia. simpl INR. lra.
Qed.
(* full spectrum symmetric: X even, Y odd (Hermitian), odd sizes *)
Lemma odd_modulation n m X Y i j : (0 < n)%nat -> (0 < m)%nat -> Nat.odd n = true -> Nat.odd m = true ->
  (forall p q, (p < n)%nat -> (q < m)%nat -> X (n - 1 - p)%nat (m - 1 - q)%nat = X p q) ->
  (forall p q, (p < n)%nat -> (q < m)%nat -> Y (n - 1 - p)%nat (m - 1 - q)%nat = - Y p q) ->
  inverse_ft n m (ctr n + 1) (ctr m + 1) X Y i j
  = cos (2 * PI * ((INR i - ctr n) / INR n + (INR j - ctr m) / INR m))
    * inverse_ft n m (ctr n) (ctr m) X Y i j.
Proof.
  intros Hn Hm On Om HX HY.
  assert (Pn : 0 < INR n) by (apply lt_0_INR; exact Hn). assert (Pm : 0 < INR m) by (apply lt_0_INR; exact Hm).
  set (w := 2 * PI * ((INR i - ctr n) / INR n + (INR j - ctr m) / INR m)).
  unfold inverse_ft.
  set (ph := fun p q => 2 * PI * ((INR p - ctr n) * (INR i - ctr n) / INR n + (INR q - ctr m) * (INR j - ctr m) / INR m)).
  set (S0 := sum_over n m (fun p q => (X p q * cos (ph p q) - Y p q * sin (ph p q)) / (INR n * INR m))).
  set (T0 := sum_over n m (fun p q => (X p q * sin (ph p q) + Y p q * cos (ph p q)) / (INR n * INR m))).
  assert (ET : T0 = 0).
  { assert (E : T0 = - T0); [|lra]. unfold T0 at 1. rewrite <- sum_over_rev.
    replace (- T0) with (-1 * T0) by ring. unfold T0. rewrite <- sum_over_scal. apply sum_over_ext. intros p q Hp Hq.
    rewrite HX, HY by auto.
    replace (ph (n - 1 - p)%nat (m - 1 - q)%nat) with (- ph p q).
    - rewrite cos_neg, sin_neg. unfold Rdiv. ring.
    - unfold ph. rewrite !odd_rev by auto. unfold Rdiv. ring. }
  transitivity (cos w * S0 + sin w * T0); [|rewrite ET, Rmult_0_r, Rplus_0_r; reflexivity].
  unfold S0, T0. rewrite <- !sum_over_scal, <- sum_over_plus. apply sum_over_ext. intros p q _ _. cbv zeta.
  replace (2 * PI * ((INR p - (ctr n + 1)) * (INR i - ctr n) / INR n + (INR q - (ctr m + 1)) * (INR j - ctr m) / INR m))
    with (ph p q - w) by (unfold ph, w; field; lra).
  rewrite cos_minus, sin_minus. unfold Rdiv. ring.
Qed.
Lemma psf_odd_modulated otf i j : (0 < crows otf)%nat -> (0 < ccols otf)%nat ->
  Nat.odd (crows otf) = true -> Nat.odd (ccols otf) = true ->
  (forall p q, (p < crows otf)%nat -> (q < ccols otf)%nat ->
     re otf (crows otf - 1 - p)%nat (ccols otf - 1 - q)%nat = re otf p q
     /\ im otf (crows otf - 1 - p)%nat (ccols otf - 1 - q)%nat = - im otf p q) ->
  px (psf_raw otf) i j
  = cos (2 * PI * ((INR i - ctr (crows otf)) / INR (crows otf) + (INR j - ctr (ccols otf)) / INR (ccols otf)))
    * inverse_ft (crows otf) (ccols otf) (ctr (crows otf)) (ctr (ccols otf)) (re otf) (im otf) i j.
Proof.
  intros Hn Hm On Om HS. rewrite psf_odd by auto. apply odd_modulation; auto; intros; apply HS; auto.
Qed.

(** ** Scaling, cropping *)
Lemma isum_scale c a : isum (iscale c a) = isum a / c.
Proof.
  unfold isum, iscale. cbn [rows cols px]. unfold Rdiv. rewrite <- Rsum_scal.
  apply Rsum_map_ext. intros i _. rewrite <- Rsum_scal. reflexivity.
Qed.
Lemma isum_normal a : isum a <> 0 -> isum (iscale (isum a) a) = 1.
Proof. intros H. rewrite isum_scale. field. exact H. Qed.

Lemma mid_slice_inside d k : (0 <= k <= d)%Z ->
  exists i0 len, mid_slice d k = (i0, len) /\ (0 <= i0)%Z /\ (i0 + len <= d)%Z
    /\ (2 * i0 + len = d)%Z /\ (len = k + (d - k) mod 2)%Z.
Proof.
  intros H. unfold mid_slice, py_slice.
  assert (A := Z.div_mod (d - k) 2 ltac:(lia)). assert (B := Z.mod_pos_bound (d - k) 2 ltac:(lia)).
  assert (C := Z.div_mod (- (d + k)) 2 ltac:(lia)). assert (D := Z.mod_pos_bound (- (d + k)) 2 ltac:(lia)).
  set (q := ((d - k) / 2)%Z) in *. set (r := ((d - k) mod 2)%Z) in *.
  set (q' := (- (d + k) / 2)%Z) in *. set (r' := (- (d + k) mod 2)%Z) in *.
  do 2 eexists. split; [reflexivity|].
  destruct (Z.ltb_spec q 0); destruct (Z.ltb_spec (- q') 0); lia.
Qed.
(* more requested than there is: the negative start counts from the end *)
Lemma mid_slice_outside d k : (0 < d < k)%Z ->
  mid_slice d k = (Z.max 0 ((3 * d - k) / 2), d - Z.max 0 ((3 * d - k) / 2))%Z.
Proof.
  intros H. unfold mid_slice, py_slice.
  replace (3 * d - k)%Z with (d - k + d * 2)%Z by lia. rewrite Z.div_add by lia.
  assert (A := Z.div_mod (d - k) 2 ltac:(lia)). assert (B := Z.mod_pos_bound (d - k) 2 ltac:(lia)).
  assert (C := Z.div_mod (- (d + k)) 2 ltac:(lia)). assert (D := Z.mod_pos_bound (- (d + k)) 2 ltac:(lia)).
  set (q := ((d - k) / 2)%Z) in *. set (r := ((d - k) mod 2)%Z) in *.
  set (q' := (- (d + k) / 2)%Z) in *. set (r' := (- (d + k) mod 2)%Z) in *.
  destruct (Z.ltb_spec q 0); destruct (Z.ltb_spec (- q') 0); f_equal; lia.
Qed.
Lemma get_middle_inside a k : (k <= rows a)%nat -> (k <= cols a)%nat ->
  exists i0 j0, (2 * i0 + rows (get_middle a k) = rows a)%nat /\ (2 * j0 + cols (get_middle a k) = cols a)%nat
    /\ (k <= rows (get_middle a k) <= k + 1)%nat /\ (k <= cols (get_middle a k) <= k + 1)%nat
    /\ (Nat.even (rows a) = Nat.even k -> rows (get_middle a k) = k)
    /\ (Nat.even (cols a) = Nat.even k -> cols (get_middle a k) = k)
    /\ forall i j, px (get_middle a k) i j = px a (i0 + i)%nat (j0 + j)%nat.
Proof.
  intros Hr Hc. unfold get_middle.
  destruct (mid_slice_inside (Z.of_nat (rows a)) (Z.of_nat k)) as (i0 & h & -> & A1 & A2 & A3 & A4); [lia|].
  destruct (mid_slice_inside (Z.of_nat (cols a)) (Z.of_nat k)) as (j0 & w & -> & B1 & B2 & B3 & B4); [lia|].
  exists (Z.to_nat i0), (Z.to_nat j0). cbn [rows cols px].
  assert (M1 := Z.mod_pos_bound (Z.of_nat (rows a) - Z.of_nat k) 2 ltac:(lia)).
  assert (M2 := Z.mod_pos_bound (Z.of_nat (cols a) - Z.of_nat k) 2 ltac:(lia)).
  assert (PAR : forall x, (k <= x)%nat -> Nat.even x = Nat.even k -> ((Z.of_nat x - Z.of_nat k) mod 2 = 0)%Z).
  { intros x Hx E. rewrite <- Nat2Z.inj_sub by lia.
    assert (Ev : Nat.even (x - k) = true) by (rewrite Nat.even_sub by lia; rewrite E; destruct (Nat.even k); reflexivity).
    apply Nat.even_spec in Ev. destruct Ev as (y & ->). replace (Z.of_nat (2 * y)) with (Z.of_nat y * 2)%Z by lia.
    apply Z.mod_mul. lia. }
  split; [lia|]. split; [lia|]. split; [lia|]. split; [lia|].
  split; [intros E; rewrite A4, PAR by auto; lia|].
  split; [intros E; rewrite B4, PAR by auto; lia|]. reflexivity.
Qed.
Lemma get_middle_outside a k : (0 < rows a < k)%nat -> (0 < cols a < k)%nat ->
  exists i0 j0,
    Z.of_nat i0 = Z.max 0 ((3 * Z.of_nat (rows a) - Z.of_nat k) / 2)
    /\ Z.of_nat j0 = Z.max 0 ((3 * Z.of_nat (cols a) - Z.of_nat k) / 2)
    /\ (i0 + rows (get_middle a k) = rows a)%nat /\ (j0 + cols (get_middle a k) = cols a)%nat
    /\ forall i j, px (get_middle a k) i j = px a (i0 + i)%nat (j0 + j)%nat.
Proof.
  intros Hr Hc. unfold get_middle. rewrite !mid_slice_outside by lia. cbn [rows cols px].
  assert (G : forall d, (0 < Z.of_nat d < Z.of_nat k)%Z -> ((3 * Z.of_nat d - Z.of_nat k) / 2 <= Z.of_nat d)%Z).
  { intros d Hd. apply Z.div_le_upper_bound; lia. }
  exists (Z.to_nat (Z.max 0 ((3 * Z.of_nat (rows a) - Z.of_nat k) / 2))),
         (Z.to_nat (Z.max 0 ((3 * Z.of_nat (cols a) - Z.of_nat k) / 2))).
  split; [rewrite Z2Nat.id by lia; reflexivity|]. split; [rewrite Z2Nat.id by lia; reflexivity|].
  generalize (G (rows a) ltac:(lia)) (G (cols a) ltac:(lia)). intros.
  split; [lia|]. split; [lia|]. reflexivity.
Qed.

Lemma crop_sizes_spec m k : In k (crop_sizes m) <-> exists t, (k = 10 + 5 * t)%nat /\ (k < m)%nat.
Proof.
  unfold crop_sizes. rewrite in_map_iff.
  assert (A := Nat.div_mod (m - 10 + 4) 5 ltac:(lia)). assert (B := Nat.mod_upper_bound (m - 10 + 4) 5 ltac:(lia)).
  set (q := ((m - 10 + 4) / 5)%nat) in *. set (r := ((m - 10 + 4) mod 5)%nat) in *.
  split.
  - intros (t & <- & Ht). apply in_seq in Ht. exists t. lia.
  - intros (t & -> & Ht). exists t. split; [reflexivity|]. apply in_seq. lia.
Qed.
Lemma crop_sizes_nil m : crop_sizes m = [] <-> (m <= 10)%nat.
Proof.
  split.
  - intros E. destruct (Nat.le_gt_cases m 10) as [H|H]; [exact H|].
    assert (I : In 10%nat (crop_sizes m)) by (apply crop_sizes_spec; exists 0%nat; lia).
    rewrite E in I. destruct I.
  - intros H. destruct (crop_sizes m) as [|k l] eqn:E; [reflexivity|].
    assert (I : In k (crop_sizes m)) by (rewrite E; left; reflexivity).
    apply crop_sizes_spec in I. destruct I as (t & ? & ?). lia.
Qed.
Definition chosen (psf : img) (sizes : list nat) (k : nat) : Prop :=
  exists before after, sizes = before ++ k :: after
    /\ (forall k', In k' before -> isum (get_middle psf k') <= 0.95)
    /\ (0.95 < isum (get_middle psf k) \/ after = []).
Lemma crop_loop_chosen psf sizes o : sizes <> [] ->
  exists k, crop_loop psf sizes o = Some (get_middle psf k) /\ chosen psf sizes k.
Proof.
  revert o. induction sizes as [|k sizes IH]; intros o H; [congruence|].
  cbn [crop_loop]. rcase.
  - exists k. split; [reflexivity|]. exists [], sizes. split; [reflexivity|]. split; [intros ? []|]. left. exact Hc.
  - destruct sizes as [|k2 sizes].
    + cbn [crop_loop]. exists k. split; [reflexivity|]. exists [], []. split; [reflexivity|]. split; [intros ? []|]. right. reflexivity.
    + destruct (IH (Some (get_middle psf k)) ltac:(discriminate)) as (k' & E & (b & a & Es & Hb & Ha)).
      exists k'. split; [exact E|]. exists (k :: b), a. split; [rewrite Es; reflexivity|].
      split; [intros x [<- | Hx]; [exact Hc | apply Hb; exact Hx] | exact Ha].
Qed.
Lemma chosen_sizes psf m k : chosen psf (crop_sizes m) k ->
  exists t, (k = 10 + 5 * t)%nat /\ (k < m)%nat
    /\ (forall t', (t' < t)%nat -> isum (get_middle psf (10 + 5 * t')) <= 0.95)
    /\ (0.95 < isum (get_middle psf k) \/ (m <= k + 5)%nat).
Proof.
  intros (b & a & E & Hb & Ha). unfold crop_sizes in E. set (q := ((m - 10 + 4) / 5)%nat) in E.
  assert (L : (length b < q)%nat).
  { apply (f_equal (@length nat)) in E. rewrite map_length, seq_length, app_length in E. cbn [length] in E. lia. }
  assert (NTH : forall i, (i < q)%nat -> nth i (b ++ k :: a) 0%nat = (10 + 5 * i)%nat).
  { intros i Hi. rewrite <- E. rewrite (nth_indep _ 0%nat ((fun i => 10 + 5 * i)%nat 0%nat)) by (rewrite map_length, seq_length; exact Hi).
    rewrite (map_nth (fun i => 10 + 5 * i)%nat), seq_nth by exact Hi. lia. }
  exists (length b).
  assert (Ek : k = (10 + 5 * length b)%nat) by (rewrite <- NTH by exact L; rewrite app_nth2, Nat.sub_diag by lia; reflexivity).
  assert (Ik : In k (crop_sizes m)) by (unfold crop_sizes; fold q; rewrite E; apply in_or_app; right; left; reflexivity).
  apply crop_sizes_spec in Ik. destruct Ik as (t & Et & Hk).
  split; [exact Ek|]. split; [exact Hk|]. split.
  - intros t' Ht'. apply Hb. rewrite <- NTH by lia. rewrite app_nth1 by exact Ht'. apply nth_In. exact Ht'.
  - destruct Ha as [Ha|Ha]; [left; exact Ha|right]. subst a.
    destruct (Nat.le_gt_cases m (k + 5)) as [H|H]; [exact H|exfalso].
    assert (I : In (k + 5)%nat (crop_sizes m)) by (apply crop_sizes_spec; exists (t + 1)%nat; lia).
    unfold crop_sizes in I. fold q in I. rewrite E in I. apply in_app_or in I. destruct I as [I | [I | []]]; [|lia].
    apply In_nth with (d := 0%nat) in I. destruct I as (t' & Ht' & En).
    assert (nth t' (b ++ [k]) 0%nat = (10 + 5 * t')%nat) by (apply NTH; lia).
    rewrite app_nth1 in H0 by exact Ht'. lia.
Qed.

(** ** otf_to_psf *)
Lemma otf_to_psf_eq otf kd df dx_out : otf_to_psf otf kd df dx_out =
  if Nat.eqb (crows otf) 0 || Nat.eqb (ccols otf) 0 then Err ValueError else
  let psf := psf_raw otf in
  let* dx_in := qdiv kd (Fin 1) (Fin (INR (crows otf) * df)) in
  let* x := xint (xdiv (xmul (Fin (INR (cols psf))) dx_in) dx_out) in
  let* y := xint (xdiv (xmul (Fin (INR (rows psf))) dx_in) dx_out) in
  let* psf := cv_resize psf (Z.max 1 x) (Z.max 1 y) in
  let sizes := crop_sizes (Nat.min (crows otf) (ccols otf)) in
  let s := isum psf in
  match sizes with
  | [] => Err UnboundLocalError
  | _ =>
    if Reqb s 0 then Err NonFinite else
    match crop_loop (iscale s psf) sizes None with
    | None => Err UnboundLocalError
    | Some c => if Reqb (isum c) 0 then Err NonFinite else Ok (iscale (isum c) c)
    end
  end.
Proof. reflexivity. Qed.
(* a direct call with a Python number for dx_out: the same, unless dx_out is 0 *)
Lemma psf_py_same otf kd df dx : dx <> 0 -> otf_to_psf_k Py otf kd df (Fin dx) = otf_to_psf otf kd df (Fin dx).
Proof.
  intros Hd. unfold otf_to_psf, otf_to_psf_k. destruct kd; cbn [join]; [|reflexivity].
  unfold qdiv at 2 3 5 6. replace (Reqb dx 0) with false by (symmetry; apply Reqb_false; exact Hd). reflexivity.
Qed.
Lemma psf_py_zero otf df dx : (0 < crows otf)%nat -> (0 < ccols otf)%nat ->
  otf_to_psf_k Py otf Py 0 dx = Err ZeroDivisionError
  /\ otf_to_psf_k Py otf Py df (Fin 0) = Err ZeroDivisionError.
Proof.
  intros Hn Hm. unfold otf_to_psf_k.
  replace (Nat.eqb (crows otf) 0) with false by (symmetry; apply Nat.eqb_neq; lia).
  replace (Nat.eqb (ccols otf) 0) with false by (symmetry; apply Nat.eqb_neq; lia). cbn [orb join].
  assert (Z : Reqb 0 0 = true) by (apply Reqb_true; reflexivity).
  split.
  - unfold qdiv. rewrite Rmult_0_r, Z. reflexivity.
  - unfold qdiv at 1. destruct (Reqb (INR (crows otf) * df) 0); [reflexivity|]. cbn [bind].
    unfold qdiv at 1. rewrite Z. reflexivity.
Qed.
Lemma otf_to_psf_inv otf kd df dx out : otf_to_psf otf kd df dx = Ok out ->
  exists w h full k,
    cv_resize (psf_raw otf) (Z.max 1 w) (Z.max 1 h) = Ok full /\ isum full <> 0
    /\ chosen (iscale (isum full) full) (crop_sizes (Nat.min (crows otf) (ccols otf))) k
    /\ isum (get_middle (iscale (isum full) full) k) <> 0
    /\ out = iscale (isum (get_middle (iscale (isum full) full) k)) (get_middle (iscale (isum full) full) k).
Proof.
  rewrite otf_to_psf_eq. destruct (Nat.eqb (crows otf) 0 || Nat.eqb (ccols otf) 0); [discriminate|].
  destruct (qdiv kd (Fin 1) _) as [dxi|]; [|discriminate]. cbn [bind].
  destruct (xint (xdiv (xmul (Fin (INR (cols (psf_raw otf)))) dxi) dx)) as [w|]; [|discriminate]. cbn [bind].
  destruct (xint _) as [h|]; [|discriminate]. cbn [bind].
  destruct (cv_resize _ _ _) as [full|] eqn:ER; [|discriminate]. cbn [bind].
  destruct (crop_sizes _) as [|k0 sizes] eqn:ES; [discriminate|].
  destruct (Reqb (isum full) 0) eqn:E0; [discriminate|]. apply Reqb_false in E0.
  destruct (crop_loop_chosen (iscale (isum full) full) (k0 :: sizes) None ltac:(discriminate)) as (k & EC & CH).
  rewrite EC. destruct (Reqb (isum (get_middle _ k)) 0) eqn:E1; [discriminate|]. apply Reqb_false in E1.
  intros E. injection E as <-. exists w, h, full, k. auto.
Qed.
Lemma psf_sum_one otf kd df dx out : otf_to_psf otf kd df dx = Ok out -> isum out = 1.
Proof. intros E. apply otf_to_psf_inv in E. destruct E as (w & h & full & k & _ & _ & _ & N & ->). apply isum_normal. exact N. Qed.
Lemma psf_support otf kd df dx out : otf_to_psf otf kd df dx = Ok out ->
  exists full t, (10 + 5 * t < Nat.min (crows otf) (ccols otf))%nat
    /\ isum full = 1
    /\ (forall t', (t' < t)%nat -> isum (get_middle full (10 + 5 * t')) <= 0.95)
    /\ (0.95 < isum (get_middle full (10 + 5 * t)) \/ (Nat.min (crows otf) (ccols otf) <= 10 + 5 * t + 5)%nat)
    /\ out = iscale (isum (get_middle full (10 + 5 * t))) (get_middle full (10 + 5 * t))
    /\ exists w h raw, cv_resize (psf_raw otf) (Z.max 1 w) (Z.max 1 h) = Ok raw /\ full = iscale (isum raw) raw.
Proof.
  intros E. apply otf_to_psf_inv in E. destruct E as (w & h & raw & k & ER & N0 & CH & N1 & ->).
  apply chosen_sizes in CH. destruct CH as (t & -> & Hm & Hb & Ha).
  exists (iscale (isum raw) raw), t. split; [exact Hm|]. split; [apply isum_normal; exact N0|].
  split; [exact Hb|]. split; [exact Ha|]. split; [reflexivity|]. exists w, h, raw. auto.
Qed.
Lemma psf_small otf kd df dx : (0 < crows otf)%nat -> (0 < ccols otf)%nat ->
  (Nat.min (crows otf) (ccols otf) <= 10)%nat -> df <> 0 -> dx <> 0 ->
  otf_to_psf otf kd df (Fin dx) = Err UnboundLocalError.
Proof.
  intros Hn Hm H10 Hdf Hdx. rewrite otf_to_psf_eq.
  assert (Pn : 0 < INR (crows otf)) by (apply lt_0_INR; exact Hn).
  replace (Nat.eqb (crows otf) 0) with false by (symmetry; apply Nat.eqb_neq; lia).
  replace (Nat.eqb (ccols otf) 0) with false by (symmetry; apply Nat.eqb_neq; lia). cbn [orb].
  assert (Q : INR (crows otf) * df <> 0) by (apply Rmult_integral_contrapositive_currified; lra).
  assert (EQ : qdiv kd (Fin 1) (Fin (INR (crows otf) * df)) = Ok (Fin (1 / (INR (crows otf) * df)))).
  { unfold qdiv. destruct kd.
    - replace (Reqb (INR (crows otf) * df) 0) with false by (symmetry; apply Reqb_false; exact Q).
      rewrite xdiv_fin by exact Q. reflexivity.
    - rewrite xdiv_fin by exact Q. reflexivity. }
  rewrite EQ. cbn [bind]. rewrite !xmul_fin, !xdiv_fin by exact Hdx. cbn [xint bind].
  unfold cv_resize.
  assert (W : forall z, (Z.max 1 z <=? 0)%Z = false) by (intros; apply Z.leb_gt; lia). rewrite !W.
  change (rows (psf_raw otf)) with (crows otf). change (cols (psf_raw otf)) with (ccols otf).
  replace (Nat.eqb (crows otf) 0) with false by (symmetry; apply Nat.eqb_neq; lia).
  replace (Nat.eqb (ccols otf) 0) with false by (symmetry; apply Nat.eqb_neq; lia). cbn [orb bind].
  rewrite (proj2 (crop_sizes_nil _) H10). reflexivity.
Qed.
Lemma psf_errors otf df dx : (0 < crows otf)%nat -> (0 < ccols otf)%nat ->
  otf_to_psf otf Py 0 dx = Err ZeroDivisionError
  /\ (0 < df -> otf_to_psf otf Py df (Fin 0) = Err OverflowError).
Proof.
  intros Hn Hm. rewrite !otf_to_psf_eq.
  assert (Pn : 0 < INR (crows otf)) by (apply lt_0_INR; exact Hn).
  assert (Pm : 0 < INR (ccols otf)) by (apply lt_0_INR; exact Hm).
  replace (Nat.eqb (crows otf) 0) with false by (symmetry; apply Nat.eqb_neq; lia).
  replace (Nat.eqb (ccols otf) 0) with false by (symmetry; apply Nat.eqb_neq; lia). cbn [orb].
  split.
  - unfold qdiv. rewrite Rmult_0_r. replace (Reqb 0 0) with true by (symmetry; apply Reqb_true; reflexivity). reflexivity.
  - intros Hdf. assert (Q : 0 < INR (crows otf) * df) by (apply Rmult_lt_0_compat; lra).
    unfold qdiv. replace (Reqb (INR (crows otf) * df) 0) with false by (symmetry; apply Reqb_false; lra).
    rewrite xdiv_fin by lra. cbn [bind]. rewrite !xmul_fin. change (cols (psf_raw otf)) with (ccols otf).
    unfold xdiv. replace (Reqb 0 0) with true by (symmetry; apply Reqb_true; reflexivity).
    unfold inf_sgn at 1. replace (Rltb 0 (INR (ccols otf) * (1 / (INR (crows otf) * df)))) with true; [reflexivity|].
    symmetry. apply Rltb_true. apply Rmult_lt_0_compat; [exact Pm|]. apply Rdiv_lt_0_compat; lra.
Qed.

(** ** Sizes, and a worked case *)
Lemma psf_sizes otf kd df dx out : (0 < crows otf)%nat -> (0 < ccols otf)%nat -> df <> 0 -> dx <> 0 ->
  otf_to_psf otf kd df (Fin dx) = Ok out ->
  exists raw t,
    cv_resize (psf_raw otf)
      (Z.max 1 (Ztrunc (INR (ccols otf) / (INR (crows otf) * df) / dx))) (Z.max 1 (Ztrunc (1 / df / dx))) = Ok raw
    /\ (10 + 5 * t < Nat.min (crows otf) (ccols otf))%nat
    /\ (forall t', (t' < t)%nat -> isum (get_middle (iscale (isum raw) raw) (10 + 5 * t')) <= 0.95)
    /\ (0.95 < isum (get_middle (iscale (isum raw) raw) (10 + 5 * t)) \/ (Nat.min (crows otf) (ccols otf) <= 10 + 5 * t + 5)%nat)
    /\ out = iscale (isum (get_middle (iscale (isum raw) raw) (10 + 5 * t))) (get_middle (iscale (isum raw) raw) (10 + 5 * t)).
Proof.
  intros Hn Hm Hf Hd. rewrite otf_to_psf_eq.
  assert (Pn : 0 < INR (crows otf)) by (apply lt_0_INR; exact Hn).
  replace (Nat.eqb (crows otf) 0) with false by (symmetry; apply Nat.eqb_neq; lia).
  replace (Nat.eqb (ccols otf) 0) with false by (symmetry; apply Nat.eqb_neq; lia). cbn [orb].
  assert (Q : INR (crows otf) * df <> 0) by (apply Rmult_integral_contrapositive_currified; lra).
  assert (EQ : qdiv kd (Fin 1) (Fin (INR (crows otf) * df)) = Ok (Fin (1 / (INR (crows otf) * df)))).
  { unfold qdiv. destruct kd; [rcase; [contradiction|]|]; rewrite xdiv_fin by exact Q; reflexivity. }
  rewrite EQ. cbn [bind]. rewrite !xmul_fin, !xdiv_fin by exact Hd. cbn [xint bind]. unfold py_int.
  change (cols (psf_raw otf)) with (ccols otf). change (rows (psf_raw otf)) with (crows otf).
  replace (INR (ccols otf) * (1 / (INR (crows otf) * df)) / dx) with (INR (ccols otf) / (INR (crows otf) * df) / dx) by (field; repeat split; lra).
  replace (INR (crows otf) * (1 / (INR (crows otf) * df)) / dx) with (1 / df / dx) by (field; repeat split; lra).
  destruct (cv_resize _ _ _) as [raw|] eqn:ER; [|discriminate]. cbn [bind].
  destruct (crop_sizes _) as [|k0 sizes] eqn:ES; [discriminate|].
  destruct (Reqb (isum raw) 0) eqn:E0; [discriminate|]. apply Reqb_false in E0.
  destruct (crop_loop_chosen (iscale (isum raw) raw) (k0 :: sizes) None ltac:(discriminate)) as (k & EC & CH).
  rewrite EC. destruct (Reqb (isum (get_middle _ k)) 0) eqn:E1; [discriminate|]. apply Reqb_false in E1.
  intros E. apply ok_inj in E. subst out. rewrite <- ES in CH. apply chosen_sizes in CH.
  destruct CH as (t & -> & A & B & C). exists raw, t. auto.
Qed.

Lemma Rsum_single (F : nat -> R) n c : (c < n)%nat -> (forall i, (i < n)%nat -> i <> c -> F i = 0) ->
  Rsum (map F (seq 0 n)) = F c.
Proof.
  intros Hc HF. replace (seq 0 n) with (seq 0 c ++ c :: seq (S c) (n - S c)).
  - rewrite map_app. cbn [map]. rewrite Rsum_app, Rsum_cons.
    rewrite (Rsum_zero F (seq 0 c)) by (intros z Hz; apply in_seq in Hz; apply HF; lia).
    rewrite (Rsum_zero F (seq (S c) _)) by (intros z Hz; apply in_seq in Hz; apply HF; lia). ring.
  - replace n with (c + (1 + (n - S c)))%nat at 2 by lia. rewrite seq_app. cbn [seq plus]. reflexivity.
Qed.
Lemma sum_over_const n m c : sum_over n m (fun _ _ => c) = INR n * (INR m * c).
Proof.
  assert (G : forall k (v : R) s, Rsum (map (fun _ : nat => v) (seq s k)) = INR k * v).
  { induction k as [|k IH]; intros v s; [unfold Rsum; simpl; lra|]. cbn [seq map]. rewrite Rsum_cons, IH, S_INR. ring. }
  unfold sum_over. rewrite G, G. reflexivity.
Qed.
(* the zero-frequency sample alone, on a 12 x 12 grid: a flat point spread *)
Definition dc12 : cimg :=
  {| crows := 12; ccols := 12; re := fun p q => if Nat.eqb p 6 && Nat.eqb q 6 then 1 else 0; im := fun _ _ => 0 |}.
Lemma dc12_raw i j : px (psf_raw dc12) i j = 1 / 144.
Proof.
  rewrite psf_even by (cbn; auto; lia). unfold inverse_ft, sum_over. change (crows dc12) with 12%nat. change (ccols dc12) with 12%nat.
  rewrite (Rsum_single _ 12 6); [rewrite (Rsum_single _ 12 6)| |]; try lia.
  - cbn [dc12 re im Nat.eqb andb]. unfold ctr. change (12 / 2)%nat with 6%nat.
    replace (2 * PI * ((INR 6 - INR 6) * (INR i - INR 6) / INR 12 + (INR 6 - INR 6) * (INR j - INR 6) / INR 12)) with 0
      by (simpl INR; field).
    rewrite cos_0, sin_0. simpl INR. field.
  - intros q Hq N. cbn [dc12 re im]. rewrite (proj2 (Nat.eqb_neq q 6) N), andb_false_r. simpl INR. field.
  - intros p Hp N. apply Rsum_zero. intros q _. cbn [dc12 re im]. rewrite (proj2 (Nat.eqb_neq p 6) N). cbn [andb]. simpl INR. field.
Qed.
Lemma resize_flat a w h c : (forall i j, px a i j = c) -> (0 < rows a)%nat -> (0 < cols a)%nat -> (0 < w)%Z -> (0 < h)%Z ->
  exists b, cv_resize a w h = Ok b /\ rows b = Z.to_nat h /\ cols b = Z.to_nat w /\ forall i j, px b i j = c.
Proof.
  intros H Hr Hc Hw Hh. unfold cv_resize.
  replace (Z.leb w 0) with false by (symmetry; apply Z.leb_gt; exact Hw).
  replace (Z.leb h 0) with false by (symmetry; apply Z.leb_gt; exact Hh).
  replace (Nat.eqb (rows a) 0) with false by (symmetry; apply Nat.eqb_neq; lia).
  replace (Nat.eqb (cols a) 0) with false by (symmetry; apply Nat.eqb_neq; lia). cbn [orb].
  eexists; split; [reflexivity|]. cbn [rows cols px]. split; [reflexivity|]. split; [reflexivity|].
  intros i j. destruct (rs_pos _ _ _) as [y t]. destruct (rs_pos _ _ _) as [x s]. rewrite !H. ring.
Qed.
Lemma dc12_psf kd dx : 0 < dx ->
  exists out, otf_to_psf dc12 kd (1 / (12 * dx)) (Fin dx) = Ok out
    /\ rows out = 10%nat /\ cols out = 10%nat /\ forall i j, px out i j = 1 / 100.
Proof.
  intros Hd. rewrite otf_to_psf_eq. change (crows dc12) with 12%nat. change (ccols dc12) with 12%nat.
  change (Nat.eqb 12 0 || Nat.eqb 12 0)%bool with false. cbn iota.
  replace (INR 12 * (1 / (12 * dx))) with (1 / dx) by (simpl INR; field; lra).
  assert (Q : 1 / dx <> 0) by (apply Rgt_not_eq; apply Rdiv_lt_0_compat; lra).
  assert (EQ : qdiv kd (Fin 1) (Fin (1 / dx)) = Ok (Fin dx)).
  { unfold qdiv. destruct kd; [rcase; [contradiction|]|]; rewrite xdiv_fin by exact Q; do 2 f_equal; field; lra. }
  rewrite EQ. cbn [bind]. change (cols (psf_raw dc12)) with 12%nat. change (rows (psf_raw dc12)) with 12%nat.
  rewrite !xmul_fin, !xdiv_fin by lra. cbn [xint bind]. unfold py_int.
  replace (INR 12 * dx / dx) with (IZR 12) by (simpl INR; field; lra). rewrite Ztrunc_IZR. change (Z.max 1 12) with 12%Z.
  destruct (resize_flat (psf_raw dc12) 12 12 (1 / 144) dc12_raw) as (b & E & Er & Ec & Eb); [apply Nat.lt_0_succ | apply Nat.lt_0_succ | lia | lia |].
  rewrite E. cbn [bind]. change (Nat.min 12 12) with 12%nat. change (crop_sizes 12) with [10%nat].
  change (Z.to_nat 12) with 12%nat in Er, Ec.
  assert (S : isum b = 1).
  { change (isum b) with (sum_over (rows b) (cols b) (px b)). rewrite Er, Ec. rewrite (sum_over_ext 12 12 (px b) (fun _ _ => 1 / 144)) by (intros; apply Eb).
    rewrite sum_over_const. simpl INR. field. }
  rewrite S. rcase; [lra|]. cbn [crop_loop].
  assert (SM : rows (get_middle (iscale 1 b) 10) = 10%nat /\ cols (get_middle (iscale 1 b) 10) = 10%nat
     /\ forall i j, px (get_middle (iscale 1 b) 10) i j = 1 / 144).
  { destruct (get_middle_inside (iscale 1 b) 10) as (i0 & j0 & _ & _ & _ & _ & A & B & C);
      [cbn [iscale rows]; lia | cbn [iscale cols]; lia|].
    cbn [iscale rows cols px] in A, B. rewrite Er in A. rewrite Ec in B. split; [apply A; reflexivity|]. split; [apply B; reflexivity|].
    intros i j. rewrite C. cbn [iscale px]. rewrite Eb. field. }
  destruct SM as (Mr & Mc & Mp). set (mm := get_middle (iscale 1 b) 10) in *.
  assert (SS : isum mm = 100 / 144).
  { change (isum mm) with (sum_over (rows mm) (cols mm) (px mm)). rewrite Mr, Mc. rewrite (sum_over_ext 10 10 (px mm) (fun _ _ => 1 / 144)) by (intros; apply Mp).
    rewrite sum_over_const. simpl INR. field. }
  rewrite SS. rcase; [lra|]. rewrite SS. rcase; [lra|]. eexists; split; [reflexivity|]. cbn [iscale rows cols px].
  split; [exact Mr|]. split; [exact Mc|]. intros i j. rewrite Mp. field.
Qed.

(* the smallest odd case: a constant picture gets a kernel with negative entries *)
Definition dc3 : cimg :=
  {| crows := 3; ccols := 3; re := fun p q => if Nat.eqb p 1 && Nat.eqb q 1 then 1 else 0; im := fun _ _ => 0 |}.
Lemma dc3_true i j : inverse_ft 3 3 (ctr 3) (ctr 3) (re dc3) (im dc3) i j = 1 / 9.
Proof.
  unfold inverse_ft, sum_over. rewrite (Rsum_single _ 3 1); [rewrite (Rsum_single _ 3 1)| |]; try lia.
  - cbn [dc3 re im Nat.eqb andb]. unfold ctr. change (3 / 2)%nat with 1%nat.
    replace (2 * PI * ((INR 1 - INR 1) * (INR i - INR 1) / INR 3 + (INR 1 - INR 1) * (INR j - INR 1) / INR 3)) with 0 by (simpl INR; field).
    rewrite cos_0, sin_0. simpl INR. field.
  - intros q Hq N. cbn [dc3 re im]. rewrite (proj2 (Nat.eqb_neq q 1) N), andb_false_r. simpl INR. field.
  - intros p Hp N. apply Rsum_zero. intros q _. cbn [dc3 re im]. rewrite (proj2 (Nat.eqb_neq p 1) N). cbn [andb]. simpl INR. field.
Qed.
Lemma dc3_code : px (psf_raw dc3) 0 1 = - (1 / 18).
Proof.
  rewrite psf_odd_modulated.
  - change (crows dc3) with 3%nat. change (ccols dc3) with 3%nat. rewrite dc3_true. unfold ctr. change (3 / 2)%nat with 1%nat.
    replace (2 * PI * ((INR 0 - INR 1) / INR 3 + (INR 1 - INR 1) / INR 3)) with (- (2 * (PI / 3))) by (simpl INR; field).
    rewrite cos_neg, cos_2PI3. lra.
  - apply Nat.lt_0_succ.
  - apply Nat.lt_0_succ.
  - reflexivity.
  - reflexivity.
  - change (crows dc3) with 3%nat. change (ccols dc3) with 3%nat. intros p q Hp Hq. cbn [dc3 re im].
    split; [|ring]. destruct p as [|[|[|p]]]; [| | |lia]; destruct q as [|[|[|q]]]; try lia; reflexivity.
Qed.
Lemma psf_centred_refuted : ~ forall otf i j, (0 < crows otf)%nat -> (0 < ccols otf)%nat ->
  px (psf_raw otf) i j
  = inverse_ft (crows otf) (ccols otf) (ctr (crows otf)) (ctr (ccols otf)) (re otf) (im otf) i j.
Proof.
  intros H. specialize (H dc3 0%nat 1%nat (Nat.lt_0_succ _) (Nat.lt_0_succ _)).
  change (crows dc3) with 3%nat in H. change (ccols dc3) with 3%nat in H. rewrite dc3_true, dc3_code in H. lra.
Qed.
Lemma crop_small a : rows a = 8%nat -> cols a = 8%nat ->
  rows (get_middle a 10) = 1%nat /\ cols (get_middle a 10) = 1%nat /\ px (get_middle a 10) 0 0 = px a 7%nat 7%nat.
Proof.
  intros Hr Hc. destruct (get_middle_outside a 10) as (i0 & j0 & A & B & C & D & E); [lia | lia|].
  rewrite Hr in A, C. rewrite Hc in B, D. change (Z.max 0 ((3 * Z.of_nat 8 - Z.of_nat 10) / 2)) with 7%Z in A, B.
  assert (i0 = 7%nat) by lia. assert (j0 = 7%nat) by lia. subst. rewrite E. split; [lia|]. split; [lia | reflexivity].
Qed.
Lemma crop_centred_refuted : ~ forall a k, (0 < rows a)%nat -> (0 < cols a)%nat ->
  exists i0 j0, (2 * i0 + rows (get_middle a k) = rows a)%nat /\ (2 * j0 + cols (get_middle a k) = cols a)%nat
    /\ forall i j, (i < rows (get_middle a k))%nat -> (j < cols (get_middle a k))%nat ->
       px (get_middle a k) i j = px a (i0 + i)%nat (j0 + j)%nat.
Proof.
  intros H. destruct (crop_small {| rows := 8; cols := 8; px := fun i j => INR i |}) as (R1 & C1 & _); [reflexivity | reflexivity|].
  destruct (H {| rows := 8; cols := 8; px := fun i j => INR i |} 10%nat) as (i0 & j0 & A & _); [apply Nat.lt_0_succ | apply Nat.lt_0_succ|].
  rewrite R1 in A. cbn [rows] in A. lia.
Qed.
