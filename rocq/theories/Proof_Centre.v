(** * Proof_Centre: where blurring puts the picture *)
From Coq Require Import Reals Lra List Lia ZArith Psatz Bool.
From Flocq Require Import Core.Raux.
From Verif Require Import Base_XR Base_Np Model_Geo Model_Noise Model_Scenario Model_Sensor Model_Rad Model_Db Model_Otf Model_Img Model_Met Model_Sim
  Spec_Rad Spec_Img Spec_Blur Spec_System Spec_Met Spec_Sim Spec_Centre Proof_Otf Proof_Filter Proof_Weight Proof_Psf Proof_Image Proof_ImgX Proof_SimP Proof_SimX Proof_Native.
Import ListNotations.
Open Scope R_scope.

(** ** Symmetric arrays *)
Lemma raw_symmetric otf n : crows otf = n -> ccols otf = n -> Nat.odd n = true ->
  (forall p q, (p < n)%nat -> (q < n)%nat -> re otf (n - 1 - p)%nat (n - 1 - q)%nat = re otf p q /\ im otf p q = 0) ->
  point_symmetric n n (px (psf_raw otf)).
Proof.
  intros Er Ec On H i j Hi Hj.
  assert (S : forall p q, px (psf_raw otf) p q = cos (2 * PI * ((INR p - ctr n) / INR n + (INR q - ctr n) / INR n)) * inverse_ft n n (ctr n) (ctr n) (re otf) (im otf) p q).
  { intros p q. rewrite psf_odd by (rewrite ?Er, ?Ec; auto; lia). rewrite Er, Ec. apply odd_modulation; auto; try lia.
    - intros a b Ha Hb. apply H; auto.
    - intros a b Ha Hb. rewrite (proj2 (H a b Ha Hb)), (proj2 (H (n - 1 - a)%nat (n - 1 - b)%nat ltac:(lia) ltac:(lia))). ring. }
  rewrite !S. rewrite !odd_rev by auto. f_equal.
  - rewrite <- cos_neg. f_equal. unfold Rdiv. ring.
  - unfold inverse_ft. rewrite <- sum_over_rev. apply sum_over_ext. intros p q Hp Hq. cbv zeta.
    rewrite !odd_rev by auto. rewrite (proj2 (H p q Hp Hq)), (proj2 (H (n - 1 - p)%nat (n - 1 - q)%nat ltac:(lia) ltac:(lia))), (proj1 (H p q Hp Hq)).
    rewrite !Rmult_0_l. do 4 f_equal. unfold Rdiv. ring.
Qed.
Lemma position_rev n m x : (0 < m)%nat -> (0 < n)%nat -> (x < m)%nat -> pixel_position n m (m - 1 - x) = INR n - 1 - pixel_position n m x.
Proof.
  intros Hm Hn Hx. unfold pixel_position. assert (P : 0 < INR m) by (apply lt_0_INR; exact Hm).
  assert (Q : 1 <= INR n) by (replace 1 with (INR 1) by reflexivity; apply le_INR; lia).
  replace ((INR (m - 1 - x) + / 2) * INR n / INR m - / 2) with (INR n - 1 - ((INR x + / 2) * INR n / INR m - / 2)).
  2:{ rewrite !minus_INR by lia. simpl (INR 1). field. lra. }
  generalize ((INR x + / 2) * INR n / INR m - / 2). intros f. unfold Rmax, Rmin.
  repeat (destruct (Rle_dec _ _)); lra.
Qed.
Lemma tent_even d : tent (- d) = tent d.
Proof. unfold tent. rewrite Rabs_Ropp. reflexivity. Qed.
Lemma resize_symmetric a w h b : cv_resize a w h = Ok b -> point_symmetric (rows a) (cols a) (px a) -> point_symmetric (rows b) (cols b) (px b).
Proof.
  intros E S i j Hi Hj. destruct (resize_inv _ _ _ _ E) as ([Na Nb] & _). rewrite !(resize_tent _ _ _ _ E) by lia.
  rewrite !position_rev by lia. unfold interpolated. rewrite <- sum_over_rev. apply sum_over_ext. intros p q Hp Hq.
  rewrite (S p q Hp Hq). rewrite !minus_INR by lia. simpl (INR 1). f_equal. f_equal.
  - rewrite <- tent_even. f_equal. ring.
  - rewrite <- tent_even. f_equal. ring.
Qed.
Lemma scale_symmetric c a n m : point_symmetric n m (px a) -> point_symmetric n m (px (iscale c a)).
Proof. intros S p q Hp Hq. cbn [iscale px]. rewrite (S p q Hp Hq). reflexivity. Qed.
Lemma middle_symmetric a k : (k <= rows a)%nat -> (k <= cols a)%nat -> point_symmetric (rows a) (cols a) (px a) ->
  point_symmetric (rows (get_middle a k)) (cols (get_middle a k)) (px (get_middle a k)) /\
  Nat.odd (rows (get_middle a k)) = Nat.odd (rows a) /\ Nat.odd (cols (get_middle a k)) = Nat.odd (cols a).
Proof.
  intros Hr Hc S. destruct (get_middle_inside a k Hr Hc) as (i0 & j0 & A1 & A2 & _ & _ & _ & _ & A7). split; [|split].
  - intros p q Hp Hq. rewrite !A7. rewrite <- (S (i0 + p)%nat (j0 + q)%nat) by lia. f_equal; lia.
  - rewrite <- A1. rewrite Nat.odd_add, Nat.odd_mul. change (Nat.odd 2) with false. symmetry. apply xorb_false_l.
  - rewrite <- A2. rewrite Nat.odd_add, Nat.odd_mul. change (Nat.odd 2) with false. symmetry. apply xorb_false_l.
Qed.

(** ** The kernel *)
Lemma middle_whole a k : (0 < rows a <= 3)%nat -> (0 < cols a <= 3)%nat -> (10 <= k)%nat ->
  rows (get_middle a k) = rows a /\ cols (get_middle a k) = cols a /\ forall i j, px (get_middle a k) i j = px a i j.
Proof.
  intros Hr Hc Hk. destruct (get_middle_outside a k) as (i0 & j0 & A & B & C & D & E); [lia|lia|].
  assert (U : ((3 * Z.of_nat (rows a) - Z.of_nat k) / 2 <= 0)%Z) by (apply Z.div_le_upper_bound; lia).
  assert (V : ((3 * Z.of_nat (cols a) - Z.of_nat k) / 2 <= 0)%Z) by (apply Z.div_le_upper_bound; lia).
  assert (i0 = 0%nat) by lia. assert (j0 = 0%nat) by lia. subst. split; [lia|]. split; [lia|]. intros i j. apply E.
Qed.
Lemma Rsum_window (F : nat -> R) (b : nat -> bool) i0 h n : (i0 + h <= n)%nat -> (forall i, (i < n)%nat -> b i = true <-> (i0 <= i < i0 + h)%nat) ->
  Rsum (map (fun i => if b i then F i else 0) (seq 0 n)) = Rsum (map (fun p => F (i0 + p)%nat) (seq 0 h)).
Proof.
  intros L B. replace n with (i0 + (h + (n - i0 - h)))%nat at 1 by lia. rewrite !seq_app, !map_app, !Rsum_app. cbn [Nat.add].
  rewrite (Rsum_zero (fun i => if b i then F i else 0) (seq 0 i0)).
  2:{ intros i Hi. apply in_seq in Hi. destruct (b i) eqn:E; [|reflexivity]. apply B in E; lia. }
  rewrite (Rsum_zero (fun i => if b i then F i else 0) (seq (i0 + h) _)).
  2:{ intros i Hi. apply in_seq in Hi. destruct (b i) eqn:E; [|reflexivity]. apply B in E; lia. }
  rewrite Rplus_0_l, Rplus_0_r. rewrite (Rsum_map_ext (fun i => if b i then F i else 0) F).
  2:{ intros i Hi. apply in_seq in Hi. rewrite (proj2 (B i ltac:(lia))) by lia. reflexivity. }
  assert (SH : forall k m, seq k m = map (fun p => (k + p)%nat) (seq 0 m)).
  { intros k m. revert k. induction m as [|m IH]; intros k; [reflexivity|]. cbn [seq map]. rewrite Nat.add_0_r. f_equal.
    rewrite (IH (S k)), (IH 1%nat), map_map. apply map_ext. intros p. lia. }
  rewrite (SH i0 h), map_map. reflexivity.
Qed.
Lemma middle_sum a k d : rows a = d -> cols a = d -> (k <= d)%nat -> (0 < k)%nat ->
  isum (get_middle a k) = sum_over d d (fun i j => if in_middle d k i && in_middle d k j then px a i j else 0).
Proof.
  intros Er Ec Hk K0. destruct (get_middle_inside a k) as (i0 & j0 & A1 & A2 & A3 & A4 & _ & _ & A7); [lia|lia|]. rewrite Er in A1. rewrite Ec in A2.
  assert (M : forall h z, (2 * z + h = d)%nat -> (k <= h <= k + 1)%nat -> forall i, (i < d)%nat -> in_middle d k i = true <-> (z <= i < z + h)%nat).
  { intros h z Q1 Q2 i Hi. unfold in_middle. rewrite Z.leb_le. lia. }
  rewrite isum_over. unfold sum_over.
  rewrite (Rsum_map_ext (fun i => Rsum (map (fun j => if in_middle d k i && in_middle d k j then px a i j else 0) (seq 0 d)))
    (fun i => if in_middle d k i then Rsum (map (fun q => px a i (j0 + q)%nat) (seq 0 (cols (get_middle a k)))) else 0)).
  - rewrite (Rsum_window (fun i => Rsum (map (fun q => px a i (j0 + q)%nat) (seq 0 (cols (get_middle a k))))) _ i0 (rows (get_middle a k)) d); [|lia|apply M; lia].
    apply Rsum_map_ext. intros p _. apply Rsum_map_ext. intros q _. apply A7.
  - intros i _. destruct (in_middle d k i); cbn [andb]; [|apply Rsum_zero; reflexivity].
    apply (Rsum_window (fun j => px a i j) _ j0 (cols (get_middle a k)) d); [lia|apply M; lia].
Qed.
Lemma middle_scale c a k : get_middle (iscale c a) k = iscale c (get_middle a k).
Proof.
  unfold get_middle. cbn [iscale rows cols px]. destruct (mid_slice (Z.of_nat (rows a)) (Z.of_nat k)). destruct (mid_slice (Z.of_nat (cols a)) (Z.of_nat k)). reflexivity.
Qed.
Lemma isum_scale c a : isum (iscale c a) = isum a / c.
Proof.
  rewrite !isum_over. cbn [iscale rows cols px]. unfold Rdiv. rewrite (Rmult_comm _ (/ c)), <- sum_over_scal. apply sum_over_ext. intros. ring.
Qed.
Lemma parity_nat d : (0 <= d)%Z -> Nat.odd (Z.to_nat d) = Z.odd d.
Proof.
  intros H. rewrite <- (Z2Nat.id d) at 2 by lia. generalize (Z.to_nat d). intros m. destruct (Nat.odd m) eqn:O.
  - apply Nat.odd_spec in O. destruct O as (z & ->). symmetry. apply Z.odd_spec. exists (Z.of_nat z). lia.
  - assert (O' : Nat.even m = true) by (rewrite <- Nat.negb_odd, O; reflexivity). apply Nat.even_spec in O'. destruct O' as (z & ->).
    symmetry. rewrite <- Z.negb_even. replace (Z.even (Z.of_nat (2 * z))) with true; [reflexivity|]. symmetry. apply Z.even_spec. exists (Z.of_nat z). lia.
Qed.
Lemma kernel_inv otf n kd df dx k : crows otf = n -> ccols otf = n -> 0 < df -> 0 < dx -> otf_to_psf otf kd df (Fin dx) = Ok k ->
  exists full t, cv_resize (psf_raw otf) (psf_side df dx) (psf_side df dx) = Ok full /\
    rows full = Z.to_nat (psf_side df dx) /\ cols full = Z.to_nat (psf_side df dx) /\ isum full <> 0 /\ (10 + 5 * t < n)%nat /\
    (forall t', (t' < t)%nat -> isum (get_middle (iscale (isum full) full) (10 + 5 * t')) <= 0.95) /\
    k = iscale (isum (get_middle (iscale (isum full) full) (10 + 5 * t))) (get_middle (iscale (isum full) full) (10 + 5 * t)).
Proof.
  intros Er Ec Hf Hd E. rewrite otf_to_psf_eq in E. rewrite Er, Ec in E.
  destruct (Nat.eqb n 0) eqn:Hn; cbn [orb] in E; [discriminate E|]. apply Nat.eqb_neq in Hn. assert (Pn : 0 < INR n) by (apply lt_0_INR; lia).
  rewrite qdiv_fin in E by (apply Rgt_not_eq; nra). cbn [bind] in E.
  change (cols (psf_raw otf)) with (ccols otf) in E. change (rows (psf_raw otf)) with (crows otf) in E. rewrite Er, Ec in E.
  rewrite !xmul_fin, !xdiv_fin in E by lra. cbn [xint bind] in E. unfold py_int in E.
  assert (Q : INR n * (1 / (INR n * df)) / dx = 1 / (df * dx)) by (field; lra). rewrite Q in E.
  assert (Pd : 0 < df * dx) by (apply Rmult_lt_0_compat; lra).
  rewrite Ztrunc_floor in E by (apply Rlt_le, Rdiv_lt_0_compat; lra). fold (psf_side df dx) in E. rewrite Nat.min_id in E.
  destruct (cv_resize (psf_raw otf) _ _) as [full|] eqn:ER; [|discriminate E]. cbn [bind] in E.
  destruct (resize_inv _ _ _ _ ER) as (_ & _ & _ & Rr & Rc & _).
  destruct (crop_sizes n) as [|k0 l] eqn:CS; [discriminate E|].
  destruct (Reqb (isum full) 0) eqn:Z0; [discriminate E|]. apply Reqb_false in Z0.
  destruct (crop_loop_chosen (iscale (isum full) full) (k0 :: l) None ltac:(discriminate)) as (kk & CL & CH). rewrite CL in E.
  destruct (Reqb _ 0); [discriminate E|]. apply ok_inj in E.
  rewrite <- CS in CH. destruct (chosen_sizes _ _ _ CH) as (t & -> & Lt & B & _).
  exists full, t. split; [reflexivity|]. split; [lia|]. split; [lia|]. auto.
Qed.
Lemma kernel_symmetric otf n kd df dx k : crows otf = n -> ccols otf = n -> Nat.odd n = true -> 0 < df -> 0 < dx ->
  (forall p q, (p < n)%nat -> (q < n)%nat -> re otf (n - 1 - p)%nat (n - 1 - q)%nat = re otf p q /\ im otf p q = 0) ->
  kept_middle n (px (psf_raw otf)) (psf_side df dx) -> otf_to_psf otf kd df (Fin dx) = Ok k ->
  (0 < rows k <= Nat.min n (Z.to_nat (psf_side df dx)))%nat /\ (0 < cols k <= Nat.min n (Z.to_nat (psf_side df dx)))%nat /\ sum_over (rows k) (cols k) (px k) = 1 /\ point_symmetric (rows k) (cols k) (px k) /\
  Nat.odd (rows k) = Z.odd (psf_side df dx) /\ Nat.odd (cols k) = Z.odd (psf_side df dx).
Proof.
  intros Er Ec On Hf Hd H KM E. assert (S1 := psf_sum_one _ _ _ _ _ E). rewrite isum_over in S1.
  assert (Hn : (0 < n)%nat) by (destruct n; [discriminate On|lia]).
  destruct (kernel_inv otf n kd df dx k Er Ec Hf Hd E) as (full & t & ER & Rf & Cf & Z0 & Lt & Bt & Ek).
  assert (D1 : (1 <= psf_side df dx)%Z) by (unfold psf_side; lia). rewrite <- parity_nat by lia. set (d := psf_side df dx) in *.
  assert (SY := resize_symmetric _ _ _ _ ER). change (rows (psf_raw otf)) with (crows otf) in SY. change (cols (psf_raw otf)) with (ccols otf) in SY.
  rewrite Er, Ec in SY. specialize (SY (raw_symmetric otf n Er Ec On H)).
  assert (CASE : (d <= 3)%Z \/ (10 + 5 * t <= Z.to_nat d)%nat).
  { destruct KM as [K|[K|[K|(t0 & T1 & T2 & P0 & T3)]]]; [left; exact K|right; lia|right|right].
    { destruct K as [K1 K2]. assert (Dm := Z.div_mod d 5 ltac:(lia)). assert (Dr := Z.mod_pos_bound d 5 ltac:(lia)).
      set (t0 := Z.to_nat (d / 5 - 2)). assert (T0 : Z.of_nat t0 = (d / 5 - 2)%Z) by (unfold t0; rewrite Z2Nat.id; lia).
      destruct (Nat.le_gt_cases t t0) as [L|L]; [lia|]. exfalso. specialize (Bt t0 L).
      rewrite middle_scale, isum_scale, (middle_sum full (10 + 5 * t0) (Z.to_nat d)) in Bt by lia.
      rewrite (sum_over_ext _ _ _ (px full)) in Bt.
      - assert (I : isum full = sum_over (Z.to_nat d) (Z.to_nat d) (px full)) by (rewrite isum_over, Rf, Cf; reflexivity).
        rewrite <- I in Bt. unfold Rdiv in Bt. rewrite Rinv_r in Bt by exact Z0. lra.
      - intros i j Hi Hj. unfold in_middle. rewrite (proj2 (Z.leb_le _ _)), (proj2 (Z.leb_le _ _)) by lia. reflexivity. }
    destruct (Nat.le_gt_cases t t0) as [L|L]; [lia|]. exfalso. specialize (Bt t0 L).
    rewrite middle_scale, isum_scale, (middle_sum full (10 + 5 * t0) (Z.to_nat d)) in Bt by lia.
    assert (G : forall i j, (i < Z.to_nat d)%nat -> (j < Z.to_nat d)%nat ->
      interpolated n n (px (psf_raw otf)) (pixel_position n (Z.to_nat d) i) (pixel_position n (Z.to_nat d) j) = px full i j).
    { intros i j Hi Hj. rewrite (resize_tent _ _ _ _ ER) by lia. change (rows (psf_raw otf)) with (crows otf). change (cols (psf_raw otf)) with (ccols otf).
      rewrite Er, Ec, Rf, Cf. reflexivity. }
    rewrite (sum_over_ext _ _ _ _ G) in P0, T3.
    rewrite (sum_over_ext _ _ (fun i j => if in_middle (Z.to_nat d) (10 + 5 * t0) i && in_middle (Z.to_nat d) (10 + 5 * t0) j then interpolated n n (px (psf_raw otf)) (pixel_position n (Z.to_nat d) i) (pixel_position n (Z.to_nat d) j) else 0) (fun i j => if in_middle (Z.to_nat d) (10 + 5 * t0) i && in_middle (Z.to_nat d) (10 + 5 * t0) j then px full i j else 0)) in T3.
    2:{ intros i j Hi Hj. cbv beta. rewrite G by assumption. reflexivity. }
    assert (I : isum full = sum_over (Z.to_nat d) (Z.to_nat d) (px full)) by (rewrite isum_over, Rf, Cf; reflexivity). rewrite <- I in P0, T3.
    revert Bt T3. generalize (sum_over (Z.to_nat d) (Z.to_nat d) (fun i j => if in_middle (Z.to_nat d) (10 + 5 * t0) i && in_middle (Z.to_nat d) (10 + 5 * t0) j then px full i j else 0)).
    intros m Bt T3. apply (Rmult_le_compat_r (isum full)) in Bt; [|lra]. unfold Rdiv in Bt. rewrite Rmult_assoc, Rinv_l in Bt by exact Z0. lra. }
  assert (M : point_symmetric (rows (get_middle (iscale (isum full) full) (10 + 5 * t))) (cols (get_middle (iscale (isum full) full) (10 + 5 * t)))
      (px (get_middle (iscale (isum full) full) (10 + 5 * t))) /\
    Nat.odd (rows (get_middle (iscale (isum full) full) (10 + 5 * t))) = Nat.odd (Z.to_nat d) /\
    Nat.odd (cols (get_middle (iscale (isum full) full) (10 + 5 * t))) = Nat.odd (Z.to_nat d) /\
    (0 < rows (get_middle (iscale (isum full) full) (10 + 5 * t)) <= Nat.min n (Z.to_nat d))%nat /\ (0 < cols (get_middle (iscale (isum full) full) (10 + 5 * t)) <= Nat.min n (Z.to_nat d))%nat).
  { assert (SF := scale_symmetric (isum full) full _ _ SY). destruct CASE as [C|C].
    - destruct (middle_whole (iscale (isum full) full) (10 + 5 * t)) as (W1 & W2 & W3); [cbn [iscale rows]; lia|cbn [iscale cols]; lia|lia|].
      cbn [iscale rows cols] in W1, W2. rewrite W1, W2, Rf, Cf. split; [|repeat split; lia]. intros p q Hp Hq. rewrite !W3. rewrite Rf, Cf in SF. apply SF; assumption.
    - destruct (middle_symmetric (iscale (isum full) full) (10 + 5 * t)) as (M1 & M2 & M3); [cbn [iscale rows]; lia|cbn [iscale cols]; lia|exact SF|].
      destruct (get_middle_inside (iscale (isum full) full) (10 + 5 * t)) as (i0 & j0 & A1 & A2 & A3 & A4 & _); [cbn [iscale rows]; lia|cbn [iscale cols]; lia|].
      split; [exact M1|]. cbn [iscale rows cols] in M2, M3. change (rows (iscale (isum full) full)) with (rows full) in A1. change (cols (iscale (isum full) full)) with (cols full) in A2. rewrite M2, M3, Rf, Cf. repeat split; lia. }
  destruct M as (M1 & M2 & M3 & M4 & M5). subst k. cbn [iscale rows cols px] in S1 |- *. repeat split; auto; try lia.
  apply (scale_symmetric _ _ _ _ M1).
Qed.

(** ** Centres *)
Lemma half_odd h : (0 < h)%nat -> (INR h - 1) / 2 - INR (h / 2) = - (if Nat.odd h then 0 else / 2).
Proof.
  intros Hh. destruct (Nat.odd h) eqn:O.
  - apply Nat.odd_spec in O. destruct O as (m & ->). replace ((2 * m + 1) / 2)%nat with m by (apply Nat.div_unique with 1%nat; lia).
    rewrite plus_INR, mult_INR. simpl. field.
  - assert (E : Nat.even h = true) by (rewrite <- Nat.negb_odd, O; reflexivity). apply Nat.even_spec in E. destruct E as (m & ->).
    replace (2 * m / 2)%nat with m by (rewrite Nat.mul_comm; symmetry; apply Nat.div_mul; lia). rewrite mult_INR. simpl. field.
Qed.
Lemma symmetric_moment n m f (g : nat -> nat -> R) s : point_symmetric n m f -> sum_over n m f = 1 ->
  (forall p q, (p < n)%nat -> (q < m)%nat -> g (n - 1 - p)%nat (m - 1 - q)%nat = s - g p q) -> sum_over n m (fun p q => f p q * g p q) = s / 2.
Proof.
  intros S One G.
  assert (E : sum_over n m (fun p q => f p q * g p q) = s * 1 + -1 * sum_over n m (fun p q => f p q * g p q)); [|lra].
  rewrite <- One at 1. rewrite <- (sum_over_rev n m (fun p q => f p q * g p q)) at 1. rewrite <- !sum_over_scal, <- sum_over_plus.
  apply sum_over_ext. intros p q Hp Hq. rewrite (S p q Hp Hq), (G p q Hp Hq). ring.
Qed.
Lemma filter_at T k F y x : filter2D T k = Ok F -> px F y x = sum_over (rows k) (cols k) (fun p q => px k p q *
   px T (reflect101 (rows T) (Z.of_nat y + Z.of_nat p - Z.of_nat (rows k / 2))) (reflect101 (cols T) (Z.of_nat x + Z.of_nat q - Z.of_nat (cols k / 2)))).
Proof. unfold filter2D. destruct (_ || _ || _ || _)%bool; [discriminate|]. intros E. apply ok_inj in E. subst F. reflexivity. Qed.
Lemma filter_plane T k F a b c y x : filter2D T k = Ok F -> point_symmetric (rows k) (cols k) (px k) -> sum_over (rows k) (cols k) (px k) = 1 ->
  (0 < rows k)%nat -> (0 < cols k)%nat -> plane_near (rows T) (cols T) (px T) (rows k) (cols k) a b c y x ->
  px F y x = ramp a b c (INR y - (if Nat.odd (rows k) then 0 else / 2)) (INR x - (if Nat.odd (cols k) then 0 else / 2)).
Proof.
  intros E S One H0 W0 (B1 & B2 & B3 & B4 & PL). rewrite (filter_at _ _ _ _ _ E). set (h := rows k) in *. set (w := cols k) in *.
  rewrite (sum_over_ext h w _ (fun p q => px k p q * (a + b * (INR y + INR p - INR (h / 2)) + c * (INR x + INR q - INR (w / 2))))).
  2:{ intros p q Hp Hq. f_equal.
      replace (Z.of_nat y + Z.of_nat p - Z.of_nat (h / 2))%Z with (Z.of_nat (y + p - h / 2)) by lia.
      replace (Z.of_nat x + Z.of_nat q - Z.of_nat (w / 2))%Z with (Z.of_nat (x + q - w / 2)) by lia.
      rewrite !reflect_inside by lia. rewrite PL by lia. unfold ramp. rewrite !minus_INR, !plus_INR by lia. ring. }
  rewrite (symmetric_moment h w (px k) _ (2 * (a + b * (INR y + (INR h - 1) / 2 - INR (h / 2)) + c * (INR x + (INR w - 1) / 2 - INR (w / 2)))) S One).
  - unfold ramp. rewrite <- (Ropp_involutive (if Nat.odd h then _ else _)), <- (Ropp_involutive (if Nat.odd w then _ else _)), <- !half_odd by assumption. field.
  - intros p q Hp Hq. rewrite !minus_INR by lia. simpl (INR 1). field.
Qed.

(** ** The blurred picture *)
Lemma apply_plane T gsd rng otf n kd df ifov B sp : 0 < gsd -> 0 < rng -> 0 < df -> ifov * rng = gsd ->
  crows otf = n -> ccols otf = n -> Nat.odd n = true ->
  (forall p q, (p < n)%nat -> (q < n)%nat -> re otf (n - 1 - p)%nat (n - 1 - q)%nat = re otf p q /\ im otf p q = 0) ->
  kept_middle n (px (psf_raw otf)) (psf_side df (2 * atan (gsd / 2 / rng))) ->
  apply_otf_to_image T gsd Np rng otf kd df Py ifov = Ok (B, sp) ->
  let d := psf_side df (2 * atan (gsd / 2 / rng)) in
  rows B = rows T /\ cols B = cols T /\ (0 < rows sp <= Nat.min n (Z.to_nat d))%nat /\ (0 < cols sp <= Nat.min n (Z.to_nat d))%nat /\ Nat.odd (rows sp) = Z.odd d /\ Nat.odd (cols sp) = Z.odd d /\
  forall a b c y x, plane_near (rows T) (cols T) (px T) (rows sp) (cols sp) a b c y x ->
    px B y x = ramp a b c (INR y - lag d) (INR x - lag d).
Proof.
  intros Hg Hr Hf Ei Er Ec On H KM E d.
  assert (A : 0 < 2 * atan (gsd / 2 / rng)).
  { assert (0 < atan (gsd / 2 / rng)); [|lra]. rewrite <- atan_0. apply atan_increasing. apply Rdiv_lt_0_compat; lra. }
  destruct (native_apply T gsd rng otf kd df ifov B sp) as (k & F & EK & EF & Br & Bc & Sr & Sc & BV & _);
    [lra|exact Ei|intros C; rewrite C in Ei; lra|exact E|].
  destruct (kernel_symmetric otf n kd df _ k Er Ec On Hf A H KM EK) as (K1 & K2 & K3 & K4 & K5 & K6). fold d in K5, K6.
  rewrite Sr, Sc. repeat split; auto; try lia. intros a b c y x PN. assert (PN' := PN). destruct PN' as (P1 & P2 & P3 & P4 & _).
  assert (rows k / 2 < rows k)%nat by (apply Nat.div_lt; lia). assert (cols k / 2 < cols k)%nat by (apply Nat.div_lt; lia).
  rewrite BV by lia. rewrite (filter_plane T k F a b c y x EF K4 K3 (proj1 K1) (proj1 K2) PN). rewrite K5, K6. reflexivity.
Qed.
