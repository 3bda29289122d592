(** * Proof_Image: blurring and resampling. *)
From Coq Require Import Reals Lra Psatz Bool List ZArith Lia.
From Flocq Require Import Core.Raux Core.Generic_fmt Core.Round_NE.
From Verif Require Import Base_XR Base_Np Model_Geo Model_Otf Model_Img Spec_Img Proof_Otf Proof_Filter Proof_Weight Proof_Slice Proof_Psf.
Import ListNotations.
Open Scope R_scope.

(** ** Resizing *)
Lemma rs_pos_ok n m x : (0 < n)%nat -> (0 < m)%nat -> (x < m)%nat ->
  exists s t, rs_pos n m x = (s, t) /\ (s < n)%nat /\ 0 <= t <= 1 /\ ((s + 1 < n)%nat \/ t = 0).
Proof.
  intros Hn Hm Hx. unfold rs_pos. set (f := (INR x + 0.5) * (INR n / INR m) - 0.5).
  destruct (Z.ltb_spec (Zfloor f) 0).
  - exists 0%nat, 0. split; [reflexivity|]. split; [exact Hn|]. split; [lra | right; reflexivity].
  - destruct (Z.leb_spec (Z.of_nat n - 1) (Zfloor f)).
    + exists (n - 1)%nat, 0. split; [reflexivity|]. split; [lia|]. split; [lra | right; reflexivity].
    + exists (Z.to_nat (Zfloor f)), (f - IZR (Zfloor f)). split; [reflexivity|]. split; [lia|].
      split; [generalize (Zfloor_lb f) (Zfloor_ub f); lra | left; lia].
Qed.
Lemma rs_pos_same n x : (x < n)%nat -> rs_pos n n x = (x, 0).
Proof.
  intros Hx. unfold rs_pos. assert (P : 0 < INR n) by (apply lt_0_INR; lia).
  replace ((INR x + 0.5) * (INR n / INR n) - 0.5) with (INR x) by (replace (INR n / INR n) with 1 by (field; lra); lra).
  rewrite INR_IZR_INZ, Zfloor_IZR. destruct (Z.ltb_spec (Z.of_nat x) 0); [lia|].
  destruct (Z.leb_spec (Z.of_nat n - 1) (Z.of_nat x)).
  - f_equal. lia.
  - rewrite Nat2Z.id. f_equal. ring.
Qed.
Definition nonempty (a : img) : Prop := (0 < rows a)%nat /\ (0 < cols a)%nat.
Lemma resize_ok a w h : nonempty a -> (0 < w)%Z -> (0 < h)%Z ->
  exists b, cv_resize a w h = Ok b /\ rows b = Z.to_nat h /\ cols b = Z.to_nat w.
Proof.
  intros [Hr Hc] Hw Hh. unfold cv_resize.
  replace (Z.leb w 0) with false by (symmetry; apply Z.leb_gt; exact Hw).
  replace (Z.leb h 0) with false by (symmetry; apply Z.leb_gt; exact Hh).
  replace (Nat.eqb (rows a) 0) with false by (symmetry; apply Nat.eqb_neq; lia).
  replace (Nat.eqb (cols a) 0) with false by (symmetry; apply Nat.eqb_neq; lia). cbn [orb].
  eexists; split; [reflexivity|]. split; reflexivity.
Qed.
Lemma resize_inv a w h b : cv_resize a w h = Ok b ->
  nonempty a /\ (0 < w)%Z /\ (0 < h)%Z /\ rows b = Z.to_nat h /\ cols b = Z.to_nat w
  /\ forall i j, (i < rows b)%nat -> (j < cols b)%nat ->
     exists y x s t, (y < rows a)%nat /\ (x < cols a)%nat /\ 0 <= s <= 1 /\ 0 <= t <= 1
       /\ ((y + 1 < rows a)%nat \/ t = 0) /\ ((x + 1 < cols a)%nat \/ s = 0)
       /\ rs_pos (rows a) (rows b) i = (y, t) /\ rs_pos (cols a) (cols b) j = (x, s)
       /\ px b i j = (1 - t) * ((1 - s) * px a y x + s * px a y (x + 1)%nat)
                     + t * ((1 - s) * px a (y + 1)%nat x + s * px a (y + 1)%nat (x + 1)%nat).
Proof.
  unfold cv_resize. destruct (Z.leb_spec w 0); [discriminate|]. destruct (Z.leb_spec h 0); [discriminate|].
  destruct (Nat.eqb_spec (rows a) 0); [discriminate|]. destruct (Nat.eqb_spec (cols a) 0); [discriminate|].
  cbn [orb]. intros E. apply ok_inj in E. subst b. cbn [rows cols px].
  split; [split; lia|]. split; [lia|]. split; [lia|]. split; [reflexivity|]. split; [reflexivity|].
  intros i j Hi Hj.
  destruct (rs_pos_ok (rows a) (Z.to_nat h) i) as (y & t & E1 & L1 & T1 & O1); try lia.
  destruct (rs_pos_ok (cols a) (Z.to_nat w) j) as (x & s & E2 & L2 & T2 & O2); try lia.
  exists y, x, s, t. rewrite E1, E2. repeat (split; [assumption || reflexivity|]). reflexivity.
Qed.
Lemma resize_range a w h b lo hi : cv_resize a w h = Ok b ->
  (forall i j, (i < rows a)%nat -> (j < cols a)%nat -> lo <= px a i j <= hi) ->
  forall i j, (i < rows b)%nat -> (j < cols b)%nat -> lo <= px b i j <= hi.
Proof.
  intros E H i j Hi Hj. apply resize_inv in E. destruct E as (_ & _ & _ & _ & _ & P).
  destruct (P i j Hi Hj) as (y & x & s & t & Ly & Lx & Bs & Bt & Oy & Ox & _ & _ & ->).
  destruct Ox as [Ox | ->]; destruct Oy as [Oy | ->].
  - apply mix; auto; apply mix; auto; apply H; lia.
  - assert (G : lo <= (1 - s) * px a y x + s * px a y (x + 1)%nat <= hi) by (apply mix; auto; apply H; lia). lra.
  - assert (G1 := H y x Ly Lx). assert (G2 := H (y + 1)%nat x Oy Lx).
    generalize (mix (px a y x) (px a (y + 1)%nat x) t lo hi Bt G1 G2). lra.
  - assert (G1 := H y x Ly Lx). lra.
Qed.
Lemma resize_const a w h b c : cv_resize a w h = Ok b ->
  (forall i j, (i < rows a)%nat -> (j < cols a)%nat -> px a i j = c) ->
  forall i j, (i < rows b)%nat -> (j < cols b)%nat -> px b i j = c.
Proof.
  intros E H i j Hi Hj. assert (G : c <= px b i j <= c); [|lra].
  apply (resize_range a w h b c c E); auto. intros. rewrite H by auto. lra.
Qed.
Lemma resize_same a b : nonempty a ->
  cv_resize a (Z.of_nat (cols a)) (Z.of_nat (rows a)) = Ok b ->
  rows b = rows a /\ cols b = cols a
  /\ forall i j, (i < rows a)%nat -> (j < cols a)%nat -> px b i j = px a i j.
Proof.
  intros Hne E. apply resize_inv in E. destruct E as (_ & _ & _ & Er & Ec & P).
  rewrite Nat2Z.id in Er, Ec. split; [exact Er|]. split; [exact Ec|]. intros i j Hi Hj.
  destruct (P i j) as (y & x & s & t & _ & _ & _ & _ & _ & _ & E1 & E2 & ->); [lia | lia|].
  rewrite Er, rs_pos_same in E1 by exact Hi. rewrite Ec, rs_pos_same in E2 by exact Hj.
  apply pair_equal_spec in E1, E2. destruct E1 as [<- <-]. destruct E2 as [<- <-]. ring.
Qed.
(* sum of two images, scaled *)
Definition lincomb (p q : R) (a b : img) : img :=
  {| rows := rows a; cols := cols a; px := fun i j => p * px a i j + q * px b i j |}.
Lemma resize_linear a b w h a' b' p q : rows b = rows a -> cols b = cols a ->
  cv_resize a w h = Ok a' -> cv_resize b w h = Ok b' ->
  exists c', cv_resize (lincomb p q a b) w h = Ok c' /\ rows c' = rows a' /\ cols c' = cols a'
    /\ forall i j, px c' i j = p * px a' i j + q * px b' i j.
Proof.
  intros Hr Hc Ea Eb. unfold cv_resize in *. cbn [rows cols lincomb px].
  rewrite Hr, Hc in Eb.
  destruct (Z.leb w 0 || Z.leb h 0 || Nat.eqb (rows a) 0 || Nat.eqb (cols a) 0); [discriminate|].
  apply ok_inj in Ea. subst a'. apply ok_inj in Eb. subst b'. eexists; split; [reflexivity|]. cbn [rows cols px].
  split; [reflexivity|]. split; [reflexivity|]. intros i j.
  destruct (rs_pos (rows a) (Z.to_nat h) i) as [y t]. destruct (rs_pos (cols a) (Z.to_nat w) j) as [x s]. ring.
Qed.

(** ** Filtering *)
Lemma reflect_range n p : (0 < n)%nat -> (reflect101 n p < n)%nat.
Proof.
  intros Hn. unfold reflect101. destruct (Nat.eqb_spec n 1); [lia|].
  assert (M := Z.mod_pos_bound p (2 * (Z.of_nat n - 1)) ltac:(lia)).
  set (r := (p mod (2 * (Z.of_nat n - 1)))%Z) in *. destruct (Z.ltb_spec r (Z.of_nat n)); lia.
Qed.
Lemma reflect_inside n (p : nat) : (p < n)%nat -> reflect101 n (Z.of_nat p) = p.
Proof.
  intros Hp. unfold reflect101. destruct (Nat.eqb_spec n 1); [lia|].
  destruct (Z.eq_dec (Z.of_nat n) 2) as [E2|N2].
  - rewrite E2. change (2 * (2 - 1))%Z with 2%Z. rewrite Z.mod_small by lia.
    destruct (Z.ltb_spec (Z.of_nat p) 2); lia.
  - rewrite Z.mod_small by lia. destruct (Z.ltb_spec (Z.of_nat p) (Z.of_nat n)); lia.
Qed.
Lemma filter_ok a k : nonempty a -> nonempty k ->
  exists b, filter2D a k = Ok b /\ rows b = rows a /\ cols b = cols a.
Proof.
  intros [Hr Hc] [Kr Kc]. unfold filter2D.
  replace (Nat.eqb (rows a) 0) with false by (symmetry; apply Nat.eqb_neq; lia).
  replace (Nat.eqb (cols a) 0) with false by (symmetry; apply Nat.eqb_neq; lia).
  replace (Nat.eqb (rows k) 0) with false by (symmetry; apply Nat.eqb_neq; lia).
  replace (Nat.eqb (cols k) 0) with false by (symmetry; apply Nat.eqb_neq; lia). cbn [orb].
  eexists; split; [reflexivity|]. split; reflexivity.
Qed.
Lemma filter_inv a k b : filter2D a k = Ok b ->
  nonempty a /\ nonempty k /\ rows b = rows a /\ cols b = cols a
  /\ forall y x, exists ri ci, (forall p, (ri p < rows a)%nat) /\ (forall q, (ci q < cols a)%nat)
     /\ px b y x = sum_over (rows k) (cols k) (fun p q => px k p q * px a (ri p) (ci q)).
Proof.
  unfold filter2D. destruct (Nat.eqb_spec (rows a) 0); [discriminate|]. destruct (Nat.eqb_spec (cols a) 0); [discriminate|].
  destruct (Nat.eqb_spec (rows k) 0); [discriminate|]. destruct (Nat.eqb_spec (cols k) 0); [discriminate|].
  cbn [orb]. intros E. apply ok_inj in E. subst b. cbn [rows cols px].
  split; [split; lia|]. split; [split; lia|]. split; [reflexivity|]. split; [reflexivity|].
  intros y x. exists (fun p => reflect101 (rows a) (Z.of_nat y + Z.of_nat p - Z.of_nat (rows k / 2))),
    (fun q => reflect101 (cols a) (Z.of_nat x + Z.of_nat q - Z.of_nat (cols k / 2))).
  split; [intros; apply reflect_range; lia|]. split; [intros; apply reflect_range; lia|]. reflexivity.
Qed.
Lemma isum_over a : isum a = sum_over (rows a) (cols a) (px a).
Proof. reflexivity. Qed.
Lemma sum_over_le n m f g : (forall p q, (p < n)%nat -> (q < m)%nat -> f p q <= g p q) -> sum_over n m f <= sum_over n m g.
Proof.
  intros H. unfold sum_over.
  assert (G : forall (l : list nat) (F1 F2 : nat -> R), (forall x, In x l -> F1 x <= F2 x) -> Rsum (map F1 l) <= Rsum (map F2 l)).
  { induction l as [|x l IH]; intros F1 F2 HF; [unfold Rsum; simpl; lra|]. cbn [map]. rewrite !Rsum_cons.
    generalize (HF x (or_introl eq_refl)) (IH F1 F2 (fun y Hy => HF y (or_intror Hy))). lra. }
  apply G. intros p Hp. apply G. intros q Hq. apply in_seq in Hp, Hq. apply H; lia.
Qed.
Lemma filter_const a k b c : filter2D a k = Ok b -> isum k = 1 ->
  (forall i j, (i < rows a)%nat -> (j < cols a)%nat -> px a i j = c) ->
  forall y x, px b y x = c.
Proof.
  intros E S H y x. apply filter_inv in E. destruct E as (_ & _ & _ & _ & P).
  destruct (P y x) as (ri & ci & Lr & Lc & ->).
  transitivity (c * sum_over (rows k) (cols k) (px k)); [|rewrite <- isum_over, S; ring].
  rewrite <- sum_over_scal. apply sum_over_ext. intros p q _ _. rewrite H by auto. ring.
Qed.
Lemma filter_range a k b lo hi : filter2D a k = Ok b -> isum k = 1 ->
  (forall p q, (p < rows k)%nat -> (q < cols k)%nat -> 0 <= px k p q) ->
  (forall i j, (i < rows a)%nat -> (j < cols a)%nat -> lo <= px a i j <= hi) ->
  forall y x, lo <= px b y x <= hi.
Proof.
  intros E S K H y x. apply filter_inv in E. destruct E as (_ & _ & _ & _ & P).
  destruct (P y x) as (ri & ci & Lr & Lc & ->). rewrite isum_over in S.
  replace lo with (lo * 1) by ring. replace hi with (hi * 1) by ring. rewrite <- S, <- !sum_over_scal.
  split; apply sum_over_le; intros p q Hp Hq; generalize (K p q Hp Hq) (H (ri p) (ci q) (Lr p) (Lc q)); nra.
Qed.
Lemma filter_linear a b k a' b' p q : rows b = rows a -> cols b = cols a ->
  filter2D a k = Ok a' -> filter2D b k = Ok b' ->
  exists c', filter2D (lincomb p q a b) k = Ok c' /\ rows c' = rows a' /\ cols c' = cols a'
    /\ forall i j, px c' i j = p * px a' i j + q * px b' i j.
Proof.
  intros Hr Hc Ea Eb. unfold filter2D in *. cbn [rows cols lincomb px]. rewrite Hr, Hc in Eb.
  destruct (Nat.eqb (rows a) 0 || Nat.eqb (cols a) 0 || Nat.eqb (rows k) 0 || Nat.eqb (cols k) 0); [discriminate|].
  apply ok_inj in Ea. subst a'. apply ok_inj in Eb. subst b'. eexists; split; [reflexivity|]. cbn [rows cols px].
  split; [reflexivity|]. split; [reflexivity|]. intros i j.
  set (R1 := fun p0 : nat => reflect101 (rows a) (Z.of_nat i + Z.of_nat p0 - Z.of_nat (rows k / 2))).
  set (C1 := fun q0 : nat => reflect101 (cols a) (Z.of_nat j + Z.of_nat q0 - Z.of_nat (cols k / 2))).
  change (sum_over (rows k) (cols k) (fun p0 q0 => px k p0 q0 * (p * px a (R1 p0) (C1 q0) + q * px b (R1 p0) (C1 q0)))
    = p * sum_over (rows k) (cols k) (fun p0 q0 => px k p0 q0 * px a (R1 p0) (C1 q0))
    + q * sum_over (rows k) (cols k) (fun p0 q0 => px k p0 q0 * px b (R1 p0) (C1 q0))).
  rewrite <- !sum_over_scal, <- sum_over_plus. apply sum_over_ext. intros; ring.
Qed.
(* a kernel that is a single 1 in the centre is the identity *)
Lemma filter_identity a k b : filter2D a k = Ok b ->
  (forall p q, (p < rows k)%nat -> (q < cols k)%nat ->
     px k p q = if Nat.eqb p (rows k / 2) && Nat.eqb q (cols k / 2) then 1 else 0) ->
  forall y x, (y < rows a)%nat -> (x < cols a)%nat -> px b y x = px a y x.
Proof.
  unfold filter2D. destruct (Nat.eqb_spec (rows a) 0); [discriminate|]. destruct (Nat.eqb_spec (cols a) 0); [discriminate|].
  destruct (Nat.eqb_spec (rows k) 0); [discriminate|]. destruct (Nat.eqb_spec (cols k) 0); [discriminate|].
  cbn [orb]. intros E. apply ok_inj in E. subst b. cbn [px]. intros K y x Hy Hx.
  set (pc := (rows k / 2)%nat) in *. set (qc := (cols k / 2)%nat) in *.
  assert (Hp : (pc < rows k)%nat) by (apply Nat.div_lt; lia). assert (Hq : (qc < cols k)%nat) by (apply Nat.div_lt; lia).
  set (v := fun p q => px a (reflect101 (rows a) (Z.of_nat y + Z.of_nat p - Z.of_nat pc))
                            (reflect101 (cols a) (Z.of_nat x + Z.of_nat q - Z.of_nat qc))).
  rewrite (Rsum_single _ (rows k) pc Hp).
  - rewrite (Rsum_single _ (cols k) qc Hq).
    + rewrite K by auto. rewrite !Nat.eqb_refl. cbn [andb].
      replace (Z.of_nat y + Z.of_nat pc - Z.of_nat pc)%Z with (Z.of_nat y) by lia.
      replace (Z.of_nat x + Z.of_nat qc - Z.of_nat qc)%Z with (Z.of_nat x) by lia.
      rewrite !reflect_inside by auto. ring.
    + intros q Hq1 Hq2. rewrite K by auto. rewrite (proj2 (Nat.eqb_neq q qc) Hq2), andb_false_r. ring.
  - intros p Hp1 Hp2. apply Rsum_zero. intros q Hq1. apply in_seq in Hq1. rewrite K by (auto; lia).
    rewrite (proj2 (Nat.eqb_neq p pc) Hp2). cbn [andb]. ring.
Qed.

(** ** resample_2D *)
Lemma np_round_spec q : half_even q (np_round q).
Proof.
  unfold half_even, np_round. split.
  - rewrite Rabs_minus_sym. apply Znearest_half.
  - intros E. unfold Znearest in *. assert (L := Zfloor_lb q). assert (U := Zfloor_ub q).
    destruct (Rcompare_spec (q - IZR (Zfloor q)) (/ 2)) as [C|C|C].
    + rewrite Rabs_minus_sym, Rabs_pos_eq in E by lra. lra.
    + destruct (Z.even (Zfloor q)) eqn:EV; cbn [negb] in *; [exact EV|].
      rewrite Zceil_floor_neq by lra. rewrite Z.add_1_r, Z.even_succ. rewrite <- Z.negb_even, EV. reflexivity.
    + rewrite Zceil_floor_neq in * by lra. rewrite plus_IZR in E. rewrite Rabs_pos_eq in E by lra. lra.
Qed.
Lemma half_even_unique q n m : half_even q n -> half_even q m -> n = m.
Proof.
  intros [A1 A2] [B1 B2]. assert (D : Rabs (IZR (n - m)) <= 1).
  { rewrite minus_IZR. replace (IZR n - IZR m) with ((IZR n - q) - (IZR m - q)) by ring.
    eapply Rle_trans; [apply Rabs_triang|]. rewrite Rabs_Ropp. lra. }
  rewrite <- abs_IZR in D. apply le_IZR in D.
  destruct (Z.eq_dec n m) as [E|N]; [exact E|]. exfalso.
  assert (T : Rabs (IZR n - q) = / 2 /\ Rabs (IZR m - q) = / 2).
  { assert (C : n = (m + 1)%Z \/ m = (n + 1)%Z) by lia. destruct C as [-> | ->].
    - rewrite plus_IZR in *. revert A1 B1. unfold Rabs. repeat destruct Rcase_abs; intros; split; lra.
    - rewrite plus_IZR in *. revert A1 B1. unfold Rabs. repeat destruct Rcase_abs; intros; split; lra. }
  destruct T as [T1 T2]. apply A2 in T1. apply B2 in T2.
  assert (C : n = (m + 1)%Z \/ m = (n + 1)%Z) by lia. destruct C as [-> | ->].
  - rewrite Z.add_1_r, Z.even_succ, <- Z.negb_even, T2 in T1. discriminate.
  - rewrite Z.add_1_r, Z.even_succ, <- Z.negb_even, T1 in T2. discriminate.
Qed.

Lemma qdiv_fin k a b : b <> 0 -> qdiv k (Fin a) (Fin b) = Ok (Fin (a / b)).
Proof. intros H. unfold qdiv. destruct k; [rcase; [contradiction|]|]; rewrite xdiv_fin by exact H; reflexivity. Qed.
Lemma resample_val k a din dout : dout <> 0 ->
  resample_2D k a (Fin din) (Fin dout)
  = cv_resize a (np_round (INR (cols a) * din / dout)) (np_round (INR (rows a) * din / dout)).
Proof. intros H. unfold resample_2D. rewrite !xmul_fin, !qdiv_fin by exact H. reflexivity. Qed.
Lemma resample_size k a din dout w h : nonempty a -> dout <> 0 ->
  half_even (INR (cols a) * din / dout) w -> half_even (INR (rows a) * din / dout) h ->
  ((0 < w)%Z -> (0 < h)%Z -> exists b, resample_2D k a (Fin din) (Fin dout) = Ok b
     /\ Z.of_nat (cols b) = w /\ Z.of_nat (rows b) = h)
  /\ ((w <= 0)%Z \/ (h <= 0)%Z -> resample_2D k a (Fin din) (Fin dout) = Err CvError).
Proof.
  intros Hne Hd Hw Hh. rewrite resample_val by exact Hd.
  rewrite (half_even_unique _ _ _ (np_round_spec (INR (cols a) * din / dout)) Hw).
  rewrite (half_even_unique _ _ _ (np_round_spec (INR (rows a) * din / dout)) Hh). split.
  - intros W H. destruct (resize_ok a w h Hne W H) as (b & E & Er & Ec). exists b. split; [exact E|]. lia.
  - intros [W|H]; unfold cv_resize.
    + replace (Z.leb w 0) with true by (symmetry; apply Z.leb_le; exact W). reflexivity.
    + replace (Z.leb h 0) with true by (symmetry; apply Z.leb_le; exact H). rewrite orb_true_r. reflexivity.
Qed.
Lemma half_even_IZR z : half_even (IZR z) z.
Proof. split; [|intros E; exfalso; revert E]; rewrite Rminus_eq_0, Rabs_R0; lra. Qed.
Lemma half_even_nat n : half_even (INR n) (Z.of_nat n).
Proof. rewrite INR_IZR_INZ. apply half_even_IZR. Qed.
Lemma resample_same k a d : nonempty a -> d <> 0 ->
  exists b, resample_2D k a (Fin d) (Fin d) = Ok b /\ rows b = rows a /\ cols b = cols a
    /\ forall i j, (i < rows a)%nat -> (j < cols a)%nat -> px b i j = px a i j.
Proof.
  intros Hne Hd. rewrite resample_val by exact Hd.
  replace (INR (cols a) * d / d) with (INR (cols a)) by (field; exact Hd).
  replace (INR (rows a) * d / d) with (INR (rows a)) by (field; exact Hd).
  rewrite (half_even_unique _ _ _ (np_round_spec (INR (cols a))) (half_even_nat (cols a))).
  rewrite (half_even_unique _ _ _ (np_round_spec (INR (rows a))) (half_even_nat (rows a))).
  destruct (resize_ok a (Z.of_nat (cols a)) (Z.of_nat (rows a)) Hne) as (b & E & _); [destruct Hne; lia | destruct Hne; lia|].
  exists b. split; [exact E|]. exact (resize_same a b Hne E).
Qed.
Lemma resample_zero a din : resample_2D Py a din (Fin 0) = Err ZeroDivisionError.
Proof. unfold resample_2D, qdiv. rcase; [reflexivity | congruence]. Qed.
Lemma resample_zero_np a din : nonempty a -> din <> 0 -> resample_2D Np a (Fin din) (Fin 0) = Err OverflowError.
Proof.
  intros [Hr Hc] Hd. unfold resample_2D, qdiv. rewrite !xmul_fin. unfold xdiv. rcase; [|congruence].
  assert (P : 0 < INR (cols a)) by (apply lt_0_INR; exact Hc). cbn [bind].
  assert (Q : INR (cols a) * din <> 0) by (apply Rmult_integral_contrapositive_currified; lra).
  unfold inf_sgn. rcase; [reflexivity|]. rcase; [reflexivity|]. exfalso. lra.
Qed.
Lemma resample_range k a din dout b lo hi : resample_2D k a (Fin din) (Fin dout) = Ok b ->
  (forall i j, (i < rows a)%nat -> (j < cols a)%nat -> lo <= px a i j <= hi) ->
  forall i j, (i < rows b)%nat -> (j < cols b)%nat -> lo <= px b i j <= hi.
Proof.
  unfold resample_2D. destruct (qdiv k _ _) as [q1|]; [|discriminate]. cbn [bind].
  destruct (xint_round q1); [|discriminate]. cbn [bind].
  destruct (qdiv k _ _) as [q2|]; [|discriminate]. cbn [bind].
  destruct (xint_round q2); [|discriminate]. cbn [bind]. intros E. exact (resize_range _ _ _ _ lo hi E).
Qed.

(** ** apply_otf_to_image *)
(* the spacing handed to otf_to_psf *)
Lemma apply_val img gsd kr rng otf kd df ki ifov : rng <> 0 -> ifov <> 0 ->
  apply_otf_to_image img gsd kr rng otf kd df ki ifov
  = let* psf := otf_to_psf otf kd df (Fin (2 * atan (gsd / 2 / rng))) in
    let* blur := filter2D img psf in
    let* sim := resample_2D (join kr ki) blur (Fin (gsd / rng)) (Fin ifov) in
    let* sim_psf := resample_2D (join kr ki) psf (Fin (gsd / rng)) (Fin ifov) in
    Ok (sim, sim_psf).
Proof.
  intros Hr Hi. unfold apply_otf_to_image. rewrite !qdiv_fin by exact Hr. cbn [bind xatan]. rewrite xmul_fin. reflexivity.
Qed.
Lemma psf_nonempty p : isum p = 1 -> nonempty p.
Proof.
  intros S. rewrite isum_over in S. unfold sum_over in S. split.
  - destruct (rows p); [unfold Rsum in S; simpl in S; lra | lia].
  - destruct (cols p); [|lia]. rewrite Rsum_zero in S; [lra|]. intros; reflexivity.
Qed.
(* what the simulation returns *)
Lemma apply_spec img gsd kr rng otf kd df ki ifov psf w h w' h' :
  nonempty img -> rng <> 0 -> ifov <> 0 ->
  otf_to_psf otf kd df (Fin (2 * atan (gsd / 2 / rng))) = Ok psf ->
  half_even (INR (cols img) * (gsd / rng) / ifov) w -> half_even (INR (rows img) * (gsd / rng) / ifov) h ->
  half_even (INR (cols psf) * (gsd / rng) / ifov) w' -> half_even (INR (rows psf) * (gsd / rng) / ifov) h' ->
  ((0 < w)%Z -> (0 < h)%Z -> (0 < w')%Z -> (0 < h')%Z ->
    exists sim sp, apply_otf_to_image img gsd kr rng otf kd df ki ifov = Ok (sim, sp)
      /\ Z.of_nat (cols sim) = w /\ Z.of_nat (rows sim) = h
      /\ Z.of_nat (cols sp) = w' /\ Z.of_nat (rows sp) = h')
  /\ ((w' <= 0)%Z \/ (h' <= 0)%Z \/ (w <= 0)%Z \/ (h <= 0)%Z ->
      apply_otf_to_image img gsd kr rng otf kd df ki ifov = Err CvError).
Proof.
  intros Hne Hr Hi EP Hw Hh Hw' Hh'. rewrite apply_val by auto. rewrite EP. cbn [bind].
  assert (Np := psf_nonempty psf (psf_sum_one _ _ _ _ _ EP)).
  destruct (filter_ok img psf Hne Np) as (blur & EB & Br & Bc). rewrite EB. cbn [bind].
  assert (Bne : nonempty blur) by (unfold nonempty; rewrite Br, Bc; exact Hne).
  rewrite <- Bc in Hw. rewrite <- Br in Hh.
  destruct (resample_size (join kr ki) blur (gsd / rng) ifov w h Bne Hi Hw Hh) as [A1 A2].
  destruct (resample_size (join kr ki) psf (gsd / rng) ifov w' h' Np Hi Hw' Hh') as [B1 B2].
  split.
  - intros W H W' H'. destruct (A1 W H) as (sim & E1 & ? & ?). destruct (B1 W' H') as (sp & E2 & ? & ?).
    rewrite E1. cbn [bind]. rewrite E2. cbn [bind]. exists sim, sp. auto.
  - intros D. destruct (Z.leb_spec w 0) as [W|W].
    { rewrite A2 by auto. reflexivity. }
    destruct (Z.leb_spec h 0) as [H|H].
    { rewrite A2 by auto. reflexivity. }
    destruct (A1 W H) as (sim & E1 & _). rewrite E1. cbn [bind]. rewrite B2; [reflexivity|]. lia.
Qed.
Lemma apply_inv img gsd kr rng otf kd df ki ifov sim sp :
  rng <> 0 -> ifov <> 0 -> apply_otf_to_image img gsd kr rng otf kd df ki ifov = Ok (sim, sp) ->
  exists psf blur, otf_to_psf otf kd df (Fin (2 * atan (gsd / 2 / rng))) = Ok psf /\ filter2D img psf = Ok blur
    /\ resample_2D (join kr ki) blur (Fin (gsd / rng)) (Fin ifov) = Ok sim
    /\ resample_2D (join kr ki) psf (Fin (gsd / rng)) (Fin ifov) = Ok sp.
Proof.
  intros Hr Hi. rewrite apply_val by auto.
  destruct (otf_to_psf _ _ _ _) as [psf|]; [|discriminate]. cbn [bind].
  destruct (filter2D _ _) as [blur|] eqn:EB; [|discriminate]. cbn [bind].
  destruct (resample_2D _ blur _ _) as [s1|] eqn:E1; [|discriminate]. cbn [bind].
  destruct (resample_2D _ psf _ _) as [s2|] eqn:E2; [|discriminate]. cbn [bind].
  intros E. apply ok_inj in E. apply pair_equal_spec in E. destruct E as [<- <-]. exists psf, blur. auto.
Qed.
Lemma apply_uniform img gsd kr rng otf kd df ki ifov sim sp c : rng <> 0 -> ifov <> 0 ->
  apply_otf_to_image img gsd kr rng otf kd df ki ifov = Ok (sim, sp) ->
  (forall i j, (i < rows img)%nat -> (j < cols img)%nat -> px img i j = c) ->
  forall i j, (i < rows sim)%nat -> (j < cols sim)%nat -> px sim i j = c.
Proof.
  intros Hr Hi E U i j Li Lj. destruct (apply_inv _ _ _ _ _ _ _ _ _ _ _ Hr Hi E) as (psf & blur & EP & EB & E1 & _).
  assert (G : c <= px sim i j <= c); [|lra].
  apply (resample_range _ _ _ _ _ c c E1); auto.
  intros. rewrite (filter_const img psf blur c EB (psf_sum_one _ _ _ _ _ EP) U). lra.
Qed.
(* sharper: every output pixel is a weighted average if the PSF has no negative lobe *)
Lemma apply_range img gsd kr rng otf kd df ki ifov sim sp lo hi : rng <> 0 -> ifov <> 0 ->
  apply_otf_to_image img gsd kr rng otf kd df ki ifov = Ok (sim, sp) ->
  (forall psf, otf_to_psf otf kd df (Fin (2 * atan (gsd / 2 / rng))) = Ok psf ->
     forall p q, (p < rows psf)%nat -> (q < cols psf)%nat -> 0 <= px psf p q) ->
  (forall i j, (i < rows img)%nat -> (j < cols img)%nat -> lo <= px img i j <= hi) ->
  forall i j, (i < rows sim)%nat -> (j < cols sim)%nat -> lo <= px sim i j <= hi.
Proof.
  intros Hr Hi E NN U. destruct (apply_inv _ _ _ _ _ _ _ _ _ _ _ Hr Hi E) as (psf & blur & EP & EB & E1 & _).
  apply (resample_range _ _ _ _ _ lo hi E1).
  intros. apply (filter_range img psf blur lo hi EB (psf_sum_one _ _ _ _ _ EP) (NN psf EP) U).
Qed.
Lemma apply_zero_range img gsd otf kd df ki ifov :
  apply_otf_to_image img gsd Py 0 otf kd df ki ifov = Err ZeroDivisionError.
Proof. unfold apply_otf_to_image, qdiv. rcase; [reflexivity | congruence]. Qed.
Lemma apply_zero_ifov img gsd rng otf kd df psf : rng <> 0 -> nonempty img ->
  otf_to_psf otf kd df (Fin (2 * atan (gsd / 2 / rng))) = Ok psf ->
  apply_otf_to_image img gsd Py rng otf kd df Py 0 = Err ZeroDivisionError.
Proof.
  intros Hr Hne EP. unfold apply_otf_to_image. rewrite !qdiv_fin by exact Hr. cbn [bind xatan]. rewrite xmul_fin, EP. cbn [bind].
  destruct (filter_ok img psf Hne (psf_nonempty psf (psf_sum_one _ _ _ _ _ EP))) as (blur & EB & _). rewrite EB. cbn [bind join].
  rewrite resample_zero. reflexivity.
Qed.
(* a numpy range of zero does not raise ZeroDivisionError *)
Lemma apply_zero_range_np img gsd otf kd df psf ki ifov : 0 < gsd -> 0 < ifov -> nonempty img ->
  otf_to_psf otf kd df (Fin PI) = Ok psf ->
  apply_otf_to_image img gsd Np 0 otf kd df ki ifov = Err OverflowError.
Proof.
  intros Hg Hi Hne EP. unfold apply_otf_to_image, qdiv.
  assert (D : forall g, 0 < g -> xdiv (Fin g) (Fin 0) = PInf).
  { intros g G. unfold xdiv. rcase; [|congruence]. unfold inf_sgn. rcase; [reflexivity | lra]. }
  rewrite !D by lra. cbn [bind xatan]. rewrite xmul_fin. replace (2 * (PI / 2)) with PI by field. rewrite EP. cbn [bind].
  destruct (filter_ok img psf Hne (psf_nonempty psf (psf_sum_one _ _ _ _ _ EP))) as (blur & EB & Br & Bc). rewrite EB. cbn [bind join].
  unfold resample_2D. destruct Hne as [Hr Hc].
  assert (P : 0 < INR (cols blur)) by (apply lt_0_INR; lia).
  unfold xmul, inf_sgn. rcase; [|lra].
  unfold qdiv, xdiv. destruct ki; cbn [bind]; rcase; try lra; reflexivity.
Qed.
(* linear in the scene *)
Lemma apply_linear a b gsd kr rng otf kd df ki ifov sa sb sp p q : rng <> 0 -> ifov <> 0 ->
  rows b = rows a -> cols b = cols a ->
  apply_otf_to_image a gsd kr rng otf kd df ki ifov = Ok (sa, sp) ->
  apply_otf_to_image b gsd kr rng otf kd df ki ifov = Ok (sb, sp) ->
  exists sc, apply_otf_to_image (lincomb p q a b) gsd kr rng otf kd df ki ifov = Ok (sc, sp)
    /\ rows sc = rows sa /\ cols sc = cols sa
    /\ forall i j, px sc i j = p * px sa i j + q * px sb i j.
Proof.
  intros Hr Hi Rr Rc Ea Eb.
  destruct (apply_inv _ _ _ _ _ _ _ _ _ _ _ Hr Hi Ea) as (psf & ba & EP & EBa & E1a & E2a).
  destruct (apply_inv _ _ _ _ _ _ _ _ _ _ _ Hr Hi Eb) as (psf' & bb & EP' & EBb & E1b & _).
  rewrite EP in EP'. apply ok_inj in EP'. subst psf'.
  rewrite apply_val by auto. rewrite EP. cbn [bind].
  destruct (filter_linear a b psf ba bb p q Rr Rc EBa EBb) as (bc & EBc & Brc & Bcc & PX). rewrite EBc. cbn [bind].
  destruct (filter_inv _ _ _ EBa) as (_ & _ & Ra & Ca & _). destruct (filter_inv _ _ _ EBb) as (_ & _ & Rb & Cb & _).
  rewrite resample_val in E1a, E1b |- * by exact Hi.
  rewrite Bcc, Brc. rewrite Cb, Rb, Rc, Rr in E1b. rewrite Ca, Ra in E1a |- *.
  destruct (resize_linear ba bb (np_round (INR (cols a) * (gsd / rng) / ifov)) (np_round (INR (rows a) * (gsd / rng) / ifov))
    sa sb p q ltac:(congruence) ltac:(congruence) E1a E1b) as (sc & ES & Sr & Sc & SP).
  assert (EE : exists sc', cv_resize bc (np_round (INR (cols a) * (gsd / rng) / ifov)) (np_round (INR (rows a) * (gsd / rng) / ifov)) = Ok sc'
     /\ rows sc' = rows sc /\ cols sc' = cols sc /\ forall i j, px sc' i j = px sc i j).
  { unfold cv_resize in ES |- *. cbn [lincomb rows cols] in ES. rewrite Brc, Bcc.
    destruct (_ || _ || _ || _)%bool; [discriminate|]. apply ok_inj in ES. subst sc.
    eexists; split; [reflexivity|]. cbn [rows cols px lincomb]. split; [reflexivity|]. split; [reflexivity|].
    intros i j. destruct (rs_pos _ _ _) as [y t]. destruct (rs_pos _ _ _) as [x s]. rewrite !PX. reflexivity. }
  destruct EE as (sc' & ES' & R' & C' & P'). rewrite ES'. cbn [bind].
  rewrite E2a. cbn [bind]. exists sc'. split; [reflexivity|]. split; [congruence|]. split; [congruence|].
  intros i j. rewrite P', SP. reflexivity.
Qed.
(* a kernel that is too small on the output grid makes the whole simulation fail *)
Lemma apply_small_kernel img gsd kr rng otf kd df ki ifov psf :
  nonempty img -> 0 < gsd -> 0 < rng ->
  otf_to_psf otf kd df (Fin (2 * atan (gsd / 2 / rng))) = Ok psf ->
  2 * INR (cols psf) * (gsd / rng) < ifov ->
  apply_otf_to_image img gsd kr rng otf kd df ki ifov = Err CvError.
Proof.
  intros Hne Hg Hr EP Hs. assert (Q : 0 < gsd / rng) by (apply Rdiv_lt_0_compat; lra).
  assert (Pn := psf_nonempty psf (psf_sum_one _ _ _ _ _ EP)). destruct Pn as [Pr Pc].
  assert (PC : 0 < INR (cols psf)) by (apply lt_0_INR; exact Pc).
  assert (Hi : 0 < ifov) by nra.
  destruct (apply_spec img gsd kr rng otf kd df ki ifov psf
    (np_round (INR (cols img) * (gsd / rng) / ifov)) (np_round (INR (rows img) * (gsd / rng) / ifov))
    0 (np_round (INR (rows psf) * (gsd / rng) / ifov)) Hne) as [_ F]; try (apply np_round_spec); auto; try lra.
  - assert (B : 0 < INR (cols psf) * (gsd / rng) / ifov < / 2).
    { split; [apply Rdiv_lt_0_compat; nra|]. apply Rmult_lt_reg_r with ifov; [exact Hi|].
      replace (INR (cols psf) * (gsd / rng) / ifov * ifov) with (INR (cols psf) * (gsd / rng)) by (field; lra). lra. }
    unfold half_even. rewrite Rminus_0_l, Rabs_Ropp, Rabs_pos_eq by lra. lra.
  - apply F. left. lia.
Qed.
