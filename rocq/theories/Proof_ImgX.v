(** * Proof_ImgX: resizing by tents, mirrored filtering, perfect and displacing systems. *)
From Coq Require Import Reals Lra Psatz Bool List ZArith Lia.
From Flocq Require Import Core.Raux.
From Verif Require Import Base_XR Base_Np Model_Geo Model_Otf Model_Img Spec_Img Spec_Blur
  Proof_Otf Proof_Filter Proof_Weight Proof_Slice Proof_Psf Proof_Image.
Import ListNotations.
Open Scope R_scope.

(** ** Resizing *)
Lemma rs_pos_at n m x s t : (0 < n)%nat -> rs_pos n m x = (s, t) -> INR s + t = pixel_position n m x.
Proof.
  intros Hn. unfold rs_pos, pixel_position.
  replace ((INR x + 0.5) * (INR n / INR m) - 0.5) with ((INR x + / 2) * INR n / INR m - / 2)
    by (unfold Rdiv; lra).
  set (f := (INR x + / 2) * INR n / INR m - / 2).
  assert (L := Zfloor_lb f). assert (U := Zfloor_ub f).
  assert (N1 : INR n - 1 = IZR (Z.of_nat n - 1)) by (rewrite minus_IZR, <- INR_IZR_INZ; reflexivity).
  assert (N0 : 1 <= INR n) by (apply (le_INR 1); lia).
  destruct (Z.ltb_spec (Zfloor f) 0) as [A|A].
  - intros E. apply pair_equal_spec in E. destruct E as [<- <-].
    assert (IZR (Zfloor f) <= -1) by (apply IZR_le; lia).
    rewrite Rmin_right by lra. rewrite Rmax_left by lra. simpl. ring.
  - destruct (Z.leb_spec (Z.of_nat n - 1) (Zfloor f)) as [B|B]; intros E; apply pair_equal_spec in E; destruct E as [<- <-].
    + apply IZR_le in B. rewrite Rmin_left by lra. rewrite Rmax_right by lra. rewrite minus_INR by lia. simpl. ring.
    + assert (B' : IZR (Zfloor f) + 1 <= IZR (Z.of_nat n - 1)) by (rewrite <- plus_IZR; apply IZR_le; lia).
      apply IZR_le in A. rewrite Rmin_right by lra. rewrite Rmax_right by lra.
      rewrite INR_IZR_INZ, Z2Nat.id by (apply le_IZR; lra). ring.
Qed.
Lemma Rsum_two (F : nat -> R) n c : (c < n)%nat -> (forall i, (i < n)%nat -> i <> c -> i <> S c -> F i = 0) ->
  ((S c < n)%nat \/ F (S c) = 0) ->
  Rsum (map F (seq 0 n)) = F c + F (S c).
Proof.
  intros Hc HF HS. replace (seq 0 n) with (seq 0 c ++ c :: seq (S c) (n - S c)).
  - rewrite map_app. cbn [map]. rewrite Rsum_app, Rsum_cons.
    rewrite (Rsum_zero F (seq 0 c)) by (intros z Hz; apply in_seq in Hz; apply HF; lia).
    destruct (n - S c)%nat as [|m] eqn:E.
    + cbn [seq map]. destruct HS as [HS|HS]; [lia|]. rewrite HS. unfold Rsum. simpl. ring.
    + cbn [seq map]. rewrite Rsum_cons.
      rewrite (Rsum_zero F (seq (S (S c)) m)) by (intros z Hz; apply in_seq in Hz; apply HF; lia). ring.
  - replace n with (c + (1 + (n - S c)))%nat at 2 by lia. rewrite seq_app. cbn [seq plus]. reflexivity.
Qed.
Lemma tent_in d : 0 <= d <= 1 -> tent d = 1 - d.
Proof. intros H. unfold tent. rewrite Rabs_pos_eq by lra. apply Rmax_right. lra. Qed.
Lemma tent_neg d : -1 <= d <= 0 -> tent d = 1 + d.
Proof. intros H. unfold tent. rewrite Rabs_left1 by lra. rewrite Rmax_right by lra. ring. Qed.
Lemma tent_out d : 1 <= Rabs d -> tent d = 0.
Proof. intros H. unfold tent. apply Rmax_left. lra. Qed.
Lemma tent_sum n (g : nat -> R) s t : (s < n)%nat -> 0 <= t <= 1 -> ((s + 1 < n)%nat \/ t = 0) ->
  Rsum (map (fun p => tent (INR s + t - INR p) * g p) (seq 0 n)) = (1 - t) * g s + t * g (s + 1)%nat.
Proof.
  intros Hs Ht O. rewrite (Rsum_two _ n s Hs).
  - replace (INR s + t - INR s) with t by ring. rewrite tent_in by lra.
    rewrite S_INR. replace (INR s + t - (INR s + 1)) with (t - 1) by ring. rewrite tent_neg by lra.
    rewrite Nat.add_1_r. ring.
  - intros i Hi N1 N2. rewrite tent_out; [ring|].
    destruct (Nat.lt_ge_cases i s) as [L|L].
    + assert (INR i + 1 <= INR s) by (rewrite <- S_INR; apply le_INR; lia). rewrite Rabs_pos_eq by lra. lra.
    + assert (INR s + 1 + 1 <= INR i) by (rewrite <- !S_INR; apply le_INR; lia). rewrite Rabs_left1 by lra. lra.
  - destruct O as [O| ->]; [left; lia|right]. rewrite tent_out; [ring|]. rewrite S_INR.
    replace (INR s + 0 - (INR s + 1)) with (-1) by ring. rewrite Rabs_left1 by lra. lra.
Qed.
Lemma resize_tent a w h b : cv_resize a w h = Ok b ->
  forall i j, (i < rows b)%nat -> (j < cols b)%nat ->
  px b i j = interpolated (rows a) (cols a) (px a)
               (pixel_position (rows a) (rows b) i) (pixel_position (cols a) (cols b) j).
Proof.
  intros E i j Hi Hj. apply resize_inv in E. destruct E as ([Na Nb] & _ & _ & _ & _ & P).
  destruct (P i j Hi Hj) as (y & x & s & t & Ly & Lx & Bs & Bt & Oy & Ox & E1 & E2 & ->).
  apply rs_pos_at in E1; [|exact Na]. apply rs_pos_at in E2; [|exact Nb].
  rewrite <- E1, <- E2. unfold interpolated, sum_over.
  transitivity (Rsum (map (fun p => tent (INR y + t - INR p) *
     Rsum (map (fun q => tent (INR x + s - INR q) * px a p q) (seq 0 (cols a)))) (seq 0 (rows a)))).
  - rewrite (tent_sum (rows a) (fun p => Rsum (map (fun q => tent (INR x + s - INR q) * px a p q) (seq 0 (cols a))))) by auto.
    rewrite (tent_sum (cols a) (px a y)) by auto. rewrite (tent_sum (cols a) (px a (y + 1)%nat)) by auto. ring.
  - apply Rsum_map_ext. intros p _. rewrite <- Rsum_scal_l. apply Rsum_map_ext. intros q _. ring.
Qed.
Lemma resample_tent k a din dout b : resample_2D k a (Fin din) (Fin dout) = Ok b ->
  forall i j, (i < rows b)%nat -> (j < cols b)%nat ->
  px b i j = interpolated (rows a) (cols a) (px a)
               (pixel_position (rows a) (rows b) i) (pixel_position (cols a) (cols b) j).
Proof.
  unfold resample_2D. destruct (qdiv k _ _) as [q1|]; [|discriminate]. cbn [bind].
  destruct (xint_round q1); [|discriminate]. cbn [bind].
  destruct (qdiv k _ _) as [q2|]; [|discriminate]. cbn [bind].
  destruct (xint_round q2); [|discriminate]. cbn [bind]. apply resize_tent.
Qed.

(** ** Mirrored border *)
Lemma periodic_mod (g : Z -> R) per z : (forall i, g (i + per)%Z = g i) -> g (z + 0)%Z = g z ->
  forall k, g (z + per * k)%Z = g z.
Proof.
  intros H _. assert (P : forall k : nat, forall z, g (z + per * Z.of_nat k)%Z = g z).
  { induction k as [|k IH]; intros y; [f_equal; lia|].
    replace (y + per * Z.of_nat (S k))%Z with (y + per * Z.of_nat k + per)%Z by lia. rewrite H. apply IH. }
  intros k. destruct (Z.le_gt_cases 0 k) as [A|A].
  - rewrite <- (Z2Nat.id k) by lia. apply P.
  - rewrite <- (P (Z.to_nat (- k)) (z + per * k)%Z). f_equal. rewrite Z2Nat.id by lia. lia.
Qed.
Lemma mirror_reflect (g : Z -> R) n p : (2 <= n)%nat ->
  (forall i, g (- i)%Z = g i) -> (forall i, g (2 * (Z.of_nat n - 1) - i)%Z = g i) ->
  g p = g (Z.of_nat (reflect101 n p)).
Proof.
  intros Hn S1 S2. set (per := (2 * (Z.of_nat n - 1))%Z) in *.
  assert (PER : forall i, g (i + per)%Z = g i).
  { intros i. rewrite <- (S1 i). rewrite <- (S2 (- i)%Z). f_equal. lia. }
  unfold reflect101. destruct (Nat.eqb_spec n 1); [lia|]. fold per.
  assert (M := Z.mod_pos_bound p per ltac:(lia)). assert (D := Z.div_mod p per ltac:(lia)).
  assert (G : g p = g (p mod per)%Z).
  { rewrite D at 1. rewrite Z.add_comm. apply periodic_mod; [exact PER|]. f_equal. lia. }
  rewrite G. destruct (Z.ltb_spec (p mod per) (Z.of_nat n)).
  - rewrite Z2Nat.id by lia. reflexivity.
  - rewrite Z2Nat.id by lia. rewrite S2. reflexivity.
Qed.
Lemma mirrored_reflect n m f e i j : (2 <= n)%nat -> (2 <= m)%nat -> mirrored n m f e ->
  e i j = f (reflect101 n i) (reflect101 m j).
Proof.
  intros Hn Hm (A & B & C & D & E).
  rewrite (mirror_reflect (fun z => e z j) n i Hn) by auto.
  rewrite (mirror_reflect (fun z => e (Z.of_nat (reflect101 n i)) z) m j Hm) by auto.
  apply A; apply reflect_range; lia.
Qed.
Lemma filter_correlation a k b e : filter2D a k = Ok b -> (2 <= rows a)%nat -> (2 <= cols a)%nat ->
  mirrored (rows a) (cols a) (px a) e ->
  forall y x, px b y x = correlation (rows k) (cols k) (px k) e (Z.of_nat y) (Z.of_nat x).
Proof.
  intros E Hr Hc M y x. unfold filter2D in E.
  destruct (_ || _ || _ || _)%bool; [discriminate|]. apply ok_inj in E. subst b. cbn [px].
  unfold correlation, sum_over. apply Rsum_map_ext. intros p _. apply Rsum_map_ext. intros q _.
  rewrite (mirrored_reflect _ _ _ _ _ _ Hr Hc M). do 2 f_equal; f_equal; lia.
Qed.
Lemma odd_centre n : Nat.odd n = true -> (Z.of_nat (n - 1) = 2 * Z.of_nat (n / 2))%Z.
Proof.
  intros H. apply Nat.odd_spec in H. destruct H as (c & ->).
  replace ((2 * c + 1) / 2)%nat with c by (apply Nat.div_unique with 1%nat; lia). lia.
Qed.
Lemma filter_convolution a k b e : filter2D a k = Ok b -> (2 <= rows a)%nat -> (2 <= cols a)%nat ->
  mirrored (rows a) (cols a) (px a) e ->
  Nat.odd (rows k) = true -> Nat.odd (cols k) = true ->
  (forall p q, (p < rows k)%nat -> (q < cols k)%nat -> px k (rows k - 1 - p)%nat (cols k - 1 - q)%nat = px k p q) ->
  forall y x, px b y x = convolution (rows k) (cols k) (px k) e (Z.of_nat y) (Z.of_nat x).
Proof.
  intros E Hr Hc M Or Oc S y x. rewrite (filter_correlation a k b e E Hr Hc M). unfold correlation, convolution.
  rewrite <- sum_over_rev. apply sum_over_ext. intros p q Hp Hq. rewrite S by auto.
  assert (A := odd_centre _ Or). assert (B := odd_centre _ Oc).
  do 2 f_equal; lia.
Qed.

(** ** Roots of unity *)
Lemma cos_progression th h n : 2 * sin h * Rsum (map (fun p => cos (th + 2 * INR p * h)) (seq 0 n))
  = sin (th + 2 * INR n * h - h) - sin (th - h).
Proof.
  induction n as [|n IH].
  - unfold Rsum. simpl. replace (th + 2 * 0 * h - h) with (th - h) by ring. ring.
  - rewrite seq_S, map_app, Rsum_app. cbn [map plus]. rewrite Rmult_plus_distr_l, IH.
    unfold Rsum. cbn [fold_right]. rewrite S_INR.
    replace (th + 2 * (INR n + 1) * h - h) with ((th + 2 * INR n * h) + h) by ring.
    rewrite sin_plus. rewrite (sin_minus (th + 2 * INR n * h) h). ring.
Qed.
Lemma roots_vanish th n d : (0 < n)%nat -> (0 < Z.abs d < Z.of_nat n)%Z ->
  Rsum (map (fun p => cos (th + 2 * PI * (INR p * IZR d / INR n))) (seq 0 n)) = 0.
Proof.
  intros Hn Hd. assert (P : 0 < INR n) by (apply lt_0_INR; exact Hn).
  set (h := PI * IZR d / INR n).
  assert (E := cos_progression th h n).
  replace (th + 2 * INR n * h - h) with (th - h + 2 * PI * IZR d) in E by (unfold h; field; lra).
  rewrite sin_period_Z in E. rewrite Rminus_eq_0 in E.
  assert (NZ : sin h <> 0).
  { intros Z. apply sin_eq_0_0 in Z. destruct Z as (k & Hk). unfold h in Hk.
    assert (PP := PI_RGT_0).
    assert (IZR d = IZR k * INR n).
    { apply Rmult_eq_reg_l with PI; [|lra]. replace (PI * IZR d) with (PI * IZR d / INR n * INR n) by (field; lra). rewrite Hk. ring. }
    rewrite INR_IZR_INZ, <- mult_IZR in H. apply eq_IZR in H. subst d.
    destruct (Z.eq_dec k 0); [lia|]. rewrite Z.abs_mul in Hd. nia. }
  apply Rmult_integral in E. destruct E as [E|E]; [lra|].
  rewrite <- E. apply Rsum_map_ext. intros p _. f_equal. unfold h. field. lra.
Qed.
Lemma Rsum_swap n m (f : nat -> nat -> R) : sum_over n m f = sum_over m n (fun q p => f p q).
Proof.
  unfold sum_over. induction n as [|n IH].
  - cbn [seq map]. symmetry. rewrite Rsum_zero; [reflexivity|]. intros; reflexivity.
  - rewrite seq_S, map_app, Rsum_app, IH. cbn [map plus].
    transitivity (Rsum (map (fun q => Rsum (map (fun p => f p q) (seq 0 n)) + f n q) (seq 0 m))).
    + rewrite Rsum_plus. f_equal. unfold Rsum. cbn [fold_right]. ring.
    + apply Rsum_map_ext. intros q _. rewrite map_app, Rsum_app. unfold Rsum. cbn [map fold_right]. ring.
Qed.
(* the inverse transform of a pure phase is a point *)
Lemma phase_sum n a b d e : (0 < n)%nat -> (Z.abs d < Z.of_nat n)%Z -> (Z.abs e < Z.of_nat n)%Z ->
  sum_over n n (fun p q => cos (2 * PI * ((INR p - a) * IZR d / INR n + (INR q - b) * IZR e / INR n)) / (INR n * INR n))
  = if Z.eqb d 0 && Z.eqb e 0 then 1 else 0.
Proof.
  intros Hn Hd He. assert (P : 0 < INR n) by (apply lt_0_INR; exact Hn).
  destruct (Z.eqb_spec e 0) as [->|Ne].
  - destruct (Z.eqb_spec d 0) as [->|Nd]; cbn [andb].
    + rewrite (sum_over_ext n n _ (fun _ _ => / (INR n * INR n))).
      * rewrite sum_over_const. field. lra.
      * intros p q _ _. replace (2 * PI * ((INR p - a) * 0 / INR n + (INR q - b) * 0 / INR n)) with 0 by (unfold Rdiv; ring).
        rewrite cos_0. unfold Rdiv. apply Rmult_1_l.
    + rewrite Rsum_swap. unfold sum_over. apply Rsum_zero. intros q _.
      unfold Rdiv at 1. rewrite Rsum_scal.
      rewrite (Rsum_map_ext _ (fun p => cos (- (2 * PI * a * IZR d / INR n) + 2 * PI * (INR p * IZR d / INR n)))).
      * rewrite roots_vanish by lia. ring.
      * intros p _. f_equal. field. lra.
  - rewrite andb_false_r. unfold sum_over. apply Rsum_zero. intros p _.
    unfold Rdiv at 1. rewrite Rsum_scal.
    rewrite (Rsum_map_ext _ (fun q => cos (2 * PI * ((INR p - a) * IZR d / INR n) - 2 * PI * b * IZR e / INR n + 2 * PI * (INR q * IZR e / INR n)))).
    + rewrite roots_vanish by lia. ring.
    + intros q _. f_equal. field. lra.
Qed.

(** ** Point spreads that are points *)
Definition point (c0 c1 : Z) (i j : nat) : R := if Z.eqb (Z.of_nat i) c0 && Z.eqb (Z.of_nat j) c1 then 1 else 0.
Lemma raw_moved otf n s t : crows otf = n -> ccols otf = n -> (12 <= n)%nat -> Nat.even n = true ->
  (Z.abs s <= 4)%Z -> (Z.abs t <= 4)%Z ->
  (forall p q, (p < n)%nat -> (q < n)%nat ->
     re otf p q = cos (moved_phase n s t p q) /\ im otf p q = - sin (moved_phase n s t p q)) ->
  forall i j, (i < n)%nat -> (j < n)%nat ->
  px (psf_raw otf) i j = point (Z.of_nat (n / 2) + s) (Z.of_nat (n / 2) + t) i j.
Proof.
  intros Er Ec Hn Ev Hs Ht HX i j Hi Hj. rewrite psf_even by (rewrite ?Er, ?Ec; auto; lia). rewrite Er, Ec.
  assert (P : 0 < INR n) by (apply lt_0_INR; lia).
  apply Nat.even_spec in Ev. destruct Ev as (c & En).
  assert (Eh : (n / 2 = c)%nat) by (rewrite En, Nat.mul_comm; apply Nat.div_mul; lia).
  unfold inverse_ft. set (d := (Z.of_nat i - Z.of_nat c - s)%Z). set (e := (Z.of_nat j - Z.of_nat c - t)%Z).
  rewrite (sum_over_ext n n _ (fun p q => cos (2 * PI * ((INR p - ctr n) * IZR d / INR n + (INR q - ctr n) * IZR e / INR n)) / (INR n * INR n))).
  - destruct (Z.le_gt_cases (Z.of_nat n) (Z.abs d)) as [Bd|Bd]; [|destruct (Z.le_gt_cases (Z.of_nat n) (Z.abs e)) as [Be|Be]].
    + lia.
    + lia.
    + rewrite phase_sum by lia. unfold point. rewrite Eh.
      replace (Z.eqb (Z.of_nat i) (Z.of_nat c + s)) with (Z.eqb d 0).
      * replace (Z.eqb (Z.of_nat j) (Z.of_nat c + t)) with (Z.eqb e 0); [reflexivity|].
        destruct (Z.eqb_spec e 0); destruct (Z.eqb_spec (Z.of_nat j) (Z.of_nat c + t)); lia.
      * destruct (Z.eqb_spec d 0); destruct (Z.eqb_spec (Z.of_nat i) (Z.of_nat c + s)); lia.
  - intros p q Hp Hq. cbv zeta. destruct (HX p q Hp Hq) as [-> ->].
    set (ph := 2 * PI * ((INR p - ctr n) * (INR i - ctr n) / INR n + (INR q - ctr n) * (INR j - ctr n) / INR n)).
    replace (2 * PI * ((INR p - ctr n) * IZR d / INR n + (INR q - ctr n) * IZR e / INR n)) with (ph - moved_phase n s t p q).
    + rewrite cos_minus. unfold Rdiv. ring.
    + unfold ph, moved_phase, d, e, ctr. rewrite Eh, !minus_IZR, <- !INR_IZR_INZ. field. lra.
Qed.
Lemma raw_flat otf n : crows otf = n -> ccols otf = n -> (11 <= n)%nat ->
  (forall p q, (p < n)%nat -> (q < n)%nat -> re otf p q = 1 /\ im otf p q = 0) ->
  forall i j, (i < n)%nat -> (j < n)%nat ->
  px (psf_raw otf) i j = point (Z.of_nat (n / 2) + 0) (Z.of_nat (n / 2) + 0) i j.
Proof.
  intros Er Ec Hn HX i j Hi Hj. rewrite psf_raw_ft by (rewrite ?Er, ?Ec; lia). rewrite Er, Ec.
  assert (P : 0 < INR n) by (apply lt_0_INR; lia).
  assert (H2 : (n / 2 <= n)%nat) by (apply Nat.div_le_upper_bound; lia).
  unfold inverse_ft. set (d := (Z.of_nat i - Z.of_nat (n / 2))%Z). set (e := (Z.of_nat j - Z.of_nat (n / 2))%Z).
  assert (H3 := Nat.div_mod n 2 ltac:(lia)). assert (H4 := Nat.mod_upper_bound n 2 ltac:(lia)).
  rewrite (sum_over_ext n n _ (fun p q => cos (2 * PI * ((INR p - INR (n - n / 2)) * IZR d / INR n + (INR q - INR (n - n / 2)) * IZR e / INR n)) / (INR n * INR n))).
  - rewrite phase_sum by lia. unfold point. rewrite !Z.add_0_r.
    replace (Z.eqb (Z.of_nat i) (Z.of_nat (n / 2))) with (Z.eqb d 0).
    + replace (Z.eqb (Z.of_nat j) (Z.of_nat (n / 2))) with (Z.eqb e 0); [reflexivity|].
      destruct (Z.eqb_spec e 0); destruct (Z.eqb_spec (Z.of_nat j) (Z.of_nat (n / 2))); lia.
    + destruct (Z.eqb_spec d 0); destruct (Z.eqb_spec (Z.of_nat i) (Z.of_nat (n / 2))); lia.
  - intros p q Hp Hq. cbv zeta. destruct (HX p q Hp Hq) as [-> ->].
    unfold d, e, ctr. rewrite !minus_IZR, <- !INR_IZR_INZ. rewrite Rmult_0_l, Rmult_1_l, Rminus_0_r. reflexivity.
Qed.
Lemma sum_point n m c0 c1 : (0 <= c0 < Z.of_nat n)%Z -> (0 <= c1 < Z.of_nat m)%Z -> sum_over n m (point c0 c1) = 1.
Proof.
  intros H0 H1. unfold sum_over. rewrite (Rsum_single _ n (Z.to_nat c0)); [|lia|].
  - rewrite (Rsum_single _ m (Z.to_nat c1)); [|lia|].
    + unfold point. rewrite !Z2Nat.id, !Z.eqb_refl by lia. reflexivity.
    + intros j Hj N. unfold point. replace (Z.eqb (Z.of_nat j) c1) with false; [rewrite andb_false_r; reflexivity|].
      symmetry; apply Z.eqb_neq; lia.
  - intros i Hi N. apply Rsum_zero. intros j _. unfold point. replace (Z.eqb (Z.of_nat i) c0) with false; [reflexivity|].
    symmetry; apply Z.eqb_neq; lia.
Qed.
Lemma point_psf otf n s t kd dx : crows otf = n -> ccols otf = n -> (11 <= n)%nat -> 0 < dx ->
  (Z.abs s <= 4)%Z -> (Z.abs t <= 4)%Z ->
  (forall i j, (i < n)%nat -> (j < n)%nat ->
     px (psf_raw otf) i j = point (Z.of_nat (n / 2) + s) (Z.of_nat (n / 2) + t) i j) ->
  exists k, otf_to_psf otf kd (1 / (INR n * dx)) (Fin dx) = Ok k
    /\ (rows k / 2 = 5)%nat /\ (cols k / 2 = 5)%nat /\ (10 <= rows k)%nat /\ (10 <= cols k)%nat
    /\ forall p q, (p < rows k)%nat -> (q < cols k)%nat -> px k p q = point (5 + s) (5 + t) p q.
Proof.
  intros Er Ec Hn Hd Hs Ht HP. rewrite otf_to_psf_eq. rewrite Er, Ec.
  assert (P : 0 < INR n) by (apply lt_0_INR; lia).
  replace (Nat.eqb n 0) with false by (symmetry; apply Nat.eqb_neq; lia). cbn [orb].
  replace (INR n * (1 / (INR n * dx))) with (1 / dx) by (field; lra).
  assert (Q : 1 / dx <> 0) by (apply Rgt_not_eq; apply Rdiv_lt_0_compat; lra).
  rewrite qdiv_fin by exact Q. cbn [bind]. replace (1 / (1 / dx)) with dx by (field; lra).
  change (cols (psf_raw otf)) with (ccols otf). change (rows (psf_raw otf)) with (crows otf). rewrite Er, Ec.
  rewrite !xmul_fin, !xdiv_fin by lra. cbn [xint bind]. unfold py_int.
  replace (INR n * dx / dx) with (IZR (Z.of_nat n)) by (rewrite <- INR_IZR_INZ; field; lra). rewrite Ztrunc_IZR.
  replace (Z.max 1 (Z.of_nat n)) with (Z.of_nat n) by lia.
  assert (NE : nonempty (psf_raw otf)) by (split; cbn [psf_raw rows cols]; lia).
  destruct (resize_ok (psf_raw otf) (Z.of_nat n) (Z.of_nat n) NE) as (b & E & _); [lia | lia|].
  assert (ES : cv_resize (psf_raw otf) (Z.of_nat (cols (psf_raw otf))) (Z.of_nat (rows (psf_raw otf))) = Ok b).
  { change (cols (psf_raw otf)) with (ccols otf). change (rows (psf_raw otf)) with (crows otf). rewrite Er, Ec. exact E. }
  destruct (resize_same _ _ NE ES) as (Rb & Cb & Pb). change (rows (psf_raw otf)) with (crows otf) in Rb, Pb.
  change (cols (psf_raw otf)) with (ccols otf) in Cb, Pb. rewrite Er in Rb, Pb. rewrite Ec in Cb, Pb.
  rewrite E. cbn [bind]. rewrite Nat.min_id.
  assert (H3 := Nat.div_mod n 2 ltac:(lia)). assert (H4 := Nat.mod_upper_bound n 2 ltac:(lia)).
  assert (S1 : isum b = 1).
  { change (isum b) with (sum_over (rows b) (cols b) (px b)). rewrite Rb, Cb.
    rewrite (sum_over_ext n n (px b) (point (Z.of_nat (n / 2) + s) (Z.of_nat (n / 2) + t))) by (intros; rewrite Pb, HP by auto; reflexivity).
    apply sum_point; lia. }
  rewrite S1. destruct (crop_sizes n) as [|k0 sizes] eqn:ECS; [apply crop_sizes_nil in ECS; lia|].
  assert (k0 = 10%nat).
  { unfold crop_sizes in ECS. destruct ((n - 10 + 4) / 5)%nat; [discriminate|]. cbn [seq map] in ECS. injection ECS as <- _. reflexivity. }
  subst k0. rcase; [lra|]. cbn [crop_loop].
  destruct (get_middle_inside (iscale 1 b) 10) as (i0 & j0 & A1 & A2 & A3 & A4 & A5 & A6 & A7);
    [cbn [iscale rows]; lia | cbn [iscale cols]; lia|].
  cbn [iscale rows cols] in A1, A2, A5, A6. rewrite Rb in A1, A5. rewrite Cb in A2, A6.
  set (mm := get_middle (iscale 1 b) 10) in *.
  assert (CE : (rows mm / 2 = 5)%nat /\ (cols mm / 2 = 5)%nat).
  { split; [assert (C : rows mm = 10%nat \/ rows mm = 11%nat) by lia; destruct C as [-> | ->]; reflexivity|].
    assert (C : cols mm = 10%nat \/ cols mm = 11%nat) by lia; destruct C as [-> | ->]; reflexivity. }
  assert (PM : forall p q, (p < rows mm)%nat -> (q < cols mm)%nat -> px mm p q = point (5 + s) (5 + t) p q).
  { intros p q Hp Hq. rewrite A7. cbn [iscale px]. rewrite Pb, HP by lia. unfold Rdiv. rewrite Rinv_1, Rmult_1_r. unfold point.
    replace (Z.eqb (Z.of_nat (i0 + p)) (Z.of_nat (n / 2) + s)) with (Z.eqb (Z.of_nat p) (5 + s)).
    - replace (Z.eqb (Z.of_nat (j0 + q)) (Z.of_nat (n / 2) + t)) with (Z.eqb (Z.of_nat q) (5 + t)); [reflexivity|].
      destruct (Z.eqb_spec (Z.of_nat (j0 + q)) (Z.of_nat (n / 2) + t)); destruct (Z.eqb_spec (Z.of_nat q) (5 + t)); lia.
    - destruct (Z.eqb_spec (Z.of_nat (i0 + p)) (Z.of_nat (n / 2) + s)); destruct (Z.eqb_spec (Z.of_nat p) (5 + s)); lia. }
  assert (SM : isum mm = 1).
  { change (isum mm) with (sum_over (rows mm) (cols mm) (px mm)). rewrite (sum_over_ext _ _ (px mm) (point (5 + s) (5 + t))) by exact PM.
    apply sum_point; lia. }
  rewrite SM. rcase; [|lra]. rewrite SM. rcase; [lra|]. eexists. split; [reflexivity|]. cbn [iscale rows cols px].
  split; [apply CE|]. split; [apply CE|]. split; [lia|]. split; [lia|].
  intros p q Hp Hq. rewrite PM by auto. unfold Rdiv. rewrite Rinv_1. ring.
Qed.
Lemma filter_point a k s t : nonempty a -> (rows k / 2 = 5)%nat -> (cols k / 2 = 5)%nat -> (10 <= rows k)%nat -> (10 <= cols k)%nat ->
  (Z.abs s <= 4)%Z -> (Z.abs t <= 4)%Z ->
  (forall p q, (p < rows k)%nat -> (q < cols k)%nat -> px k p q = point (5 + s) (5 + t) p q) ->
  exists b, filter2D a k = Ok b /\ rows b = rows a /\ cols b = cols a
    /\ forall y x, px b y x = px a (reflect101 (rows a) (Z.of_nat y + s)) (reflect101 (cols a) (Z.of_nat x + t)).
Proof.
  intros Hne R5 C5 R10 C10 Hs Ht HP. assert (Kne : nonempty k) by (split; lia).
  destruct (filter_ok a k Hne Kne) as (b & E & Rb & Cb). exists b. split; [exact E|]. split; [exact Rb|]. split; [exact Cb|].
  intros y x. unfold filter2D in E. destruct (_ || _ || _ || _)%bool; [discriminate|]. apply ok_inj in E. subst b. cbn [px].
  rewrite R5, C5. rewrite (Rsum_single _ (rows k) (Z.to_nat (5 + s))); [|lia|].
  - rewrite (Rsum_single _ (cols k) (Z.to_nat (5 + t))); [|lia|].
    + rewrite HP by lia. unfold point. rewrite !Z2Nat.id, !Z.eqb_refl by lia. cbn [andb]. rewrite Rmult_1_l.
      f_equal; f_equal; lia.
    + intros q Hq N. rewrite HP by lia. unfold point. replace (Z.eqb (Z.of_nat q) (5 + t)) with false; [rewrite andb_false_r; ring|].
      symmetry; apply Z.eqb_neq; lia.
  - intros p Hp N. apply Rsum_zero. intros q Hq. apply in_seq in Hq. rewrite HP by lia. unfold point.
    replace (Z.eqb (Z.of_nat p) (5 + s)) with false; [cbn [andb]; ring|]. symmetry; apply Z.eqb_neq; lia.
Qed.
Lemma apply_point a gsd kr rng otf kd ki n s t : nonempty a -> 0 < gsd -> 0 < rng ->
  crows otf = n -> ccols otf = n -> (11 <= n)%nat -> (Z.abs s <= 4)%Z -> (Z.abs t <= 4)%Z ->
  (forall i j, (i < n)%nat -> (j < n)%nat ->
     px (psf_raw otf) i j = point (Z.of_nat (n / 2) + s) (Z.of_nat (n / 2) + t) i j) ->
  exists sim sp, apply_otf_to_image a gsd kr rng otf kd (1 / (INR n * (2 * atan (gsd / 2 / rng)))) ki (gsd / rng) = Ok (sim, sp)
    /\ rows sim = rows a /\ cols sim = cols a
    /\ forall y x, (y < rows a)%nat -> (x < cols a)%nat ->
       px sim y x = px a (reflect101 (rows a) (Z.of_nat y + s)) (reflect101 (cols a) (Z.of_nat x + t)).
Proof.
  intros Hne Hg Hr Er Ec Hn Hs Ht HP. assert (Q : 0 < gsd / rng) by (apply Rdiv_lt_0_compat; lra).
  rewrite apply_val by lra.
  assert (A : 0 < 2 * atan (gsd / 2 / rng)).
  { assert (0 < atan (gsd / 2 / rng)); [|lra]. rewrite <- atan_0. apply atan_increasing. apply Rdiv_lt_0_compat; lra. }
  destruct (point_psf otf n s t kd (2 * atan (gsd / 2 / rng)) Er Ec Hn A Hs Ht HP) as (k & -> & R5 & C5 & R10 & C10 & PK). cbn [bind].
  destruct (filter_point a k s t Hne R5 C5 R10 C10 Hs Ht PK) as (b & -> & Rb & Cb & Pb). cbn [bind].
  assert (Nb : nonempty b) by (unfold nonempty; rewrite Rb, Cb; exact Hne).
  destruct (resample_same (join kr ki) b (gsd / rng) Nb) as (sim & -> & Rs & Cs & Ps); [lra|]. cbn [bind].
  assert (Nk : nonempty k) by (split; lia).
  destruct (resample_same (join kr ki) k (gsd / rng) Nk) as (sp & -> & _); [lra|]. cbn [bind].
  exists sim, sp. split; [reflexivity|]. split; [congruence|]. split; [congruence|].
  intros y x Hy Hx. rewrite Ps, Pb by congruence. reflexivity.
Qed.

(** ** The whole chain *)
Lemma perfect_system a gsd kr rng otf kd ki n : nonempty a -> 0 < gsd -> 0 < rng ->
  crows otf = n -> ccols otf = n -> (11 <= n)%nat ->
  (forall p q, (p < n)%nat -> (q < n)%nat -> re otf p q = 1 /\ im otf p q = 0) ->
  exists sim sp, apply_otf_to_image a gsd kr rng otf kd (1 / (INR n * (2 * atan (gsd / 2 / rng)))) ki (gsd / rng) = Ok (sim, sp)
    /\ rows sim = rows a /\ cols sim = cols a
    /\ forall y x, (y < rows a)%nat -> (x < cols a)%nat -> px sim y x = px a y x.
Proof.
  intros Hne Hg Hr Er Ec Hn HX.
  destruct (apply_point a gsd kr rng otf kd ki n 0 0 Hne Hg Hr Er Ec Hn ltac:(lia) ltac:(lia) (raw_flat otf n Er Ec Hn HX))
    as (sim & sp & E & Rs & Cs & Ps).
  exists sim, sp. split; [exact E|]. split; [exact Rs|]. split; [exact Cs|].
  intros y x Hy Hx. rewrite Ps, !Z.add_0_r, !reflect_inside by auto. reflexivity.
Qed.
Lemma displaced a gsd kr rng otf kd ki n s t : nonempty a -> 0 < gsd -> 0 < rng ->
  crows otf = n -> ccols otf = n -> (12 <= n)%nat -> Nat.even n = true -> (Z.abs s <= 4)%Z -> (Z.abs t <= 4)%Z ->
  (forall p q, (p < n)%nat -> (q < n)%nat ->
     re otf p q = cos (moved_phase n s t p q) /\ im otf p q = - sin (moved_phase n s t p q)) ->
  exists sim sp, apply_otf_to_image a gsd kr rng otf kd (1 / (INR n * (2 * atan (gsd / 2 / rng)))) ki (gsd / rng) = Ok (sim, sp)
    /\ rows sim = rows a /\ cols sim = cols a
    /\ forall y x y' x', (y < rows a)%nat -> (x < cols a)%nat -> (y' < rows a)%nat -> (x' < cols a)%nat ->
       (Z.of_nat y' = Z.of_nat y + s)%Z -> (Z.of_nat x' = Z.of_nat x + t)%Z -> px sim y x = px a y' x'.
Proof.
  intros Hne Hg Hr Er Ec Hn Ev Hs Ht HX.
  destruct (apply_point a gsd kr rng otf kd ki n s t Hne Hg Hr Er Ec ltac:(lia) Hs Ht (raw_moved otf n s t Er Ec Hn Ev Hs Ht HX))
    as (sim & sp & E & Rs & Cs & Ps).
  exists sim, sp. split; [exact E|]. split; [exact Rs|]. split; [exact Cs|].
  intros y x y' x' Hy Hx Hy' Hx' E1 E2. rewrite Ps by auto. rewrite <- E1, <- E2, !reflect_inside by auto. reflexivity.
Qed.
(* a system that displaces everything one column to the right *)
Definition one_right : cimg :=
  {| crows := 12; ccols := 12; re := fun p q => cos (moved_phase 12 0 1 p q); im := fun p q => - sin (moved_phase 12 0 1 p q) |}.
Definition stripe : img := {| rows := 3; cols := 3; px := fun _ j => INR j |}.
Lemma displaced_refuted :
  ~ (forall a gsd kr rng otf kd ki n s t sim sp, nonempty a -> 0 < gsd -> 0 < rng ->
      crows otf = n -> ccols otf = n -> (12 <= n)%nat -> Nat.even n = true -> (Z.abs s <= 4)%Z -> (Z.abs t <= 4)%Z ->
      (forall p q, (p < n)%nat -> (q < n)%nat ->
         re otf p q = cos (moved_phase n s t p q) /\ im otf p q = - sin (moved_phase n s t p q)) ->
      apply_otf_to_image a gsd kr rng otf kd (1 / (INR n * (2 * atan (gsd / 2 / rng)))) ki (gsd / rng) = Ok (sim, sp) ->
      forall y x y' x', (y < rows a)%nat -> (x < cols a)%nat -> (y' < rows a)%nat -> (x' < cols a)%nat ->
      (Z.of_nat y' = Z.of_nat y + s)%Z -> (Z.of_nat x' = Z.of_nat x + t)%Z -> px sim y' x' = px a y x).
Proof.
  intros H.
  assert (NE : nonempty stripe) by (split; cbn; lia).
  assert (HX : forall p q, (p < 12)%nat -> (q < 12)%nat ->
     re one_right p q = cos (moved_phase 12 0 1 p q) /\ im one_right p q = - sin (moved_phase 12 0 1 p q)) by (intros; split; reflexivity).
  destruct (displaced stripe 1 Py 100 one_right Py Py 12 0 1 NE ltac:(lra) ltac:(lra) eq_refl eq_refl ltac:(lia) eq_refl ltac:(lia) ltac:(lia) HX)
    as (sim & sp & E & _ & _ & Ps).
  specialize (H stripe 1 Py 100 one_right Py Py 12%nat 0%Z 1%Z sim sp NE ltac:(lra) ltac:(lra) eq_refl eq_refl ltac:(lia) eq_refl ltac:(lia) ltac:(lia) HX E
    0%nat 0%nat 0%nat 1%nat).
  specialize (Ps 0%nat 1%nat 0%nat 2%nat). cbn [stripe rows cols px] in H, Ps.
  rewrite Ps in H by lia. specialize (H ltac:(lia) ltac:(lia) ltac:(lia) ltac:(lia) eq_refl eq_refl). simpl in H. lra.
Qed.
