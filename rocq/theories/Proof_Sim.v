(** * Proof_Sim: Wiener filter, 8-bit stretch, noise level, geometry (C89-C93) *)
From Coq Require Import Reals Lra List Lia ZArith Psatz Bool Sorted Permutation.
From Coquelicot Require Import Coquelicot.
From Flocq Require Import Core.Raux Core.Generic_fmt Core.Round_NE.
From Verif Require Import Base_XR Base_Np Base_Percentile Model_Geo Model_Noise Model_Scenario Model_Sensor Model_Rad Model_Img Model_Met Model_Sim
  Spec_Img Spec_System Spec_Sim Proof_Geo Proof_Noise Proof_Image Proof_Weight Proof_Pe.
Import ListNotations.
Open Scope R_scope.

(** ** Wiener filter (C89) *)
Lemma wiener_val re im nsr : re * re + im * im + nsr <> 0 ->
  wiener_filter re im nsr = (Fin (re / (re * re + im * im + nsr)), Fin (- im / (re * re + im * im + nsr))).
Proof.
  intros H. unfold wiener_filter. rewrite sqrt_sqrt by nra. rewrite !xdiv_fin by exact H. reflexivity.
Qed.
Lemma sumsq0 a b : (a <> 0 \/ b <> 0) -> 0 < a * a + b * b.
Proof. intros [H|H]; nra. Qed.
Lemma wiener_inverse re im : (re <> 0 \/ im <> 0) -> exists a b,
  wiener_filter re im 0 = (Fin a, Fin b) /\ cmul (a, b) (re, im) = (1, 0).
Proof.
  intros H. apply sumsq0 in H. rewrite wiener_val by lra. do 2 eexists. split; [reflexivity|].
  unfold cmul. cbn [fst snd]. f_equal; field; lra.
Qed.
Lemma wiener_product re im nsr : 0 < nsr -> exists a b m,
  wiener_filter re im nsr = (Fin a, Fin b) /\ cmul (a, b) (re, im) = (m, 0) /\ 0 <= m < 1 /\ (0 < m <-> (re <> 0 \/ im <> 0)).
Proof.
  intros H. assert (P : 0 <= re * re + im * im) by nra. rewrite wiener_val by lra.
  exists (re / (re * re + im * im + nsr)), (- im / (re * re + im * im + nsr)), ((re * re + im * im) / (re * re + im * im + nsr)).
  split; [reflexivity|]. split; [unfold cmul; cbn [fst snd]; f_equal; field; lra|].
  assert (I : 0 < / (re * re + im * im + nsr)) by (apply Rinv_0_lt_compat; lra).
  split; [split|split].
  - apply Rmult_le_pos; lra.
  - apply Rmult_lt_reg_r with (re * re + im * im + nsr); [lra|]. unfold Rdiv. rewrite Rmult_assoc, Rinv_l by lra. lra.
  - intros Q. destruct (Req_dec re 0) as [->|]; [|now left]. destruct (Req_dec im 0) as [->|]; [|now right]. exfalso.
    replace (0 * 0 + 0 * 0) with 0 in Q by ring. unfold Rdiv in Q. rewrite Rmult_0_l in Q. lra.
  - intros Q. apply sumsq0 in Q. apply Rmult_lt_0_compat; lra.
Qed.
Lemma wiener_normalised nsr : 1 + nsr <> 0 -> exists a, wiener_filter 1 0 nsr = (Fin a, Fin 0) /\ (1 + nsr) * a = 1.
Proof.
  intros H. rewrite wiener_val by (intros E; apply H; lra). eexists. split; [f_equal; f_equal; unfold Rdiv; ring|].
  field. intros E. apply H. lra.
Qed.
Lemma wiener_none : wiener_filter 0 0 0 = (NaN, NaN).
Proof.
  unfold wiener_filter. replace (0 * 0 + 0 * 0) with 0 by ring. rewrite sqrt_0. replace (0 * 0 + 0) with 0 by ring.
  rewrite Ropp_0, xdiv_zero_zero. reflexivity.
Qed.
Lemma mean_lin {A} (om : list (R * A)) a f b g : mean om (fun x => a * f x + b * g x) = a * mean om f + b * mean om g.
Proof. induction om as [|[p x] om IH]; simpl; [ring | rewrite IH; ring]. Qed.
Lemma mean_ext {A} (om : list (R * A)) f g : (forall x, f x = g x) -> mean om f = mean om g.
Proof. intros H. induction om as [|[p x] om IH]; simpl; [reflexivity | now rewrite IH, H]. Qed.
Lemma error_value om S nsr h g : uncorrelated om S nsr ->
  mean om (restoration_error h g)
  = ((1 - (fst g * fst h - snd g * snd h)) * (1 - (fst g * fst h - snd g * snd h))
     + (fst g * snd h + snd g * fst h) * (fst g * snd h + snd g * fst h)) * S
    + (fst g * fst g + snd g * snd g) * (nsr * S).
Proof.
  intros (H1 & H2 & H3 & H4). destruct h as [hr hi]. destruct g as [gr gi]. cbn [fst snd].
  set (u := 1 - (gr * hr - gi * hi)). set (v := - (gr * hi + gi * hr)).
  transitivity (mean om (fun o => 1 * (1 * (fun o => (u * u + v * v) * cmod2 (fst o) + (gr * gr + gi * gi) * cmod2 (snd o)) o
      + (-2 * (u * gr + v * gi)) * (fun o : (R * R) * (R * R) => fst (fst o) * fst (snd o) + snd (fst o) * snd (snd o)) o)
      + (2 * (v * gr - u * gi)) * (fun o : (R * R) * (R * R) => snd (fst o) * fst (snd o) - fst (fst o) * snd (snd o)) o)).
  - apply mean_ext. intros [[x y] [n m]]. unfold restoration_error, cmod2, csub, cmul, cadd, u, v. cbn [fst snd]. ring.
  - rewrite mean_lin, mean_lin, mean_lin, H1, H2, H3, H4. unfold u, v. ring.
Qed.
Lemma wiener_optimal re im nsr S om a b g : 0 <= nsr -> 0 <= S -> 0 < re * re + im * im + nsr ->
  uncorrelated om S nsr -> wiener_filter re im nsr = (Fin a, Fin b) ->
  mean om (restoration_error (re, im) (a, b)) <= mean om (restoration_error (re, im) g).
Proof.
  intros Hn HS Hd U E. rewrite wiener_val in E by lra. injection E as <- <-. rewrite !(error_value om S nsr) by exact U.
  destruct g as [x y]. cbn [fst snd]. set (d := re * re + im * im + nsr) in *.
  set (a := re / d). set (b := - im / d). assert (Ea : d * a = re) by (unfold a; field; lra). assert (Eb : d * b = - im) by (unfold b; field; lra).
  enough (Q : (1 - (a * re - b * im)) * (1 - (a * re - b * im)) + (a * im + b * re) * (a * im + b * re) + (a * a + b * b) * nsr
     <= (1 - (x * re - y * im)) * (1 - (x * re - y * im)) + (x * im + y * re) * (x * im + y * re) + (x * x + y * y) * nsr) by nra.
  (* completing the square: the difference is d * |g - w|^2 *)
  assert (K : forall p q, (1 - (p * re - q * im)) * (1 - (p * re - q * im)) + (p * im + q * re) * (p * im + q * re) + (p * p + q * q) * nsr
     = 1 - 2 * (p * re - q * im) + d * (p * p + q * q)) by (intros; unfold d; ring).
  rewrite !K.
  assert (X : forall p q, p * re - q * im = d * (p * a + q * b)).
  { intros p q. replace (d * (p * a + q * b)) with (p * (d * a) + q * (d * b)) by ring. rewrite Ea, Eb. ring. }
  rewrite !X. clearbody a b d. assert (G1 := Rle_0_sqr (x - a)). assert (G2 := Rle_0_sqr (y - b)). unfold Rsqr in G1, G2.
  assert (0 <= d * ((x - a) * (x - a) + (y - b) * (y - b))) by (apply Rmult_le_pos; lra). nra.
Qed.

(** ** 8-bit stretch (C90) *)
Lemma insertR_map f x l : (forall a b, a <= b <-> f a <= f b) -> insertR (f x) (map f l) = map f (insertR x l).
Proof.
  intros H. induction l as [|y l IH]; simpl; [reflexivity|].
  destruct (Rleb x y) eqn:E; destruct (Rleb (f x) (f y)) eqn:E'; simpl; try congruence.
  - apply Rleb_true in E. apply Rleb_false in E'. apply H in E. lra.
  - apply Rleb_false in E. apply Rleb_true in E'. apply H in E'. lra.
Qed.
Lemma sortR_map f l : (forall a b, a <= b <-> f a <= f b) -> sortR (map f l) = map f (sortR l).
Proof. intros H. induction l as [|x l IH]; simpl; [reflexivity|]. rewrite IH. apply insertR_map, H. Qed.
Lemma lerp_affine a b l h : l <> [] -> (Z.to_nat (Zfloor h) < length l)%nat -> lerp_at (map (fun x => a * x + b) l) h = a * lerp_at l h + b.
Proof.
  intros N L. unfold lerp_at. set (k := Z.to_nat (Zfloor h)) in *.
  rewrite (nth_indep (map _ l) 0 (a * 0 + b)) by (rewrite map_length; exact L). rewrite (map_nth (fun x => a * x + b)).
  rewrite (map_nth (fun x => a * x + b)). ring.
Qed.
Lemma percentile_affine a b l q p : 0 < a -> percentile l q = Ok p -> percentile (map (fun x => a * x + b) l) q = Ok (a * p + b).
Proof.
  intros Ha E. destruct l as [|x l]; [discriminate|]. unfold percentile in *. cbn [map]. change (a * x + b :: map (fun x => a * x + b) l) with (map (fun x => a * x + b) (x :: l)).
  destruct (Rleb 0 q && Rleb q 100) eqn:Q; [|discriminate]. apply ok_inj in E. subst p. rewrite map_length.
  rewrite sortR_map by (intros; split; intros; nra). rewrite lerp_affine; [reflexivity | |].
  - intros C. apply (f_equal (@length R)) in C. rewrite sortR_length in C. discriminate.
  - apply andb_prop in Q. destruct Q as [Q1 Q2]. apply Rleb_true in Q1. apply Rleb_true in Q2.
    destruct (virtual_index (x :: l) q) as [V1 V2]; [discriminate | lra|].
    set (h := INR (length (x :: l) - 1) * (q / 100)) in *. assert (F := Zfloor_lb h).
    assert (Z0 : (0 <= Zfloor h)%Z). { apply Zfloor_lub. exact V1. }
    apply INR_lt. rewrite INR_IZR_INZ, Z2Nat.id by exact Z0. lra.
Qed.
Lemma percentile_shift l q p c : percentile l q = Ok p -> percentile (map (fun x => x - c) l) q = Ok (p - c).
Proof.
  intros E. rewrite (map_ext (fun x => x - c) (fun x => 1 * x + - c)) by (intros; ring).
  replace (p - c) with (1 * p + - c) by ring. apply percentile_affine; [lra | exact E].
Qed.
Definition perc_of (perc : option (list R)) : list R := match perc with None => [0.1; 99.9] | Some p => p end.
Lemma xclip_fin r : xclip255 (Fin r) = Fin (Rmin 255 (Rmax 0 r)).
Proof. unfold xclip255. rewrite xmax_fin, xmin_fin. reflexivity. Qed.
Lemma clip_level lo hi x : Rmin 255 (Rmax 0 (255 * (x - lo) / (hi - lo))) = display_level lo hi x.
Proof.
  unfold display_level. set (r := 255 * (x - lo) / (hi - lo)). unfold Rmin, Rmax.
  destruct (Rle_dec 0 r); destruct (Rle_dec 255 r); try destruct (Rle_dec 255 0); try destruct (Rle_dec 0 255); try destruct (Rle_dec 0 r); lra.
Qed.
Lemma display_range lo hi x : 0 <= display_level lo hi x <= 255.
Proof. unfold display_level. split; [apply Rmax_l|]. apply Rmax_lub; [lra | apply Rmin_l]. Qed.
Lemma round_range x : 0 <= x <= 255 -> (0 <= np_round x <= 255)%Z.
Proof.
  intros [A B]. unfold np_round. assert (E0 : ZnearestE 0 = 0%Z) by (apply Zrnd_IZR; apply valid_rnd_N). assert (E1 : ZnearestE 255 = 255%Z) by (apply Zrnd_IZR; apply valid_rnd_N).
  assert (M0 := Zrnd_le ZnearestE 0 x A). assert (M1 := Zrnd_le ZnearestE x 255 B). lia.
Qed.
Lemma stretch_value l perc p0 p1 rest lo hi : perc_of perc = p0 :: p1 :: rest -> percentile l p0 = Ok lo -> percentile l p1 = Ok hi -> lo <> hi ->
  stretch_contrast_convert_8bit l perc = Ok (map (fun x => np_round (display_level lo hi x)) l).
Proof.
  intros E P0 P1 N. unfold stretch_contrast_convert_8bit. fold (perc_of perc). rewrite E. cbv zeta. rewrite P0. cbn [bind].
  rewrite (percentile_shift l p1 hi lo P1). cbn [bind].
  rewrite (mapM_ok _ (fun x => match x with Fin r => np_round (Rmin 255 (Rmax 0 r)) | _ => 0%Z end)).
  - f_equal. rewrite !map_map. apply map_ext. intros x. rewrite xdiv_fin by lra. f_equal. rewrite <- clip_level. do 2 f_equal. field. lra.
  - intros x Hx. rewrite map_map in Hx. apply in_map_iff in Hx. destruct Hx as (y & <- & Hy). rewrite xdiv_fin by lra. rewrite xclip_fin. cbn [to_uint8].
    f_equal. apply Z.mod_small. match goal with |- context [np_round ?z] => assert (R := round_range z) end. cut (0 <= Rmin 255 (Rmax 0 ((y - lo) / ((hi - lo) / 255))) <= 255).
    + intros Q. specialize (R Q). lia.
    + split; [apply Rmin_glb; [lra | apply Rmax_l] | apply Rmin_l].
Qed.
Lemma stretch_levels l perc p0 p1 rest lo hi : perc_of perc = p0 :: p1 :: rest -> percentile l p0 = Ok lo -> percentile l p1 = Ok hi -> lo <> hi ->
  exists out, stretch_contrast_convert_8bit l perc = Ok out /\ length out = length l /\
    forall i, (i < length l)%nat -> (0 <= nth i out 0%Z <= 255)%Z /\ half_even (display_level lo hi (nth i l 0)) (nth i out 0%Z).
Proof.
  intros E P0 P1 N. eexists. split; [eapply stretch_value; eassumption|]. split; [apply map_length|]. intros i Hi.
  rewrite (nth_indep _ 0%Z (np_round (display_level lo hi 0))) by (rewrite map_length; exact Hi).
  rewrite (map_nth (fun x => np_round (display_level lo hi x))). split; [apply round_range, display_range | apply np_round_spec].
Qed.
Lemma half_even_mono x y m n : x <= y -> half_even x m -> half_even y n -> (m <= n)%Z.
Proof.
  intros H A B. rewrite (half_even_unique _ _ _ A (np_round_spec x)), (half_even_unique _ _ _ B (np_round_spec y)).
  unfold np_round. apply Zrnd_le; [apply valid_rnd_N | exact H].
Qed.
Lemma display_mono lo hi x y : lo < hi -> x <= y -> display_level lo hi x <= display_level lo hi y.
Proof.
  intros H K. unfold display_level. apply Rle_max_compat_l, Rle_min_compat_l. unfold Rdiv. apply Rmult_le_compat_r; [|lra].
  left. apply Rinv_0_lt_compat. lra.
Qed.
Lemma display_lo lo hi x : lo < hi -> x <= lo -> display_level lo hi x = 0.
Proof.
  intros H K. unfold display_level. apply Rmax_left. eapply Rle_trans; [apply Rmin_r|]. 
  assert (0 < / (hi - lo)) by (apply Rinv_0_lt_compat; lra). unfold Rdiv. nra.
Qed.
Lemma display_hi lo hi x : lo < hi -> hi <= x -> display_level lo hi x = 255.
Proof.
  intros H K. unfold display_level. rewrite Rmin_left; [apply Rmax_right; lra|].
  apply Rmult_le_reg_r with (hi - lo); [lra|]. unfold Rdiv. rewrite Rmult_assoc, Rinv_l by lra. lra.
Qed.
Lemma stretch_order l perc p0 p1 rest lo hi out : perc_of perc = p0 :: p1 :: rest -> percentile l p0 = Ok lo -> percentile l p1 = Ok hi -> lo < hi ->
  stretch_contrast_convert_8bit l perc = Ok out ->
  (forall i j, (i < length l)%nat -> (j < length l)%nat -> nth i l 0 <= nth j l 0 -> (nth i out 0 <= nth j out 0)%Z) /\
  (forall i, (i < length l)%nat -> nth i l 0 <= lo -> nth i out 0%Z = 0%Z) /\
  (forall i, (i < length l)%nat -> hi <= nth i l 0 -> nth i out 0%Z = 255%Z).
Proof.
  intros E P0 P1 N H. destruct (stretch_levels l perc p0 p1 rest lo hi E P0 P1 ltac:(lra)) as (o & Ho & _ & K).
  rewrite H in Ho. apply ok_inj in Ho. subst o. split; [|split].
  - intros i j Hi Hj V. eapply half_even_mono; [apply (display_mono lo hi _ _ N V)| |]; apply K; assumption.
  - intros i Hi V. destruct (K i Hi) as [_ Q]. rewrite display_lo in Q by assumption. apply (half_even_unique _ _ _ Q), half_even_IZR.
  - intros i Hi V. destruct (K i Hi) as [_ Q]. rewrite display_hi in Q by assumption. apply (half_even_unique _ _ _ Q), half_even_IZR.
Qed.
Lemma stretch_affine l perc p0 p1 rest lo hi a b : perc_of perc = p0 :: p1 :: rest -> percentile l p0 = Ok lo -> percentile l p1 = Ok hi -> lo <> hi -> 0 < a ->
  stretch_contrast_convert_8bit (map (fun x => a * x + b) l) perc = stretch_contrast_convert_8bit l perc.
Proof.
  intros E P0 P1 N Ha. rewrite (stretch_value l perc p0 p1 rest lo hi E P0 P1 N).
  rewrite (stretch_value _ perc p0 p1 rest _ _ E (percentile_affine a b _ _ _ Ha P0) (percentile_affine a b _ _ _ Ha P1)) by nra.
  rewrite map_map. f_equal. apply map_ext. intros x. unfold display_level. do 3 f_equal. field. split; nra.
Qed.
Lemma stretch_short l perc p0 : perc_of perc = [p0] \/ perc_of perc = [] -> 0 <= p0 <= 100 -> stretch_contrast_convert_8bit l perc = Err IndexError.
Proof.
  intros [E|E] Hp; unfold stretch_contrast_convert_8bit; fold (perc_of perc); rewrite E; [|reflexivity]. cbv zeta.
  destruct l as [|x l]; [reflexivity|]. rewrite percentile_ok by (discriminate || exact Hp). reflexivity.
Qed.
Lemma stretch_empty perc p0 rest : perc_of perc = p0 :: rest -> stretch_contrast_convert_8bit [] perc = Err IndexError.
Proof. intros E. unfold stretch_contrast_convert_8bit. fold (perc_of perc). rewrite E. reflexivity. Qed.
Lemma percentile_const c n q : (0 < n)%nat -> 0 <= q <= 100 -> percentile (repeat c n) q = Ok c.
Proof.
  intros Hn Hq. destruct (percentile_range (repeat c n) q) as (a & lo & hi & E & I1 & I2 & B); [destruct n; [lia|discriminate] | exact Hq|].
  apply repeat_spec in I1, I2. rewrite E. f_equal. lra.
Qed.
Lemma stretch_constant c n perc p0 p1 rest : (0 < n)%nat -> perc_of perc = p0 :: p1 :: rest -> 0 <= p0 <= 100 -> 0 <= p1 <= 100 ->
  stretch_contrast_convert_8bit (repeat c n) perc = Err NonFinite.
Proof.
  intros Hn E H0 H1. unfold stretch_contrast_convert_8bit. fold (perc_of perc). rewrite E. cbv zeta.
  rewrite percentile_const by assumption. cbn [bind]. rewrite (percentile_shift _ _ c c (percentile_const c n p1 Hn H1)). cbn [bind].
  destruct n as [|n]; [lia|]. cbn [repeat map]. replace (c - c) with 0 by ring. replace (0 / 255) with 0 by (unfold Rdiv; ring).
  cbn [mapM]. rewrite xdiv_zero_zero. reflexivity.
Qed.
Lemma stretch_out_of_range l perc p0 p1 rest : l <> [] -> perc_of perc = p0 :: p1 :: rest -> (p0 < 0 \/ 100 < p0 \/ p1 < 0 \/ 100 < p1) ->
  stretch_contrast_convert_8bit l perc = Err ValueError.
Proof.
  intros N E H. unfold stretch_contrast_convert_8bit. fold (perc_of perc). rewrite E. cbv zeta. destruct l as [|x l]; [contradiction|].
  unfold percentile. cbn [map]. destruct (Rleb 0 p0 && Rleb p0 100) eqn:Q; [|reflexivity]. cbn [bind].
  replace (Rleb 0 p1 && Rleb p1 100) with false; [reflexivity|]. symmetry. apply andb_false_iff.
  apply andb_prop in Q. destruct Q as [Q1 Q2]. apply Rleb_true in Q1. apply Rleb_true in Q2.
  destruct H as [H|[H|[H|H]]]; try lra; [left|right]; apply Rleb_false; lra.
Qed.

(** ** Noise level (C91) *)
Lemma g_value s : 0 < s_bits s -> g_noise_of s
  = Fin (sqrt (s_max_n s * s_max_n s / (12 * (Rpower 2 (s_bits s) - 1) * (Rpower 2 (s_bits s) - 1)) + s_read s * s_read s)).
Proof.
  intros Hb. assert (P := pow2m1_pos _ Hb). assert (Q := sqrt12_pos). assert (Q2 : sqrt 12 * sqrt 12 = 12) by (apply sqrt_sqrt; lra).
  unfold g_noise_of. rewrite qn_val by exact Hb. rewrite xsq_fin, xadd_fin. 
  set (q := Rpower 2 (s_bits s) - 1) in *. set (r := s_max_n s).
  assert (E : r / q / sqrt 12 * (r / q / sqrt 12) = r * r / (12 * q * q)).
  { transitivity (r * r / ((sqrt 12 * sqrt 12) * q * q)); [field; lra | now rewrite Q2]. }
  rewrite E. apply xsqrt_fin. apply Rplus_le_le_0_compat; [|nra]. apply Rmult_le_pos; [nra|]. left. apply Rinv_0_lt_compat. nra.
Qed.
Lemma g_variance s : 0 < s_bits s -> 0 < s_max_n s -> exists g, g_noise_of s = Fin g /\ 0 < g /\
  let q := s_max_n s / (Rpower 2 (s_bits s) - 1) in
  is_RInt (fun e => e * e / q) (- (q / 2)) (q / 2) (g * g - s_read s * s_read s).
Proof.
  intros Hb Hm. destruct (qn_is_uniform_std _ _ Hm Hb) as (k & Ek & Hk & I). cbv zeta in *.
  unfold g_noise_of. rewrite Ek, xsq_fin, xadd_fin. rewrite xsqrt_fin by nra.
  eexists. split; [reflexivity|]. split; [apply sqrt_lt_R0; nra|]. rewrite sqrt_sqrt by nra.
  replace (k * k + s_read s * s_read s - s_read s * s_read s) with (k * k) by ring. exact I.
Qed.
Lemma g_noiseless s : 0 < s_bits s -> (g_noise_of s = Fin 0 <-> s_max_n s = 0 /\ s_read s = 0).
Proof.
  intros Hb. rewrite g_value by exact Hb. assert (P := pow2m1_pos _ Hb). set (q := Rpower 2 (s_bits s) - 1) in *.
  assert (I : 0 < / (12 * q * q)) by (apply Rinv_0_lt_compat; nra). split.
  - intros E. injection E as E. assert (A : 0 <= s_max_n s * s_max_n s) by apply Rle_0_sqr. assert (B : 0 <= s_read s * s_read s) by apply Rle_0_sqr.
    assert (C : 0 <= s_max_n s * s_max_n s / (12 * q * q)) by (apply Rmult_le_pos; lra).
    apply sqrt_eq_0 in E; [|lra]. split; [|nra]. assert (Z : s_max_n s * s_max_n s * / (12 * q * q) = 0) by (unfold Rdiv in *; lra).
    apply Rmult_integral in Z. destruct Z as [Z|Z]; [nra | lra].
  - intros [-> ->]. f_equal. unfold Rdiv. replace (0 * 0 * / (12 * q * q) + 0 * 0) with 0 by ring. apply sqrt_0.
Qed.
Lemma g_no_bits s : s_bits s = 0 -> 0 < s_max_n s -> g_noise_of s = PInf.
Proof. intros E H. unfold g_noise_of. rewrite E, (proj1 (qn_zero_bits _) H). reflexivity. Qed.
Lemma rates_ok_true a : rates_ok a = true <-> forall i j, (i < rows a)%nat -> (j < cols a)%nat -> 0 <= px a i j <= lam_max.
Proof.
  unfold rates_ok. rewrite forallb_forall. split.
  - intros H i j Hi Hj. specialize (H i ltac:(apply in_seq; lia)). rewrite forallb_forall in H. specialize (H j ltac:(apply in_seq; lia)).
    apply andb_prop in H. destruct H as [A B]. apply Rleb_true in A. apply Rleb_true in B. lra.
  - intros H i Hi. rewrite forallb_forall. intros j Hj. apply in_seq in Hi. apply in_seq in Hj. destruct (H i j ltac:(lia) ltac:(lia)).
    apply andb_true_intro. split; apply Rleb_true; assumption.
Qed.
Lemma noise_ok a g : (forall i j, (i < rows a)%nat -> (j < cols a)%nat -> 0 <= px a i j <= lam_max) -> forall d,
  exists b, add_noise d (Fin g) a = Ok b /\ xrows b = rows a /\ xcols b = cols a /\
    forall i j, xpx b i j = Fin (INR (d_count d (px a i j) i j) + g * d_normal d i j).
Proof.
  intros H d. apply rates_ok_true in H. unfold add_noise. rewrite H. eexists. split; [reflexivity|]. cbn [xrows xcols xpx].
  split; [reflexivity|]. split; [reflexivity|]. intros i j. rewrite xmul_fin, xadd_fin. reflexivity.
Qed.
Lemma noise_bad a g d i j : (i < rows a)%nat -> (j < cols a)%nat -> (px a i j < 0 \/ lam_max < px a i j) -> add_noise d g a = Err ValueError.
Proof.
  intros Hi Hj H. unfold add_noise. destruct (rates_ok a) eqn:E; [|reflexivity]. rewrite rates_ok_true in E. specialize (E i j Hi Hj). lra.
Qed.
Lemma noise_moments om lam g (n z : draws -> R) : shot_and_normal om lam n z ->
  mean om (fun d => n d + g * z d) = lam /\
  mean om (fun d => (n d + g * z d - lam) * (n d + g * z d - lam)) = lam + g * g.
Proof.
  intros (M0 & M1 & M2 & Z1 & Z2 & X). split.
  - rewrite (mean_ext _ _ (fun d => 1 * n d + g * z d)) by (intros; ring). rewrite mean_lin, M1, Z1. ring.
  - rewrite (mean_ext _ _ (fun d => 1 * (fun d => 1 * (fun d => 1 * (fun d => n d * n d) d + (g * g) * (fun d => z d * z d) d) d
       + (2 * g) * (fun d => n d * z d) d) d + (-2 * lam) * (fun d => 1 * (fun d => 1 * n d + g * z d) d + (- lam / 2) * (fun _ => 1) d) d)) by (intros; field).
    rewrite !mean_lin, M0, M1, M2, Z1, Z2, X. field.
Qed.

(** ** Instantaneous field of view (C92) *)
Lemma ifov_gsd w f rg : f <> 0 -> exists i, instantaneous_FOV w f = Ok i /\ ground_sample_distance i rg = w * rg / f.
Proof.
  intros H. unfold instantaneous_FOV. rewrite pydiv_ok by exact H. eexists. split; [reflexivity|]. unfold ground_sample_distance. field. exact H.
Qed.
Lemma ifov_zero w : instantaneous_FOV w 0 = Err ZeroDivisionError.
Proof. unfold instantaneous_FOV, pydiv. now rcase. Qed.
Lemma atan_le x : 0 <= x -> atan x <= x.
Proof.
  intros H. destruct (Req_dec x 0) as [->|N]; [rewrite atan_0; lra|].
  destruct (MVT_cor2 atan (fun t => / (1 + t * t)) 0 x) as (c & E & Hc); [lra | |].
  - intros t _. assert (D := derivable_pt_lim_atan t). replace (1 + t ^ 2) with (1 + t * t) in D by ring. exact D.
  - rewrite atan_0 in E. assert (/ (1 + c * c) <= 1). { rewrite <- Rinv_1. apply Rinv_le_contravar; nra. } nra.
Qed.
Lemma ifov_small_angle w f i : 0 <= w -> 0 < f -> instantaneous_FOV w f = Ok i -> 0 <= 2 * atan (w / 2 / f) <= i.
Proof.
  intros Hw Hf E. unfold instantaneous_FOV in E. rewrite pydiv_ok in E by lra. apply ok_inj in E. subst i.
  assert (P : 0 <= w / 2 / f) by (apply Rmult_le_pos; [lra | left; apply Rinv_0_lt_compat; lra]).
  assert (A := atan_le _ P). replace (w / f) with (2 * (w / 2 / f)) by (field; lra). split; [|lra].
  destruct (Req_dec (w / 2 / f) 0) as [->|N]; [rewrite atan_0; lra|]. assert (B := atan_increasing 0 (w / 2 / f) ltac:(lra)). rewrite atan_0 in B. lra.
Qed.
(* exact angle theta = 2 atan (w / 2f): the error is at most theta^3-small: i <= theta * (1 + (i/2)^2) *)
Lemma atan_ge x : 0 <= x -> x <= atan x * (1 + x * x).
Proof.
  intros H. destruct (Req_dec x 0) as [->|N]; [rewrite atan_0; lra|].
  destruct (MVT_cor2 atan (fun t => / (1 + t * t)) 0 x) as (c & E & Hc); [lra | |].
  - intros t _. assert (D := derivable_pt_lim_atan t). replace (1 + t ^ 2) with (1 + t * t) in D by ring. exact D.
  - rewrite atan_0 in E. assert (I : / (1 + x * x) <= / (1 + c * c)) by (apply Rinv_le_contravar; nra).
    assert (J : / (1 + x * x) * (1 + x * x) = 1) by (apply Rinv_l; nra). replace (atan x) with (/ (1 + c * c) * x) by lra.
    assert (0 < / (1 + x * x)) by (apply Rinv_0_lt_compat; nra). assert (1 <= / (1 + c * c) * (1 + x * x)) by nra. nra.
Qed.
Lemma ifov_error w f i : 0 <= w -> 0 < f -> instantaneous_FOV w f = Ok i -> i <= 2 * atan (w / 2 / f) * (1 + (i / 2) * (i / 2)).
Proof.
  intros Hw Hf E. unfold instantaneous_FOV in E. rewrite pydiv_ok in E by lra. apply ok_inj in E. subst i.
  assert (P : 0 <= w / 2 / f) by (apply Rmult_le_pos; [lra | left; apply Rinv_0_lt_compat; lra]).
  assert (A := atan_ge _ P). replace (w / f / 2) with (w / 2 / f) by (field; lra). replace (w / f) with (2 * (w / 2 / f)) by (field; lra). lra.
Qed.

(** ** Flat and curved slant range (C93) *)
Lemma flat_good_path c : 0 < altitude c -> Rabs (ground_range c) <= 2 * 6378164 -> good_path c (slant_flat c).
Proof.
  intros Ha Hg. right. unfold slant_flat. assert (G : 0 <= ground_range c * ground_range c) by apply Rle_0_sqr. split; [apply sqrt_lt_R0; nra|].
  assert (Q : sqrt (altitude c * altitude c) = altitude c) by (apply sqrt_square; lra). split; [split; [lra|]|].
  - rewrite <- Q at 1. apply sqrt_le_1_alt. lra.
  - rewrite <- (sqrt_square (2 * 6378164 + altitude c)) by lra. apply sqrt_le_1_alt.
    assert (ground_range c * ground_range c <= (2 * 6378164) * (2 * 6378164)).
    { apply Rabs_le_between in Hg. nra. }
    nra.
Qed.
Lemma sin_low x : 0 <= x -> x * x <= 3 -> x - x * x * x / 6 <= sin x.
Proof.
  intros H0 H3. destruct (pre_sin_bound x 0 H0) as [A _]; [nra|]. eapply Rle_trans; [|exact A].
  right. unfold sin_approx, sum_f_R0, sin_term. simpl. field.
Qed.
Lemma sin_sq x : x * x - x * x * (x * x) / 3 <= sin x * sin x <= x * x.
Proof.
  assert (P : forall x, 0 <= x -> x * x - x * x * (x * x) / 3 <= sin x * sin x <= x * x).
  { clear x. intros x H. split.
    - destruct (Rle_lt_dec (x * x) 3) as [L|L]; [|assert (0 <= sin x * sin x) by apply Rle_0_sqr; nra].
      assert (A := sin_low x H L). set (t := x - x * x * x / 6) in *. assert (T : 0 <= t) by (unfold t; nra).
      apply Rle_trans with (t * t); [|nra]. unfold t. assert (0 <= (x * x * x) * (x * x * x)) by apply Rle_0_sqr. lra.
    - destruct (Req_dec x 0) as [->|N]; [rewrite sin_0; lra|]. assert (A := sin_lt_x x ltac:(lra)).
      destruct (Rle_lt_dec 1 x) as [L|L].
      + assert (B := SIN_bound x). nra.
      + assert (B := PI_RGT_0). assert (C : 0 <= sin x) by (apply sin_ge_0; [lra|]; assert (D := PI2_1); unfold PI2 in *; lra). nra. }
  destruct (Rle_lt_dec 0 x) as [H|H]; [now apply P|]. assert (Q := P (- x) ltac:(lra)). rewrite sin_neg in Q.
  replace (- x * - x) with (x * x) in Q by ring. replace (- sin x * - sin x) with (sin x * sin x) in Q by ring. exact Q.
Qed.
Lemma curved_sq c s : 0 <= altitude c -> curved_earth_slant_range 0 (altitude c) (ground_range c) = Fin s ->
  0 <= s /\ s * s = altitude c * altitude c + 4 * r_earth * (r_earth + altitude c) * (sin (ground_range c / (2 * r_earth)) * sin (ground_range c / (2 * r_earth))).
Proof.
  intros Ha E. rewrite slant_val in E. injection E as <-. split; [apply sqrt_pos|]. assert (Hr := r_earth_pos).
  assert (C : cos (ground_range c / r_earth) = 1 - 2 * (sin (ground_range c / (2 * r_earth)) * sin (ground_range c / (2 * r_earth)))).
  { replace (ground_range c / r_earth) with (2 * (ground_range c / (2 * r_earth))) by (field; lra). rewrite cos_2a_sin. ring. }
  rewrite sqrt_sqrt; rewrite C; [ring|]. set (z := sin _ * sin _). assert (0 <= z) by apply Rle_0_sqr.
  assert (0 <= r_earth * (r_earth + altitude c) * z) by (apply Rmult_le_pos; [apply Rmult_le_pos; lra | lra]). nra.
Qed.
Lemma flat_sq c : 0 <= slant_flat c /\ slant_flat c * slant_flat c = altitude c * altitude c + ground_range c * ground_range c.
Proof. unfold slant_flat. split; [apply sqrt_pos | apply sqrt_sqrt; nra]. Qed.
Lemma flat_overhead c : 0 <= altitude c -> ground_range c = 0 -> curved_earth_slant_range 0 (altitude c) (ground_range c) = Fin (slant_flat c).
Proof.
  intros Ha E. unfold slant_flat. rewrite E, slant_overhead. f_equal. rewrite Rminus_0_r, Rabs_pos_eq by exact Ha.
  replace (altitude c * altitude c + 0 * 0) with (altitude c * altitude c) by ring. symmetry. apply sqrt_square, Ha.
Qed.
Lemma curved_bounds c s : 0 <= altitude c -> curved_earth_slant_range 0 (altitude c) (ground_range c) = Fin s ->
  let h := altitude c in let g := ground_range c in let R := r_earth in
  h * h + (1 + h / R) * (g * g) * (1 - g * g / (12 * R * R)) <= s * s <= h * h + (1 + h / R) * (g * g).
Proof.
  intros Ha E. cbv zeta. destruct (curved_sq c s Ha E) as [_ ->]. assert (Hr := r_earth_pos).
  set (g := ground_range c). set (h := altitude c) in *. destruct (sin_sq (g / (2 * r_earth))) as [A B]. set (z := sin _ * sin _) in *.
  assert (K : 0 <= 4 * r_earth * (r_earth + h)) by nra.
  replace ((1 + h / r_earth) * (g * g)) with (4 * r_earth * (r_earth + h) * (g / (2 * r_earth) * (g / (2 * r_earth)))) by (field; lra).
  replace (4 * r_earth * (r_earth + h) * (g / (2 * r_earth) * (g / (2 * r_earth))) * (1 - g * g / (12 * r_earth * r_earth)))
    with (4 * r_earth * (r_earth + h) * (g / (2 * r_earth) * (g / (2 * r_earth)) - g / (2 * r_earth) * (g / (2 * r_earth)) * (g / (2 * r_earth) * (g / (2 * r_earth))) / 3)) by (field; lra).
  split; apply Rplus_le_compat_l, Rmult_le_compat_l; assumption.
Qed.
Lemma flat_close c s : 0 <= altitude c -> curved_earth_slant_range 0 (altitude c) (ground_range c) = Fin s ->
  slant_flat c * slant_flat c * (1 - ground_range c * ground_range c / (12 * r_earth * r_earth)) <= s * s /\
  s * s <= slant_flat c * slant_flat c * (1 + altitude c / r_earth).
Proof.
  intros Ha E. destruct (curved_bounds c s Ha E) as [A B]. cbv zeta in A, B. destruct (flat_sq c) as [_ F]. rewrite F. assert (Hr := r_earth_pos).
  set (g := ground_range c) in *. set (h := altitude c) in *. assert (I : 0 <= h / r_earth) by (apply Rmult_le_pos; [lra | left; now apply Rinv_0_lt_compat]).
  assert (J : 0 <= g * g / (12 * r_earth * r_earth)) by (apply Rmult_le_pos; [apply Rle_0_sqr | left; apply Rinv_0_lt_compat; nra]).
  assert (G : 0 <= g * g) by apply Rle_0_sqr. assert (H : 0 <= h * h) by apply Rle_0_sqr. destruct (curved_sq c s Ha E) as [_ Z]. fold g h in Z.
  assert (T : h * h <= s * s). { rewrite Z. assert (0 <= sin (g / (2 * r_earth)) * sin (g / (2 * r_earth))) by apply Rle_0_sqr.
    assert (0 <= 4 * r_earth * (r_earth + h)) by nra. nra. }
  set (j := g * g / (12 * r_earth * r_earth)) in *. set (i := h / r_earth) in *. split.
  - destruct (Rle_lt_dec j 1) as [L|L].
    + assert (0 <= i * (g * g) * (1 - j)) by (apply Rmult_le_pos; [apply Rmult_le_pos; lra | lra]). nra.
    + nra.
  - nra.
Qed.
Lemma flat_shorter c s : 0 <= altitude c -> curved_earth_slant_range 0 (altitude c) (ground_range c) = Fin s ->
  ground_range c <> 0 -> ground_range c * ground_range c * (r_earth + altitude c) < 12 * r_earth * r_earth * altitude c -> slant_flat c < s.
Proof.
  intros Ha E N L. destruct (curved_bounds c s Ha E) as [A _]. cbv zeta in A. destruct (flat_sq c) as [F0 F]. destruct (curved_sq c s Ha E) as [S0 _]. assert (Hr := r_earth_pos).
  enough (Q : slant_flat c * slant_flat c < s * s) by nra. rewrite F. eapply Rlt_le_trans; [|exact A]. apply Rplus_lt_compat_l.
  set (g := ground_range c) in *. set (h := altitude c) in *. assert (G : 0 < g * g) by nra.
  enough (Q : 1 < (1 + h / r_earth) * (1 - g * g / (12 * r_earth * r_earth))) by nra.
  apply Rmult_lt_reg_r with (12 * r_earth * r_earth * r_earth); [repeat apply Rmult_lt_0_compat; lra|].
  replace ((1 + h / r_earth) * (1 - g * g / (12 * r_earth * r_earth)) * (12 * r_earth * r_earth * r_earth))
    with (12 * r_earth * r_earth * r_earth + (12 * r_earth * r_earth * h - g * g * (r_earth + h))) by (field; lra). lra.
Qed.
