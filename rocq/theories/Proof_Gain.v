(** * Proof_Gain: gain, offset and polarity of the reference image *)
From Coq Require Import Reals Lra List Lia ZArith Psatz Bool Sorted Permutation FunctionalExtensionality.
From Flocq Require Import Core.Raux.
From Verif Require Import Base_XR Base_Np Base_Percentile Model_Geo Model_Noise Model_Db Model_Scenario Model_Sensor Model_Rad Model_Otf Model_Img Model_Met Model_Sim
  Spec_Sim Spec_Gain Proof_Weight Proof_Refl Proof_Sim.
Import ListNotations.
Open Scope R_scope.

(** ** Positive gain *)
Section Table.
  Variables a b : R.
  Hypothesis Ha : 0 < a.
  Let g (x : R) := a * x + b.
  Let gp (p : R * R) := (a * fst p + b, snd p).
  Lemma leb_gain x y : Rleb (a * x + b) (a * y + b) = Rleb x y.
  Proof.
    destruct (Rleb x y) eqn:E.
    - apply Rleb_true in E. apply Rleb_true. nra.
    - apply Rleb_false in E. apply Rleb_false. nra.
  Qed.
  Lemma insert_gain p l : insert_by (gp p) (map gp l) = map gp (insert_by p l).
  Proof.
    induction l as [|q l IH]; simpl; [reflexivity|]. rewrite leb_gain.
    destruct (Rleb (fst p) (fst q)); simpl; [reflexivity | now rewrite IH].
  Qed.
  Lemma sort_gain l : sort_by (map gp l) = map gp (sort_by l).
  Proof. induction l as [|p l IH]; simpl; [reflexivity|]. rewrite IH. apply insert_gain. Qed.
  Lemma combine_gain x y : combine (map g x) y = map gp (combine x y).
  Proof. revert y. induction x as [|u x IH]; intros [|v y]; simpl; auto. now rewrite IH. Qed.
  Lemma table_gain x y : interp1d_table (map g x) y = let* t := interp1d_table x y in Ok (map gp t).
  Proof.
    destruct x as [|u x]; [reflexivity|]. unfold interp1d_table. cbn [map]. change (g u :: map g x) with (map g (u :: x)).
    rewrite map_length. destruct (Nat.eqb _ _); [|reflexivity]. cbn [bind]. rewrite combine_gain, sort_gain. reflexivity.
  Qed.
  Lemma filter_gain t v : length (filter (fun p => Rltb (fst p) (g v)) (map gp t)) = length (filter (fun p => Rltb (fst p) v) t).
  Proof.
    induction t as [|p t IH]; simpl; [reflexivity|].
    assert (E : Rltb (a * fst p + b) (g v) = Rltb (fst p) v).
    { unfold g. destruct (Rltb (fst p) v) eqn:E.
      - apply Rltb_true in E. apply Rltb_true. nra.
      - apply Rltb_false in E. apply Rltb_false. nra. }
    rewrite E. destruct (Rltb (fst p) v); simpl; now rewrite IH.
  Qed.
  Lemma inf_sgn_gain w : inf_sgn (a * w) = inf_sgn w.
  Proof. unfold inf_sgn. repeat rcase; try reflexivity; nra. Qed.
  Lemma inf_sgn_shape y : inf_sgn y = PInf \/ inf_sgn y = NInf \/ inf_sgn y = NaN.
  Proof. unfold inf_sgn. repeat rcase; auto. Qed.
  Lemma slope_gain y d w : xmul (xdiv (Fin y) (Fin (a * d))) (Fin (a * w)) = xmul (xdiv (Fin y) (Fin d)) (Fin w).
  Proof.
    destruct (Req_dec d 0) as [->|N].
    - rewrite Rmult_0_r. unfold xdiv. rewrite (proj2 (Reqb_true 0 0) eq_refl).
      destruct (inf_sgn_shape y) as [E|[E|E]]; rewrite E; cbn [xmul]; [apply inf_sgn_gain| |reflexivity].
      replace (- (a * w)) with (a * - w) by ring. apply inf_sgn_gain.
    - rewrite !xdiv_fin by nra. cbn [xmul]. f_equal. field. split; [exact N | lra].
  Qed.
  Lemma extrapolate_gain t v : t <> [] -> extrapolate (map gp t) (g v) = extrapolate t v.
  Proof.
    intros N. unfold extrapolate. rewrite map_length, filter_gain. cbv zeta.
    set (i := Nat.min (Nat.max (length (filter (fun p => Rltb (fst p) v) t)) 1) (length t - 1)).
    assert (L : (0 < length t)%nat) by (destruct t; [contradiction | cbn; lia]).
    assert (I : forall j, (j < length t)%nat -> nth j (map gp t) (0, 0) = gp (nth j t (0, 0))).
    { intros j Hj. rewrite (nth_indep _ (0, 0) (gp (0, 0))) by (rewrite map_length; exact Hj). apply map_nth. }
    rewrite !I by (unfold i; lia). unfold gp, g. cbn [fst snd].
    replace (a * fst (nth i t (0, 0)) + b - (a * fst (nth (i - 1) t (0, 0)) + b)) with (a * (fst (nth i t (0, 0)) - fst (nth (i - 1) t (0, 0)))) by ring.
    replace (a * v + b - (a * fst (nth (i - 1) t (0, 0)) + b)) with (a * (v - fst (nth (i - 1) t (0, 0)))) by ring.
    now rewrite slope_gain.
  Qed.
End Table.
Lemma insert_by_nil p l : insert_by p l <> [].
Proof. destruct l as [|q l]; simpl; [intros C; discriminate C|]. destruct (Rleb (fst p) (fst q)); intros C; discriminate C. Qed.
Lemma sort_by_nil l : l <> [] -> sort_by l <> [].
Proof. destruct l as [|p l]; [contradiction|]. intros _. simpl. apply insert_by_nil. Qed.
Lemma table_nonempty x y t : interp1d_table x y = Ok t -> t <> [].
Proof.
  unfold interp1d_table. destruct x as [|u x]; [discriminate|]. destruct (Nat.eqb _ _) eqn:E; [|discriminate]. intros H. apply ok_inj in H. subst t.
  destruct y as [|v y]; [discriminate|]. apply sort_by_nil. discriminate.
Qed.
Lemma reflectance_gain a b p pix refl : 0 < a ->
  img_to_reflectance (remapped a b p) (map (fun x => a * x + b) pix) refl = img_to_reflectance p pix refl.
Proof.
  intros Ha. unfold img_to_reflectance. rewrite (table_gain a b Ha). destruct (interp1d_table pix refl) as [t|] eqn:E; [|reflexivity].
  cbn [bind remapped rows cols px]. do 2 f_equal. do 2 (apply functional_extensionality; intro).
  now rewrite (extrapolate_gain a b Ha) by (apply (table_nonempty _ _ _ E)).
Qed.
Lemma ravel_remapped a b p : ravel (remapped a b p) = map (fun x => a * x + b) (ravel p).
Proof.
  unfold ravel. cbn [remapped rows cols px]. induction (seq 0 (rows p)) as [|i l IH]; cbn; [reflexivity|]. now rewrite map_app, map_map, IH.
Qed.
Lemma reference_gain a b p gsd r : 0 < a -> reference_init p gsd None None = Ok r ->
  reference_init (remapped a b p) gsd None None
    = Ok {| sr_img := remapped a b p; sr_gsd := gsd; sr_pix := map (fun x => a * x + b) (sr_pix r); sr_refl := sr_refl r |}.
Proof.
  intros Ha. unfold reference_init, ref_image_init. rewrite ravel_remapped.
  destruct (percentile (ravel p) 0.2) as [lo|] eqn:E1; [|discriminate]. destruct (percentile (ravel p) 99.8) as [hi|] eqn:E2; [|discriminate].
  cbn [bind ri_gsd ri_pix ri_refl]. intros H. apply ok_inj in H. subst r.
  rewrite (percentile_affine a b _ _ _ Ha E1), (percentile_affine a b _ _ _ Ha E2). reflexivity.
Qed.
(* img_to_reflectance is the only place where pixel values and calibration enter *)
Lemma simulate_same ni it diag d r r' s w : sr_gsd r' = sr_gsd r ->
  img_to_reflectance (sr_img r') (sr_pix r') (sr_refl r') = img_to_reflectance (sr_img r) (sr_pix r) (sr_refl r) ->
  simulate_image ni it diag d r' s w = simulate_image ni it diag d r s w.
Proof.
  intros G H. unfold simulate_image. destruct (step ni it w ReadAtm) as [w' [[|l]|]]; try reflexivity.
  destruct (nth_error (heap w') l); [|reflexivity]. unfold simulate_rest. rewrite H, G. reflexivity.
Qed.
Lemma simulate_gain ni it diag d a b p gsd pix refl r s w : 0 < a -> reference_init p gsd pix refl = Ok r ->
  exists r', reference_init (remapped a b p) gsd (option_map (map (fun x => a * x + b)) pix) refl = Ok r' /\
    simulate_image ni it diag d r' s w = simulate_image ni it diag d r s w.
Proof.
  intros Ha E. destruct pix as [x|].
  - unfold reference_init, ref_image_init in *. destruct refl as [y|]; [|discriminate]. cbn [bind ri_gsd ri_pix ri_refl option_map] in *. apply ok_inj in E. subst r.
    eexists. split; [reflexivity|]. apply simulate_same; [reflexivity|]. cbn [sr_img sr_pix sr_refl]. apply reflectance_gain, Ha.
  - assert (E0 : reference_init p gsd None None = Ok r) by exact E.
    cbn [option_map]. eexists. split; [exact (reference_gain a b p gsd r Ha E0)|].
    assert (Q : sr_img r = p /\ sr_gsd r = gsd).
    { unfold reference_init, ref_image_init in E0. destruct (percentile (ravel p) 0.2); [|discriminate]. destruct (percentile (ravel p) 99.8); [|discriminate].
      cbn [bind ri_gsd] in E0. apply ok_inj in E0. subst r. split; reflexivity. }
    destruct Q as [Q1 Q2]. apply simulate_same; cbn [sr_img sr_pix sr_refl sr_gsd]; [now rewrite Q2|]. rewrite Q1. apply reflectance_gain, Ha.
Qed.

(** ** Negatives *)
Lemma sorted_unique l l' : nondecr l -> nondecr l' -> Permutation l l' -> l = l'.
Proof.
  intros S. revert l'. induction S as [|x l S IH F]; intros l' S' P.
  - apply Permutation_nil in P. now subst.
  - destruct S' as [|y l' S' F']; [apply Permutation_sym, Permutation_nil in P; discriminate|].
    assert (x = y).
    { rewrite Forall_forall in F, F'. apply Rle_antisym.
      - assert (I : In y (x :: l)) by (apply (Permutation_in _ (Permutation_sym P)); now left). destruct I as [->|I]; [lra | now apply F].
      - assert (I : In x (y :: l')) by (apply (Permutation_in _ P); now left). destruct I as [->|I]; [lra | now apply F']. }
    subst y. f_equal. apply IH; [exact S'|]. now apply Permutation_cons_inv in P.
Qed.
Lemma sorted_snoc l x : nondecr l -> Forall (fun y => y <= x) l -> nondecr (l ++ [x]).
Proof.
  intros S. induction S as [|y l S IH F]; intros H; [repeat constructor|]. inversion H; subst. cbn. constructor; [apply IH; assumption|].
  apply Forall_app. split; [exact F|]. now constructor.
Qed.
Lemma sorted_negative a b l : a < 0 -> nondecr l -> nondecr (rev (map (fun x => a * x + b) l)).
Proof.
  intros Ha S. induction S as [|x l S IH F]; [constructor|]. cbn. apply sorted_snoc; [exact IH|].
  apply Forall_forall. intros y Hy. apply in_rev in Hy. apply in_map_iff in Hy. destruct Hy as (z & <- & Hz). rewrite Forall_forall in F.
  specialize (F z Hz). nra.
Qed.
Lemma sort_negative a b l : a < 0 -> sortR (map (fun x => a * x + b) l) = rev (map (fun x => a * x + b) (sortR l)).
Proof.
  intros Ha. apply sorted_unique; [apply sortR_sorted | apply sorted_negative; [exact Ha | apply sortR_sorted]|].
  apply Permutation_sym. eapply perm_trans; [apply Permutation_sym, Permutation_rev|].
  eapply perm_trans; [|apply sortR_perm]. apply Permutation_map, Permutation_sym, sortR_perm.
Qed.
Lemma lerp_int l k : (k < length l)%nat -> lerp_at l (INR k) = nth k l 0.
Proof.
  intros H. unfold lerp_at. rewrite INR_IZR_INZ, Zfloor_IZR, Nat2Z.id. ring.
Qed.
Lemma lerp_between l k t : (k + 1 < length l)%nat -> 0 < t < 1 -> lerp_at l (INR k + t) = nth k l 0 + (nth (k + 1) l 0 - nth k l 0) * t.
Proof.
  intros H Ht. unfold lerp_at. assert (F : Zfloor (INR k + t) = Z.of_nat k) by (apply Zfloor_imp; rewrite plus_IZR, <- INR_IZR_INZ; lra).
  rewrite F, Nat2Z.id, <- INR_IZR_INZ. rewrite (nth_indep l (nth k l 0) 0) by exact H. ring.
Qed.
Lemma lerp_rev l h : l <> [] -> 0 <= h <= INR (length l) - 1 -> lerp_at (rev l) (INR (length l) - 1 - h) = lerp_at l h.
Proof.
  intros N H. set (n := length l) in *. assert (L : (0 < n)%nat) by (unfold n; destruct l; [contradiction | cbn; lia]).
  set (k := Z.to_nat (Zfloor h)). assert (Z0 : (0 <= Zfloor h)%Z) by (apply Zfloor_lub; cbn; lra).
  assert (K : IZR (Zfloor h) = INR k) by (unfold k; rewrite INR_IZR_INZ, Z2Nat.id by exact Z0; reflexivity).
  assert (B1 := Zfloor_lb h). assert (B2 := Zfloor_ub h). rewrite K in B1, B2.
  assert (Lk : (k < n)%nat) by (apply INR_lt; lra).
  destruct (Req_dec h (INR k)) as [E|E].
  - rewrite E. replace (INR n - 1 - INR k) with (INR (n - 1 - k)) by (rewrite !minus_INR by lia; cbn; ring).
    rewrite !lerp_int by (rewrite ?rev_length; fold n; lia). rewrite rev_nth by (fold n; lia). f_equal. fold n. lia.
  - assert (Lk2 : (k + 1 < n)%nat).
    { destruct (Nat.eq_dec (k + 1) n) as [Q|Q]; [|lia]. exfalso. rewrite <- Q, plus_INR in H. cbn in H. lra. }
    set (t := h - INR k). assert (Ht : 0 < t < 1) by (unfold t; lra).
    replace h with (INR k + t) at 2 by (unfold t; ring). rewrite lerp_between by (fold n; lia || lra).
    replace (INR n - 1 - h) with (INR (n - 2 - k) + (1 - t)) by (unfold t; rewrite !minus_INR by lia; cbn; ring).
    rewrite lerp_between by (try (rewrite rev_length; fold n; lia); lra).
    rewrite !rev_nth by (fold n; lia). fold n. replace (n - S (n - 2 - k))%nat with (k + 1)%nat by lia. replace (n - S (n - 2 - k + 1))%nat with k by lia. ring.
Qed.
Lemma percentile_negative a b l q p : a < 0 -> 0 <= q <= 100 -> percentile l (100 - q) = Ok p -> percentile (map (fun x => a * x + b) l) q = Ok (a * p + b).
Proof.
  intros Ha Hq E. assert (N : l <> []) by (intros ->; discriminate).
  rewrite percentile_ok in E by (auto; lra). apply ok_inj in E. subst p.
  assert (N' : map (fun x => a * x + b) l <> []) by (intros C; apply map_eq_nil in C; contradiction).
  rewrite percentile_ok by auto. f_equal. rewrite map_length, (sort_negative a b l Ha).
  set (s := sortR l). assert (Ls : length s = length l) by apply sortR_length.
  assert (L1 : (1 <= length l)%nat) by (destruct l; [contradiction | cbn; lia]).
  destruct (virtual_index l (100 - q) N ltac:(lra)) as [V1 V2]. fold s in V2.
  set (h := INR (length l - 1) * ((100 - q) / 100)) in *.
  assert (Ns : map (fun x => a * x + b) s <> []) by (intros C; apply map_eq_nil in C; apply (f_equal (@length R)) in C; rewrite Ls in C; cbn in C; lia).
  replace (INR (length l - 1) * (q / 100)) with (INR (length (map (fun x => a * x + b) s)) - 1 - h).
  - rewrite lerp_rev; [|exact Ns | rewrite map_length; lra].
    apply lerp_affine; [intros C; rewrite C in Ls; cbn in Ls; lia|].
    assert (Z0 : (0 <= Zfloor h)%Z) by (apply Zfloor_lub; exact V1). apply INR_lt. rewrite INR_IZR_INZ, Z2Nat.id by exact Z0.
    assert (F := Zfloor_lb h). lra.
  - rewrite map_length, Ls. unfold h. rewrite minus_INR by exact L1. cbn. field.
Qed.
Lemma two_points lo hi v : lo < hi -> extrapolate (sort_by [(lo, 0.05); (hi, 0.95)]) v = Fin (0.9 / (hi - lo) * (v - lo) + 0.05).
Proof.
  intros H. assert (E : sort_by [(lo, 0.05); (hi, 0.95)] = [(lo, 0.05); (hi, 0.95)]).
  { cbn. rewrite (proj2 (Rleb_true lo hi)) by lra. reflexivity. }
  rewrite E. unfold extrapolate. cbn [length Nat.sub]. rewrite Nat.min_r by lia. cbn [nth fst snd Nat.sub].
  rewrite xdiv_fin, xmul_fin, xadd_fin by lra. do 2 f_equal. f_equal. f_equal. lra.
Qed.
Lemma truncate_negative r : truncate01 (Fin (1 - r)) = xsub (Fin 1) (truncate01 (Fin r)).
Proof.
  unfold truncate01. cbn [xlt]. destruct (Rltb 1 r) eqn:A; destruct (Rltb 1 (1 - r)) eqn:B; rewrite ?Rltb_true, ?Rltb_false in *; try lra; cbn [xlt].
  - rewrite (proj2 (Rltb_false 1 0)) by lra. rewrite (proj2 (Rltb_true (1 - r) 0)) by lra. rewrite xsub_fin. f_equal. lra.
  - rewrite (proj2 (Rltb_false 1 0)) by lra. rewrite (proj2 (Rltb_true r 0)) by lra. rewrite xsub_fin. f_equal. lra.
  - rewrite (proj2 (Rltb_false (1 - r) 0)), (proj2 (Rltb_false r 0)) by lra. reflexivity.
Qed.
Lemma negative_reflectance a b p gsd r : a < 0 -> reference_init p gsd None None = Ok r -> nth 0 (sr_pix r) 0 < nth 1 (sr_pix r) 0 ->
  exists r' x y, reference_init (remapped a b p) gsd None None = Ok r' /\
    img_to_reflectance (sr_img r) (sr_pix r) (sr_refl r) = Ok x /\ img_to_reflectance (sr_img r') (sr_pix r') (sr_refl r') = Ok y /\
    xrows y = xrows x /\ xcols y = xcols x /\ forall i j, exists t, xpx x i j = Fin t /\ 0 <= t <= 1 /\ xpx y i j = Fin (1 - t).
Proof.
  intros Ha. unfold reference_init, ref_image_init. rewrite ravel_remapped.
  destruct (percentile (ravel p) 0.2) as [lo|] eqn:E1; [|discriminate]. destruct (percentile (ravel p) 99.8) as [hi|] eqn:E2; [|discriminate].
  cbn [bind ri_gsd ri_pix ri_refl]. intros H. apply ok_inj in H. subst r. cbn [sr_pix nth]. intros L.
  rewrite (percentile_negative a b _ 0.2 hi Ha) by (try lra; replace (100 - 0.2) with 99.8 by lra; exact E2).
  rewrite (percentile_negative a b _ 99.8 lo Ha) by (try lra; replace (100 - 99.8) with 0.2 by lra; exact E1).
  cbn [bind]. do 3 eexists. split; [reflexivity|]. cbn [sr_img sr_pix sr_refl ri_pix ri_refl].
  split; [reflexivity|]. split; [reflexivity|]. split; [reflexivity|]. split; [reflexivity|]. intros i j. cbn [xpx remapped px combine].
  rewrite !two_points by nra.
  set (v := px p i j). set (q := 0.9 / (hi - lo) * (v - lo) + 0.05).
  replace (0.9 / (a * lo + b - (a * hi + b)) * (a * v + b - (a * hi + b)) + 0.05) with (1 - q).
  2:{ unfold q. replace (a * lo + b - (a * hi + b)) with (- a * (hi - lo)) by ring. replace (a * v + b - (a * hi + b)) with (- a * (hi - v)) by ring.
      assert (A0 : a <> 0) by lra. assert (D0 : hi - lo <> 0) by lra. replace 0.05 with ((1 - 0.9) / 2) by lra. generalize 0.9. intros c. field. split; assumption. }
  rewrite truncate_negative.
  assert (T : exists t, truncate01 (Fin q) = Fin t /\ 0 <= t <= 1).
  { unfold truncate01. cbn [xlt]. destruct (Rltb 1 q) eqn:A; cbn [xlt].
    - rewrite (proj2 (Rltb_false 1 0)) by lra. eexists. split; [reflexivity | lra].
    - destruct (Rltb q 0) eqn:B; rewrite ?Rltb_true, ?Rltb_false in *; eexists; (split; [reflexivity | lra]). }
  destruct T as (t & Et & Bt). exists t. rewrite Et. split; [reflexivity|]. split; [exact Bt|]. now rewrite xsub_fin.
Qed.

(* an explicit calibration that is remapped along with a negative *)
Lemma calibrated_flip a b cal v r : a < 0 -> calibrated cal v r -> calibrated (map (fun p => (a * fst p + b, snd p)) cal) (a * v + b) r.
Proof.
  intros Ha (x0 & y0 & x1 & y1 & I0 & I1 & X & G & B & T & ->).
  exists (a * x1 + b), y1, (a * x0 + b), y0.
  split; [apply in_map_iff; exists (x1, y1); auto|]. split; [apply in_map_iff; exists (x0, y0); auto|]. split; [nra|].
  split; [|split; [|split]].
  - intros p Hp. apply in_map_iff in Hp. destruct Hp as (q & <- & Hq). cbn [fst]. destruct (G q Hq); [right | left]; nra.
  - intros V p Hp. apply in_map_iff in Hp. destruct Hp as (q & <- & Hq). cbn [fst]. assert (V' : x1 < v) by nra. specialize (T V' q Hq). nra.
  - intros V p Hp. apply in_map_iff in Hp. destruct Hp as (q & <- & Hq). cbn [fst]. assert (V' : v < x0) by nra. specialize (B V' q Hq). nra.
  - replace (a * x0 + b - (a * x1 + b)) with (- a * (x1 - x0)) by ring. replace (a * v + b - (a * x1 + b)) with (- a * (x1 - v)) by ring.
    field. split; lra.
Qed.
Lemma nodup_gain a b l : a <> 0 -> NoDup l -> NoDup (map (fun x => a * x + b) l).
Proof.
  intros Ha N. induction N as [|x l I N IH]; cbn; constructor; [|exact IH]. intros C. apply in_map_iff in C. destruct C as (y & E & Hy).
  assert (y = x) by (apply (Rmult_eq_reg_l a); [lra | exact Ha]). subst y. contradiction.
Qed.
Lemma reflectance_flip a b p pix refl : a < 0 -> length pix = length refl -> (2 <= length pix)%nat -> NoDup pix ->
  img_to_reflectance (remapped a b p) (map (fun x => a * x + b) pix) refl = img_to_reflectance p pix refl.
Proof.
  intros Ha E L N.
  destruct (reflectance_value p pix refl E L N) as (x & Ex & R1 & C1 & K1).
  destruct (reflectance_value (remapped a b p) (map (fun x => a * x + b) pix) refl) as (y & Ey & R2 & C2 & K2);
    [now rewrite map_length | now rewrite map_length | apply nodup_gain; [lra | exact N]|].
  rewrite Ex, Ey. f_equal. destruct x as [n1 m1 x], y as [n2 m2 y]. cbn [xrows xcols xpx remapped rows cols px] in *. subst. f_equal.
  do 2 (apply functional_extensionality; intro). edestruct K1 as (r & -> & Cr). edestruct K2 as (q & -> & Cq). do 2 f_equal.
  apply (calibrated_flip a b _ _ _ Ha) in Cr. rewrite <- combine_gain in Cr.
  eapply calibrated_unique; [|exact Cq | exact Cr]. apply nodup_functional. rewrite combine_fst by (rewrite map_length; exact E).
  apply nodup_gain; [lra | exact N].
Qed.
Lemma simulate_flip ni it diag d a b p gsd pix refl r s w : a < 0 -> length pix = length refl -> (2 <= length pix)%nat -> NoDup pix ->
  reference_init p gsd (Some pix) (Some refl) = Ok r ->
  exists r', reference_init (remapped a b p) gsd (Some (map (fun x => a * x + b) pix)) (Some refl) = Ok r' /\
    simulate_image ni it diag d r' s w = simulate_image ni it diag d r s w.
Proof.
  intros Ha E L N H. apply ok_inj in H. subst r. eexists. split; [reflexivity|]. apply simulate_same; [reflexivity|].
  cbn [sr_img sr_pix sr_refl ri_pix ri_refl]. apply reflectance_flip; assumption.
Qed.
