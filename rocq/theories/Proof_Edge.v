(** * Proof_Edge: edge response, overshoot, ground resolved distance *)
From Coq Require Import Reals Lra List Lia ZArith Sorted Psatz.
From Verif Require Import Base_XR Base_Np Base_NpFacts Base_Interp Base_Mono Model_Geo Model_Rad Model_Met Spec_Rad Proof_Rad
  Spec_Met Proof_Otf Proof_Pe.
Import ListNotations.
Open Scope R_scope.

Lemma freq_pos df i : 0 <= df -> 0 < freq_of df i.
Proof.
  intros H. unfold freq_of. assert (0 <= df * INR i) by (apply Rmult_le_pos; [auto|apply pos_INR]).
  assert (0 < / 10 ^ 6) by (apply Rinv_0_lt_compat; lra). lra.
Qed.
Lemma freq_asc df n k : 0 <= df -> ascending (map (freq_of df) (seq k n)).
Proof.
  intros H. revert k. induction n as [|n IH]; intros k; simpl; auto. destruct n as [|n]; simpl; auto. split.
  - unfold freq_of. rewrite (S_INR k). nra.
  - apply (IH (S k)).
Qed.

(* the trapezoid is linear in its ordinates *)
Lemma trap_scale {I} a (f h : I -> R) x l : (forall i, In i l -> h i = a * f i) ->
  trapezoid (map h l) (map x l) = a * trapezoid (map f l) (map x l).
Proof.
  intros H. rewrite (trapezoid_lin a 0 f (fun _ => 0) h x l).
  - rewrite trapezoid_zero. ring.
  - intros i Hi. rewrite (H i Hi). ring.
Qed.

Lemma er_value mtf df ifov x : 0 <= df -> edge_response x mtf df ifov = Ok (Fin (edge_at mtf df ifov x)).
Proof.
  intros Hd. unfold edge_response. set (n := length mtf).
  assert (E : map2 (fun m w => xmul (xdiv (Fin m) (Fin w)) (Fin (sin (2 * PI * w * ifov * x)))) mtf
                (map (fun i => df * INR i + / 10 ^ 6) (seq 0 n))
            = map (fun i => Fin (nth i mtf 0 / freq_of df i * sin (2 * PI * freq_of df i * (ifov * x)))) (seq 0 n)).
  { rewrite (list_as_map mtf 0) at 1. fold n. rewrite map2_map, map2_diag. apply map_ext_in. intros i Hi.
    pose proof (freq_pos df i Hd) as P. fold (freq_of df i). rewrite xdiv_fin, xmul_fin by lra. do 3 f_equal. ring. }
  rewrite E. rewrite (map_ext (fun i => df * INR i + / 10 ^ 6) (freq_of df)) by reflexivity.
  rewrite trapz_maps. cbn [bind]. rewrite xmul_fin, xadd_fin. do 2 f_equal. unfold edge_at. fold n.
  rewrite (trap_scale PI (fun i => nth i mtf 0 * sin (2 * PI * freq_of df i * (ifov * x)) / (PI * freq_of df i))).
  - pose proof PI_RGT_0. rewrite <- Rmult_assoc. replace (1 / PI * PI) with 1 by (field; lra). lra.
  - intros i Hi. pose proof (freq_pos df i Hd). pose proof PI_RGT_0. field. lra.
Qed.

Lemma edge_odd mtf df ifov x : edge_at mtf df ifov (- x) = 1 - edge_at mtf df ifov x.
Proof.
  unfold edge_at.
  rewrite (trap_scale (-1) (fun i => nth i mtf 0 * sin (2 * PI * freq_of df i * (ifov * x)) / (PI * freq_of df i))).
  - lra.
  - intros i Hi. replace (2 * PI * freq_of df i * (ifov * - x)) with (- (2 * PI * freq_of df i * (ifov * x))) by ring.
    rewrite sin_neg. unfold Rdiv. ring.
Qed.
Lemma er_antisymmetric mtf df ifov x : 0 <= df -> exists a b,
  edge_response x mtf df ifov = Ok (Fin a) /\ edge_response (- x) mtf df ifov = Ok (Fin b) /\ a + b = 1.
Proof. intros H. do 2 eexists. rewrite !er_value by auto. do 2 (split; [reflexivity|]). rewrite edge_odd. ring. Qed.
Lemma er_centre mtf df ifov : 0 <= df -> edge_response 0 mtf df ifov = Ok (Fin (1 / 2)).
Proof.
  intros H. rewrite er_value by auto. pose proof (edge_odd mtf df ifov 0) as E. rewrite Ropp_0 in E.
  do 2 f_equal. lra.
Qed.
Lemma rer_value mtf df ifov : 0 <= df ->
  relative_edge_response mtf df ifov = Ok (Fin (2 * edge_at mtf df ifov (1 / 2) - 1)).
Proof.
  intros H. unfold relative_edge_response. rewrite !er_value by auto. cbn [bind]. rewrite xsub_fin.
  replace (- 0.5) with (- (1 / 2)) by lra. replace 0.5 with (1 / 2) by lra. rewrite edge_odd. do 2 f_equal. ring.
Qed.
Lemma er_scale mtf df ifov k x : edge_response (k * x) mtf df ifov = edge_response x mtf df (k * ifov).
Proof.
  unfold edge_response. do 2 f_equal. apply map2_ext. intros m w. do 3 f_equal. ring.
Qed.

(* linear in the transfer function *)
Lemma edge_linear a b m1 m2 m df ifov x : length m1 = length m -> length m2 = length m ->
  (forall i, (i < length m)%nat -> nth i m 0 = a * nth i m1 0 + b * nth i m2 0) ->
  edge_at m df ifov x - 1 / 2 = a * (edge_at m1 df ifov x - 1 / 2) + b * (edge_at m2 df ifov x - 1 / 2).
Proof.
  intros L1 L2 H. unfold edge_at. rewrite L1, L2.
  rewrite (trapezoid_lin a b (fun i => nth i m1 0 * sin (2 * PI * freq_of df i * (ifov * x)) / (PI * freq_of df i))
                             (fun i => nth i m2 0 * sin (2 * PI * freq_of df i * (ifov * x)) / (PI * freq_of df i))).
  - ring.
  - intros i Hi. apply in_seq in Hi. rewrite H by lia. unfold Rdiv. ring.
Qed.

(* below the detector cutoff the relative edge response is between 0 and
   twice ifov times the area under the transfer function *)
Lemma sin_le_x y : 0 <= y -> sin y <= y.
Proof. intros H. destruct H as [H|<-]; [left; now apply sin_lt_x|rewrite sin_0; lra]. Qed.
Lemma rer_bounds mtf df ifov : 0 <= df -> 0 <= ifov -> all_nonneg mtf ->
  (forall i, (i < length mtf)%nat -> freq_of df i * ifov <= 1) ->
  exists r, relative_edge_response mtf df ifov = Ok (Fin r) /\
    0 <= r <= 2 * ifov * trapezoid mtf (map (freq_of df) (seq 0 (length mtf))).
Proof.
  intros Hd Hi Hm Hc. eexists. split; [now apply rer_value|].
  set (n := length mtf). unfold edge_at. fold n.
  set (T := trapezoid (map (fun i => nth i mtf 0 * sin (2 * PI * freq_of df i * (ifov * (1 / 2))) / (PI * freq_of df i)) (seq 0 n)) (map (freq_of df) (seq 0 n))).
  pose proof PI_RGT_0 as HP.
  assert (A : forall i, In i (seq 0 n) ->
    0 <= nth i mtf 0 * sin (2 * PI * freq_of df i * (ifov * (1 / 2))) / (PI * freq_of df i) <= ifov * nth i mtf 0).
  { intros i Hin. apply in_seq in Hin. pose proof (freq_pos df i Hd) as Q. specialize (Hc i ltac:(fold n; lia)).
    assert (M0 : 0 <= nth i mtf 0) by (apply Hm, nth_In; fold n; lia).
    set (w := freq_of df i) in *. replace (2 * PI * w * (ifov * (1 / 2))) with (PI * (w * ifov)) by field.
    assert (W0 : 0 <= w * ifov) by (apply Rmult_le_pos; lra).
    assert (B0 : 0 <= PI * (w * ifov)) by (apply Rmult_le_pos; lra).
    assert (B1 : PI * (w * ifov) <= PI) by nra.
    assert (S0 : 0 <= sin (PI * (w * ifov))) by (apply sin_ge_0; auto).
    assert (S1 := sin_le_x _ B0).
    assert (PW : 0 < PI * w) by (apply Rmult_lt_0_compat; auto).
    split.
    - apply Rmult_le_pos; [now apply Rmult_le_pos|]. left. now apply Rinv_0_lt_compat.
    - apply Rmult_le_reg_r with (PI * w); auto. unfold Rdiv. rewrite (Rmult_assoc _ _ (PI * w)), Rinv_l, Rmult_1_r by lra.
      apply Rle_trans with (nth i mtf 0 * (PI * (w * ifov))); [now apply Rmult_le_compat_l|right; ring]. }
  assert (T0 : 0 <= T).
  { apply trapezoid_nonneg; [apply A|]. apply freq_asc; auto. }
  assert (T1 : T <= ifov * trapezoid mtf (map (freq_of df) (seq 0 n))).
  { rewrite (list_as_map mtf 0) at 1. fold n.
    rewrite <- (trap_scale ifov (fun i => nth i mtf 0) (fun i => ifov * nth i mtf 0)) by auto.
    apply trapezoid_mono; [apply A|]. apply freq_asc; auto. }
  lra.
Qed.

(** ** C76 *)
Lemma mapM_fin {A} (f : A -> res xr) (g : A -> R) l : (forall a, f a = Ok (Fin (g a))) ->
  mapM f l = Ok (map Fin (map g l)).
Proof. intros H. induction l as [|a l IH]; simpl; auto. rewrite H, IH. reflexivity. Qed.
Lemma xmaxl_fin x l : xmaxl (Fin x :: map Fin l) = Ok (Fin (fold_left Rmax l x)).
Proof.
  unfold xmaxl. f_equal. revert x. induction l as [|y l IH]; intros x; cbn [map fold_left]; auto. rewrite xmax_fin. apply IH.
Qed.
Lemma fold_max_spec l x : In (fold_left Rmax l x) (x :: l) /\ forall y, In y (x :: l) -> y <= fold_left Rmax l x.
Proof.
  revert x. induction l as [|z l IH]; intros x; simpl.
  - split; [now left|]. intros y [->|[]]. lra.
  - destruct (IH (Rmax x z)) as [A B]. split.
    + destruct A as [A|A]; [|now right; right]. rewrite <- A. destruct (Rle_dec x z).
      * right; left. now rewrite Rmax_right.
      * left. rewrite Rmax_left; lra.
    + assert (M : Rmax x z <= fold_left Rmax l (Rmax x z)) by (apply B; now left).
      intros y [->|[->|H]].
      * apply Rle_trans with (Rmax y z); auto. apply Rmax_l.
      * apply Rle_trans with (Rmax x y); auto. apply Rmax_r.
      * apply B. now right.
Qed.
Lemma xdiff_fin l : xdiff (map Fin l) = map2 (fun b a => Fin (b - a)) (tl l) l.
Proof.
  unfold xdiff. rewrite <- map_tl || idtac. destruct l as [|a l]; auto. cbn [tl map].
  change (Fin a :: map Fin l) with (map Fin (a :: l)). rewrite map2_map. reflexivity.
Qed.
Lemma forallb_diff l : forallb (fun d => xlt (Fin 0) d) (xdiff (map Fin l)) = true <->
  forall k, (S k < length l)%nat -> nth k l 0 < nth (S k) l 0.
Proof.
  rewrite xdiff_fin. induction l as [|a [|b l] IH]; simpl.
  - split; auto. intros; lia.
  - split; auto. intros; lia.
  - simpl in IH. destruct (Rltb 0 (b - a)) eqn:E; simpl.
    + apply Rltb_true in E. rewrite IH. split; intros H k Hk.
      * destruct k; [lra|]. apply (H k). lia.
      * apply (H (S k)). lia.
    + apply Rltb_false in E. split; [discriminate|]. intros H. specialize (H 0%nat ltac:(lia)). simpl in H. lra.
Qed.
Lemma eho_spec mtf df ifov : 0 <= df -> exists r,
  edge_height_overshoot mtf df ifov = Ok (Fin r) /\
  (exists k, (k < 9)%nat /\ r = edge_at mtf df ifov (overshoot_place k)) /\
  ((forall k, (k < 8)%nat -> edge_at mtf df ifov (overshoot_place k) < edge_at mtf df ifov (overshoot_place (S k))) ->
     r = edge_at mtf df ifov (5 / 4)) /\
  ((exists k, (k < 8)%nat /\ edge_at mtf df ifov (overshoot_place (S k)) <= edge_at mtf df ifov (overshoot_place k)) ->
     forall k, (k < 9)%nat -> edge_at mtf df ifov (overshoot_place k) <= r).
Proof.
  intros Hd. unfold edge_height_overshoot, eho_positions.
  rewrite (mapM_fin _ (edge_at mtf df ifov)) by (intros; now apply er_value). cbn [bind].
  rewrite (map_map (fun i => 1 + INR i * 0.25) (edge_at mtf df ifov)). set (g := fun i => edge_at mtf df ifov (1 + INR i * 0.25)).
  assert (G : forall k, edge_at mtf df ifov (overshoot_place k) = g k).
  { intros k. unfold g, overshoot_place. f_equal. lra. }
  assert (L : length (map g (seq 0 9)) = 9%nat) by now rewrite map_length, seq_length.
  assert (N : forall k, (k < 9)%nat -> nth k (map g (seq 0 9)) 0 = g k).
  { intros k Hk. rewrite (nth_indep _ 0 (g 0%nat)) by now rewrite L. rewrite map_nth, seq_nth; auto. }
  destruct (forallb _ _) eqn:E.
  - pose proof (proj1 (forallb_diff _) E) as Inc. rewrite L in Inc.
    exists (g 1%nat). split; [reflexivity|]. split; [exists 1%nat; split; [lia|now rewrite G]|]. split.
    + intros _. rewrite <- (G 1%nat). f_equal. unfold overshoot_place. simpl. lra.
    + intros [k [Hk B]]. specialize (Inc k ltac:(lia)). rewrite !N in Inc by lia. rewrite !G in B. lra.
  - change (map Fin (map g (seq 0 9))) with (Fin (g 0%nat) :: map Fin (map g (seq 1 8))). rewrite xmaxl_fin.
    eexists. split; [reflexivity|].
    destruct (fold_max_spec (map g (seq 1 8)) (g 0%nat)) as [A B].
    change (g 0%nat :: map g (seq 1 8)) with (map g (seq 0 9)) in A, B.
    split; [|split].
    + apply in_map_iff in A. destruct A as [k [A1 A2]]. exists k. apply in_seq in A2. split; [lia|]. now rewrite G.
    + intros H. exfalso. assert (E' : forallb (fun d => xlt (Fin 0) d) (xdiff (map Fin (map g (seq 0 9)))) = true).
      { apply forallb_diff. rewrite L. intros k Hk. rewrite !N by lia. rewrite <- !G. apply H. lia. }
      rewrite E' in E. discriminate.
    + intros _ k Hk. rewrite G. apply B. apply in_map. apply in_seq. lia.
Qed.

(** ** C77 *)
Section Grd.
  Variables (mtf : list R) (df : R).
  Hypothesis Hn : mtf <> [].
  Hypothesis Hd : 0 <= df.
  Let n := length mtf.
  Let w := map (fun i => df * INR i) (seq 0 n).
  Let tab := combine (rev mtf) (rev w).
  Lemma w_length : length w = n. Proof. unfold w. now rewrite map_length, seq_length. Qed.
  Lemma w_nth i : (i < n)%nat -> nth i w 0 = df * INR i.
  Proof.
    intros H. unfold w. rewrite (nth_indep _ 0 (df * INR 0)) by now rewrite map_length, seq_length.
    rewrite (map_nth (fun i => df * INR i)), seq_nth; auto.
  Qed.
  Lemma n_pos : (0 < n)%nat. Proof. unfold n. destruct mtf; [contradiction|simpl; lia]. Qed.
  Lemma tab_ok : interp_table (rev mtf) (rev w) = Ok tab.
  Proof.
    apply interp_table_ok.
    - intros E. apply (f_equal (@length R)) in E. rewrite rev_length in E. pose proof n_pos. unfold n in *. simpl in E. lia.
    - now rewrite !rev_length, w_length.
  Qed.
  Lemma tab_ne : tab <> [].
  Proof.
    apply combine_nonempty; [|now rewrite !rev_length, w_length].
    intros E. apply (f_equal (@length R)) in E. rewrite rev_length in E. pose proof n_pos. unfold n in *. simpl in E. lia.
  Qed.
  Lemma tab_length : length tab = n.
  Proof. unfold tab. rewrite combine_length, !rev_length, w_length. apply Nat.min_id. Qed.
  Lemma tab_nth k : (k < n)%nat -> nth k tab (0, 0) = (nth (n - S k) mtf 0, df * INR (n - S k)).
  Proof.
    intros H. unfold tab. rewrite combine_nth by now rewrite !rev_length, w_length.
    rewrite !rev_nth by (rewrite ?w_length; auto). rewrite w_length. rewrite w_nth by lia. reflexivity.
  Qed.
  Lemma tab_in p : In p tab -> exists i, (i < n)%nat /\ p = (nth i mtf 0, df * INR i).
  Proof.
    intros H. destruct (In_nth _ _ (0, 0) H) as [k [Hk E]]. rewrite tab_length in Hk. rewrite tab_nth in E by auto.
    exists (n - S k)%nat. split; [lia|auto].
  Qed.
  Lemma w_top i : (i < n)%nat -> 0 <= df * INR i <= df * INR (n - 1).
  Proof.
    intros H. split; [apply Rmult_le_pos; auto; apply pos_INR|]. apply Rmult_le_compat_l; auto. apply le_INR. lia.
  Qed.
  Lemma fp_first : nth 0 (rev w) 0 = df * INR (n - 1).
  Proof.
    pose proof n_pos. rewrite rev_nth by (rewrite w_length; auto). rewrite w_length, w_nth by lia. do 2 f_equal. 
  Qed.
  Lemma fp_last : last (rev w) 0 = 0.
  Proof.
    pose proof n_pos. unfold w. destruct n as [|m]; [lia|]. simpl. rewrite last_last. ring.
  Qed.
  Lemma grd_value s ifov r : exists u, ground_resolved_distance mtf df (Fin s) ifov r =
      Ok (Fin (Rmax (r / (u + / 10 ^ 12)) (2 * ifov * r))) /\ 0 <= u <= df * INR (n - 1) /\
      (s <> 0 -> u = interp_tab (3 / s) tab (df * INR (n - 1)) 0) /\ (s = 0 -> u = 0).
  Proof.
    unfold ground_resolved_distance. fold n. fold w. unfold np_interp. rewrite tab_ok. cbn [bind].
    rewrite fp_first, fp_last.
    set (x := xdiv (Fin 3) (Fin s)).
    set (u := match x with Fin q => interp_tab q tab (df * INR (n - 1)) 0 | _ => 0 end).
    assert (X : (exists q, x = Fin q) \/ x = PInf).
    { unfold x. destruct (Req_dec s 0) as [->|Hs]; [right; apply xdiv_zero_pos; lra|left; eexists; now apply xdiv_fin]. }
    assert (E : match x with Fin q => Fin (interp_tab q tab (df * INR (n - 1)) 0) | PInf => Fin 0
                | NInf => Fin (df * INR (n - 1)) | NaN => NaN end = Fin u).
    { unfold u. destruct X as [[q ->]| ->]; reflexivity. }
    rewrite E. pose proof (w_top 0%nat n_pos) as W0. simpl in W0.
    assert (U : 0 <= u <= df * INR (n - 1)).
    { unfold u. destruct x; try lra.
      apply (interp_bounds (fun y => 0 <= y <= df * INR (n - 1))); try lra.
      - apply tab_ne.
      - intros a b t Pa Pb Ht. now apply convex_between.
      - intros p Hp. destruct (tab_in p Hp) as [i [Hi ->]]. simpl. now apply w_top. }
    exists u. assert (0 < / 10 ^ 12) by (apply Rinv_0_lt_compat; lra).
    split; [|split; [exact U|split]].
    - rewrite xadd_fin, xdiv_fin, xmul_fin, xmax_fin by lra. do 2 f_equal. f_equal; [field; lra|ring].
    - intros Hs. unfold u, x. rewrite xdiv_fin by auto. reflexivity.
    - intros ->. unfold u, x. now rewrite xdiv_zero_pos by lra.
  Qed.
  Lemma tab_falling : never_rising mtf -> falling tab.
  Proof.
    intros H. unfold falling.
    assert (G : forall i j, (i < j < length tab)%nat ->
      fst (nth i tab (0, 0)) <= fst (nth j tab (0, 0)) /\ snd (nth j tab (0, 0)) <= snd (nth i tab (0, 0))).
    { intros i j Hij. rewrite tab_length in Hij. rewrite !tab_nth by lia. simpl. split.
      - apply H. fold n. lia.
      - apply Rmult_le_compat_l; auto. apply le_INR. lia. }
    revert G. generalize tab. intros T. induction T as [|p T IH]; intros G; constructor.
    - apply IH. intros i j Hij. apply (G (S i) (S j)). simpl. lia.
    - apply Forall_forall. intros q Hq. destruct (In_nth _ _ (0, 0) Hq) as [k [Hk <-]].
      apply (G 0%nat (S k)). simpl. lia.
  Qed.
  Lemma grd_floor s ifov r : exists g, ground_resolved_distance mtf df (Fin s) ifov r = Ok (Fin g) /\ 2 * ifov * r <= g.
  Proof. destruct (grd_value s ifov r) as [u [E _]]. eexists. split; [exact E|]. apply Rmax_r. Qed.
  Lemma grd_snr s1 s2 ifov r : never_rising mtf -> 0 <= r -> 0 < s1 -> s1 <= s2 -> exists g1 g2,
    ground_resolved_distance mtf df (Fin s1) ifov r = Ok (Fin g1) /\
    ground_resolved_distance mtf df (Fin s2) ifov r = Ok (Fin g2) /\ g2 <= g1.
  Proof.
    intros Hf Hr H1 H2.
    destruct (grd_value s1 ifov r) as [u1 [E1 [B1 [V1 _]]]]. destruct (grd_value s2 ifov r) as [u2 [E2 [B2 [V2 _]]]].
    specialize (V1 ltac:(lra)). specialize (V2 ltac:(lra)).
    assert (U : u1 <= u2).
    { rewrite V1, V2. apply interp_anti.
      - apply tab_ne.
      - now apply tab_falling.
      - intros p Hp. destruct (tab_in p Hp) as [i [Hi ->]]. simpl. now apply w_top.
      - apply Rmult_le_compat_l; [lra|]. apply Rinv_le_contravar; lra. }
    do 2 eexists. split; [exact E1|]. split; [exact E2|].
    assert (0 < / 10 ^ 12) by (apply Rinv_0_lt_compat; lra).
    apply Rle_max_compat_r. apply Rmult_le_compat_l; auto. apply Rinv_le_contravar; lra.
  Qed.
  (* where the limiting frequency comes from *)
  Lemma grd_curve s ifov r : strictly_falling mtf -> s <> 0 -> (1 < n)%nat ->
    nth (n - 1) mtf 0 <= 3 / s <= nth 0 mtf 0 ->
    exists f, on_curve mtf df f (3 / s) /\
      ground_resolved_distance mtf df (Fin s) ifov r = Ok (Fin (Rmax (r / (f + / 10 ^ 12)) (2 * ifov * r))).
  Proof.
    intros Hf Hs H1 Hb. destruct (grd_value s ifov r) as [u [E [_ [V _]]]]. specialize (V Hs).
    set (y := 3 / s) in *.
    (* the sample pair that brackets y *)
    assert (P : exists i, (S i < n)%nat /\ nth (S i) mtf 0 <= y <= nth i mtf 0).
    { assert (Q : forall k, (k < n)%nat -> nth k mtf 0 <= y -> exists i, (S i < n)%nat /\ nth (S i) mtf 0 <= y <= nth i mtf 0).
      { induction k as [|k IH]; intros Hk Hy.
        - exists 0%nat. split; [lia|]. split; [|lra]. apply Rle_trans with (nth 0 mtf 0); auto. left. apply Hf. fold n. lia.
        - destruct (Rle_dec (nth k mtf 0) y) as [L|L]; [apply IH; auto; lia|]. exists k. split; [lia|]. lra. }
      apply (Q (n - 1)%nat); [lia|apply Hb]. }
    destruct P as [i [Hi Hy]].
    assert (Inc : increasing tab).
    { unfold tab. apply increasing_combine. 
      assert (G : forall a b, (a < b < length (rev mtf))%nat -> nth a (rev mtf) 0 < nth b (rev mtf) 0).
      { intros a b Hab. rewrite rev_length in Hab. rewrite !rev_nth by lia. apply Hf. lia. }
      revert G. generalize (rev mtf). intros T. induction T as [|p T IH]; intros G; constructor.
      - apply IH. intros a b Hab. apply (G (S a) (S b)). simpl. lia.
      - apply Forall_forall. intros q Hq. destruct (In_nth _ _ 0 Hq) as [k [Hk <-]]. apply (G 0%nat (S k)). simpl. lia. }
    assert (Sp : exists pre post, tab = pre ++ (nth (S i) mtf 0, df * INR (S i)) :: (nth i mtf 0, df * INR i) :: post).
    { destruct (nth_split (n:=n - S (S i)) tab (0, 0)) as [pre [post [E1 L1]]]; [rewrite tab_length; lia|].
      rewrite tab_nth in E1 by lia. replace (n - S (n - S (S i)))%nat with (S i) in E1 by lia.
      assert (N2 : nth (n - S i) tab (0, 0) = (nth i mtf 0, df * INR i)).
      { rewrite tab_nth by lia. replace (n - S (n - S i))%nat with i by lia. reflexivity. }
      rewrite E1 in N2. rewrite app_nth2 in N2 by lia. rewrite L1 in N2.
      replace (n - S i - (n - S (S i)))%nat with 1%nat in N2 by lia. simpl in N2.
      destruct post as [|q post].
      - exfalso. assert (L : length tab = n) by apply tab_length. rewrite E1, app_length, L1 in L. simpl in L. lia.
      - simpl in N2. subst q. exists pre, post. exact E1. }
    destruct Sp as [pre [post Sp]].
    pose proof (interp_segment tab (df * INR (n - 1)) 0 pre _ _ _ _ post y Inc Sp Hy) as Seg. rewrite <- V in Seg.
    set (a := nth (S i) mtf 0) in *. set (b := nth i mtf 0) in *.
    assert (AB : a < b) by (apply Hf; fold n; lia).
    exists u. split; [|exact E]. exists i, ((b - y) / (b - a)). split; [exact Hi|].
    assert (T : 0 <= (b - y) / (b - a) <= 1).
    { split; [apply Rmult_le_pos; [lra|left; apply Rinv_0_lt_compat; lra]|].
      apply Rmult_le_reg_r with (b - a); [lra|]. unfold Rdiv. rewrite Rmult_assoc, Rinv_l by lra. lra. }
    split; [exact T|]. split.
    - rewrite Seg, S_INR. field. lra.
    - fold a b. field. lra.
  Qed.
End Grd.
