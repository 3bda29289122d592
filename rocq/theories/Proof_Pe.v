(** * Proof_Pe: reflectance_to_photoelectrons *)
From Coq Require Import Reals Lra List Lia ZArith Psatz.
From Verif Require Import Base_XR Base_Np Base_NpFacts Base_Interp Model_Noise Model_Sensor Model_Rad Spec_Rad Proof_Rad Proof_Snr.
Import ListNotations.
Open Scope R_scope.

Lemma mapM_ok {A B} (f : A -> res B) (g : A -> B) l : (forall x, In x l -> f x = Ok (g x)) -> mapM f l = Ok (map g l).
Proof.
  induction l as [|x l IH]; intros H; simpl; auto. rewrite H by now left. cbn [bind].
  rewrite IH by (intros; apply H; now right). reflexivity.
Qed.
Lemma last_map {A B} (f : A -> B) l d d' : l <> [] -> last (map f l) d = f (last l d').
Proof.
  induction l as [|x l IH]; intros H; [contradiction|]. simpl. destruct l as [|y l]; auto.
  simpl in *. apply IH. discriminate.
Qed.

(** ** Largest entry *)
Fixpoint maxl (x : R) (l : list R) : R := match l with [] => x | y :: l => maxl (Rmax x y) l end.
Lemma fold_xmax x l : fold_left xmax (map Fin l) (Fin x) = Fin (maxl x l).
Proof. revert x; induction l as [|y l IH]; intros x; auto. cbn [map fold_left maxl]. rewrite xmax_fin. apply IH. Qed.
Lemma maxl_ge x l : x <= maxl x l /\ forall y, In y l -> y <= maxl x l.
Proof.
  revert x; induction l as [|y l IH]; intros x; simpl; [split; [lra|tauto]|].
  destruct (IH (Rmax x y)) as [H1 H2]. pose proof (Rmax_l x y). pose proof (Rmax_r x y). split; [lra|].
  intros z [<-|Hz]; [lra|auto].
Qed.
Lemma maxl_in x l : maxl x l = x \/ In (maxl x l) l.
Proof.
  revert x; induction l as [|y l IH]; intros x; simpl; [now left|].
  destruct (IH (Rmax x y)) as [H|H]; [|tauto]. rewrite H. unfold Rmax. destruct (Rle_dec x y); tauto.
Qed.
Lemma fold_pymax x l : fold_left (fun m y => if xlt m y then y else m) (map Fin l) (Fin x) = Fin (maxl x l).
Proof.
  revert x; induction l as [|y l IH]; intros x; auto. cbn [map fold_left maxl]. rewrite xlt_fin.
  replace (if Rltb x y then Fin y else Fin x) with (Fin (Rmax x y)); [apply IH|].
  rcase; unfold Rmax; destruct (Rle_dec x y); f_equal; lra.
Qed.

(** ** One point of the curve *)
Definition raw (s : sensor) (atm : list arow) (t r : R) : R :=
  (trapezoid (map (fun a => dN_at s (a_wl a) (rad1 r 300 a)) atm) (map a_wl atm) + s_dark s) * t * s_ntdi s.
Definition spec_rate (s : sensor) (r : R) (a : arow) : R := dN_at s (a_wl a) (rad1 r 300 a).

Section Curve.
  Variables (s : sensor) (atm : list arow).
  Hypothesis Ht : has_tables s.
  Hypothesis HD : s_D s <> 0.
  Hypothesis Hw : forall a, In a atm -> a_wl a <> 0.

  Lemma pe_at_fin t r : pe_at s atm t r = Ok (Fin (raw s atm t r), map (fun a => Fin (spec_rate s r a)) atm).
  Proof.
    unfold pe_at. rewrite total_radiance_fin by auto.
    rewrite sensor_trans_fin, sensor_qe_fin by auto.
    rewrite sensor_other_fin; auto.
    2:{ intros x Hx. apply in_map_iff in Hx. destruct Hx as [a [<- Ha]]. auto. }
    cbn [bind]. rewrite (sensor_rate s a_wl (rad1 r 300)) by auto. reflexivity.
  Qed.
  Lemma raw_affine t r : raw s atm t r = (1 - r) * raw s atm t 0 + r * raw s atm t 1.
  Proof.
    unfold raw.
    rewrite (trapezoid_lin (1 - r) r (fun a => dN_at s (a_wl a) (rad1 0 300 a)) (fun a => dN_at s (a_wl a) (rad1 1 300 a))).
    - ring.
    - intros a Ha. unfold dN_at, dN1, rad1, db_reflectance. lra.
  Qed.
  Lemma raw_time k t r : raw s atm (k * t) r = k * raw s atm t r.
  Proof. unfold raw. ring. Qed.
End Curve.

(** ** Limiting *)
Definition shrink (top max_n : R) : R := if Rltb max_n top then max_n / top else 1.
Lemma shrink_bounds top m : 0 < m -> 0 < shrink top m <= 1 /\ shrink top m * top <= m.
Proof.
  intros Hm. unfold shrink. rcase; [|lra].
  assert (E : m / top * top = m) by (field; lra). split; [|lra]. split; [apply Rdiv_lt_0_compat; lra|].
  apply Rmult_le_reg_r with top; lra.
Qed.
Lemma limit_fin m v0 v : 0 < m ->
  limit_to_well m (map Fin (v0 :: v)) = Ok (map (fun p => Fin (shrink (maxl v0 v) m * p)) (v0 :: v)).
Proof.
  intros Hm. unfold limit_to_well.
  assert (E0 : xmaxl (map Fin (v0 :: v)) = Ok (Fin (maxl v0 v))) by (unfold xmaxl; cbn [map]; now rewrite fold_xmax).
  rewrite E0. cbn [bind]. set (top := maxl v0 v).
  rewrite xdiv_fin by lra. rewrite xlt_fin. f_equal.
  assert (B : forall p, In p (v0 :: v) -> p <= top).
  { intros p [<-|Hp]; [exact (proj1 (maxl_ge v0 v))|exact (proj2 (maxl_ge v0 v) p Hp)]. }
  destruct (shrink_bounds top m Hm) as [[K0 K1] K2].
  assert (E : (if Rltb 1 (top / m) then map (fun p => xdiv p (Fin (top / m))) (map Fin (v0 :: v)) else map Fin (v0 :: v))
    = map (fun p => Fin (shrink top m * p)) (v0 :: v)).
  { assert (C : Rltb 1 (top / m) = Rltb m top).
    { destruct (Rltb m top) eqn:C.
      - apply Rltb_true. apply Rltb_true in C. apply Rmult_lt_reg_r with m; auto. unfold Rdiv. rewrite Rmult_assoc, Rinv_l; lra.
      - apply Rltb_false. apply Rltb_false in C. apply Rmult_le_reg_r with m; auto. unfold Rdiv. rewrite Rmult_assoc, Rinv_l; lra. }
    rewrite C. unfold shrink. destruct (Rltb m top) eqn:C2.
    - apply Rltb_true in C2. rewrite map_map. apply map_ext. intros p.
      rewrite xdiv_fin by (apply Rgt_not_eq, Rdiv_lt_0_compat; lra). f_equal. field. lra.
    - apply map_ext. intros p. f_equal. ring. }
  rewrite E. rewrite map_map. apply map_ext_in. intros p Hp. rewrite xlt_fin.
  assert (shrink top m * p <= m).
  { apply Rle_trans with (shrink top m * top); auto. apply Rmult_le_compat_l; [lra|auto]. }
  rcase; [lra|reflexivity].
Qed.
Lemma shrink_top v0 v m : 0 < m -> m < maxl v0 v -> In m (map (fun p => shrink (maxl v0 v) m * p) (v0 :: v)).
Proof.
  intros Hm H. apply in_map_iff. exists (maxl v0 v). split.
  - unfold shrink. rewrite (proj2 (Rltb_true _ _) H). field. lra.
  - destruct (maxl_in v0 v) as [->|I]; [now left|now right].
Qed.

(** ** The whole function *)
Lemma linspace_cons a b n : exists x l, linspace a b (S n) = x :: l /\ x = a + INR 0 * ((b - a) / INR (S n - 1)).
Proof. unfold linspace. rewrite <- cons_seq. simpl map. do 2 eexists. split; reflexivity. Qed.

Lemma linspace_last a b n d : (1 < n)%nat -> last (linspace a b n) d = b.
Proof.
  intros H. assert (N : linspace a b n <> []).
  { intros E. apply (f_equal (@length R)) in E. rewrite linspace_length in E. simpl in E. lia. }
  assert (L : forall (l : list R) d, l <> [] -> last l d = nth (length l - 1) l 0).
  { clear. induction l as [|x l IH]; intros d H; [contradiction|]. destruct l as [|y l]; auto.
    change (last (x :: y :: l) d) with (last (y :: l) d). rewrite IH by discriminate.
    replace (length (x :: y :: l) - 1)%nat with (S (length (y :: l) - 1)) by (simpl; lia). reflexivity. }
  rewrite L by auto. rewrite linspace_length, linspace_nth by lia.
  assert (INR (n - 1) <> 0) by (apply not_0_INR; lia). field. auto.
Qed.

Opaque linspace.


Lemma last_of_nth l x : l <> [] -> (last_of l = Ok x <-> nth_error l (length l - 1) = Some x).
Proof.
  intros H. revert x. induction l as [|y l IH]; intros x; [contradiction|].
  destruct l as [|z l].
  - simpl. split; intros E; injection E as <-; reflexivity.
  - change (last_of (y :: z :: l)) with (last_of (z :: l)). rewrite IH by discriminate.
    replace (length (y :: z :: l) - 1)%nat with (S (length (z :: l) - 1)) by (simpl; lia). reflexivity.
Qed.
Lemma last_of_ok l : l <> [] -> exists x, last_of l = Ok x.
Proof.
  induction l as [|y l IH]; intros H; [contradiction|]. destruct l as [|z l]; [simpl; eauto|].
  destruct IH as [x Hx]; [discriminate|]. exists x. exact Hx.
Qed.

Lemma band_ok s atm : s_owl s <> [] ->
  exists b, band s atm = Ok b /\ (forall a, In a b <-> In a atm /\ in_band s a).
Proof.
  intros H. destruct (last_of_ok _ H) as [hi Hhi]. unfold band.
  destruct (s_owl s) as [|lo w] eqn:E; [contradiction|]. rewrite <- E in *. 
  assert (F : first_of (s_owl s) = Ok lo) by now rewrite E. rewrite F, Hhi. cbn [bind].
  eexists; split; [reflexivity|]. intros a. rewrite !filter_In, !Rleb_true. unfold in_band.
  apply last_of_nth in Hhi; auto. split.
  - intros [[I A] B]. split; auto. exists lo, hi. rewrite E at 1. auto.
  - intros [I [lo' [hi' [A [B C]]]]]. rewrite E in A. simpl in A. injection A as <-. rewrite Hhi in B. injection B as <-. tauto.
Qed.

Section Whole.
  Variables (s : sensor) (atm b : list arow).
  Hypothesis Ht : has_tables s.
  Hypothesis HD : s_D s <> 0.
  Hypothesis Hn : 0 < s_max_n s.
  Hypothesis Hb : band s atm = Ok b.
  Hypothesis Hne : b <> [].
  Hypothesis Hw : forall a, In a b -> a_wl a <> 0.

  Definition top_raw (t : R) : R :=
    match map (raw s b t) (linspace 0 1 100) with [] => 0 | v0 :: v => maxl v0 v end.
  Definition curve (t : R) : list R := map (fun r => shrink (top_raw t) (s_max_n s) * raw s b t r) (linspace 0 1 100).
  Definition wts : list xr :=
    match map (spec_rate s 1) b with
    | [] => []
    | w0 :: w => map (fun p => xdiv (Fin p) (Fin (maxl w0 w))) (w0 :: w)
    end.

  Lemma r2p_closed t T : reflectance_to_photoelectrons atm s t T
    = Ok (linspace 0 1 100, map Fin (curve t), (map a_wl b, wts)).
  Proof.
    unfold reflectance_to_photoelectrons. rewrite Hb. cbn [bind].
    rewrite (mapM_ok _ (fun r => (Fin (raw s b t r), map (fun a => Fin (spec_rate s r a)) b))).
    2:{ intros r _. now apply pe_at_fin. }
    cbn [bind]. rewrite map_map. cbn [fst].
    rewrite (last_map _ (linspace 0 1 100) _ 0).
    2:{ intros E. apply (f_equal (@length R)) in E. rewrite linspace_length in E. discriminate. }
    cbn [snd]. rewrite linspace_last by lia.
    unfold curve, top_raw.
    destruct (linspace_cons 0 1 99) as [x [l [El _]]]. rewrite El. cbn [map].
    rewrite <- (map_map (raw s b t) Fin). change (Fin (raw s b t x) :: map Fin (map (raw s b t) l)) with (map Fin (raw s b t x :: map (raw s b t) l)).
    rewrite limit_fin by auto. cbn [bind].
    unfold wts. destruct b as [|a0 b']; [contradiction|]. cbn [map].
    rewrite <- (map_map (spec_rate s 1) Fin). 
    assert (E0 : py_maxx (Fin (spec_rate s 1 a0) :: map Fin (map (spec_rate s 1) b')) = Ok (Fin (maxl (spec_rate s 1 a0) (map (spec_rate s 1) b')))) by (unfold py_maxx; now rewrite fold_pymax).
    rewrite E0. cbn [bind].
    f_equal. f_equal; f_equal.
    - cbn [map]. rewrite !map_map. reflexivity.
    - cbn [map]. rewrite !map_map. reflexivity.
  Qed.

  Lemma top_raw_ge t r : In r (linspace 0 1 100) -> raw s b t r <= top_raw t.
  Proof.
    intros H. unfold top_raw. assert (I : In (raw s b t r) (map (raw s b t) (linspace 0 1 100))) by now apply in_map.
    destruct (map (raw s b t) (linspace 0 1 100)) as [|v0 v]; [destruct I|].
    destruct I as [<-|I]; [exact (proj1 (maxl_ge v0 v))|exact (proj2 (maxl_ge v0 v) _ I)].
  Qed.
  Lemma curve_le t p : In p (curve t) -> p <= s_max_n s.
  Proof.
    intros H. apply in_map_iff in H. destruct H as [r [<- Hr]].
    destruct (shrink_bounds (top_raw t) (s_max_n s) Hn) as [[K0 K1] K2].
    apply Rle_trans with (shrink (top_raw t) (s_max_n s) * top_raw t); auto.
    apply Rmult_le_compat_l; [lra|now apply top_raw_ge].
  Qed.
  Lemma curve_top t : s_max_n s < top_raw t -> In (s_max_n s) (curve t).
  Proof.
    intros H. unfold curve. revert H. unfold top_raw.
    rewrite <- (map_map (raw s b t) (fun p => shrink _ (s_max_n s) * p)).
    destruct (map (raw s b t) (linspace 0 1 100)) as [|v0 v]; [intros; lra|]. intros H.
    now apply shrink_top.
  Qed.
  Lemma curve_nth t i : (i < 100)%nat ->
    nth i (curve t) 0 = shrink (top_raw t) (s_max_n s) * raw s b t (INR i / 99).
  Proof.
    intros H. unfold curve.
    rewrite nth_indep with (d' := shrink (top_raw t) (s_max_n s) * raw s b t 0) by (rewrite map_length, linspace_length; lia).
    rewrite (map_nth (fun r => shrink (top_raw t) (s_max_n s) * raw s b t r)).
    rewrite linspace_nth by auto. f_equal. f_equal. change (INR (100 - 1)) with (INR 99).
    replace (INR 99) with 99 by (rewrite INR_IZR_INZ; reflexivity). field.
  Qed.
  Lemma curve_affine t i : (i < 100)%nat ->
    nth i (curve t) 0 = (1 - INR i / 99) * nth 0 (curve t) 0 + INR i / 99 * nth 99 (curve t) 0.
  Proof.
    intros H. rewrite !curve_nth by lia. rewrite (raw_affine s b t (INR i / 99)).
    replace (INR 0 / 99) with 0 by (simpl; field).
    replace (INR 99 / 99) with 1 by (rewrite (INR_IZR_INZ 99); simpl; field). ring.
  Qed.
End Whole.

Lemma top_raw_scale s b k t : 0 <= k -> top_raw s b (k * t) = k * top_raw s b t.
Proof.
  intros Hk. unfold top_raw.
  rewrite (map_ext (raw s b (k * t)) (fun r => k * raw s b t r)) by (intros; apply raw_time).
  rewrite <- (map_map (raw s b t) (Rmult k)).
  destruct (map (raw s b t) (linspace 0 1 100)) as [|v0 v]; simpl; [ring|].
  revert v0. induction v as [|y v IH]; intros v0; simpl; auto. rewrite <- IH. f_equal.
  now apply Rmax_scale.
Qed.

(* overexposure only shortens the exposure *)
Lemma r2p_exposure atm s b t T : has_tables s -> s_D s <> 0 -> 0 < s_max_n s ->
  band s atm = Ok b -> b <> [] -> (forall a, In a b -> a_wl a <> 0) ->
  exists k, 0 < k <= 1 /\
    (forall n, s_max_n s <= n ->
       reflectance_to_photoelectrons atm s t T = reflectance_to_photoelectrons atm (with_max_n s n) (k * t) T) /\
    (k < 1 -> exists ref pe w, reflectance_to_photoelectrons atm s t T = Ok (ref, map Fin pe, w) /\ In (s_max_n s) pe) /\
    (* no shortening unless the largest count would exceed the well *)
    (k < 1 <-> s_max_n s < top_raw s b t).
Proof.
  intros Ht HD Hn Hb Hne Hw. set (k := shrink (top_raw s b t) (s_max_n s)).
  destruct (shrink_bounds (top_raw s b t) (s_max_n s) Hn) as [K K2]. fold k in K, K2.
  assert (KK : k < 1 <-> s_max_n s < top_raw s b t).
  { unfold k, shrink. rcase; [|split; lra]. split; [lra|]. intros _.
    apply Rmult_lt_reg_r with (top_raw s b t); [lra|]. unfold Rdiv. rewrite Rmult_assoc, Rinv_l; lra. }
  exists k. split; [exact K|]. split; [|split; [|exact KK]].
  - intros n Hle. rewrite (r2p_closed s atm b); auto.
    rewrite (r2p_closed (with_max_n s n) atm b); auto; try (simpl; lra).
    f_equal. f_equal. f_equal. f_equal.
    unfold curve. apply map_ext. intros r.
    change (raw (with_max_n s n) b) with (raw s b). change (top_raw (with_max_n s n) b) with (top_raw s b).
    change (s_max_n (with_max_n s n)) with n.
    rewrite top_raw_scale by lra. rewrite raw_time. fold k.
    replace (shrink (k * top_raw s b t) n) with 1; [ring|].
    unfold shrink. rcase; [lra|reflexivity].
  - intros Hk. apply KK in Hk. do 3 eexists. split; [apply (r2p_closed s atm b); auto|]. now apply curve_top.
Qed.

Lemma raw_nonneg s b t r : physical s -> 0 <= t -> 0 <= r <= 1 -> ascending (map a_wl b) ->
  (forall a, In a b -> 0 < a_wl a /\ 0 <= a_trans a /\ 0 <= a_path a /\ 0 <= a_scat a /\ 0 <= a_grnd a) ->
  0 <= raw s b t r.
Proof.
  intros P Htm Hr Ha H. unfold raw. apply Rmult_le_pos; [|apply (ph_ntdi _ P)]. apply Rmult_le_pos; auto.
  pose proof (ph_dark _ P).
  assert (0 <= trapezoid (map (fun a => dN_at s (a_wl a) (rad1 r 300 a)) b) (map a_wl b)); [|lra].
  apply trapezoid_nonneg; auto. intros a I. destruct (H a I) as [H1 [H2 [H3 [H4 H5]]]].
  assert (0 <= rad1 r 300 a).
  { unfold rad1, db_reflectance. pose proof (planck_nonneg (a_wl a) 300 H1 ltac:(lra)).
    assert (0 <= (1 - r) * planck (a_wl a) 300 * a_trans a) by (apply Rmult_le_pos; [apply Rmult_le_pos|]; lra).
    assert (0 <= a_grnd a * (r / 0.15)) by (apply Rmult_le_pos; lra). lra. }
  apply (dN_at_mono s (a_wl a) (rad1 r 300 a) (rad1 r 300 a)); auto. lra.
Qed.
Lemma linspace01_bounds r : In r (linspace 0 1 100) -> 0 <= r <= 1.
Proof.
  intros H. apply In_nth with (d := 0) in H. destruct H as [i [Hi <-]]. rewrite linspace_length in Hi.
  rewrite linspace_nth by auto. change (INR (100 - 1)) with (INR 99).
  assert (E : INR 99 = 99) by (rewrite INR_IZR_INZ; reflexivity). rewrite E.
  assert (0 <= INR i <= 99). { split; [apply pos_INR|]. rewrite <- E. apply le_INR. lia. } split; lra.
Qed.

(** ** API-level statements *)

Lemma good_band s atm : has_tables s -> good_rows s atm ->
  exists b, band s atm = Ok b /\ b <> [] /\ (forall a, In a b -> a_wl a <> 0) /\ (forall a, In a b <-> In a atm /\ in_band s a).
Proof.
  intros [H _] [[a [A1 A2]] Hz]. destruct (band_ok s atm H) as [b [Hb B]]. exists b. split; auto. split; [|split; auto].
  - intros ->. destruct (proj2 (B a)); auto.
  - intros x Hx. apply B in Hx. apply Hz; tauto.
Qed.

Lemma r2p_shape atm s t T : has_tables s -> s_D s <> 0 -> 0 < s_max_n s -> good_rows s atm ->
  exists ref pe w, reflectance_to_photoelectrons atm s t T = Ok (ref, map Fin pe, w) /\
    length ref = 100%nat /\ length pe = 100%nat /\
    (forall i, (i < 100)%nat -> nth i ref 0 = INR i / 99) /\
    (forall p, In p pe -> p <= s_max_n s) /\
    (forall i, (i < 100)%nat -> nth i pe 0 = (1 - INR i / 99) * nth 0 pe 0 + INR i / 99 * nth 99 pe 0).
Proof.
  intros Ht HD Hn G. destruct (good_band s atm Ht G) as [b [Hb [Hne [Hw _]]]].
  do 3 eexists. split; [apply (r2p_closed s atm b); auto|].
  split; [apply linspace_length|]. split; [unfold curve; now rewrite map_length, linspace_length|].
  split; [|split].
  - intros i Hi. rewrite linspace_nth by auto. change (INR (100 - 1)) with (INR 99).
    replace (INR 99) with 99 by (rewrite INR_IZR_INZ; reflexivity). field.
  - intros p. apply curve_le; auto.
  - intros i Hi. apply curve_affine; auto.
Qed.

Lemma r2p_limit atm s t T : has_tables s -> s_D s <> 0 -> 0 < s_max_n s -> good_rows s atm ->
  exists k, 0 < k <= 1 /\
    (forall n, s_max_n s <= n ->
       reflectance_to_photoelectrons atm s t T = reflectance_to_photoelectrons atm (with_max_n s n) (k * t) T) /\
    (k < 1 -> exists ref pe w, reflectance_to_photoelectrons atm s t T = Ok (ref, map Fin pe, w) /\ In (s_max_n s) pe).
Proof.
  intros Ht HD Hn G. destruct (good_band s atm Ht G) as [b [Hb [Hne [Hw _]]]].
  destruct (r2p_exposure atm s b t T) as [k [K1 [K2 [K3 _]]]]; auto. exists k. auto.
Qed.

Lemma r2p_no_limit atm s t T n ref pe w : has_tables s -> s_D s <> 0 -> 0 < s_max_n s -> s_max_n s < n -> good_rows s atm ->
  reflectance_to_photoelectrons atm (with_max_n s n) t T = Ok (ref, map Fin pe, w) ->
  (forall p, In p pe -> p <= s_max_n s) ->
  reflectance_to_photoelectrons atm s t T = Ok (ref, map Fin pe, w).
Proof.
  intros Ht HD Hn Hle G E Hp. destruct (good_band s atm Ht G) as [b [Hb [Hne [Hw _]]]].
  rewrite (r2p_closed s atm b) by auto. rewrite (r2p_closed (with_max_n s n) atm b) in E by (auto; simpl; lra).
  injection E as <- E <-. f_equal. f_equal. f_equal. rewrite <- E. f_equal.
  assert (X : curve (with_max_n s n) b t = pe).
  { clear -E. assert (J : forall a b : list R, map Fin a = map Fin b -> a = b).
    { induction a as [|x a IH]; intros [|y c] H; simpl in H; try discriminate; auto.
      injection H as -> H. f_equal. auto. } now apply J. }
  assert (Y : top_raw s b t <= s_max_n s).
  { destruct (Rle_dec (top_raw s b t) (s_max_n s)) as [|N]; auto. exfalso. apply Rnot_le_lt in N.
    destruct (Rle_dec (top_raw s b t) n) as [A|A].
    - assert (I : In (top_raw s b t) (map (raw s b t) (linspace 0 1 100))).
      { unfold top_raw in *. destruct (map (raw s b t) (linspace 0 1 100)) as [|v0 v] eqn:EE; [lra|].
        destruct (maxl_in v0 v) as [->|]; [now left|now right]. }
      apply in_map_iff in I. destruct I as [r [Er Ir]].
      assert (I2 : In (top_raw s b t) pe).
      { rewrite <- X. apply in_map_iff. exists r. split; auto.
        change (top_raw (with_max_n s n) b t) with (top_raw s b t). change (raw (with_max_n s n) b t r) with (raw s b t r).
        unfold shrink. simpl. rcase; [lra|]. lra. }
      specialize (Hp _ I2). lra.
    - assert (I2 : In n pe). { rewrite <- X. apply (curve_top (with_max_n s n) b); simpl; try lra. change (top_raw (with_max_n s n) b t) with (top_raw s b t). lra. }
      specialize (Hp _ I2). lra. }
  unfold curve. apply map_ext. intros r.
  change (top_raw (with_max_n s n) b t) with (top_raw s b t). change (raw (with_max_n s n) b t r) with (raw s b t r).
  unfold shrink. simpl. repeat rcase; lra.
Qed.

Lemma band_ascending s atm b : band s atm = Ok b -> ascending (map a_wl atm) -> ascending (map a_wl b).
Proof.
  intros Hb Ha. unfold band in Hb. destruct (first_of _) as [lo|]; [|discriminate]. destruct (last_of _) as [hi|]; [|discriminate].
    cbn [bind] in Hb. injection Hb as <-.
    assert (F : forall P l, ascending (map a_wl l) -> ascending (map a_wl (filter P l)) /\ forall x, (forall a, In a l -> x <= a_wl a) -> forall a, In a (filter P l) -> x <= a_wl a).
    { intros Q l. split; [|intros x Hx a I; apply filter_In in I; apply Hx; tauto].
      assert (Mn : forall l a, ascending (map a_wl (a :: l)) -> forall c, In c l -> a_wl a <= a_wl c).
      { clear. induction l as [|y l IH]; intros a H c I; [destruct I|]. destruct H as [H1 H2]. destruct I as [<-|I]; auto.
        apply Rle_trans with (a_wl y); auto. }
      assert (Cn : forall x l, (forall c, In c l -> a_wl x <= a_wl c) -> ascending (map a_wl l) -> ascending (map a_wl (x :: l))).
      { clear. intros x [|y l] H H2; simpl; auto. split; auto. apply H. now left. }
      induction l as [|x l IH]; [simpl; auto|]. simpl filter.
      assert (ascending (map a_wl l)) by (destruct l; simpl in H; tauto).
      destruct (Q x); [|auto]. apply Cn; auto. intros c I. apply filter_In in I. eapply Mn; [exact H|tauto]. }
    apply F. apply F. exact Ha.
Qed.

Lemma r2p_nonneg atm s t T : physical s -> 0 <= t -> good_rows s atm -> ascending (map a_wl atm) ->
  sound_rows atm ->
  exists ref pe w, reflectance_to_photoelectrons atm s t T = Ok (ref, map Fin pe, w) /\ all_nonneg pe.
Proof.
  intros P Htm G Ha Hr. destruct (good_band s atm (ph_tables _ P) G) as [b [Hb [Hne [Hw B]]]].
  do 3 eexists. split; [apply (r2p_closed s atm b); auto; try apply (ph_tables _ P); try apply (ph_D _ P); apply (ph_max_n _ P)|].
  intros p I. apply in_map_iff in I. destruct I as [r [<- Hin]].
  destruct (shrink_bounds (top_raw s b t) (s_max_n s) (ph_max_n _ P)) as [[K0 _] _].
  apply Rmult_le_pos; [lra|]. apply raw_nonneg; auto.
  - now apply linspace01_bounds.
  - now apply (band_ascending s atm).
  - intros a I. apply B in I. apply Hr. tauto.
Qed.

(* comparison of the two ends of the curve *)
Lemma r2p_trend atm s t T : physical s -> 0 <= t -> good_rows s atm -> ascending (map a_wl atm) ->
  (forall a, In a atm -> 0 < a_wl a) ->
  exists ref pe w, reflectance_to_photoelectrons atm s t T = Ok (ref, map Fin pe, w) /\
    ((forall a, In a atm -> in_band s a -> planck (a_wl a) 300 * a_trans a <= a_grnd a / 0.15) -> nth 0 pe 0 <= nth 99 pe 0) /\
    ((forall a, In a atm -> in_band s a -> a_grnd a / 0.15 <= planck (a_wl a) 300 * a_trans a) -> nth 99 pe 0 <= nth 0 pe 0).
Proof.
  intros P Htm G Ha Hr. destruct (good_band s atm (ph_tables _ P) G) as [b [Hb [Hne [Hw B]]]].
  do 3 eexists. split; [apply (r2p_closed s atm b); auto; try apply (ph_tables _ P); try apply (ph_D _ P); apply (ph_max_n _ P)|].
  destruct (shrink_bounds (top_raw s b t) (s_max_n s) (ph_max_n _ P)) as [[K0 _] _].
  rewrite !curve_nth by lia.
  replace (INR 0 / 99) with 0 by (simpl; field).
  replace (INR 99 / 99) with 1 by (rewrite (INR_IZR_INZ 99); simpl; field).
  assert (As : ascending (map a_wl b)) by now apply (band_ascending s atm).
  assert (C : forall lam x y, 0 < lam -> x <= y -> dN_at s lam x <= dN_at s lam y).
  { intros lam x y Hl Hxy. unfold dN_at, dN1. apply Rmult_le_compat_l.
    - apply Rmult_le_pos; [|apply (ph_wy _ P)]. apply Rmult_le_pos; [|apply (ph_wx _ P)].
      apply Rmult_le_pos; [|now apply qe_nonneg]. left. apply Rdiv_lt_0_compat; auto. apply Rmult_lt_0_compat; auto.
    - apply Rplus_le_compat_r. apply Rmult_le_compat_l; [now apply trans_nonneg|].
      apply Rmult_le_compat_l; auto. left. apply cone_pos. }
  assert (D : forall r1 r2, (forall a, In a b -> rad1 r1 300 a <= rad1 r2 300 a) -> raw s b t r1 <= raw s b t r2).
  { intros r1 r2 H. unfold raw. apply Rmult_le_compat_r; [apply (ph_ntdi _ P)|]. apply Rmult_le_compat_r; auto.
    apply Rplus_le_compat_r. apply trapezoid_mono; auto. intros a I. apply C; auto. apply Hr. apply B; auto. }
  split; intros H; (apply Rmult_le_compat_l; [lra|]); apply D; intros a I; apply B in I; destruct I as [I1 I2];
    specialize (H a I1 I2); unfold rad1, db_reflectance; lra.
Qed.

(** ** Weights *)
Lemma r2p_weights atm s t T : physical s -> 0 <= t -> good_rows s atm -> ascending (map a_wl atm) ->
  sound_rows atm ->
  exists ref pe wl w, reflectance_to_photoelectrons atm s t T = Ok (ref, map Fin pe, (wl, w)) /\
    length wl = length w /\ (forall x, In x wl <-> exists a, In a atm /\ in_band s a /\ a_wl a = x) /\
    ((exists v, w = map Fin v /\ (forall x, In x v -> 0 <= x <= 1) /\ In 1 v) \/
     ((forall x, In x w -> x = NaN) /\
      nth 99 pe 0 <= s_dark s * t * s_ntdi s)).
Proof.
  intros P Htm G Ha Hr. destruct (good_band s atm (ph_tables _ P) G) as [b [Hb [Hne [Hw B]]]].
  do 4 eexists. split; [apply (r2p_closed s atm b); auto; try apply (ph_tables _ P); try apply (ph_D _ P); apply (ph_max_n _ P)|].
  assert (NN : forall r a, 0 <= r <= 1 -> In a b -> 0 <= dN_at s (a_wl a) (rad1 r 300 a)).
  { intros r a Hr1 I. apply B in I. destruct (Hr a) as [H1 [H2 [H3 [H4 H5]]]]; [tauto|].
    assert (0 <= rad1 r 300 a).
    { unfold rad1, db_reflectance. pose proof (planck_nonneg (a_wl a) 300 H1 ltac:(lra)).
      assert (0 <= (1 - r) * planck (a_wl a) 300 * a_trans a) by (apply Rmult_le_pos; [apply Rmult_le_pos|]; lra).
      assert (0 <= a_grnd a * (r / 0.15)) by (apply Rmult_le_pos; lra). lra. }
    apply (dN_at_mono s (a_wl a) (rad1 r 300 a) (rad1 r 300 a)); auto. lra. }
  split.
  { unfold wts. rewrite map_length. destruct b as [|a0 b']; [contradiction|]. simpl. now rewrite !map_length. }
  split.
  { intros x. rewrite in_map_iff. split.
    - intros [a [E I]]. apply B in I. exists a. tauto.
    - intros [a [I [J E]]]. exists a. split; auto. apply B; auto. }
  unfold wts. assert (W : forall w, In w (map (spec_rate s 1) b) -> 0 <= w).
  { intros w I. apply in_map_iff in I. destruct I as [a [<- I]]. apply NN; auto. lra. }
  assert (W2 : forall a, In a b -> In (spec_rate s 1 a) (map (spec_rate s 1) b)) by (intros; now apply in_map).
  destruct (map (spec_rate s 1) b) as [|w0 w] eqn:E.
  { destruct b; [contradiction|discriminate]. }
  set (m := maxl w0 w). assert (M : forall x, In x (w0 :: w) -> x <= m).
  { intros x [<-|I]; [exact (proj1 (maxl_ge w0 w))|exact (proj2 (maxl_ge w0 w) _ I)]. }
  assert (M0 : 0 <= m). { apply Rle_trans with w0; [apply W; now left|apply M; now left]. }
  destruct M0 as [Mp|M0].
  - left. exists (map (fun p => p / m) (w0 :: w)). split; [|split].
    + rewrite map_map. apply map_ext. intros p. apply xdiv_fin. lra.
    + intros x I. apply in_map_iff in I. destruct I as [p [<- I]]. pose proof (W p I). pose proof (M p I). split.
      * apply Rmult_le_pos; auto. left. now apply Rinv_0_lt_compat.
      * apply Rmult_le_reg_r with m; auto. unfold Rdiv. rewrite Rmult_assoc, Rinv_l; lra.
    + apply in_map_iff. exists m. split; [field; lra|]. destruct (maxl_in w0 w) as [Q|Q]; fold m in Q; [rewrite Q; now left|now right].
  - right. assert (Z : forall x, In x (w0 :: w) -> x = 0).
    { intros x I. pose proof (W x I). pose proof (M x I). lra. }
    split.
    + intros x I. apply in_map_iff in I. destruct I as [p [<- I]]. rewrite (Z p I), <- M0. apply xdiv_zero_zero.
    + rewrite curve_nth by lia. replace (INR 99 / 99) with 1 by (rewrite (INR_IZR_INZ 99); simpl; field).
      destruct (shrink_bounds (top_raw s b t) (s_max_n s) (ph_max_n _ P)) as [[K0 K1] _].
      assert (Q : raw s b t 1 = s_dark s * t * s_ntdi s).
      { unfold raw. rewrite (trapezoid_ext _ (fun _ => 0)), trapezoid_zero by (intros a I; exact (Z _ (W2 a I))). ring. }
      rewrite Q. pose proof (ph_dark _ P). pose proof (ph_ntdi _ P).
      assert (0 <= s_dark s * t * s_ntdi s) by (apply Rmult_le_pos; [apply Rmult_le_pos|]; auto). nra.
Qed.
