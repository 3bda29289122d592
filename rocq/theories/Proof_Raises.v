(** * Proof_Raises: which inputs make the transfer-function builders raise, and what they raise. *)
From Coq Require Import Reals Lra Bool List ZArith Lia.
From Verif Require Import Base_XR Base_Np Base_NpFacts Model_Geo Model_Scenario Model_Sensor Model_Otf
  Spec_Raises Proof_Geo Proof_Weight.
Import ListNotations.
Open Scope R_scope.

Lemma bind_ok {A B} (a : res A) (f : A -> res B) r : bind a f = Ok r -> exists x, a = Ok x /\ f x = Ok r.
Proof. destruct a; simpl; [eauto | discriminate]. Qed.
Lemma bind_err {A B} (a : res A) (f : A -> res B) e : bind a f = Err e -> a = Err e \/ exists x, a = Ok x /\ f x = Err e.
Proof. destruct a; simpl; [eauto | intros H; inversion H; auto]. Qed.

Lemma map2_len {A B C} (f : A -> B -> C) a : forall b, length a = length b -> length (map2 f a b) = length b.
Proof. induction a; intros [|y b] H; simpl in *; try lia. rewrite IHa; lia. Qed.
Lemma bmap2_same {A B C} (f : A -> B -> C) a b : length a = length b ->
  exists r, bmap2 f a b = Ok r /\ length r = length b.
Proof. intros H. unfold bmap2. rewrite (proj2 (Nat.eqb_eq _ _) H). eexists; split; [reflexivity|]. now apply map2_len. Qed.
Lemma bmap2_one {A B C} (f : A -> B -> C) x b : exists r, bmap2 f [x] b = Ok r /\ length r = length b.
Proof.
  unfold bmap2. destruct (Nat.eqb (length [x]) (length b)) eqn:E.
  - apply Nat.eqb_eq in E. eexists; split; [reflexivity|]. now apply map2_len.
  - eexists; split; [reflexivity|]. apply map_length.
Qed.
Lemma bmap2_err {A B C} (f : A -> B -> C) a b e : bmap2 f a b = Err e -> e = ValueError.
Proof.
  unfold bmap2. destruct (Nat.eqb _ _); [discriminate|].
  destruct a as [|x [|x' a]], b as [|y [|y' b]]; intros H; inversion H; auto.
Qed.

Lemma traverse_total {A B} (f : A -> res B) l : (forall x, exists y, f x = Ok y) ->
  exists r, traverse f l = Ok r /\ length r = length l.
Proof.
  intros H. induction l as [|x l (r & E & L)]; [exists []; auto|].
  destruct (H x) as (y & Ey). exists (y :: r). simpl. fold (traverse f). rewrite Ey. simpl.
  change ((fix go l0 := match l0 with [] => Ok [] | x0 :: l1 => let* y0 := f x0 in let* r0 := go l1 in Ok (y0 :: r0) end) l) with (traverse f l).
  rewrite E. simpl. auto.
Qed.

Lemma sel_nodup (g : list R) : forall (w : list xr) x, length g = length w -> NoDup g -> In x g ->
  exists y, map snd (filter (fun p => Reqb (fst p) x) (combine g w)) = [y].
Proof.
  induction g as [|a g IH]; intros [|b w] x L N I; simpl in *; try lia; try easy.
  inversion N as [|? ? Na Ng]; subst. destruct (Req_dec a x) as [E|E].
  - subst. unfold Reqb. destruct (Req_EM_T x x); [|congruence]. exists b. simpl. f_equal.
    enough (F : forall w', filter (fun p : R * xr => if Req_EM_T (fst p) x then true else false) (combine g w') = []) by now rewrite F.
    clear - Na. induction g as [|c g IH]; intros [|d w']; simpl; auto.
    destruct (Req_EM_T c x) as [->|]; [exfalso; apply Na; now left|]. apply IH. intros H; apply Na; now right.
  - destruct I as [->|I]; [congruence|]. unfold Reqb at 1. destruct (Req_EM_T a x); [congruence|]. apply IH; auto; lia.
Qed.

Lemma bad_dec wl w : bad_bands wl w \/ ~ bad_bands wl w.
Proof.
  unfold bad_bands. destruct wl as [|a [|b r]]; auto; destruct w as [|x w]; auto.
  - right. intros [H|[H|(H & _)]]; try discriminate. simpl in H. lia.
  - destruct (Nat.eq_dec (length (x :: w)) (length (a :: b :: r))) as [E|E].
    + right. intros [H|[H|(_ & H)]]; try discriminate. contradiction.
    + left. right; right. split; auto. simpl; lia.
Qed.

Lemma weighted_good (n : nat) wl w g : length w = length wl -> wl <> [] -> NoDup wl ->
  (forall l, exists row, g l = Ok row /\ length row = n) ->
  exists r, weighted_by_wavelength wl w g = Ok r /\ length r = n.
Proof.
  intros L W N G. unfold weighted_by_wavelength.
  set (w' := map (fun x => xdiv x (xsum w)) w).
  assert (L' : length wl = length w') by (unfold w'; rewrite map_length; lia). clearbody w'.
  destruct w' as [|w0 w']; [destruct wl; [congruence | simpl in L'; lia]|].
  destruct wl as [|l0 rest]; [congruence|].
  destruct (G l0) as (g0 & E0 & L0). rewrite E0. cbn [bind].
  enough (H : forall todo acc, incl todo (l0 :: rest) -> length acc = n ->
    exists r, weighted_loop (l0 :: rest) (w0 :: w') g todo acc = Ok r /\ length r = n).
  { apply H; [intros x Hx; now right|]. now rewrite map_length. }
  induction todo as [|x todo IH]; intros acc I La; [simpl; eauto|].
  cbn [weighted_loop]. unfold select at 1. rewrite (proj2 (Nat.eqb_eq _ _) L').
  destruct (sel_nodup (l0 :: rest) (w0 :: w') x L' N (I x (or_introl eq_refl))) as (y & Ey). rewrite Ey. cbn [bind].
  destruct (G x) as (gx & Egx & Lgx). rewrite Egx. cbn [bind].
  destruct (bmap2_one xmul y gx) as (t & Et & Lt). rewrite Et. cbn [bind].
  destruct (bmap2_same xadd acc t) as (a & Ea & La'); [congruence|]. rewrite Ea. cbn [bind].
  apply IH; [intros z Hz; apply I; now right | congruence].
Qed.

Lemma loop_err all w g todo : length all = length w -> (forall l, exists row, g l = Ok row) ->
  forall acc e, weighted_loop all w g todo acc = Err e -> e = ValueError.
Proof.
  intros L G. induction todo as [|x todo IH]; intros acc e H; [discriminate|].
  cbn [weighted_loop] in H. unfold select at 1 in H. rewrite (proj2 (Nat.eqb_eq _ _) L) in H. cbn [bind] in H.
  destruct (G x) as (gx & Eg). rewrite Eg in H. cbn [bind] in H.
  apply bind_err in H as [H|(t & Et & H)]; [now apply bmap2_err in H|].
  apply bind_err in H as [H|(a & Ea & H)]; [now apply bmap2_err in H|]. now apply IH in H.
Qed.

(* IndexError exactly for the refused band lists; the only other error is ValueError *)
Lemma weighted_class wl w g : (forall l, exists row, g l = Ok row) ->
  (bad_bands wl w -> weighted_by_wavelength wl w g = Err IndexError) /\
  (~ bad_bands wl w -> forall e, weighted_by_wavelength wl w g = Err e -> e = ValueError).
Proof.
  intros G. split.
  - intros [B|[B|(B & B')]]; [apply weighted_empty; auto .. |].
    destruct wl as [|a [|b rest]]; simpl in B; try lia. destruct (G a) as (row & E).
    destruct w as [|x w]; [apply weighted_empty; auto|].
    eapply weighted_len_mismatch; [exact B' | discriminate | exact E].
  - intros B e H. unfold weighted_by_wavelength in H.
    destruct w as [|w0 w]; [exfalso; apply B; unfold bad_bands; auto|]. cbn [map] in H.
    destruct wl as [|l0 rest]; [exfalso; apply B; unfold bad_bands; auto|].
    destruct (G l0) as (g0 & E0). rewrite E0 in H. cbn [bind] in H.
    destruct rest as [|l1 rest]; [discriminate H|].
    apply loop_err in H; auto. simpl. rewrite map_length.
    destruct (Nat.eq_dec (length (w0 :: w)) (length (l0 :: l1 :: rest))) as [E|E]; [simpl in E; lia|].
    exfalso. apply B. right; right. split; [simpl; lia | exact E].
Qed.

(** ** the pieces *)
Lemma circ_total u v l D eta : exists y, circular_aperture_OTF Np u v l D eta = Ok y.
Proof. unfold circular_aperture_OTF, kdiv. cbn [bind]. destruct (Rltb 0 eta); eexists; reflexivity. Qed.
Lemma wind_total u v l D r0 t vel : exists y, wind_speed_turbulence_OTF Np u v l D r0 t vel = Ok y.
Proof. unfold wind_speed_turbulence_OTF, kdiv. cbn [bind]. eexists; reflexivity. Qed.

Lemma ap_row pts s l : exists row, on_grid_res pts (fun u v => circular_aperture_OTF Np u v l (s_D s) (s_eta s)) = Ok row /\ length row = length pts.
Proof. apply traverse_total. intros p. apply circ_total. Qed.
Lemma turb_row pts D r0 t vel l : exists row, traverse (fun p =>
      wind_speed_turbulence_OTF Np (fst p) (snd p) l D (r0_function r0 l) t vel) pts = Ok row /\ length row = length pts.
Proof. apply traverse_total. intros p. apply wind_total. Qed.

Lemma rev_tail_len {A} (l : list A) : length (tl l) = (length l - 1)%nat.
Proof. destruct l; simpl; lia. Qed.
Lemma map2_len_min {A B C} (f : A -> B -> C) a : forall b, length (map2 f a b) = Nat.min (length a) (length b).
Proof. induction a; intros [|y b]; simpl; auto. Qed.

Lemma coherence_total lam z c : lam <> 0 -> z <> [] -> length c = length z -> exists r, coherence_diameter lam z c = Ok r.
Proof.
  intros Hl Hz L. unfold coherence_diameter. destruct z as [|z0 z]; [congruence|]. cbn [xmaxl bind].
  set (zm := fold_left xmax z z0). clearbody zm. set (zz := z0 :: z) in *. clearbody zz.
  destruct (bmap2_same xmul c (map (fun z => xpow (xdiv z zm) (5 / 3)) zz)) as (p & Ep & Lp); [now rewrite map_length|].
  rewrite map_length in Lp. rewrite Ep. cbn [bind]. unfold trapz.
  destruct (bmap2_same xmul (xdiff zz) (xmids p)) as (q & Eq & _).
  { unfold xdiff, xmids. rewrite !map2_len_min, !rev_tail_len. lia. }
  rewrite Eq. cbn [bind]. unfold pydiv. unfold Reqb. destruct (Req_EM_T lam 0); [congruence|]. cbn [bind]. eexists; reflexivity.
Qed.

Lemma path_total k ht hs sl : k = Np \/ (sl <> 0 /\ r_earth + hs <> 0) ->
  exists z h, altitude_along_slant_path k ht hs sl = Ok (z, h) /\ z <> [] /\ length h = length z.
Proof.
  intros H. unfold altitude_along_slant_path.
  assert (N : exists n, nadir_angle k ht hs sl = Ok n).
  { destruct k; [|unfold nadir_angle; simpl; eexists; reflexivity].
    destruct H as [H|(H1 & H2)]; [discriminate|].
    destruct (nadir_angle Py ht hs sl) eqn:E; [eauto|]. exfalso.
    unfold nadir_angle, sdiv, rmap, pydiv, Reqb in E. destruct (Req_EM_T (2 * (r_earth + hs) * sl) 0) as [Z|Z]; [|cbn in E; discriminate E].
    apply Rmult_integral in Z as [Z|Z]; [lra | contradiction]. }
  destruct N as (n & E). rewrite E. cbn [bind]. do 2 eexists. split; [reflexivity|]. split.
  - intros F. apply (f_equal (@length xr)) in F. rewrite map_length in F. unfold linspace in F. rewrite map_length, seq_length in F. discriminate F.
  - now rewrite rev_length, !map_length.
Qed.

(** ** polychromatic_turbulence_OTF *)
Lemma poly_good k pts wl w alt sl D v c t vel : 0 <= alt -> length w = length wl -> wl <> [] -> NoDup wl ->
  k = Np \/ sl <> 0 ->
  exists row r0, polychromatic_turbulence_OTF k pts wl w alt sl D v c t vel = Ok (row, r0)
    /\ length row = length pts /\ length r0 = 1%nat.
Proof.
  intros Ha L W N K. unfold polychromatic_turbulence_OTF.
  destruct (path_total k 0 alt sl) as (z & h & E & Hz & Lh).
  { destruct K; auto. right. split; auto. unfold r_earth. lra. }
  rewrite E. cbn [bind].
  destruct (coherence_total (1 / 10 ^ 6) z (map (fun h => hufnagel_valley_turbulence_profile h v c) h)) as (r & Er);
    [apply Rgt_not_eq; apply Rlt_gt; apply Rdiv_lt_0_compat; [lra | apply pow_lt; lra] | auto | now rewrite map_length |].
  rewrite Er. cbn [bind].
  destruct (weighted_good 1 wl w (fun l => Ok [r0_function r l]) L W N) as (r0 & E0 & L0); [intros l; eexists; split; reflexivity|].
  rewrite E0. cbn [bind].
  destruct (weighted_good (length pts) wl w _ L W N (turb_row pts D r t vel)) as (row & E1 & L1).
  rewrite E1. cbn [bind]. eauto.
Qed.

Lemma poly_err k pts wl w alt sl D v c t vel e : 0 <= alt ->
  polychromatic_turbulence_OTF k pts wl w alt sl D v c t vel = Err e ->
  (e = ZeroDivisionError /\ k = Py /\ sl = 0) \/ ((k = Np \/ sl <> 0) /\
  ((e = IndexError /\ bad_bands wl w) \/ (e = ValueError /\ ~ bad_bands wl w))).
Proof.
  intros Ha. unfold polychromatic_turbulence_OTF.
  assert (D' : k = Np \/ sl <> 0 \/ (k = Py /\ sl = 0)) by (destruct k; auto; destruct (Req_dec sl 0); auto).
  rewrite <- or_assoc in D'. destruct D' as [K|(-> & ->)]; [|rewrite path_zero; cbn [bind]; intros H; inversion H; auto].
  destruct (path_total k 0 alt sl) as (z & h & E & Hz & Lh).
  { destruct K; auto. right. split; auto. unfold r_earth. lra. }
  rewrite E. cbn [bind].
  destruct (coherence_total (1 / 10 ^ 6) z (map (fun h => hufnagel_valley_turbulence_profile h v c) h)) as (r & Er);
    [apply Rgt_not_eq; apply Rlt_gt; apply Rdiv_lt_0_compat; [lra | apply pow_lt; lra] | auto | now rewrite map_length |].
  rewrite Er. cbn [bind]. intros H. right; split; auto.
  destruct (weighted_class wl w (fun l => Ok [r0_function r l])) as (C1 & C2); [eauto|].
  destruct (weighted_class wl w (fun l => traverse (fun p =>
      wind_speed_turbulence_OTF Np (fst p) (snd p) l D (r0_function r l) t vel) pts)) as (C3 & C4).
  { intros l. destruct (turb_row pts D r t vel l) as (row & E' & _). eauto. }
  destruct (bad_dec wl w) as [B|B].
  - rewrite (C1 B) in H. cbn [bind] in H. inversion H. auto.
  - right. split; auto. apply bind_err in H as [H|(r0 & _ & H)]; [now apply (C2 B)|].
    apply bind_err in H as [H|(row & _ & H)]; [now apply (C4 B)|]. discriminate H.
Qed.

Lemma poly_zero pts wl w alt D v c t vel :
  polychromatic_turbulence_OTF Py pts wl w alt 0 D v c t vel = Err ZeroDivisionError.
Proof. unfold polychromatic_turbulence_OTF. rewrite path_zero. reflexivity. Qed.

Lemma poly_bad k pts wl w alt sl D v c t vel : 0 <= alt -> bad_bands wl w -> k = Np \/ sl <> 0 ->
  polychromatic_turbulence_OTF k pts wl w alt sl D v c t vel = Err IndexError.
Proof.
  intros Ha B K.
  destruct (polychromatic_turbulence_OTF k pts wl w alt sl D v c t vel) as [y|e] eqn:E.
  - exfalso. unfold polychromatic_turbulence_OTF in E.
    apply bind_ok in E as ((z & h) & _ & E). apply bind_ok in E as (r & _ & E). apply bind_ok in E as (r0 & E & _).
    destruct (weighted_class wl w (fun l => Ok [r0_function r l])) as (C1 & _); [eauto|]. rewrite (C1 B) in E. discriminate E.
  - apply poly_err in E as [(-> & -> & ->)|(_ & [(-> & _)|(_ & NB)])]; auto; [|contradiction].
    destruct K; [discriminate | lra].
Qed.

(** ** common_OTFs *)
Lemma common_bad diag k s c pts wl w sl t : bad_bands wl w -> common_OTFs diag k s c pts wl w sl t = Err IndexError.
Proof.
  intros B. unfold common_OTFs.
  destruct (weighted_class wl w (fun l =>
     on_grid_res pts (fun u v => circular_aperture_OTF Np u v l (s_D s) (s_eta s)))) as (C & _).
  { intros l. destruct (ap_row pts s l) as (row & E & _). eauto. }
  now rewrite (C B).
Qed.

Lemma common_zero diag s c pts wl w t : length w = length wl -> wl <> [] -> NoDup wl -> 0 < plain c Cn2At1m ->
  common_OTFs diag Py s c pts wl w 0 t = Err ZeroDivisionError.
Proof.
  intros L W N C. unfold common_OTFs.
  destruct (weighted_good (length pts) wl w _ L W N (ap_row pts s)) as (ap & Ea & _). rewrite Ea. cbn [bind].
  rewrite (proj2 (Rltb_true _ _) C), poly_zero. reflexivity.
Qed.

Lemma common_good diag k s c pts wl w sl t : length w = length wl -> wl <> [] -> NoDup wl ->
  (length (s_kernel s) <= 1)%nat -> 0 <= altitude c -> (0 < plain c Cn2At1m -> k = Np \/ sl <> 0) ->
  exists o, common_OTFs diag k s c pts wl w sl t = Ok o /\ rows (length pts) o
    /\ length (r0_band o) = if Rltb 0 (plain c Cn2At1m) then 1%nat else length pts.
Proof.
  intros L W N K A C. unfold common_OTFs.
  destruct (weighted_good (length pts) wl w _ L W N (ap_row pts s)) as (ap & Ea & La). rewrite Ea. cbn [bind].
  set (T := if Rltb 0 (plain c Cn2At1m) then _ else _).
  assert (HT : exists turb r0b, T = Ok (turb, r0b) /\ length turb = length pts
    /\ length r0b = if Rltb 0 (plain c Cn2At1m) then 1%nat else length pts).
  { unfold T. destruct (Rltb 0 (plain c Cn2At1m)) eqn:R.
    - apply Rltb_true in R. apply poly_good; auto.
    - do 2 eexists. split; [reflexivity|]. now rewrite !map_length. }
  destruct HT as (turb & r0b & ET & Lt & Lr). rewrite ET. cbn [bind].
  destruct (weighted_good (length pts) wl w (fun l => Ok (on_grid pts (fun u v =>
     wavefront_OTF u v l (xmul (Fin (s_pv s)) (xsq (xdiv (Fin (s_pv_wl s)) (Fin l)))) (s_Lx s) (s_Ly s)))) L W N) as (wav & Ew & Lw).
  { intros l. eexists. split; [reflexivity|]. apply map_length. }
  rewrite Ew. cbn [bind]. rewrite (proj2 (Nat.ltb_ge 1 _) K). cbn [bind].
  assert (G : forall g, length (on_grid pts g) = length pts) by (intros; apply map_length).
  assert (G1 : length (map (fun _ : R * R => Fin 1) pts) = length pts) by apply map_length.
  repeat match goal with
  | |- exists o, bind (bmap2 xmul ?a ?b) _ = Ok o /\ _ =>
      let r := fresh "m" in let E := fresh "E" in let Lm := fresh "L" in
      destruct (bmap2_same xmul a b) as (r & E & Lm); [congruence|]; rewrite E; cbn [bind]
  end.
  eexists. split; [reflexivity|]. unfold rows. cbn. rewrite G1 in *. repeat split; auto; try apply G; congruence.
Qed.

Lemma common_err diag k s c pts wl w sl t e : (length (s_kernel s) <= 1)%nat -> 0 <= altitude c ->
  common_OTFs diag k s c pts wl w sl t = Err e ->
  (e = IndexError /\ bad_bands wl w) \/
  (~ bad_bands wl w /\ ((e = ZeroDivisionError /\ k = Py /\ sl = 0 /\ 0 < plain c Cn2At1m) \/ e = ValueError)).
Proof.
  intros K A H. destruct (bad_dec wl w) as [B|B]; [rewrite (common_bad diag k s c pts wl w sl t B) in H; inversion H; auto|].
  right. split; auto. unfold common_OTFs in H.
  apply bind_err in H as [H|(ap & _ & H)].
  { right. apply (weighted_class wl w (fun l => on_grid_res pts (fun u v => circular_aperture_OTF Np u v l (s_D s) (s_eta s)))); auto.
    intros l. destruct (ap_row pts s l) as (row & E & _). eauto. }
  apply bind_err in H as [H|((turb & r0b) & _ & H)].
  { destruct (Rltb 0 (plain c Cn2At1m)) eqn:R; [|discriminate]. apply Rltb_true in R.
    apply poly_err in H as [(-> & -> & ->)|(_ & [(_ & ?)|(? & _)])]; auto; contradiction. }
  apply bind_err in H as [H|(wav & _ & H)].
  { right. eapply (proj2 (weighted_class wl w _ _)); eauto. Unshelve. intros l. eexists; reflexivity. }
  rewrite (proj2 (Nat.ltb_ge 1 _) K) in H. cbn [bind] in H. right.
  repeat (apply bind_err in H as [H|(? & _ & H)]; [now apply bmap2_err in H|]). discriminate H.
Qed.

(** ** coherence_diameter *)
Lemma coherence_iff lam z c : length c = length z ->
  (coherence_diameter lam z c = Err ValueError <-> z = []) /\
  (coherence_diameter lam z c = Err ZeroDivisionError <-> z <> [] /\ lam = 0) /\
  (z <> [] -> lam <> 0 -> exists r, coherence_diameter lam z c = Ok r).
Proof.
  intros L. assert (T := fun H1 H2 => coherence_total lam z c H1 H2 L).
  destruct z as [|z0 z].
  { change (coherence_diameter lam [] c) with (@Err xr ValueError).
    repeat split; auto; try discriminate; try easy; intros (? & ?); congruence. }
  destruct (Req_dec lam 0) as [->|N].
  - assert (E : coherence_diameter 0 (z0 :: z) c = Err ZeroDivisionError).
    { unfold coherence_diameter. cbn [xmaxl bind].
      set (zm := fold_left xmax z z0). clearbody zm. set (zz := z0 :: z) in *. clearbody zz.
      destruct (bmap2_same xmul c (map (fun z => xpow (xdiv z zm) (5 / 3)) zz)) as (p & Ep & Lp); [now rewrite map_length|].
      rewrite map_length in Lp. rewrite Ep. cbn [bind]. unfold trapz.
      destruct (bmap2_same xmul (xdiff zz) (xmids p)) as (q & Eq & _).
      { unfold xdiff, xmids. rewrite !map2_len_min, !rev_tail_len. lia. }
      rewrite Eq. cbn [bind]. unfold pydiv, Reqb. destruct (Req_EM_T 0 0); [reflexivity | congruence]. }
    rewrite E. repeat split; auto; try discriminate; intros; congruence.
  - destruct (T N) as (r & E); [discriminate|]. rewrite E. repeat split; try discriminate; eauto. intros (_ & ?); contradiction.
Qed.

(** ** defocus radii *)
Lemma pydiv_err_iff a b : pydiv a b = Err ZeroDivisionError <-> b = 0.
Proof. unfold pydiv, Reqb. destruct (Req_EM_T b 0); split; auto; try discriminate; contradiction. Qed.
Lemma image_radii_iff D dz f : image_domain_defocus_radii D dz f = Err ZeroDivisionError <-> f = 0.
Proof.
  unfold image_domain_defocus_radii. rewrite pydiv_err_iff. split; [|intros ->; ring].
  intros H. apply Rmult_integral in H as [H|H]; auto.
Qed.
Lemma object_radii_iff D R0 R1 : object_domain_defocus_radii D R0 R1 = Err ZeroDivisionError <-> R0 = 0 \/ R1 = 0.
Proof.
  unfold object_domain_defocus_radii, pydiv, Reqb.
  destruct (Req_EM_T R0 0); cbn [bind]; [tauto|]. destruct (Req_EM_T R1 0); cbn [bind]; [tauto|].
  split; [discriminate | tauto].
Qed.

(** ** put together *)
Lemma poly_zde_iff k pts wl w alt sl D v c t vel : 0 <= alt ->
  polychromatic_turbulence_OTF k pts wl w alt sl D v c t vel = Err ZeroDivisionError <-> k = Py /\ sl = 0.
Proof.
  intros A. split.
  - intros H. apply poly_err in H as [(_ & H)|(_ & [(H & _)|(H & _)])]; auto; discriminate.
  - intros (-> & ->). apply poly_zero.
Qed.
Lemma poly_index_iff k pts wl w alt sl D v c t vel : 0 <= alt ->
  polychromatic_turbulence_OTF k pts wl w alt sl D v c t vel = Err IndexError <-> (k = Np \/ sl <> 0) /\ bad_bands wl w.
Proof.
  intros A. split.
  - intros H. apply poly_err in H as [(H & _)|(K & [(_ & H)|(H & _)])]; auto; discriminate.
  - intros (K & B). now apply poly_bad.
Qed.
Lemma common_zde_iff diag k s c pts wl w sl t : (length (s_kernel s) <= 1)%nat -> 0 <= altitude c ->
  length w = length wl -> wl <> [] -> NoDup wl ->
  common_OTFs diag k s c pts wl w sl t = Err ZeroDivisionError <-> k = Py /\ sl = 0 /\ 0 < plain c Cn2At1m.
Proof.
  intros K A L W N. split.
  - intros H. apply common_err in H as [(H & _)|(_ & [(_ & H)|H])]; auto; discriminate.
  - intros (-> & -> & C). now apply common_zero.
Qed.
Lemma common_index_iff diag k s c pts wl w sl t : (length (s_kernel s) <= 1)%nat -> 0 <= altitude c ->
  common_OTFs diag k s c pts wl w sl t = Err IndexError <-> bad_bands wl w.
Proof.
  intros K A. split.
  - intros H. apply common_err in H as [(_ & H)|(_ & [(H & _)|H])]; auto; discriminate.
  - intros B. now apply common_bad.
Qed.

(** ** the constructed objects of the tests: Sensor("test_scene", 1.0, 1.0, 1.0, [0.0, 1.0]) *)
Lemma test_sensor : exists s, sensor_init 1 1 1 [0; 1] 0 None None None default_kw = Ok s /\ (length (s_kernel s) <= 1)%nat.
Proof.
  unfold sensor_init, pydiv, Reqb. destruct (Req_EM_T 1 0); [lra|]. cbn [bind]. eexists; split; [reflexivity|]. simpl. lia.
Qed.
Lemma empty_grid : ~ (forall diag k s c wl w sl t, common_OTFs diag k s c [] wl w sl t = Err IndexError).
Proof.
  intros H. destruct test_sensor as (s & _ & K).
  assert (N : NoDup [1]) by (constructor; [intros [] | constructor]).
  destruct (common_good (fun _ _ => true) Py s (sc (init 1 1 1 false (fun _ => 1))) [] [1] [Fin 1] 1 1) as (o & E & _);
    auto; try discriminate; try (simpl; lra); try (intros _; right; lra).
  rewrite H in E. discriminate E.
Qed.
Lemma poly_iffs k pts wl w alt sl D v c t vel : 0 <= alt ->
  (polychromatic_turbulence_OTF k pts wl w alt sl D v c t vel = Err ZeroDivisionError <-> k = Py /\ sl = 0) /\
  (polychromatic_turbulence_OTF k pts wl w alt sl D v c t vel = Err IndexError <-> (k = Np \/ sl <> 0) /\ bad_bands wl w).
Proof. intros A. split; [now apply poly_zde_iff | now apply poly_index_iff]. Qed.
Lemma radii_iffs D a b :
  (image_domain_defocus_radii D a b = Err ZeroDivisionError <-> b = 0) /\
  (object_domain_defocus_radii D a b = Err ZeroDivisionError <-> a = 0 \/ b = 0).
Proof. split; [apply image_radii_iff | apply object_radii_iff]. Qed.
