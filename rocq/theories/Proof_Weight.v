(** * Proof_Weight: spectral weighting and coherence diameter. *)
From Coq Require Import Reals Lra Psatz Bool List ZArith Lia.
From Verif Require Import Base_XR Base_Np Base_Interp Model_Geo Model_Otf Spec_Rad Proof_Rad Proof_Pe Spec_Otf Proof_Otf Proof_Turb Proof_Filter.
Import ListNotations.
Open Scope R_scope.

Lemma xsum_fin l : xsum (map Fin l) = Fin (Rsum l).
Proof. induction l as [|x l IH]; [reflexivity|]. unfold xsum, Rsum in *. cbn [map fold_right]. rewrite IH. reflexivity. Qed.
Lemma combine_maps {A B C} (f : A -> B) (g : A -> C) l : combine (map f l) (map g l) = map (fun x => (f x, g x)) l.
Proof. induction l as [|x l IH]; simpl; [reflexivity | now rewrite IH]. Qed.

Lemma filter_none {A} (f : A -> bool) l : (forall x, In x l -> f x = false) -> filter f l = [].
Proof.
  intros H. induction l as [|x l IH]; [reflexivity|]. simpl. rewrite H by (left; reflexivity).
  apply IH. intros; apply H; right; auto.
Qed.
Lemma filter_unique (ps : list (R * R)) p : NoDup (map fst ps) -> In p ps ->
  filter (fun q => Reqb (fst q) (fst p)) ps = [p].
Proof.
  induction ps as [|q ps IH]; intros N I; [destruct I|].
  cbn [map] in N. inversion N as [|? ? Nin N']; subst. simpl. destruct I as [-> | I].
  - replace (Reqb (fst p) (fst p)) with true by (symmetry; apply Reqb_true; reflexivity).
    f_equal. apply filter_none. intros x Hx. apply Reqb_false. intros E. apply Nin.
    rewrite <- E. apply in_map. exact Hx.
  - replace (Reqb (fst q) (fst p)) with false.
    + apply IH; auto.
    + symmetry. apply Reqb_false. intros E. apply Nin. rewrite E. apply in_map. exact I.
Qed.
Lemma filter_map {A B} (f : B -> bool) (g : A -> B) l : filter f (map g l) = map g (filter (fun x => f (g x)) l).
Proof. induction l as [|x l IH]; [reflexivity|]. simpl. destruct (f (g x)); simpl; now rewrite IH. Qed.
Lemma select_unique (ps : list (R * R)) (c : R -> xr) p : NoDup (map fst ps) -> In p ps ->
  select (map fst ps) (map (fun q => c (snd q)) ps) (fst p) = Ok [c (snd p)].
Proof.
  intros N I. unfold select. rewrite !map_length, Nat.eqb_refl, combine_maps, filter_map.
  cbn [fst]. rewrite (filter_unique ps p N I). reflexivity.
Qed.

Lemma bmap2_scal {B C} (f : xr -> B -> C) x l : bmap2 f [x] l = Ok (map (f x) l).
Proof.
  unfold bmap2. destruct l as [|y [|z l]]; reflexivity.
Qed.

Lemma loop_avg (ps : list (R * R)) (c : R -> R) g G m : NoDup (map fst ps) ->
  (forall p, In p ps -> g (fst p) = Ok (map (fun j => Fin (G (fst p) j)) (seq 0 m))) ->
  forall qs acc, incl qs ps ->
  weighted_loop (map fst ps) (map (fun q => Fin (c (snd q))) ps) g (map fst qs)
     (map (fun j => Fin (acc j)) (seq 0 m))
  = Ok (map (fun j => Fin (acc j + Rsum (map (fun p => c (snd p) * G (fst p) j) qs))) (seq 0 m)).
Proof.
  intros N Hg. induction qs as [|q qs IH]; intros acc Hi.
  - simpl. f_equal. apply map_ext. intros j. f_equal. unfold Rsum. simpl. ring.
  - cbn [map weighted_loop]. rewrite (select_unique ps (fun x => Fin (c x)) q N) by (apply Hi; left; reflexivity).
    cbn [bind]. rewrite Hg by (apply Hi; left; reflexivity). cbn [bind]. rewrite bmap2_scal. cbn [bind].
    rewrite map_map. rewrite bmap2_maps. cbn [bind].
    rewrite (map_ext (fun i => xadd (Fin (acc i)) (xmul (Fin (c (snd q))) (Fin (G (fst q) i))))
               (fun i => Fin (acc i + c (snd q) * G (fst q) i))) by (intros; reflexivity).
    rewrite (IH (fun i => acc i + c (snd q) * G (fst q) i)) by (intros x Hx; apply Hi; right; exact Hx).
    f_equal. apply map_ext. intros j. f_equal. unfold Rsum. cbn [map fold_right]. ring.
Qed.

Lemma Rsum_scal {A} (f : A -> R) l c : Rsum (map (fun x => f x * c) l) = Rsum (map f l) * c.
Proof. induction l as [|x l IH]; unfold Rsum in *; simpl; [ring | rewrite IH; ring]. Qed.
Lemma Rsum_scal_l {A} (f : A -> R) l c : Rsum (map (fun x => c * f x) l) = c * Rsum (map f l).
Proof. induction l as [|x l IH]; unfold Rsum in *; simpl; [ring | rewrite IH; ring]. Qed.
Lemma Rsum_cons x l : Rsum (x :: l) = x + Rsum l.
Proof. reflexivity. Qed.

Lemma weighted_avg (ps : list (R * R)) g G m : NoDup (map fst ps) -> Rsum (map snd ps) <> 0 ->
  (forall p, In p ps -> g (fst p) = Ok (map (fun j => Fin (G (fst p) j)) (seq 0 m))) ->
  weighted_by_wavelength (map fst ps) (map (fun p => Fin (snd p)) ps) g
  = Ok (map (fun j => Fin (Rsum (map (fun p => snd p * G (fst p) j) ps) / Rsum (map snd ps))) (seq 0 m)).
Proof.
  intros N S Hg. unfold weighted_by_wavelength.
  assert (Es : xsum (map (fun p => Fin (snd p)) ps) = Fin (Rsum (map snd ps))).
  { rewrite <- (map_map snd Fin). apply xsum_fin. }
  rewrite Es. set (s := Rsum (map snd ps)) in *.
  rewrite map_map.
  rewrite (map_ext (fun x => xdiv (Fin (snd x)) (Fin s)) (fun x => Fin (snd x / s))) by (intros; apply xdiv_fin; auto).
  destruct ps as [|p ps]; [exfalso; apply S; reflexivity|]. cbn [map].
  rewrite Hg by (left; reflexivity). cbn [bind]. rewrite map_map.
  change (Fin (snd p / s) :: map (fun x => Fin (snd x / s)) ps) with (map (fun x => Fin (snd x / s)) (p :: ps)).
  change (fst p :: map fst ps) with (map fst (p :: ps)).
  change (map (fun x => xmul (Fin (snd p / s)) (Fin (G (fst p) x))) (seq 0 m))
    with (map (fun x => Fin ((fun i => snd p / s * G (fst p) i) x)) (seq 0 m)).
  rewrite (loop_avg (p :: ps) (fun x => x / s) g G m N Hg ps) by (intros x Hx; right; exact Hx).
  f_equal. apply map_ext. intros j. f_equal. cbn [map]. rewrite Rsum_cons.
  rewrite (map_ext (fun p0 => snd p0 / s * G (fst p0) j) (fun p0 => snd p0 * G (fst p0) j * / s)) by (intros; unfold Rdiv; ring).
  rewrite Rsum_scal. field. exact S.
Qed.

Lemma Rsum_nonneg_le (ps : list (R * R)) (f g : R * R -> R) :
  (forall p, In p ps -> f p <= g p) -> Rsum (map f ps) <= Rsum (map g ps).
Proof.
  intros H. induction ps as [|p ps IH]; [unfold Rsum; simpl; lra|]. cbn [map]. rewrite !Rsum_cons.
  generalize (H p (or_introl eq_refl)) (IH (fun q Hq => H q (or_intror Hq))). lra.
Qed.

Lemma weighted_in_range (ps : list (R * R)) g G m lo hi : NoDup (map fst ps) ->
  (forall p, In p ps -> 0 <= snd p) -> 0 < Rsum (map snd ps) ->
  (forall p, In p ps -> g (fst p) = Ok (map (fun j => Fin (G (fst p) j)) (seq 0 m))) ->
  (forall p j, In p ps -> (j < m)%nat -> lo <= G (fst p) j <= hi) ->
  exists h : nat -> R, weighted_by_wavelength (map fst ps) (map (fun p => Fin (snd p)) ps) g
    = Ok (map (fun j => Fin (h j)) (seq 0 m)) /\ forall j, (j < m)%nat -> lo <= h j <= hi.
Proof.
  intros N W S Hg B. eexists (fun j => _). split; [apply weighted_avg; auto; lra|].
  intros j Hj. cbv beta. set (s := Rsum (map snd ps)) in *.
  assert (lo * s <= Rsum (map (fun p => snd p * G (fst p) j) ps) <= hi * s).
  { unfold s. rewrite <- !Rsum_scal_l. split; apply Rsum_nonneg_le; intros p Hp;
      generalize (W p Hp) (B p j Hp Hj); intros; nra. }
  assert (Q : forall x, x / s * s = x) by (intros; field; lra).
  split; (apply Rmult_le_reg_r with s; [lra|]); rewrite Q; lra.
Qed.
Lemma weighted_rescale (ps : list (R * R)) g G m k : NoDup (map fst ps) -> Rsum (map snd ps) <> 0 -> k <> 0 ->
  (forall p, In p ps -> g (fst p) = Ok (map (fun j => Fin (G (fst p) j)) (seq 0 m))) ->
  weighted_by_wavelength (map fst ps) (map (fun p => Fin (k * snd p)) ps) g
  = weighted_by_wavelength (map fst ps) (map (fun p => Fin (snd p)) ps) g.
Proof.
  intros N S K Hg. rewrite (weighted_avg ps g G m) by auto.
  set (qs := map (fun p => (fst p, k * snd p)) ps).
  replace (map fst ps) with (map fst qs) by (unfold qs; rewrite map_map; reflexivity).
  replace (map (fun p => Fin (k * snd p)) ps) with (map (fun p => Fin (snd p)) qs) by (unfold qs; rewrite map_map; reflexivity).
  assert (Es : Rsum (map snd qs) = k * Rsum (map snd ps)) by (unfold qs; rewrite map_map; apply Rsum_scal_l).
  rewrite (weighted_avg qs g G m).
  - f_equal. apply map_ext. intros j. f_equal. rewrite Es. unfold qs. rewrite map_map. cbn [fst snd].
    rewrite (map_ext (fun x => k * snd x * G (fst x) j) (fun x => k * (snd x * G (fst x) j))) by (intros; ring).
    rewrite Rsum_scal_l. field. auto.
  - unfold qs. rewrite map_map. exact N.
  - rewrite Es. apply Rmult_integral_contrapositive_currified; auto.
  - intros q Hq. apply in_map_iff in Hq. destruct Hq as (p & <- & Hp). cbn [fst]. apply Hg. exact Hp.
Qed.

(** ** Malformed input *)
Lemma weighted_len_mismatch a b rest w g row : length w <> S (S (length rest)) -> w <> [] ->
  g a = Ok row -> weighted_by_wavelength (a :: b :: rest) w g = Err IndexError.
Proof.
  intros L W Ga. unfold weighted_by_wavelength.
  destruct w as [|w0 w]; [congruence|]. cbn [map]. rewrite Ga. cbn [bind weighted_loop].
  unfold select. cbn [length]. rewrite map_length.
  replace (Nat.eqb (S (S (length rest))) (S (length w))) with false; [reflexivity|].
  symmetry. apply Nat.eqb_neq. cbn [length] in L. lia.
Qed.
Lemma weighted_empty wl w g : wl = [] \/ w = [] -> weighted_by_wavelength wl w g = Err IndexError.
Proof.
  intros [-> | ->]; unfold weighted_by_wavelength; [|reflexivity].
  destruct (map _ w); reflexivity.
Qed.
(* one wavelength, several weights: no error, only the first weight counts *)
Lemma weighted_one_wavelength a w0 ws g row : w0 + Rsum ws <> 0 ->
  g a = Ok (map Fin row) ->
  weighted_by_wavelength [a] (Fin w0 :: map Fin ws) g
  = Ok (map (fun x => Fin (w0 / (w0 + Rsum ws) * x)) row).
Proof.
  intros S Ga. unfold weighted_by_wavelength.
  change (Fin w0 :: map Fin ws) with (map Fin (w0 :: ws)). rewrite xsum_fin, Rsum_cons. cbn [map].
  rewrite Ga. cbn [bind weighted_loop]. rewrite xdiv_fin by auto. rewrite map_map. reflexivity.
Qed.

Lemma select_count wl (w : list xr) x : length wl = length w ->
  exists s, select wl w x = Ok s /\ length s = count_occ Req_EM_T wl x.
Proof.
  intros L. unfold select. rewrite L, Nat.eqb_refl. eexists; split; [reflexivity|].
  rewrite map_length. revert w L. induction wl as [|y wl IH]; intros [|z w] L; try discriminate; [reflexivity|].
  cbn [combine filter fst count_occ]. injection L as L. specialize (IH w L).
  destruct (Req_EM_T y x) as [-> | Ne].
  - replace (Reqb x x) with true by (symmetry; apply Reqb_true; reflexivity). cbn [length]. now rewrite IH.
  - replace (Reqb y x) with false by (symmetry; apply Reqb_false; auto). exact IH.
Qed.

Lemma loop_dup all (w : list xr) g m x : length all = length w -> (2 <= m)%nat ->
  (forall l, In l all -> exists r, g l = Ok r /\ length r = m) ->
  (2 <= count_occ Req_EM_T all x)%nat -> count_occ Req_EM_T all x <> m ->
  forall todo acc, incl todo all -> In x todo -> length acc = m ->
  weighted_loop all w g todo acc = Err ValueError.
Proof.
  intros L Hm Hg C2 Cm. induction todo as [|y todo IH]; intros acc Hi Hx Ha; [destruct Hx|].
  cbn [weighted_loop]. destruct (select_count all w y L) as (s & -> & Ls). cbn [bind].
  destruct (Hg y) as (r & Er & Lr); [apply Hi; left; reflexivity|]. rewrite Er. cbn [bind].
  assert (Y1 : (1 <= count_occ Req_EM_T all y)%nat) by (apply count_occ_In, Hi; left; reflexivity).
  destruct (Nat.eq_dec (length s) m) as [E|E].
  { destruct Hx as [<- | Hx]; [lia|].
    rewrite (bmap2_len xmul s r) by lia. cbn [bind].
    rewrite bmap2_len by (rewrite map2_length; lia). cbn [bind].
    apply IH; [intros z Hz; apply Hi; right; exact Hz | exact Hx | rewrite !map2_length; lia]. }
  destruct (Nat.eq_dec (length s) 1) as [E1|E1].
  { destruct s as [|s0 [|s1 s]]; try discriminate E1.
    destruct Hx as [<- | Hx]; [cbn in Ls; lia|].
    rewrite bmap2_scal. cbn [bind]. rewrite bmap2_len by (rewrite map_length; lia). cbn [bind].
    apply IH; [intros z Hz; apply Hi; right; exact Hz | exact Hx | rewrite map2_length, map_length; lia]. }
  rewrite bmap2_err by lia. reflexivity.
Qed.
(* a repeated wavelength (after the first entry) raises unless the row length
   happens to equal the number of repeats *)
Lemma weighted_dup a rest (w : list xr) g m x : length w = S (length rest) -> (2 <= m)%nat ->
  (forall l, In l (a :: rest) -> exists r, g l = Ok r /\ length r = m) ->
  In x rest -> (2 <= count_occ Req_EM_T (a :: rest) x)%nat -> count_occ Req_EM_T (a :: rest) x <> m ->
  weighted_by_wavelength (a :: rest) w g = Err ValueError.
Proof.
  intros L Hm Hg Hx C2 Cm. unfold weighted_by_wavelength.
  destruct w as [|w0 w]; [discriminate|]. cbn [map].
  destruct (Hg a) as (r & Er & Lr); [left; reflexivity|]. rewrite Er. cbn [bind].
  apply (loop_dup (a :: rest) _ g m x); auto.
  - cbn [length] in *. rewrite map_length. lia.
  - intros z Hz. right. exact Hz.
  - rewrite map_length. exact Lr.
Qed.
(* ... in which case no error is raised and the result is not the average *)
Lemma weighted_dup_silent a w1 w2 : w1 + w2 <> 0 -> w1 <> w2 ->
  exists h1 h2, weighted_by_wavelength [a; a] [Fin w1; Fin w2] (fun _ => Ok [Fin 1; Fin 1])
    = Ok [Fin h1; Fin h2] /\ h1 <> 1 /\ h2 = 1.
Proof.
  intros S N. unfold weighted_by_wavelength. change [Fin w1; Fin w2] with (map Fin [w1; w2]).
  rewrite xsum_fin. unfold Rsum. cbn [fold_right map bind]. rewrite Rplus_0_r.
  rewrite !xdiv_fin by auto. cbn [weighted_loop]. unfold select. cbn [length Nat.eqb combine filter fst].
  replace (Reqb a a) with true by (symmetry; apply Reqb_true; reflexivity).
  cbn [map snd bind bmap2 length Nat.eqb map2]. unfold bmap2. cbn [length Nat.eqb map2 bind].
  rewrite !xmul_fin, !xadd_fin. do 2 eexists. split; [reflexivity|]. split.
  - intros E. apply N. assert (Q : w1 = w1 / (w1 + w2) * (w1 + w2)) by (field; auto).
    set (q := w1 / (w1 + w2)) in *. assert (q = 1 / 2) by lra. clearbody q. subst q. lra.
  - field. auto.
Qed.

(** ** coherence_diameter *)
Definition zmax (z : nat -> R) (n : nat) : R := maxl (z 0%nat) (map z (seq 1 (n - 1))).
Definition path_int (z c : nat -> R) (n : nat) : R :=
  trapezoid (map (fun i => c i * pw (z i / zmax z n) (5 / 3)) (seq 0 n)) (map z (seq 0 n)).

Lemma coherence_fin lam z c n : lam <> 0 -> (0 < n)%nat -> (forall i, (i < n)%nat -> 0 <= z i) -> 0 < zmax z n ->
  coherence_diameter lam (map (fun i => Fin (z i)) (seq 0 n)) (map (fun i => Fin (c i)) (seq 0 n))
  = Ok (xpow (Fin (path_int z c n * 0.423 * (2 * PI / lam * (2 * PI / lam)))) (- (3 / 5))).
Proof.
  intros Hl Hn Hz HZ. unfold coherence_diameter.
  assert (E0 : xmaxl (map (fun i => Fin (z i)) (seq 0 n)) = Ok (Fin (zmax z n))).
  { destruct n as [|n]; [lia|]. unfold xmaxl, zmax. cbn [seq map]. rewrite <- (map_map z Fin), fold_xmax.
    cbn [Nat.sub]. rewrite Nat.sub_0_r. reflexivity. }
  rewrite E0. cbn [bind]. rewrite map_map.
  rewrite (map_ext_in (fun i => xpow (xdiv (Fin (z i)) (Fin (zmax z n))) (5 / 3)) (fun i => Fin (pw (z i / zmax z n) (5 / 3)))).
  2:{ intros i Hi. apply in_seq in Hi. rewrite xdiv_fin by lra. apply xpow_pw; [|lra].
      apply div_ge0; [|exact HZ]. apply Hz. lia. }
  rewrite bmap2_maps. cbn [bind]. rewrite <- (map_map z Fin).
  rewrite (map_ext (fun i => xmul (Fin (c i)) (Fin (pw (z i / zmax z n) (5 / 3)))) (fun i => Fin (c i * pw (z i / zmax z n) (5 / 3)))) by (intros; reflexivity).
  rewrite (trapz_maps (fun i => c i * pw (z i / zmax z n) (5 / 3)) z). cbn [bind].
  rewrite pydiv_ok by auto. reflexivity.
Qed.

Lemma zmax_pos z n j : (0 < n)%nat -> (j < n)%nat -> 0 < z j -> 0 < zmax z n.
Proof.
  intros Hn Hj H. unfold zmax. destruct (maxl_ge (z 0%nat) (map z (seq 1 (n - 1)))) as [A B].
  destruct j as [|j]; [lra|]. apply Rlt_le_trans with (1 := H). apply B. apply in_map. apply in_seq. lia.
Qed.

Lemma xpow_neg_fin x p r : p < 0 -> xpow (Fin x) p = Fin r -> 0 < x /\ r = Rpower x p.
Proof.
  intros Hp. simpl. repeat rcase; intros E; try discriminate E; try lra. injection E as E. split; [lra | now symmetry].
Qed.
Lemma ok_inj {A} (a b : A) : Ok a = Ok b -> a = b.
Proof. intros E. now injection E. Qed.

Lemma Rpower_pos x p : 0 < Rpower x p.
Proof. apply exp_pos. Qed.
Lemma Rpower_neg_le x y p : 0 < x -> x <= y -> p < 0 -> Rpower y p <= Rpower x p.
Proof.
  intros Hx H Hp. unfold Rpower. apply exp_le.
  assert (ln x <= ln y) by (destruct (Req_dec x y) as [-> | N]; [lra | left; apply ln_increasing; lra]). nra.
Qed.
Lemma Rpower_neg_lt x y p : 0 < x -> x < y -> p < 0 -> Rpower y p < Rpower x p.
Proof.
  intros Hx H Hp. unfold Rpower. apply exp_increasing.
  assert (ln x < ln y) by (apply ln_increasing; lra). nra.
Qed.

Definition path_ok (z : nat -> R) (n : nat) : Prop :=
  (forall i, (i < n)%nat -> 0 <= z i) /\ exists j, (j < n)%nat /\ 0 < z j.
Lemma path_ok_max z n : path_ok z n -> (0 < n)%nat /\ 0 < zmax z n.
Proof. intros [_ (j & Hj & Hp)]. split; [lia|]. apply (zmax_pos z n j); auto; lia. Qed.

Lemma coherence_wavelength z c n lam k r : 0 < lam -> 0 < k ->
  (forall i, (i < n)%nat -> 0 <= z i) -> (exists j, (j < n)%nat /\ 0 < z j) ->
  coherence_diameter lam (map (fun i => Fin (z i)) (seq 0 n)) (map (fun i => Fin (c i)) (seq 0 n)) = Ok (Fin r) ->
  0 < r /\
  coherence_diameter (k * lam) (map (fun i => Fin (z i)) (seq 0 n)) (map (fun i => Fin (c i)) (seq 0 n))
  = Ok (Fin (Rpower k (6 / 5) * r)).
Proof.
  intros Hl Hk Hz Hj. destruct (path_ok_max z n (conj Hz Hj)) as [Hn HZ].
  assert (Hkl : 0 < k * lam) by (apply Rmult_lt_0_compat; lra).
  rewrite !coherence_fin by (auto; lra). intros E. apply ok_inj, xpow_neg_fin in E; [|lra].
  destruct E as [P ->]. split; [apply exp_pos|].
  set (I := path_int z c n) in *.
  replace (I * 0.423 * (2 * PI / (k * lam) * (2 * PI / (k * lam))))
    with (I * 0.423 * (2 * PI / lam * (2 * PI / lam)) * (/ k * / k)).
  2:{ unfold Rdiv. rewrite Rinv_mult. ring. }
  assert (K : 0 < / k) by (apply Rinv_0_lt_compat; lra).
  rewrite xpow_fin by (apply Rmult_lt_0_compat; [exact P | nra]). do 2 f_equal.
  rewrite Rmult_comm. rewrite <- Rpower_mult_distr by (auto; nra). f_equal.
  unfold Rpower. f_equal. rewrite ln_mult, ln_Rinv by auto. field.
Qed.

Lemma coherence_cn2_scale z c n lam k r : 0 < lam -> 0 < k ->
  (forall i, (i < n)%nat -> 0 <= z i) -> (exists j, (j < n)%nat /\ 0 < z j) ->
  coherence_diameter lam (map (fun i => Fin (z i)) (seq 0 n)) (map (fun i => Fin (c i)) (seq 0 n)) = Ok (Fin r) ->
  coherence_diameter lam (map (fun i => Fin (z i)) (seq 0 n)) (map (fun i => Fin (k * c i)) (seq 0 n))
  = Ok (Fin (Rpower k (- (3 / 5)) * r)).
Proof.
  intros Hl Hk Hz Hj. destruct (path_ok_max z n (conj Hz Hj)) as [Hn HZ].
  rewrite (coherence_fin lam z (fun i => k * c i)), !coherence_fin by (auto; lra).
  intros E. apply ok_inj, xpow_neg_fin in E; [|lra]. destruct E as [P ->].
  replace (path_int z (fun i => k * c i) n) with (k * path_int z c n).
  - replace (k * path_int z c n * 0.423 * (2 * PI / lam * (2 * PI / lam)))
      with (k * (path_int z c n * 0.423 * (2 * PI / lam * (2 * PI / lam)))) by ring.
    rewrite xpow_fin by (apply Rmult_lt_0_compat; lra). rewrite Rpower_mult_distr by lra. reflexivity.
  - unfold path_int.
    rewrite (trapezoid_lin k 0 (fun i => c i * pw (z i / zmax z n) (5 / 3)) (fun _ => 0)
              (fun i => k * c i * pw (z i / zmax z n) (5 / 3))) by (intros; ring).
    ring.
Qed.

Fixpoint sascending (x : list R) : Prop :=
  match x with
  | x0 :: ((x1 :: _) as x') => x0 < x1 /\ sascending x'
  | _ => True
  end.
Lemma sasc_asc x : sascending x -> ascending x.
Proof. induction x as [|a [|b x] IH]; simpl; auto. intros [H S]. split; [lra|]. apply IH. exact S. Qed.
Lemma trapezoid_pos {I} (f : I -> R) x l i : (2 <= length l)%nat -> (forall j, In j l -> 0 <= f j) ->
  sascending (map x l) -> In i l -> 0 < f i -> 0 < trapezoid (map f l) (map x l).
Proof.
  induction l as [|a l IH]; intros L P S Hi Hp; [destruct Hi|].
  destruct l as [|b l]; [simpl in L; lia|]. destruct S as [S0 S].
  change (trapezoid (map f (a :: b :: l)) (map x (a :: b :: l)))
    with ((x b - x a) * (f a + f b) / 2 + trapezoid (map f (b :: l)) (map x (b :: l))).
  assert (T : 0 <= trapezoid (map f (b :: l)) (map x (b :: l))).
  { apply trapezoid_nonneg; [intros; apply P; right; auto | apply sasc_asc; exact S]. }
  assert (Pa : 0 <= f a) by (apply P; left; auto). assert (Pb : 0 <= f b) by (apply P; right; left; auto).
  cbn in S0.
  destruct Hi as [<- | [<- | Hi]].
  - assert (0 < (x b - x a) * (f a + f b)) by (apply Rmult_lt_0_compat; lra). lra.
  - assert (0 < (x b - x a) * (f a + f b)) by (apply Rmult_lt_0_compat; lra). lra.
  - assert (0 <= (x b - x a) * (f a + f b)) by (apply Rmult_le_pos; lra).
    assert (0 < trapezoid (map f (b :: l)) (map x (b :: l))); [|lra].
    apply IH; auto.
    + destruct l; [destruct Hi | simpl; lia].
    + intros j Hj. apply P. right. exact Hj.
    + right. exact Hi.
Qed.
Lemma sasc_seq (z : nat -> R) n : (forall i, (S i < n)%nat -> z i < z (S i)) -> sascending (map z (seq 0 n)).
Proof.
  assert (G : forall n a, (forall i, (a <= i)%nat -> (S i < a + n)%nat -> z i < z (S i)) -> sascending (map z (seq a n))).
  { induction n0 as [|m IH]; intros a H; [exact I|]. cbn [seq map]. destruct m as [|m]; [exact I|].
    cbn [seq map sascending]. split; [apply H; lia|]. apply (IH (S a)). intros i Hi Hi2. apply H; lia. }
  intros H. apply G. intros i _ Hi. apply H. lia.
Qed.

Lemma path_int_strict z c c' n i : (forall j, (S j < n)%nat -> z j < z (S j)) -> 0 <= z 0%nat ->
  (forall j, (j < n)%nat -> c j <= c' j) -> (0 < i < n)%nat -> c i < c' i ->
  path_int z c n < path_int z c' n.
Proof.
  intros Hz Hz0 Hc Hi Hci.
  assert (M : forall j, (j < n)%nat -> 0 <= z j).
  { induction j as [|j IH]; intros Hj; [exact Hz0|]. generalize (Hz j Hj) (IH ltac:(lia)). lra. }
  assert (Zi : 0 < z i).
  { destruct i as [|i]; [lia|]. generalize (Hz i ltac:(lia)) (M i ltac:(lia)). lra. }
  assert (HZ : 0 < zmax z n) by (apply (zmax_pos z n i); auto; lia).
  set (w := fun j => pw (z j / zmax z n) (5 / 3)).
  assert (D : path_int z c' n - path_int z c n = trapezoid (map (fun j => (c' j - c j) * w j) (seq 0 n)) (map z (seq 0 n))).
  { unfold path_int. rewrite (trapezoid_lin 1 (-1) (fun j => c' j * w j) (fun j => c j * w j) (fun j => (c' j - c j) * w j)) by (intros; ring).
    unfold w. ring. }
  assert (0 < path_int z c' n - path_int z c n); [|lra]. rewrite D.
  apply (trapezoid_pos _ z _ i).
  - rewrite seq_length. lia.
  - intros j Hj. apply in_seq in Hj. apply Rmult_le_pos; [generalize (Hc j ltac:(lia)); lra | apply pw_ge0].
  - apply sasc_seq. exact Hz.
  - apply in_seq. lia.
  - apply Rmult_lt_0_compat; [lra|]. apply pw_pos, Rdiv_lt_0_compat; lra.
Qed.

(* more turbulence anywhere on the path beyond its first sample: smaller r0 *)
Lemma coherence_decreasing z c c' n i lam r : 0 < lam ->
  0 <= z 0%nat -> (forall j, (S j < n)%nat -> z j < z (S j)) ->
  (forall j, (j < n)%nat -> c j <= c' j) -> (0 < i < n)%nat -> c i < c' i ->
  coherence_diameter lam (map (fun i => Fin (z i)) (seq 0 n)) (map (fun i => Fin (c i)) (seq 0 n)) = Ok (Fin r) ->
  exists r', coherence_diameter lam (map (fun i => Fin (z i)) (seq 0 n)) (map (fun i => Fin (c' i)) (seq 0 n)) = Ok (Fin r')
    /\ 0 < r' < r.
Proof.
  intros Hl Hz0 Hz Hc Hi Hci.
  assert (M : forall j, (j < n)%nat -> 0 <= z j).
  { induction j as [|j IH]; intros Hj; [exact Hz0|]. generalize (Hz j Hj) (IH ltac:(lia)). lra. }
  assert (Zi : 0 < z i).
  { destruct i as [|i]; [lia|]. generalize (Hz i ltac:(lia)) (M i ltac:(lia)). lra. }
  assert (HZ : 0 < zmax z n) by (apply (zmax_pos z n i); auto; lia).
  rewrite !coherence_fin by (auto; try lia; lra). intros E. apply ok_inj, xpow_neg_fin in E; [|lra].
  destruct E as [P ->].
  assert (Q := path_int_strict z c c' n i Hz Hz0 Hc Hi Hci).
  assert (K : 0 < 2 * PI / lam * (2 * PI / lam)).
  { generalize PI_RGT_0; intros. assert (0 < 2 * PI / lam) by (apply Rdiv_lt_0_compat; lra). nra. }
  set (q := 2 * PI / lam * (2 * PI / lam)) in *.
  assert (L : path_int z c n * 0.423 * q < path_int z c' n * 0.423 * q) by nra.
  rewrite xpow_fin by lra. eexists; split; [reflexivity|]. split; [apply exp_pos|].
  apply Rpower_neg_lt; lra.
Qed.

Lemma coherence_finite z c n lam i : 0 < lam -> 0 <= z 0%nat -> (forall j, (S j < n)%nat -> z j < z (S j)) ->
  (forall j, (j < n)%nat -> 0 <= c j) -> (0 < i < n)%nat -> 0 < c i ->
  exists r, coherence_diameter lam (map (fun i => Fin (z i)) (seq 0 n)) (map (fun i => Fin (c i)) (seq 0 n)) = Ok (Fin r)
    /\ 0 < r.
Proof.
  intros Hl Hz0 Hz Hc Hi Hci.
  assert (M : forall j, (j < n)%nat -> 0 <= z j).
  { induction j as [|j IH]; intros Hj; [exact Hz0|]. generalize (Hz j Hj) (IH ltac:(lia)). lra. }
  assert (Zi : 0 < z i).
  { destruct i as [|i]; [lia|]. generalize (Hz i ltac:(lia)) (M i ltac:(lia)). lra. }
  assert (HZ : 0 < zmax z n) by (apply (zmax_pos z n i); auto; lia).
  rewrite !coherence_fin by (auto; try lia; lra).
  assert (Q := path_int_strict z (fun _ => 0) c n i Hz Hz0 Hc Hi Hci).
  assert (Z0 : path_int z (fun _ => 0) n = 0).
  { unfold path_int. rewrite (trapezoid_ext _ (fun _ => 0)) by (intros; ring). apply trapezoid_zero. }
  assert (K : 0 < 2 * PI / lam * (2 * PI / lam)).
  { generalize PI_RGT_0; intros. assert (0 < 2 * PI / lam) by (apply Rdiv_lt_0_compat; lra). nra. }
  rewrite xpow_fin by (apply Rmult_lt_0_compat; lra). eexists; split; [reflexivity | apply exp_pos].
Qed.

Lemma coherence_no_turbulence z n lam : 0 < lam -> (forall i, (i < n)%nat -> 0 <= z i) ->
  (exists j, (j < n)%nat /\ 0 < z j) ->
  coherence_diameter lam (map (fun i => Fin (z i)) (seq 0 n)) (map (fun _ => Fin 0) (seq 0 n)) = Ok PInf.
Proof.
  intros Hl Hz Hj. destruct (path_ok_max z n (conj Hz Hj)) as [Hn HZ].
  rewrite (coherence_fin lam z (fun _ => 0)) by (auto; lra).
  assert (Z0 : path_int z (fun _ => 0) n = 0).
  { unfold path_int. rewrite (trapezoid_ext _ (fun _ => 0)) by (intros; ring). apply trapezoid_zero. }
  rewrite Z0, !Rmult_0_l. simpl. repeat rcase; try lra; reflexivity.
Qed.
Lemma coherence_errors lam cn2 z c n : coherence_diameter lam [] cn2 = Err ValueError
  /\ ((0 < n)%nat -> (forall i, (i < n)%nat -> 0 <= z i) -> 
      coherence_diameter 0 (map (fun i => Fin (z i)) (seq 0 n)) (map (fun i => Fin (c i)) (seq 0 n)) = Err ZeroDivisionError).
Proof.
  split; [reflexivity|]. intros Hn Hz. unfold coherence_diameter.
  destruct n as [|n]; [lia|].
  destruct (xmaxl (map (fun i => Fin (z i)) (seq 0 (S n)))) as [zm|e] eqn:E; [|discriminate E]. cbn [bind].
  rewrite map_map, bmap2_maps. cbn [bind].
  destruct (trapz _ _) as [t|e] eqn:Et; cbn [bind].
  - rewrite pydiv_zero. reflexivity.
  - exfalso. unfold trapz in Et. rewrite bmap2_len in Et; [discriminate Et|].
    unfold xdiff, xmids. rewrite !map2_length. cbn [seq map tl length]. rewrite !map_length, !seq_length. reflexivity.
Qed.
