(** * Proof_NanSpread: a slant range shorter than the altitude *)
From Coq Require Import Reals ZArith List Bool Lia Lra Psatz.
From Verif Require Import Base_XR Base_Np Model_Geo Model_Scenario Model_Sensor Model_Otf Model_Img Model_Met.
Import ListNotations.
Open Scope R_scope.

Lemma xmul_nan_r x : xmul x NaN = NaN.
Proof. now destruct x. Qed.
Lemma xadd_nan_r x : xadd x NaN = NaN.
Proof. now destruct x. Qed.
Lemma xsub_nan_r x : xsub x NaN = NaN.
Proof. now destruct x. Qed.
Lemma xdiv_nan_r x : xdiv x NaN = NaN.
Proof. now destruct x. Qed.

Lemma quotient_gt1 n d : 0 < d -> d < n -> 1 < n / d.
Proof. intros D L. apply Rmult_lt_reg_r with d; [exact D|]. unfold Rdiv. rewrite Rmult_assoc, Rinv_l by lra. lra. Qed.
Lemma short_nadir k h b : 0 < b < h -> nadir_angle k 0 h b = Ok NaN.
Proof.
  intros [B H]. unfold nadir_angle. assert (Z : 2 * (r_earth + h) * b <> 0) by (unfold r_earth; nra).
  assert (Q : 1 < -1 * ((r_earth + 0) * (r_earth + 0) - (r_earth + h) * (r_earth + h) - b * b) / (2 * (r_earth + h) * b)).
  { apply quotient_gt1; unfold r_earth; nra. }
  set (q := _ / _) in Q.
  assert (S : sdiv k (-1 * ((r_earth + 0) * (r_earth + 0) - (r_earth + h) * (r_earth + h) - b * b)) (2 * (r_earth + h) * b) = Ok (Fin q)).
  { destruct k; simpl; unfold pydiv, xdiv; apply Reqb_false in Z; rewrite Z; reflexivity. }
  cbv zeta. rewrite S. cbn [bind xacos]. apply Rleb_false in Q. now rewrite Q, andb_false_r.
Qed.
Lemma short_elev h b : 0 < b < h -> elev_angle h b = Ok NaN.
Proof. intros H. unfold elev_angle. rewrite short_nadir by exact H. reflexivity. Qed.

Lemma short_path k h b : 0 < b < h -> exists z hs, altitude_along_slant_path k 0 h b = Ok (z, hs) /\
  length z = n_path /\ length hs = n_path /\ forall x, In x hs -> x = NaN.
Proof.
  intros H. unfold altitude_along_slant_path. rewrite short_nadir by exact H. generalize n_path. intros n. cbn [bind].
  eexists _, _. split; [reflexivity|]. split; [|split].
  - unfold linspace. rewrite !map_length, seq_length. reflexivity.
  - rewrite rev_length. unfold linspace. rewrite !map_length, seq_length. reflexivity.
  - intros x I. apply in_rev in I. apply in_map_iff in I. destruct I as (c & <- & I). apply in_map_iff in I. destruct I as (y & <- & _).
    cbn [xcos]. rewrite xmul_nan_r, xsub_nan_r. reflexivity.
Qed.
Lemma all_nan_map {A} (l : list xr) (l' : list A) : (forall x, In x l -> x = NaN) -> length l = length l' -> l = map (fun _ => NaN) l'.
Proof.
  revert l'. induction l as [|x l IH]; intros [|y l'] H E; try discriminate; [reflexivity|]. simpl. f_equal.
  - apply H. now left.
  - apply IH; [intros; apply H; now right|now injection E].
Qed.
Lemma in_map2 {A B C} (f : A -> B -> C) a b x : In x (map2 f a b) -> exists p q, In p a /\ In q b /\ x = f p q.
Proof.
  revert b. induction a as [|p a IH]; intros b I; [destruct I|]. destruct b as [|q b]; [destruct I|]. destruct I as [<-|I].
  - exists p, q. simpl. auto.
  - destruct (IH _ I) as (p' & q' & P & Q & E). exists p', q'. simpl. auto.
Qed.
Lemma bmap2_nan_r f (a b m : list xr) : (forall x, f x NaN = NaN) -> (forall x, In x b -> x = NaN) ->
  bmap2 f a b = Ok m -> forall x, In x m -> x = NaN.
Proof.
  intros F B E x I. unfold bmap2 in E. destruct (Nat.eqb _ _).
  - injection E as <-. apply in_map2 in I. destruct I as (p & q & _ & Q & ->). rewrite (B q Q). apply F.
  - destruct a as [|a0 [|a1 a]].
    + destruct b as [|y [|]]; try discriminate. injection E as <-. destruct I.
    + injection E as <-. apply in_map_iff in I. destruct I as (q & <- & Q). rewrite (B q Q). apply F.
    + destruct b as [|y [|]]; try discriminate. injection E as <-. apply (in_map_iff (fun x => f x y) (a0 :: a1 :: a)) in I. destruct I as (p & <- & _).
      rewrite (B y) by now left. apply F.
Qed.
Lemma bmap2_nan_l f (a b m : list xr) : (forall x, f NaN x = NaN) -> (forall x, In x a -> x = NaN) ->
  bmap2 f a b = Ok m -> forall x, In x m -> x = NaN.
Proof.
  intros F A E x I. unfold bmap2 in E. destruct (Nat.eqb _ _).
  - injection E as <-. apply in_map2 in I. destruct I as (p & q & P & _ & ->). rewrite (A p P). apply F.
  - destruct a as [|a0 [|a1 a]].
    + destruct b as [|y [|]]; try discriminate. injection E as <-. destruct I.
    + injection E as <-. apply in_map_iff in I. destruct I as (q & <- & _). rewrite (A a0) by now left. apply F.
    + destruct b as [|y [|]]; try discriminate. injection E as <-. apply (in_map_iff (fun x => f x y) (a0 :: a1 :: a)) in I. destruct I as (p & <- & P).
      rewrite (A p P). apply F.
Qed.
Lemma bmap2_ok {A B C} (f : A -> B -> C) a b : length a = length b -> bmap2 f a b = Ok (map2 f a b).
Proof. intros H. unfold bmap2. now rewrite H, Nat.eqb_refl. Qed.
Lemma map2_len {A B C} (f : A -> B -> C) a b : length (map2 f a b) = Nat.min (length a) (length b).
Proof. revert b. induction a as [|x a IH]; intros [|y b]; try reflexivity. simpl. f_equal. apply IH. Qed.
Lemma xsum_nan l x : In x l -> x = NaN -> xsum l = NaN.
Proof.
  induction l as [|y l IH]; intros I N; [destruct I|]. destruct I as [E|I]; simpl.
  - subst. reflexivity.
  - rewrite IH by assumption. apply xadd_nan_r.
Qed.
Lemma tl_len {A} (l : list A) : length (tl l) = (length l - 1)%nat.
Proof. destruct l; simpl; lia. Qed.
Lemma trapz_nan y x : length y = length x -> (2 <= length x)%nat -> (forall v, In v y -> v = NaN) -> trapz y x = Ok NaN.
Proof.
  intros L N Y. unfold trapz.
  assert (L1 : length (xdiff x) = (length x - 1)%nat) by (unfold xdiff; rewrite map2_len, tl_len; lia).
  assert (L2 : length (xmids y) = (length x - 1)%nat) by (unfold xmids; rewrite map2_len, tl_len; lia).
  rewrite bmap2_ok by congruence. simpl bind. f_equal.
  assert (M : forall v, In v (xmids y) -> v = NaN).
  { intros v I. apply in_map2 in I. destruct I as (p & q & _ & Q & ->). rewrite (Y q Q). apply xadd_nan_r. }
  set (m := map2 xmul (xdiff x) (xmids y)). assert (Lm : length m = (length x - 1)%nat) by (unfold m; rewrite map2_len; lia).
  destruct m as [|v m'] eqn:E; [simpl in Lm; lia|].
  apply xsum_nan with (xdiv v (Fin 2)); [now left|].
  assert (I : In v (map2 xmul (xdiff x) (xmids y))) by (fold m; rewrite E; now left).
  apply in_map2 in I. destruct I as (p & q & _ & Q & ->). rewrite (M q Q), xmul_nan_r. reflexivity.
Qed.
Lemma coherence_nan z cn2 : length z = length cn2 -> (2 <= length z)%nat -> (forall x, In x cn2 -> x = NaN) ->
  coherence_diameter (1 / 10 ^ 6) z cn2 = Ok NaN.
Proof.
  intros L N C. unfold coherence_diameter. assert (M : exists zm, xmaxl z = Ok zm) by (destruct z; [simpl in N; lia|eexists; reflexivity]).
  destruct M as (zm & ->). cbn [bind].
  rewrite bmap2_ok by (rewrite map_length; congruence). cbn [bind].
  rewrite trapz_nan; [| |exact N|].
  - cbn [bind]. unfold pydiv. assert (Z : 1 / 10 ^ 6 <> 0) by lra. apply Reqb_false in Z. rewrite Z. reflexivity.
  - rewrite map2_len, map_length, L. lia.
  - intros v I. apply in_map2 in I. destruct I as (p & q & P & _ & ->). now rewrite (C p P).
Qed.
Lemma traverse_const {A B} (f : A -> res B) y l : (forall x, In x l -> f x = Ok y) -> traverse f l = Ok (map (fun _ => y) l).
Proof.
  induction l as [|x l IH]; intros H; [reflexivity|]. simpl. rewrite H by now left. simpl.
  fold (traverse f). rewrite IH by (intros; apply H; now right). reflexivity.
Qed.
Lemma select_one wl w x ws : NoDup wl -> In x wl -> select wl w x = Ok ws -> exists y, ws = [y].
Proof.
  unfold select. destruct (Nat.eqb_spec (length wl) (length w)) as [L|]; [|discriminate]. intros D I E. injection E as <-.
  revert w L. induction wl as [|a wl IH]; intros [|b w] L; try discriminate; [destruct I|]. simpl.
  inversion D; subst. destruct (Reqb a x) eqn:Q; [apply Reqb_true in Q; subst a|apply Reqb_false in Q].
  - exists b. simpl. f_equal. assert (Z : filter (fun p => Reqb (fst p) x) (combine wl w) = []).
    { clear -H1. revert w. induction wl as [|c wl IH]; intros [|d w]; try reflexivity. simpl.
      destruct (Reqb c x) eqn:Q; [apply Reqb_true in Q; subst c; exfalso; apply H1; now left|]. apply IH. intros J. apply H1. now right. }
    now rewrite Z.
  - destruct I as [->|I]; [tauto|]. apply IH; auto.
Qed.
Lemma loop_nan {A} (pts : list A) all w g todo out : NoDup all -> incl todo all -> (forall l, In l todo -> g l = Ok (map (fun _ => NaN) pts)) ->
  weighted_loop all w g todo (map (fun _ => NaN) pts) = Ok out -> out = map (fun _ => NaN) pts.
Proof.
  intros D. revert out. induction todo as [|l todo IH]; intros out T G E; simpl in E.
  - now injection E.
  - destruct (select all w l) as [ws|] eqn:S; [|discriminate]. simpl in E.
    rewrite G in E by now left. simpl in E.
    destruct (select_one all w l ws D (T l (or_introl eq_refl)) S) as (y & ->).
    assert (B : bmap2 xmul [y] (map (fun _ => NaN) pts) = Ok (map (fun _ => NaN) pts)).
    { destruct pts as [|p [|q pts]]; [reflexivity| |].
      - now destruct y.
      - unfold bmap2. simpl length. cbn [Nat.eqb]. f_equal. rewrite map_map. apply map_ext. intros. apply xmul_nan_r. }
    rewrite B in E. simpl in E. rewrite bmap2_ok in E by reflexivity. simpl in E.
    assert (P : map2 xadd (map (fun _ : A => NaN) pts) (map (fun _ => NaN) pts) = map (fun _ => NaN) pts)
      by (clear; induction pts; simpl; [reflexivity|now f_equal]).
    rewrite P in E. apply IH in E; auto. intros x I; apply T; now right. intros x I; apply G; now right.
Qed.
Lemma weighted_nan {A} (pts : list A) wl w g out : NoDup wl -> (forall l, In l wl -> g l = Ok (map (fun _ => NaN) pts)) ->
  weighted_by_wavelength wl w g = Ok out -> out = map (fun _ => NaN) pts.
Proof.
  intros D G E. unfold weighted_by_wavelength in E. destruct (map _ w) as [|w0 w'] eqn:W; [discriminate|].
  destruct wl as [|l0 rest]; [discriminate|]. rewrite G in E by now left. simpl in E.
  rewrite map_map in E. rewrite (map_ext (fun _ : A => xmul w0 NaN) (fun _ => NaN)) in E by (intros; apply xmul_nan_r).
  apply loop_nan in E; auto. intros x I; now right. intros x I; apply G; now right.
Qed.
Lemma short_turbulence k pts wl w h b D v cn2 t vel out : 0 < b < h -> NoDup wl ->
  polychromatic_turbulence_OTF k pts wl w h b D v cn2 t vel = Ok out -> fst out = map (fun _ => NaN) pts.
Proof.
  intros H N E. unfold polychromatic_turbulence_OTF in E.
  destruct (short_path k h b H) as (z & hs & P & Lz & Lh & A). rewrite P in E. cbn [bind] in E.
  rewrite coherence_nan in E.
  - cbn [bind] in E. destruct (weighted_by_wavelength wl w (fun l => Ok [r0_function NaN l])) as [r0b|] eqn:R0; [|discriminate].
    cbn [bind] in E. destruct (weighted_by_wavelength wl w _) as [o|] eqn:W in E; [|discriminate]. injection E as <-. cbn [fst].
    apply (weighted_nan pts) in W; auto. intros l _. apply traverse_const. intros p _. reflexivity.
  - rewrite map_length. congruence.
  - rewrite Lz. apply Nat.leb_le. vm_compute. reflexivity.
  - intros x I. apply in_map_iff in I. destruct I as (y & <- & I). now rewrite (A y I).
Qed.
Lemma bmap2_one_len (y : xr) l m : bmap2 xmul [y] l = Ok m -> length m = length l.
Proof.
  unfold bmap2. destruct (Nat.eqb_spec (length [y]) (length l)) as [E|E]; intros H; injection H as <-.
  - destruct l as [|a [|]]; try discriminate E. reflexivity.
  - apply map_length.
Qed.
Lemma bmap2_same_len f (a b m : list xr) : length a = length b -> bmap2 f a b = Ok m -> length m = length b.
Proof. intros L H. rewrite bmap2_ok in H by exact L. injection H as <-. rewrite map2_len. lia. Qed.
Lemma loop_len n all w g todo acc out : NoDup all -> incl todo all -> (forall l r, In l todo -> g l = Ok r -> length r = n) ->
  length acc = n -> weighted_loop all w g todo acc = Ok out -> length out = n.
Proof.
  intros D. revert acc. induction todo as [|l todo IH]; intros acc T G A E; simpl in E.
  - injection E as <-. exact A.
  - destruct (select all w l) as [ws|] eqn:S; [|discriminate]. cbn [bind] in E.
    destruct (g l) as [gi|] eqn:Gl; [|discriminate]. cbn [bind] in E.
    destruct (select_one all w l ws D (T l (or_introl eq_refl)) S) as (y & ->).
    destruct (bmap2 xmul [y] gi) as [t|] eqn:B; [|discriminate]. cbn [bind] in E.
    apply bmap2_one_len in B. rewrite (G l gi (or_introl eq_refl) Gl) in B.
    destruct (bmap2 xadd acc t) as [acc'|] eqn:B'; [|discriminate]. cbn [bind] in E.
    apply bmap2_same_len in B'; [|congruence].
    apply IH in E; auto; [intros x I; apply T; now right|intros x r I; apply G; now right|congruence].
Qed.
Lemma weighted_len n wl w g out : NoDup wl -> (forall l r, In l wl -> g l = Ok r -> length r = n) ->
  weighted_by_wavelength wl w g = Ok out -> length out = n.
Proof.
  intros D G E. unfold weighted_by_wavelength in E. destruct (map _ w) as [|w0 w'] eqn:W; [discriminate|].
  destruct wl as [|l0 rest]; [discriminate|]. destruct (g l0) as [g0|] eqn:G0; [|discriminate]. cbn [bind] in E.
  apply (loop_len n) in E; auto; [intros x I; now right|intros x r I; apply G; now right|].
  rewrite map_length. apply (G l0); [now left|exact G0].
Qed.
Lemma traverse_len {A B} (f : A -> res B) l r : traverse f l = Ok r -> length r = length l.
Proof.
  revert r. induction l as [|x l IH]; intros r E; simpl in E; [injection E as <-; reflexivity|].
  destruct (f x); [|discriminate]. cbn [bind] in E. fold (traverse f) in E. destruct (traverse f l) eqn:T; [|discriminate].
  injection E as <-. simpl. f_equal. now apply IH.
Qed.
Lemma short_system diag k s c pts wl w b t o : 0 < b < altitude c -> 0 < plain c Cn2At1m -> NoDup wl ->
  common_OTFs diag k s c pts wl w b t = Ok o ->
  turb_OTF o = map (fun _ => NaN) pts /\ system_OTF o = map (fun _ => NaN) pts.
Proof.
  intros H C N E. unfold common_OTFs in E.
  destruct (weighted_by_wavelength wl w (fun l => on_grid_res _ _)) as [ap|] eqn:AP; [|discriminate]. cbn [bind] in E.
  assert (Lap : length ap = length pts).
  { apply (weighted_len (length pts)) in AP; auto. intros l r _ Q. now apply traverse_len in Q. }
  apply Rltb_true in C. rewrite C in E.
  destruct (polychromatic_turbulence_OTF _ _ _ _ _ _ _ _ _ _ _) as [[turb r0b]|] eqn:TU; [|discriminate]. cbn [bind] in E.
  apply short_turbulence in TU; auto. cbn [fst] in TU. subst turb.
  destruct (weighted_by_wavelength wl w _) as [wav|] eqn:WA in E; [|discriminate]. cbn [bind] in E.
  assert (Lwav : length wav = length pts).
  { apply (weighted_len (length pts)) in WA; auto. intros l r _ Q. injection Q as <-. unfold on_grid. apply map_length. }
  destruct (if Nat.ltb 1 (length (s_kernel s)) then _ else _) as [filt|] eqn:FI in E; [|discriminate]. cbn [bind] in E.
  assert (Lfilt : length filt = length pts).
  { destruct (Nat.ltb _ _); [|injection FI as <-; apply map_length].
    destruct (pydiv _ _); [|discriminate]. cbn [bind] in FI. now apply traverse_len in FI. }
  set (nan := map (fun _ => NaN) pts) in *.
  assert (Ln : length nan = length pts) by apply map_length.
  assert (An : forall x, In x nan -> x = NaN) by (intros x I; apply in_map_iff in I; destruct I as (? & <- & _); reflexivity).
  assert (step : forall a b m, (length a = length pts /\ forall x, In x a -> x = NaN) -> length b = length pts ->
            bmap2 xmul a b = Ok m -> length m = length pts /\ forall x, In x m -> x = NaN).
  { intros a b' m [La Aa] Lb Q. split; [apply bmap2_same_len in Q; congruence|].
    refine (bmap2_nan_l xmul a b' m _ Aa Q). reflexivity. }
  destruct (bmap2 xmul ap nan) as [m0|] eqn:M0; [|discriminate]. cbn [bind] in E.
  assert (P0 : length m0 = length pts /\ forall x, In x m0 -> x = NaN).
  { split; [apply bmap2_same_len in M0; congruence|]. exact (bmap2_nan_r xmul ap nan m0 xmul_nan_r An M0). }
  repeat match type of E with
  | (let* _ := bmap2 xmul ?a ?b in _) = _ => let m := fresh "m" in let M := fresh "M" in let P := fresh "P" in
      destruct (bmap2 xmul a b) as [m|] eqn:M; [|discriminate]; cbn [bind] in E;
      assert (P : length m = length pts /\ forall x, In x m -> x = NaN)
        by (refine (step a b m _ _ M); [assumption|unfold on_grid; rewrite ?map_length; congruence])
  end.
  injection E as <-. cbn [turb_OTF system_OTF]. split; [reflexivity|].
  match goal with |- ?x = _ => match goal with P : length x = length pts /\ _ |- _ => destruct P as [La Aa] end end.
  apply all_nan_map; auto.
Qed.
Lemma giqe4_nan rer gsd eho ng snr : giqe4 rer gsd eho ng snr NaN = (NaN, NaN).
Proof.
  unfold giqe4. destruct (if xle _ _ then _ else _) as [c1 c2]. cbn [xsin xpow]. rewrite xdiv_nan_r. cbn [xdiv xlog10].
  rewrite xmul_nan_r, xsub_nan_r. reflexivity.
Qed.
Lemma giqe5_nan r1 r2 gsd snr : fst (giqe5 r1 r2 gsd snr NaN) = (NaN, NaN).
Proof.
  unfold giqe5. cbn [xsin xpow]. rewrite xdiv_nan_r. cbn [xdiv xlog10 fst]. rewrite xmul_nan_r, xsub_nan_r. reflexivity.
Qed.
(* the computation goes through (one grid point, one wavelength) *)
Lemma aperture_ok u v l D eta : exists x, circular_aperture_OTF Np u v l D eta = Ok x.
Proof. unfold circular_aperture_OTF. cbn [kdiv bind]. destruct (Rltb 0 eta); eexists; reflexivity. Qed.
Lemma weighted_one l x g y : g l = Ok [y] -> exists z, weighted_by_wavelength [l] [x] g = Ok [z].
Proof. intros G. unfold weighted_by_wavelength. cbn [map]. rewrite G. cbn. eexists. reflexivity. Qed.
Lemma turbulence_runs k p l x h b D v cn2 t vel : 0 < b < h ->
  exists o r, polychromatic_turbulence_OTF k [p] [l] [x] h b D v cn2 t vel = Ok ([o], r).
Proof.
  intros H. unfold polychromatic_turbulence_OTF.
  destruct (short_path k h b H) as (z & hs & P & Lz & Lh & A). rewrite P. cbn [bind].
  rewrite coherence_nan.
  - cbn [bind]. destruct (weighted_one l x (fun l => Ok [r0_function NaN l]) _ eq_refl) as (r & ->). cbn [bind].
    match goal with |- context [weighted_by_wavelength [l] [x] ?g] => destruct (weighted_one l x g NaN eq_refl) as (o & ->) end.
    cbn [bind]. eexists _, _. reflexivity.
  - rewrite map_length. congruence.
  - rewrite Lz. apply Nat.leb_le. vm_compute. reflexivity.
  - intros y I. apply in_map_iff in I. destruct I as (q & <- & I). now rewrite (A q I).
Qed.
Lemma short_runs diag s c p l x b t : 0 < b < altitude c -> (length (s_kernel s) <= 1)%nat ->
  exists o, common_OTFs diag Np s c [p] [l] [x] b t = Ok o.
Proof.
  intros H K. unfold common_OTFs.
  destruct (aperture_ok (fst p) (snd p) l (s_D s) (s_eta s)) as (a & A).
  match goal with |- context [weighted_by_wavelength [l] [x] ?g] => destruct (weighted_one l x g a) as (ap & ->) end.
  { unfold on_grid_res, traverse. destruct p as [pu pv]. cbn [fst snd] in *. cbn - [circular_aperture_OTF]. rewrite A. reflexivity. }
  cbn [bind].
  assert (T : exists o r, (if Rltb 0 (plain c Cn2At1m)
    then polychromatic_turbulence_OTF Np [p] [l] [x] (altitude c) b (s_D s)
           (plain c HaWindSpeed) (plain c Cn2At1m) (t * s_ntdi s) (plain c AircraftSpeed)
    else Ok (map (fun _ => Fin 1) [p], map (fun _ => Fin 1000000) [p])) = Ok ([o], r)).
  { destruct (Rltb _ _); [apply turbulence_runs; exact H|eexists _, _; reflexivity]. }
  destruct T as (o & r & ->). cbn [bind].
  match goal with |- context [weighted_by_wavelength [l] [x] ?g] => destruct (weighted_one l x g _ eq_refl) as (w & ->) end.
  cbn [bind]. replace (Nat.ltb 1 (length (s_kernel s))) with false by (symmetry; apply Nat.ltb_ge; exact K).
  cbn. eexists. reflexivity.
Qed.
