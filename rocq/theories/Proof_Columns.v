(** * Proof_Columns: which columns of an atmosphere file are used (C134) *)
From Coq Require Import Reals Lra Lia List.
From Verif Require Import Base_XR Base_Np Model_Geo Model_Db Model_Scenario Model_Sensor Model_Rad Model_Otf Model_Met Model_Img Model_Sim
  Spec_Rad Spec_Met Spec_Columns Proof_Pe Proof_RadP.
Import ListNotations.
Open Scope R_scope.

Lemma file_value m r T : (forall i, (i < 1371)%nat -> m i 0%nat <> 0) ->
  total_radiance (atm_rows m) r T = map (fun i => Fin (file_radiance m r T i)) (seq 0 1371).
Proof.
  intros H. rewrite total_radiance_value.
  - unfold atm_rows. rewrite map_map. apply map_ext. intros i. unfold scene_radiance, file_radiance. cbn [a_path a_scat a_wl a_trans a_grnd]. reflexivity.
  - intros a Ha. unfold atm_rows in Ha. apply in_map_iff in Ha. destruct Ha as (i & <- & Hi). apply in_seq in Hi. cbn [a_wl]. apply H. change n_wave with 1371%nat in Hi. lia.
Qed.
Lemma file_targets m em : (forall i, (i < 1371)%nat -> m i 0%nat <> 0) ->
  giqe_radiance (atm_rows m) em =
  (map (fun i => Fin (file_radiance m (if Z.eqb em 0 then 0.15 else 0) 282 i)) (seq 0 1371),
   map (fun i => Fin (file_radiance m (if Z.eqb em 0 then 0.07 else 0) 280 i)) (seq 0 1371)).
Proof. intros H. unfold giqe_radiance. destruct (Z.eqb em 0); cbn [negb]; rewrite !file_value by exact H; reflexivity. Qed.
Lemma file_haze m : path_radiance (atm_rows m) = map (fun i => Fin (m i 2%nat + m i 4%nat)) (seq 0 1371).
Proof. unfold path_radiance, atm_rows. rewrite map_map. reflexivity. Qed.

(** ** the surface column *)
Definition dry (a : arow) : arow := {| a_wl := a_wl a; a_trans := a_trans a; a_path := a_path a; a_surf := 0; a_scat := a_scat a; a_grnd := a_grnd a |}.
Lemma dry_rows m m' : same_but_surface m m' -> map dry (atm_rows m) = map dry (atm_rows m').
Proof.
  intros H. unfold atm_rows. rewrite !map_map. apply map_ext_in. intros i Hi. apply in_seq in Hi. change n_wave with 1371%nat in Hi. unfold dry. cbn [a_wl a_trans a_path a_scat a_grnd].
  assert (L : (i < 1371)%nat) by lia. rewrite (H i 0%nat L), (H i 1%nat L), (H i 2%nat L), (H i 4%nat L), (H i 5%nat L) by (cbn; tauto). reflexivity.
Qed.
Lemma filter_map_comm {A B} (f : A -> B) (p : B -> bool) l : filter p (map f l) = map f (filter (fun a => p (f a)) l).
Proof. induction l as [|a l IH]; [reflexivity|]. cbn. destruct (p (f a)); cbn; rewrite IH; reflexivity. Qed.
Lemma dry_band s l : band s (map dry l) = match band s l with Ok b => Ok (map dry b) | Err e => Err e end.
Proof.
  unfold band. destruct (first_of (s_owl s)) as [lo|e]; [|reflexivity]. cbn [bind]. destruct (last_of (s_owl s)) as [hi|e]; [|reflexivity]. cbn [bind].
  rewrite !filter_map_comm. reflexivity.
Qed.
Lemma dry_total l r T : total_radiance (map dry l) r T = total_radiance l r T.
Proof. unfold total_radiance. rewrite map_map. reflexivity. Qed.
Lemma dry_wl l : map a_wl (map dry l) = map a_wl l.
Proof. rewrite map_map. reflexivity. Qed.
Lemma dry_contrast s l em : contrast_part s (map dry l) em = contrast_part s l em.
Proof.
  unfold contrast_part, giqe_radiance, path_radiance. rewrite !dry_total, dry_wl, map_map. reflexivity.
Qed.
Lemma dry_pe_at s l t r : pe_at s (map dry l) t r = pe_at s l t r.
Proof. unfold pe_at. now rewrite dry_total, dry_wl. Qed.
Lemma mapM_ext {A B} (f g : A -> res B) l : (forall a, f a = g a) -> mapM f l = mapM g l.
Proof. intros H. induction l as [|a l IH]; [reflexivity|]. cbn. now rewrite H, IH. Qed.
Lemma dry_rtp l s t T : reflectance_to_photoelectrons (map dry l) s t T = reflectance_to_photoelectrons l s t T.
Proof.
  unfold reflectance_to_photoelectrons. rewrite dry_band. destruct (band s l) as [b|e]; [|reflexivity]. cbn [bind].
  rewrite (mapM_ext _ _ _ (fun r => dry_pe_at s b t r)), dry_wl. reflexivity.
Qed.
Lemma band_surface s m m' : same_but_surface m m' ->
  (exists e, band s (atm_rows m) = Err e /\ band s (atm_rows m') = Err e) \/
  (exists b b', band s (atm_rows m) = Ok b /\ band s (atm_rows m') = Ok b' /\ map dry b = map dry b').
Proof.
  intros H. assert (E := f_equal (band s) (dry_rows _ _ H)). rewrite !dry_band in E.
  destruct (band s (atm_rows m)) as [b|e], (band s (atm_rows m')) as [b'|e']; try discriminate E.
  - right. exists b, b'. repeat split. now injection E.
  - left. exists e. injection E as ->. auto.
Qed.
Lemma load_surface ni it ni' it' s c itp : alike_but_surface ni ni' -> alike_but_surface it it' ->
  (exists e, load_band ni it s c itp = Err e /\ load_band ni' it' s c itp = Err e) \/
  (exists b b', load_band ni it s c itp = Ok b /\ load_band ni' it' s c itp = Ok b' /\ map dry b = map dry b').
Proof.
  intros Hn Hi. unfold load_band. assert (H : alike_but_surface (if itp then it else ni) (if itp then it' else ni')) by (destruct itp; assumption).
  destruct (H (altitude c) (ground_range c) (ihaze c)) as [(e & E & E')|(m & m' & E & E' & S)]; rewrite E, E'; cbn [bind].
  - left. exists e. auto.
  - exact (band_surface s m m' S).
Qed.
Lemma contrast_surface s b b' em : map dry b = map dry b' -> contrast_part s b em = contrast_part s b' em.
Proof. intros H. now rewrite <- (dry_contrast s b), H, dry_contrast. Qed.
Lemma surface_unused ni it ni' it' diag s c itp : alike_but_surface ni ni' -> alike_but_surface it it' ->
  niirs ni it diag s c itp = niirs ni' it' diag s c itp /\ niirs5 ni it diag s c itp = niirs5 ni' it' diag s c itp.
Proof.
  intros Hn Hi. unfold niirs, niirs5. destruct (load_surface ni it ni' it' s c itp Hn Hi) as [(e & E & E')|(b & b' & E & E' & D)]; rewrite E, E'; [auto|].
  destruct (bookkeeping s c) as [em c']. rewrite (contrast_surface s b b' em D). auto.
Qed.
Lemma surface_unused_simulation diag d s c r m m' t T : same_but_surface m m' ->
  reflectance_to_photoelectrons (atm_rows m) s t T = reflectance_to_photoelectrons (atm_rows m') s t T /\
  simulate_rest diag d s c r m = simulate_rest diag d s c r m'.
Proof.
  intros H. assert (E : forall t T, reflectance_to_photoelectrons (atm_rows m) s t T = reflectance_to_photoelectrons (atm_rows m') s t T).
  { intros. now rewrite <- (dry_rtp (atm_rows m)), (dry_rows m m' H), dry_rtp. }
  split; [apply E|]. unfold simulate_rest. now rewrite E.
Qed.
(* rows that a camera sees, as indices *)
Lemma band_indices ni it s c itp m rows : loaded ni it c itp m -> load_band ni it s c itp = Ok rows ->
  exists lo hi, nth_error (s_owl s) 0 = Some lo /\ nth_error (s_owl s) (length (s_owl s) - 1) = Some hi /\
    forall a, In a rows <-> exists i, (i < 1371)%nat /\ lo <= m i 0%nat <= hi /\
      a_wl a = m i 0%nat /\ a_trans a = m i 1%nat /\ a_path a = m i 2%nat /\ a_surf a = m i 3%nat /\ a_scat a = m i 4%nat /\ a_grnd a = m i 5%nat.
Proof.
  intros H E. unfold load_band in E. unfold loaded in H. rewrite H in E. cbn [bind] in E. unfold band in E. assert (I : forall a, In a (atm_rows m) <-> exists i, {| a_wl := m i 0%nat; a_trans := m i 1%nat; a_path := m i 2%nat; a_surf := m i 3%nat; a_scat := m i 4%nat; a_grnd := m i 5%nat |} = a /\ In i (seq 0 n_wave)) by (intros a; apply in_map_iff).
  revert E I. generalize (atm_rows m) (in_seq n_wave 0). intros all IS E I.
  destruct (s_owl s) as [|lo w] eqn:Eo; [discriminate E|]. destruct (last_of_ok (lo :: w)) as [hi Eh]; [discriminate|]. rewrite Eh in E. cbn [first_of bind] in E.
  apply last_of_nth in Eh; [|discriminate].
  assert (Q : forall x y : list arow, Ok x = Ok y -> y = x) by congruence. apply Q in E. rewrite E. exists lo, hi. split; [reflexivity|]. split; [exact Eh|]. intros a. rewrite !filter_In, !Rleb_true. rewrite I. split.
  - intros (((i & <- & Hi) & A) & B). apply in_seq in Hi. change n_wave with 1371%nat in Hi. exists i. cbn [a_wl a_trans a_path a_surf a_scat a_grnd] in *. split; [exact (proj2 Hi)|]. repeat split; assumption.
  - intros (i & Hi & (A & B) & E0 & E1 & E2 & E3 & E4 & E5). rewrite E0. repeat split; auto. exists i. split; [destruct a as [z0 z1 z2 z3 z4 z5]; cbn [a_wl a_trans a_path a_surf a_scat a_grnd] in E0, E1, E2, E3, E4, E5; congruence|].
    apply in_seq. change n_wave with 1371%nat. lia.
Qed.
