(** * Proof_Apply: closed form of otf_to_psf and apply_otf_to_image. *)
From Coq Require Import Reals Lra Lia ZArith List Bool.
From Flocq Require Import Core.Raux.
From Verif Require Import Base_XR Base_Np Model_Geo Model_Otf Model_Img Spec_Img Spec_Blur Spec_Apply
  Proof_Otf Proof_Filter Proof_Weight Proof_Slice Proof_Psf Proof_Image Proof_ImgX.
Import ListNotations.
Open Scope R_scope.

(** ** The window *)
Lemma mid_slice_kept d k : (0 < d)%nat ->
  mid_slice (Z.of_nat d) (Z.of_nat k) = (Z.of_nat (first_kept d k), Z.of_nat (kept d k)).
Proof.
  intros Hd. unfold first_kept, kept. destruct (Nat.leb_spec k d) as [H|H].
  - destruct (mid_slice_inside (Z.of_nat d) (Z.of_nat k)) as (i0 & len & -> & A & B & C & D); [lia|].
    rewrite <- Nat2Z.inj_sub in D by lia. rewrite Nat2Z.inj_add, Nat2Z.inj_mod, Nat2Z.inj_div. change (Z.of_nat 2) with 2%Z.
    assert (E := Z.div_mod (Z.of_nat (d - k)) 2 ltac:(lia)). assert (F := Z.mod_pos_bound (Z.of_nat (d - k)) 2 ltac:(lia)).
    f_equal; lia.
  - rewrite mid_slice_outside by lia.
    assert (E : Z.of_nat ((3 * d - k) / 2) = Z.max 0 ((3 * Z.of_nat d - Z.of_nat k) / 2)).
    { rewrite Nat2Z.inj_div. change (Z.of_nat 2) with 2%Z.
      destruct (Nat.le_gt_cases k (3 * d)) as [L|L].
      - replace (Z.of_nat (3 * d - k)) with (3 * Z.of_nat d - Z.of_nat k)%Z by lia.
        assert (0 <= (3 * Z.of_nat d - Z.of_nat k) / 2)%Z by (apply Z.div_pos; lia). symmetry. now apply Z.max_r.
      - replace (3 * d - k)%nat with 0%nat by lia.
        assert ((3 * Z.of_nat d - Z.of_nat k) / 2 <= 0)%Z by (apply Z.div_le_upper_bound; lia). symmetry. now apply Z.max_l. }
    rewrite <- E. f_equal. rewrite Nat2Z.inj_sub; [reflexivity|]. apply Nat.div_le_upper_bound; lia.
Qed.
Lemma kept_inside d k : (0 < d)%nat -> (first_kept d k + kept d k <= d)%nat.
Proof.
  intros Hd. unfold first_kept, kept. destruct (Nat.leb_spec k d) as [H|H].
  - assert (E := Nat.div_mod (d - k) 2 ltac:(lia)). lia.
  - assert ((3 * d - k) / 2 <= d)%nat by (apply Nat.div_le_upper_bound; lia). lia.
Qed.
Lemma get_middle_kept a k : (0 < rows a)%nat -> (0 < cols a)%nat ->
  get_middle a k = {| rows := kept (rows a) k; cols := kept (cols a) k; px := window (rows a) (cols a) k (px a) |}.
Proof.
  intros Hr Hc. unfold get_middle. rewrite !mid_slice_kept by assumption. rewrite !Nat2Z.id. reflexivity.
Qed.
Lemma window_isum a k c : (0 < rows a)%nat -> (0 < cols a)%nat ->
  isum (get_middle (iscale c a) k) = window_sum (rows a) (cols a) k (px a) / c.
Proof.
  intros Hr Hc. rewrite get_middle_kept by assumption. unfold window_sum, Rdiv.
  rewrite Rmult_comm, <- sum_over_scal. unfold isum, sum_over. cbn [rows cols px iscale].
  apply Rsum_map_ext. intros i _. apply Rsum_map_ext. intros j _. unfold window, iscale. cbn [px]. unfold Rdiv. ring.
Qed.
Lemma window_ext h w k f g : (0 < h)%nat -> (0 < w)%nat -> (forall i j, (i < h)%nat -> (j < w)%nat -> f i j = g i j) ->
  forall p q, (p < kept h k)%nat -> (q < kept w k)%nat -> window h w k f p q = window h w k g p q.
Proof.
  intros Hh Hw E p q Hp Hq. unfold window. apply E; [generalize (kept_inside h k Hh) | generalize (kept_inside w k Hw)]; lia.
Qed.
Lemma window_sum_ext h w k f g : (0 < h)%nat -> (0 < w)%nat -> (forall i j, (i < h)%nat -> (j < w)%nat -> f i j = g i j) ->
  window_sum h w k f = window_sum h w k g.
Proof. intros Hh Hw E. apply sum_over_ext. intros p q Hp Hq. now apply window_ext. Qed.
Lemma crop_ext h w b f g k : (0 < h)%nat -> (0 < w)%nat -> (forall i j, (i < h)%nat -> (j < w)%nat -> f i j = g i j) ->
  crop h w b f k -> crop h w b g k.
Proof.
  intros Hh Hw E (t & Ek & A & B & C). exists t.
  assert (S : sum_over h w f = sum_over h w g) by (apply sum_over_ext; exact E).
  assert (W : forall k, window_sum h w k f = window_sum h w k g) by (intros; now apply window_sum_ext).
  split; [exact Ek|]. split; [exact A|]. split.
  - intros t' H. rewrite <- W, <- S. now apply B.
  - rewrite <- W, <- S. exact C.
Qed.
(* it is one window *)
Lemma crop_one h w b f k k' : crop h w b f k -> crop h w b f k' -> k = k'.
Proof.
  intros (t & -> & A & B & C) (t' & -> & A' & B' & C').
  destruct (Nat.lt_trichotomy t t') as [H|[-> | H]]; [|reflexivity|].
  - specialize (B' t H). destruct C; [lra | lia].
  - specialize (B t' H). destruct C'; [lra | lia].
Qed.

(** ** The kernel *)
Lemma crop_exists psf b : (0 < rows psf)%nat -> (0 < cols psf)%nat -> (10 < b)%nat -> isum psf <> 0 ->
  exists k, crop_loop (iscale (isum psf) psf) (crop_sizes b) None = Some (get_middle (iscale (isum psf) psf) k)
    /\ crop (rows psf) (cols psf) b (px psf) k.
Proof.
  intros Hr Hc Hb H0.
  assert (NE : crop_sizes b <> []) by (intros E; apply crop_sizes_nil in E; lia).
  destruct (crop_loop_chosen (iscale (isum psf) psf) (crop_sizes b) None NE) as (k & EC & CH).
  exists k. split; [exact EC|]. apply chosen_sizes in CH. destruct CH as (t & Ek & A & B & C).
  exists t. split; [exact Ek|]. subst k. split; [exact A|]. change (sum_over (rows psf) (cols psf) (px psf)) with (isum psf).
  split.
  - intros t' H. rewrite <- window_isum by assumption. exact (B t' H).
  - rewrite <- window_isum by assumption. exact C.
Qed.
Lemma kernel_form otf n m kd df dx : crows otf = n -> ccols otf = m -> (10 < n)%nat -> (10 < m)%nat -> df <> 0 -> dx <> 0 ->
  let h := Z.to_nat (Z.max 1 (Ztrunc (1 / df / dx))) in
  let w := Z.to_nat (Z.max 1 (Ztrunc (INR m / (INR n * df) / dx))) in
  let f := spread n m (re otf) (im otf) h w in
  exists k, (sum_over h w f <> 0 -> crop h w (Nat.min n m) f k) /\
  ((sum_over h w f = 0 \/ window_sum h w k f = 0) /\ otf_to_psf otf kd df (Fin dx) = Err NonFinite
   \/ sum_over h w f <> 0 /\ window_sum h w k f <> 0 /\
      exists out, otf_to_psf otf kd df (Fin dx) = Ok out /\ rows out = kept h k /\ cols out = kept w k
        /\ forall p q, (p < rows out)%nat -> (q < cols out)%nat -> px out p q = window h w k f p q / window_sum h w k f).
Proof.
  intros En Em Hn Hm Hf Hd h w f. subst n m. rewrite otf_to_psf_eq.
  assert (Pn : 0 < INR (crows otf)) by (apply lt_0_INR; lia).
  replace (Nat.eqb (crows otf) 0) with false by (symmetry; apply Nat.eqb_neq; lia).
  replace (Nat.eqb (ccols otf) 0) with false by (symmetry; apply Nat.eqb_neq; lia). cbn [orb].
  assert (Q : INR (crows otf) * df <> 0) by (apply Rmult_integral_contrapositive_currified; lra).
  rewrite qdiv_fin by exact Q. cbn [bind]. rewrite !xmul_fin, !xdiv_fin by exact Hd. cbn [xint bind]. unfold py_int.
  change (cols (psf_raw otf)) with (ccols otf). change (rows (psf_raw otf)) with (crows otf).
  replace (INR (ccols otf) * (1 / (INR (crows otf) * df)) / dx) with (INR (ccols otf) / (INR (crows otf) * df) / dx) by (field; repeat split; lra).
  replace (INR (crows otf) * (1 / (INR (crows otf) * df)) / dx) with (1 / df / dx) by (field; repeat split; lra).
  assert (NE : nonempty (psf_raw otf)) by (split; cbn [psf_raw rows cols]; lia).
  destruct (resize_ok (psf_raw otf) (Z.max 1 (Ztrunc (INR (ccols otf) / (INR (crows otf) * df) / dx))) (Z.max 1 (Ztrunc (1 / df / dx))) NE)
    as (raw & ER & Rh & Rw); [lia | lia|]. fold h in Rh. fold w in Rw. rewrite ER. cbn [bind].
  assert (Ph : (0 < h)%nat) by (unfold h; lia). assert (Pw : (0 < w)%nat) by (unfold w; lia).
  assert (PF : forall i j, (i < h)%nat -> (j < w)%nat -> px raw i j = f i j).
  { intros i j Hi Hj. rewrite (resize_tent _ _ _ _ ER) by congruence. rewrite Rh, Rw.
    change (rows (psf_raw otf)) with (crows otf). change (cols (psf_raw otf)) with (ccols otf).
    unfold f, spread, interpolated. apply sum_over_ext. intros p q Hp Hq. rewrite psf_raw_ft by lia. reflexivity. }
  assert (SR : isum raw = sum_over h w f).
  { change (isum raw) with (sum_over (rows raw) (cols raw) (px raw)). rewrite Rh, Rw. now apply sum_over_ext. }
  destruct (crop_sizes (Nat.min (crows otf) (ccols otf))) as [|k0 sizes] eqn:ES; [apply crop_sizes_nil in ES; lia|].
  destruct (Req_dec (sum_over h w f) 0) as [Z|Z].
  { exists 0%nat. split; [contradiction|]. left. split; [left; exact Z|].
    rewrite SR. replace (Reqb (sum_over h w f) 0) with true by (symmetry; apply Reqb_true; exact Z). reflexivity. }
  destruct (crop_exists raw (Nat.min (crows otf) (ccols otf))) as (k & EC & CR); [lia | lia | lia | rewrite SR; exact Z|].
  rewrite ES in EC. rewrite EC. rewrite Rh, Rw in CR. exists k. split; [intros _; exact (crop_ext h w _ _ _ k Ph Pw PF CR)|].
  replace (Reqb (isum raw) 0) with false by (symmetry; apply Reqb_false; rewrite SR; exact Z).
  assert (WS : isum (get_middle (iscale (isum raw) raw) k) = window_sum h w k f / sum_over h w f).
  { rewrite window_isum by lia. rewrite SR, Rh, Rw. f_equal. now apply window_sum_ext. }
  destruct (Req_dec (window_sum h w k f) 0) as [W|W].
  { left. split; [right; exact W|]. rewrite WS.
    replace (Reqb (window_sum h w k f / sum_over h w f) 0) with true; [reflexivity|].
    symmetry. apply Reqb_true. rewrite W. unfold Rdiv. ring. }
  right. split; [exact Z|]. split; [exact W|]. rewrite WS.
  replace (Reqb (window_sum h w k f / sum_over h w f) 0) with false.
  2:{ symmetry. apply Reqb_false. apply Rmult_integral_contrapositive_currified; [exact W | apply Rinv_neq_0_compat; exact Z]. }
  eexists. split; [reflexivity|]. cbn [iscale rows cols px]. rewrite get_middle_kept by (cbn [iscale rows cols]; lia).
  cbn [iscale rows cols px]. rewrite Rh, Rw. split; [reflexivity|]. split; [reflexivity|].
  intros p q Hp Hq. unfold window at 1. cbn [px].
  generalize (kept_inside h k Ph) (kept_inside w k Pw). intros. rewrite PF by lia. unfold window. rewrite SR. field. split; assumption.
Qed.

(** ** The pixels *)
Lemma interpolated_ext n m f g y x : (forall p q, (p < n)%nat -> (q < m)%nat -> f p q = g p q) -> interpolated n m f y x = interpolated n m g y x.
Proof. intros E. apply sum_over_ext. intros p q Hp Hq. now rewrite E. Qed.
Lemma correlation_ext n m k k' e y x : (forall p q, (p < n)%nat -> (q < m)%nat -> k p q = k' p q) -> correlation n m k e y x = correlation n m k' e y x.
Proof. intros E. apply sum_over_ext. intros p q Hp Hq. now rewrite E. Qed.
Lemma apply_form a gsd kr rng otf n m kd df ki ifov e : (2 <= rows a)%nat -> (2 <= cols a)%nat -> 0 < gsd -> 0 < rng -> df <> 0 -> ifov <> 0 ->
  crows otf = n -> ccols otf = m -> (10 < n)%nat -> (10 < m)%nat -> mirrored (rows a) (cols a) (px a) e ->
  forall sim sp, apply_otf_to_image a gsd kr rng otf kd df ki ifov = Ok (sim, sp) ->
  let dx := 2 * atan (gsd / 2 / rng) in
  let h := Z.to_nat (Z.max 1 (Ztrunc (1 / df / dx))) in
  let w := Z.to_nat (Z.max 1 (Ztrunc (INR m / (INR n * df) / dx))) in
  let f := spread n m (re otf) (im otf) h w in
  exists k, crop h w (Nat.min n m) f k /\
    let K p q := window h w k f p q / window_sum h w k f in
    sum_over h w f <> 0 /\ window_sum h w k f <> 0 /\
    half_even (INR (rows a) * (gsd / rng) / ifov) (Z.of_nat (rows sim)) /\ half_even (INR (cols a) * (gsd / rng) / ifov) (Z.of_nat (cols sim)) /\
    half_even (INR (kept h k) * (gsd / rng) / ifov) (Z.of_nat (rows sp)) /\ half_even (INR (kept w k) * (gsd / rng) / ifov) (Z.of_nat (cols sp)) /\
    (forall i j, (i < rows sim)%nat -> (j < cols sim)%nat ->
       px sim i j = interpolated (rows a) (cols a) (fun y x => correlation (kept h k) (kept w k) K e (Z.of_nat y) (Z.of_nat x))
                      (pixel_position (rows a) (rows sim) i) (pixel_position (cols a) (cols sim) j)) /\
    (forall i j, (i < rows sp)%nat -> (j < cols sp)%nat ->
       px sp i j = interpolated (kept h k) (kept w k) K (pixel_position (kept h k) (rows sp) i) (pixel_position (kept w k) (cols sp) j)).
Proof.
  intros Ra Ca Hg Hr Hf Hi En Em Hn Hm ME sim sp E dx h w f.
  assert (PD : 0 < dx).
  { unfold dx. assert (0 < atan (gsd / 2 / rng)); [|lra]. rewrite <- atan_0. apply atan_increasing. apply Rdiv_lt_0_compat; lra. }
  destruct (kernel_form otf n m kd df dx En Em Hn Hm Hf ltac:(lra)) as (k & CR & KF). fold h w f in CR, KF.
  rewrite apply_val in E by lra. fold dx in E.
  destruct KF as [[_ X]|(Z & W & out & EO & Ro & Co & Po)]; [rewrite X in E; discriminate|].
  rewrite EO in E. cbn [bind] in E. exists k. split; [exact (CR Z)|]. cbv zeta. split; [exact Z|]. split; [exact W|].
  destruct (filter2D a out) as [b|] eqn:EB; [|discriminate]. cbn [bind] in E.
  destruct (resample_2D (join kr ki) b (Fin (gsd / rng)) (Fin ifov)) as [s|] eqn:ES; [|discriminate]. cbn [bind] in E.
  destruct (resample_2D (join kr ki) out (Fin (gsd / rng)) (Fin ifov)) as [s'|] eqn:ES'; [|discriminate]. cbn [bind] in E.
  apply ok_inj in E. apply pair_equal_spec in E. destruct E as [<- <-].
  assert (Rb : rows b = rows a /\ cols b = cols a).
  { unfold filter2D in EB. destruct (_ || _ || _ || _)%bool; [discriminate|]. apply ok_inj in EB. subst b. split; reflexivity. }
  destruct Rb as [Rb Cb].
  assert (SZ : forall c o, resample_2D (join kr ki) c (Fin (gsd / rng)) (Fin ifov) = Ok o ->
    half_even (INR (rows c) * (gsd / rng) / ifov) (Z.of_nat (rows o)) /\ half_even (INR (cols c) * (gsd / rng) / ifov) (Z.of_nat (cols o))).
  { intros c o H. rewrite resample_val in H by exact Hi. destruct (resize_inv _ _ _ _ H) as (_ & P1 & P2 & -> & -> & _).
    rewrite !Z2Nat.id by lia. split; apply np_round_spec. }
  destruct (SZ b s ES) as [S1 S2]. destruct (SZ out s' ES') as [S3 S4]. rewrite Rb in S1. rewrite Cb in S2. rewrite Ro in S3. rewrite Co in S4.
  split; [exact S1|]. split; [exact S2|]. split; [exact S3|]. split; [exact S4|]. split.
  - intros i j Hi' Hj. rewrite (resample_tent _ _ _ _ _ ES) by assumption. rewrite Rb, Cb. apply interpolated_ext.
    intros y x _ _. rewrite (filter_correlation a out b e EB Ra Ca ME), Ro, Co. apply correlation_ext.
    intros p q Hp Hq. apply Po; congruence.
  - intros i j Hi' Hj. rewrite (resample_tent _ _ _ _ _ ES') by assumption. rewrite Ro, Co. apply interpolated_ext.
    intros p q Hp Hq. apply Po; congruence.
Qed.

(** ** Every picture can be continued *)
Lemma reflect_even n p : (2 <= n)%nat -> reflect101 n (- p) = reflect101 n p.
Proof.
  intros Hn. unfold reflect101. destruct (Nat.eqb_spec n 1); [lia|]. cbv zeta.
  set (per := (2 * (Z.of_nat n - 1))%Z). assert (P : (0 < per)%Z) by (unfold per; lia).
  destruct (Z.eq_dec (p mod per) 0) as [E | E].
  - rewrite Z.mod_opp_l_z by lia. rewrite E. reflexivity.
  - rewrite Z.mod_opp_l_nz by lia. assert (B := Z.mod_pos_bound p per P). set (m := (p mod per)%Z) in *. clearbody m.
    destruct (Z.ltb_spec (per - m) (Z.of_nat n)), (Z.ltb_spec m (Z.of_nat n)); unfold per in *; lia.
Qed.
Lemma reflect_end n p : (2 <= n)%nat -> reflect101 n (2 * (Z.of_nat n - 1) - p) = reflect101 n p.
Proof.
  intros Hn. rewrite <- (reflect_even n p Hn). unfold reflect101. destruct (Nat.eqb_spec n 1); [lia|]. cbv zeta.
  replace (2 * (Z.of_nat n - 1) - p)%Z with (- p + 1 * (2 * (Z.of_nat n - 1)))%Z by lia. rewrite Z_mod_plus_full. reflexivity.
Qed.
Lemma continued n m f : (2 <= n)%nat -> (2 <= m)%nat -> exists e, mirrored n m f e.
Proof.
  intros Hn Hm. exists (fun i j => f (reflect101 n i) (reflect101 m j)). repeat split; intros.
  - rewrite !reflect_inside by assumption. reflexivity.
  - rewrite reflect_even by assumption. reflexivity.
  - rewrite reflect_even by assumption. reflexivity.
  - rewrite reflect_end by assumption. reflexivity.
  - rewrite reflect_end by assumption. reflexivity.
Qed.
Lemma continued_once n m f e e' : (2 <= n)%nat -> (2 <= m)%nat -> mirrored n m f e -> mirrored n m f e' -> forall i j, e i j = e' i j.
Proof. intros Hn Hm H H' i j. rewrite (mirrored_reflect n m f e i j Hn Hm H), (mirrored_reflect n m f e' i j Hn Hm H'). reflexivity. Qed.
Lemma continued_unique n m f : (2 <= n)%nat -> (2 <= m)%nat ->
  exists e, mirrored n m f e /\ forall e', mirrored n m f e' -> forall i j, e i j = e' i j.
Proof.
  intros Hn Hm. destruct (continued n m f Hn Hm) as (e & H). exists e. split; [exact H|]. intros e' H'. exact (continued_once n m f e e' Hn Hm H H').
Qed.
Lemma flat_sum n m : sum_over n m (fun _ _ => 1) = INR n * INR m.
Proof.
  assert (C : forall (k : nat) c l, length l = k -> Rsum (map (fun _ : nat => c) l) = INR k * c).
  { induction k as [|k IH]; intros c l Hl; destruct l as [|x l]; try discriminate Hl; cbn [map]; [unfold Rsum; simpl; ring|].
    rewrite Rsum_cons, (IH c l) by (cbn in Hl; lia). rewrite S_INR. ring. }
  unfold sum_over. rewrite (map_ext _ (fun _ => INR m * 1)) by (intros; apply C; apply seq_length).
  rewrite (C n) by apply seq_length. ring.
Qed.
Lemma crop_flat : crop 30 30 1501 (fun _ _ => 1) 30.
Proof.
  assert (W : forall k, (k <= 30)%nat -> window_sum 30 30 k (fun _ _ => 1) = INR (kept 30 k) * INR (kept 30 k)) by (intros k _; unfold window_sum, window; apply flat_sum).
  exists 4%nat. split; [reflexivity|]. split; [lia|]. rewrite !flat_sum. split.
  - intros t Ht. rewrite W by lia. destruct t as [|[|[|[|]]]]; try lia;
    match goal with |- context [kept 30 ?e] => let v := eval vm_compute in (kept 30 e) in change (kept 30 e) with v end; rewrite !INR_IZR_INZ; cbn [Z.of_nat Pos.of_succ_nat Pos.succ]; lra.
  - left. rewrite W by lia. change (kept 30 30) with 30%nat. rewrite !INR_IZR_INZ. cbn [Z.of_nat Pos.of_succ_nat Pos.succ]. lra.
Qed.
