(** * Proof_Geo: lemmas for geospatial.py *)
From Coq Require Import Reals Lra Lia List Psatz.
From Verif Require Import Base_XR Base_Np Base_NpFacts Model_Geo Spec_Geo.
Import ListNotations.
Open Scope R_scope.

Lemma r_earth_pos : 0 < r_earth. Proof. unfold r_earth; lra. Qed.

Lemma cos2_sin2 t : cos t * cos t + sin t * sin t = 1.
Proof. pose proof (sin2_cos2 t) as H; unfold Rsqr in H; lra. Qed.

(** ** Slant range *)
Lemma chord_sq a c t :
  dot (vsub (c * sin t, c * cos t) (0, a)) (vsub (c * sin t, c * cos t) (0, a))
  = c * c + a * a - 2 * a * c * cos t.
Proof.
  unfold dot, vsub; simpl. pose proof (cos2_sin2 t). 
  replace ((c * sin t - 0) * (c * sin t - 0) + (c * cos t - a) * (c * cos t - a))
    with (c * c * (cos t * cos t + sin t * sin t) + a * a - 2 * a * c * cos t) by ring.
  rewrite H; ring.
Qed.

Lemma dot_self_nonneg p : 0 <= dot p p.
Proof. unfold dot; nra. Qed.

Lemma norm_nonneg p : 0 <= norm p.
Proof. apply sqrt_pos. Qed.
Lemma norm_sq p : norm p * norm p = dot p p.
Proof. apply sqrt_sqrt, dot_self_nonneg. Qed.

Lemma slant_is_distance ht hs g :
  curved_earth_slant_range ht hs g
  = Fin (dist (above r_earth ht (g / r_earth)) (above r_earth hs 0)).
Proof.
  unfold curved_earth_slant_range, dist, norm, above.
  rewrite sin_0, cos_0. replace ((r_earth + hs) * 0) with 0 by ring.
  replace ((r_earth + hs) * 1) with (r_earth + hs) by ring.
  rewrite chord_sq. rewrite <- (chord_sq (r_earth + hs)).
  apply xsqrt_fin, dot_self_nonneg.
Qed.

Lemma slant_val ht hs g :
  curved_earth_slant_range ht hs g
  = Fin (sqrt ((r_earth + ht) * (r_earth + ht) + (r_earth + hs) * (r_earth + hs)
               - 2 * (r_earth + hs) * (r_earth + ht) * cos (g / r_earth))).
Proof.
  unfold curved_earth_slant_range. apply xsqrt_fin.
  rewrite <- chord_sq. apply dot_self_nonneg.
Qed.

Lemma slant_symmetric ht hs g :
  curved_earth_slant_range ht hs g = curved_earth_slant_range hs ht g.
Proof. rewrite !slant_val. do 2 f_equal. ring. Qed.

Lemma slant_overhead ht hs : curved_earth_slant_range ht hs 0 = Fin (Rabs (hs - ht)).
Proof.
  rewrite slant_val. f_equal. unfold Rdiv; rewrite Rmult_0_l, cos_0.
  rewrite <- sqrt_Rsqr_abs. f_equal. unfold Rsqr; ring.
Qed.

Lemma slant_increasing ht hs g1 g2 :
  - r_earth < ht -> - r_earth < hs ->
  0 <= g1 -> g1 < g2 -> g2 <= PI * r_earth ->
  exists s1 s2, curved_earth_slant_range ht hs g1 = Fin s1 /\
                curved_earth_slant_range ht hs g2 = Fin s2 /\ s1 < s2.
Proof.
  intros Ht Hs H1 H12 H2. rewrite !slant_val. do 2 eexists. repeat split.
  pose proof r_earth_pos as Hr.
  assert (Hcos : cos (g2 / r_earth) < cos (g1 / r_earth)).
  { apply cos_decreasing_1; unfold Rdiv.
    - apply Rmult_le_pos; [lra|left; now apply Rinv_0_lt_compat].
    - apply Rmult_le_reg_r with r_earth; [lra|].
      rewrite Rmult_assoc, Rinv_l by lra. lra.
    - apply Rmult_le_pos; [lra|left; now apply Rinv_0_lt_compat].
    - apply Rmult_le_reg_r with r_earth; [lra|].
      rewrite Rmult_assoc, Rinv_l by lra. lra.
    - apply Rmult_lt_compat_r; [now apply Rinv_0_lt_compat|lra]. }
  apply sqrt_lt_1_alt. split.
  - rewrite <- chord_sq. apply dot_self_nonneg.
  - assert (0 < (r_earth + hs) * (r_earth + ht)) by (apply Rmult_lt_0_compat; lra). nra.
Qed.

(** ** Nadir angle *)
(* the acos argument of the law of cosines is in [-1,1] iff the triangle
   inequalities hold *)
Lemma loc_arg_range a b c : 0 < a -> 0 < b -> 0 <= c ->
  (Rabs (a - b) <= c <= a + b) <->
  -1 <= (-1 * (c * c - a * a - b * b)) / (2 * a * b) <= 1.
Proof.
  intros Ha Hb Hc. assert (Hab : 0 < 2 * a * b) by nra.
  assert (E : (-1 * (c * c - a * a - b * b)) / (2 * a * b) * (2 * a * b)
              = -1 * (c * c - a * a - b * b)) by (field; nra).
  set (q := (-1 * (c * c - a * a - b * b)) / (2 * a * b)) in *.
  split; intros [H1 H2].
  - assert (Rsqr (a - b) <= Rsqr c).
    { apply neg_pos_Rsqr_le; [|]; pose proof (Rabs_pos (a-b)); unfold Rabs in *;
        destruct (Rcase_abs (a - b)); lra. }
    unfold Rsqr in *.
    split; apply Rmult_le_reg_r with (2 * a * b); auto; rewrite E; nra.
  - assert (A : -1 * (2 * a * b) <= q * (2 * a * b)) by (apply Rmult_le_compat_r; lra).
    assert (B : q * (2 * a * b) <= 1 * (2 * a * b)) by (apply Rmult_le_compat_r; lra).
    rewrite E in A, B. split.
    + rewrite <- (Rabs_pos_eq c) by lra. apply Rsqr_le_abs_0. unfold Rsqr. nra.
    + apply Rsqr_incr_0; unfold Rsqr; nra.
Qed.

Lemma nadir_raises_iff ht hs b :
  nadir_angle Py ht hs b = Err ZeroDivisionError <-> (b = 0 \/ hs = - r_earth).
Proof.
  unfold nadir_angle, sdiv, pydiv. rcase; simpl.
  - split; intros _; [|reflexivity].
    apply Rmult_integral in Hc. destruct Hc as [Hc|Hc]; [right|left; auto].
    apply Rmult_integral in Hc. destruct Hc; lra.
  - split; [discriminate|]. intros [->| ->]; exfalso; apply Hc; ring.
Qed.

Lemma nadir_ok k ht hs b :
  0 < r_earth + hs -> 0 <= r_earth + ht -> 0 < b ->
  Rabs (r_earth + hs - b) <= r_earth + ht <= r_earth + hs + b ->
  nadir_angle k ht hs b
  = Ok (Fin (acos ((-1 * ((r_earth + ht) * (r_earth + ht) - (r_earth + hs) * (r_earth + hs) - b * b))
             / (2 * (r_earth + hs) * b)))).
Proof.
  intros Ha Hc Hb HT.
  assert (Hab : 2 * (r_earth + hs) * b <> 0) by nra.
  apply loc_arg_range in HT; auto.
  unfold nadir_angle, sdiv. destruct k.
  - rewrite pydiv_ok by auto. simpl rmap. cbn [bind]. now rewrite xacos_fin.
  - rewrite xdiv_fin by auto. cbn [bind]. now rewrite xacos_fin.
Qed.

Lemma nadir_nan_iff k ht hs b :
  0 < r_earth + hs -> 0 <= r_earth + ht -> 0 < b ->
  nadir_angle k ht hs b = Ok NaN <->
  ~ (Rabs (r_earth + hs - b) <= r_earth + ht <= r_earth + hs + b).
Proof.
  intros Ha Hc Hb. split.
  - intros H HT. rewrite (nadir_ok k) in H; auto. discriminate.
  - intros HT. assert (Hab : 2 * (r_earth + hs) * b <> 0) by nra.
    assert (HN := fun H => HT (proj2 (loc_arg_range _ _ _ Ha Hb Hc) H)).
    unfold nadir_angle, sdiv. set (q := _ / _) in HN.
    destruct k; [rewrite pydiv_ok by auto; simpl rmap|rewrite xdiv_fin by auto]; cbn [bind];
    (rewrite xacos_nan; [reflexivity|]); fold q;
    destruct (Rlt_dec 1 q); auto; destruct (Rlt_dec q (-1)); auto; exfalso; apply HN; lra.
Qed.

(* sensor point and an arbitrary target point *)
Definition sensor_pt (hs : R) : pt := on_axis r_earth hs.

Lemma norm_sensor hs : 0 < r_earth + hs -> norm (sensor_pt hs) = r_earth + hs.
Proof.
  intros H. unfold norm, dot, sensor_pt, on_axis; simpl.
  replace (0 * 0 + (r_earth + hs) * (r_earth + hs)) with (Rsqr (r_earth + hs)) by (unfold Rsqr; ring).
  apply sqrt_Rsqr; lra.
Qed.

Lemma norm_down_sensor hs : 0 < r_earth + hs ->
  norm (vsub origin (sensor_pt hs)) = r_earth + hs.
Proof.
  intros H. unfold norm, dot, vsub, origin, sensor_pt, on_axis; simpl.
  replace ((0 - 0) * (0 - 0) + (0 - (r_earth + hs)) * (0 - (r_earth + hs)))
    with (Rsqr (r_earth + hs)) by (unfold Rsqr; ring).
  apply sqrt_Rsqr; lra.
Qed.

Lemma cauchy_schwarz p q : dot p q * dot p q <= dot p p * dot q q.
Proof.
  unfold dot. 
  assert (0 <= Rsqr (fst p * snd q - snd p * fst q)) by apply Rle_0_sqr.
  unfold Rsqr in *. nra.
Qed.

Lemma dot_le_norms p q : Rabs (dot p q) <= norm p * norm q.
Proof.
  rewrite <- (Rabs_pos_eq (norm p * norm q)) by (apply Rmult_le_pos; apply norm_nonneg).
  apply Rsqr_le_abs_0. unfold Rsqr.
  replace (norm p * norm q * (norm p * norm q)) with ((norm p * norm p) * (norm q * norm q)) by ring.
  rewrite !norm_sq. apply cauchy_schwarz.
Qed.

Lemma triangle_sides p q :
  Rabs (norm q - dist p q) <= norm p <= norm q + dist p q.
Proof.
  assert (E : norm p * norm p = norm q * norm q + dist p q * dist p q + 2 * dot (vsub p q) q).
  { unfold dist. rewrite !norm_sq. unfold dot, vsub; simpl; ring. }
  pose proof (dot_le_norms (vsub p q) q) as H. fold (dist p q) in H.
  pose proof (norm_nonneg p). pose proof (norm_nonneg q). pose proof (norm_nonneg (vsub p q)).
  fold (dist p q) in *.
  assert (- (dist p q * norm q) <= dot (vsub p q) q <= dist p q * norm q).
  { unfold Rabs in H; destruct (Rcase_abs (dot (vsub p q) q)); split; lra. }
  split.
  - rewrite <- (Rabs_pos_eq (norm p)) by auto. apply Rsqr_le_abs_0. unfold Rsqr. nra.
  - apply Rsqr_incr_0; unfold Rsqr; nra.
Qed.

(* nadir angle for any target point *)
Lemma nadir_of_point k hs (T : pt) :
  0 < r_earth + hs -> 0 < dist T (sensor_pt hs) ->
  exists phi,
    nadir_angle k (height r_earth T) hs (dist T (sensor_pt hs)) = Ok (Fin phi) /\
    is_angle phi (vsub origin (sensor_pt hs)) (vsub T (sensor_pt hs)).
Proof.
  intros Ha Hb.
  assert (Hh : r_earth + height r_earth T = norm T) by (unfold height; ring).
  rewrite (nadir_ok k); auto; rewrite ?Hh; [|apply norm_nonneg|].
  2:{ rewrite <- (norm_sensor hs Ha). apply triangle_sides. }
  eexists; split; [reflexivity|].
  set (q := _ / _).
  assert (Hq : -1 <= q <= 1).
  { apply loc_arg_range; auto using norm_nonneg.
    rewrite <- (norm_sensor hs Ha). apply triangle_sides. }
  split; [apply acos_bound|]. rewrite cos_acos by auto.
  rewrite norm_down_sensor by auto.
  fold (dist T (sensor_pt hs)). unfold q.
  replace ((r_earth + hs) * dist T (sensor_pt hs) *
   (-1 * (norm T * norm T - (r_earth + hs) * (r_earth + hs) -
      dist T (sensor_pt hs) * dist T (sensor_pt hs)) /
    (2 * (r_earth + hs) * dist T (sensor_pt hs))))
  with (((r_earth + hs) * (r_earth + hs) + dist T (sensor_pt hs) * dist T (sensor_pt hs) - norm T * norm T) / 2)
    by (field; split; lra).
  unfold dist. rewrite !norm_sq. unfold dot, vsub, origin, sensor_pt, on_axis; simpl. field.
Qed.

Lemma norm_above h t : 0 <= r_earth + h -> norm (above r_earth h t) = r_earth + h.
Proof.
  intros H. unfold norm, dot, above; simpl.
  replace ((r_earth + h) * sin t * ((r_earth + h) * sin t) + (r_earth + h) * cos t * ((r_earth + h) * cos t))
    with ((r_earth + h) * (r_earth + h) * (cos t * cos t + sin t * sin t)) by ring.
  rewrite cos2_sin2, Rmult_1_r. fold (Rsqr (r_earth + h)). now apply sqrt_Rsqr.
Qed.

Lemma sensor_above hs : above r_earth hs 0 = sensor_pt hs.
Proof. unfold above, sensor_pt, on_axis. rewrite sin_0, cos_0. f_equal; ring. Qed.

Lemma nadir_of_slant k ht hs g s :
  - r_earth < ht -> - r_earth < hs ->
  curved_earth_slant_range ht hs g = Fin s -> s <> 0 ->
  exists phi, nadir_angle k ht hs s = Ok (Fin phi) /\
    is_angle phi (vsub origin (above r_earth hs 0))
                 (vsub (above r_earth ht (g / r_earth)) (above r_earth hs 0)).
Proof.
  intros Ht Hs Hsl Hnz. rewrite slant_is_distance in Hsl. apply fin_inj in Hsl.
  rewrite sensor_above in *.
  assert (Hpos : 0 < s) by (pose proof (norm_nonneg (vsub (above r_earth ht (g/r_earth)) (sensor_pt hs)));
    unfold dist in Hsl; lra).
  destruct (nadir_of_point k hs (above r_earth ht (g / r_earth))) as [phi [E A]]; [lra|lra|].
  exists phi. split; [|exact A].
  rewrite Hsl in E. unfold height in E. rewrite norm_above in E by lra.
  replace (r_earth + ht - r_earth) with ht in E by ring. exact E.
Qed.

Lemma nadir_overhead k ht hs :
  - r_earth < ht -> ht < hs ->
  exists s, curved_earth_slant_range ht hs 0 = Fin s /\ nadir_angle k ht hs s = Ok (Fin 0).
Proof.
  intros Ht Hs. exists (Rabs (hs - ht)). split; [apply slant_overhead|].
  rewrite Rabs_pos_eq by lra.
  rewrite (nadir_ok k); try lra.
  - replace (-1 * ((r_earth + ht) * (r_earth + ht) - (r_earth + hs) * (r_earth + hs) - (hs - ht) * (hs - ht)) /
     (2 * (r_earth + hs) * (hs - ht))) with 1 by (field; lra).
    now rewrite acos_1.
  - replace (r_earth + hs - (hs - ht)) with (r_earth + ht) by ring.
    rewrite Rabs_pos_eq by lra. lra.
Qed.

(** ** Slant path *)
Lemma along_height_sq (T S : pt) f :
  dot (along T S f) (along T S f)
  = norm S * norm S + (1 - f) * (1 - f) * (dist T S * dist T S)
    + 2 * (1 - f) * dot (vsub T S) S.
Proof.
  unfold dist. rewrite !norm_sq. unfold dot, along, vsub; simpl. ring.
Qed.

Lemma n_path_val : INR (n_path - 1) = 9999.
Proof. unfold n_path. rewrite INR_IZR_INZ. reflexivity. Qed.

Lemma path_of_point k hs (T : pt) :
  0 < r_earth + hs -> 0 < dist T (sensor_pt hs) ->
  exists zs hp,
    altitude_along_slant_path k (height r_earth T) hs (dist T (sensor_pt hs)) = Ok (zs, hp) /\
    length zs = 10000%nat /\ length hp = 10000%nat /\
    forall i, (i < 10000)%nat ->
      nth i zs NaN = Fin (INR i * dist T (sensor_pt hs) / 9999) /\
      nth i hp NaN = Fin (height r_earth (along T (sensor_pt hs) (INR i / 9999))).
Proof.
  intros Ha Hb.
  destruct (nadir_of_point k hs T Ha Hb) as [phi [E [_ A]]].
  set (s := dist T (sensor_pt hs)) in *.
  unfold altitude_along_slant_path. rewrite E. cbn [bind].
  do 2 eexists. split; [reflexivity|].
  split; [rewrite map_length, linspace_length; reflexivity|].
  split; [rewrite rev_length, !map_length, linspace_length; reflexivity|].
  intros i Hi. change 10000%nat with n_path in Hi.
  pose proof n_path_val as HN.
  split.
  - rewrite nth_indep with (d' := Fin 0) by (now rewrite map_length, linspace_length).
    rewrite map_nth. rewrite linspace_nth by auto. rewrite HN. f_equal. field.
  - rewrite rev_nth by (now rewrite !map_length, linspace_length).
    rewrite !map_length, linspace_length.
    rewrite map_map.
    set (F := fun x : R => _).
    rewrite nth_indep with (d' := F 0) by (rewrite map_length, linspace_length; lia).
    rewrite (map_nth F). rewrite linspace_nth by lia.
    set (b := 0 + INR (n_path - S i) * ((s - 0) / INR (n_path - 1))).
    assert (Hb' : b = (1 - INR i / 9999) * s).
    { unfold b. rewrite HN. rewrite minus_INR by lia.
      replace (INR n_path) with 10000 by (unfold n_path; rewrite INR_IZR_INZ; reflexivity).
      rewrite S_INR. field. }
    unfold F. cbn [xcos xmul]. rewrite xsub_fin.
    assert (Hdot : dot (vsub T (sensor_pt hs)) (sensor_pt hs) = - ((r_earth + hs) * s * cos phi)).
    { unfold is_angle in A.
      rewrite norm_down_sensor in A by auto.
      fold (dist T (sensor_pt hs)) in A. fold s in A.
      rewrite A. unfold dot, vsub, origin, sensor_pt, on_axis; simpl. ring. }
    assert (Hsq : (r_earth + hs) * (r_earth + hs) + b * b - 2 * (r_earth + hs) * b * cos phi
                = dot (along T (sensor_pt hs) (INR i / 9999)) (along T (sensor_pt hs) (INR i / 9999))).
    { rewrite along_height_sq, Hdot. fold s. rewrite norm_sensor by auto. rewrite Hb'. ring. }
    rewrite xsqrt_fin.
    + rewrite xsub_fin. unfold height, norm. rewrite <- Hsq. reflexivity.
    + rewrite Hsq. apply dot_self_nonneg.
Qed.

Lemma norm_along_le (T S : pt) f : 0 <= f <= 1 ->
  norm (along T S f) <= Rmax (norm T) (norm S).
Proof.
  intros Hf. set (M := Rmax (norm T) (norm S)).
  assert (HT : norm T <= M) by apply Rmax_l. assert (HS : norm S <= M) by apply Rmax_r.
  pose proof (norm_nonneg T). pose proof (norm_nonneg S).
  assert (HM : 0 <= M) by lra.
  apply Rsqr_incr_0; [|apply norm_nonneg|auto].
  unfold Rsqr. rewrite norm_sq.
  assert (E : dot (along T S f) (along T S f)
    = (1 - f) * (1 - f) * (norm T * norm T) + f * f * (norm S * norm S) + 2 * f * (1 - f) * dot T S).
  { rewrite !norm_sq. unfold dot, along; simpl; ring. }
  rewrite E. pose proof (dot_le_norms T S) as HD.
  assert (HD2 : dot T S <= M * M).
  { apply Rle_trans with (norm T * norm S).
    - eapply Rle_trans; [apply Rle_abs|exact HD].
    - apply Rmult_le_compat; auto. }
  assert (norm T * norm T <= M * M) by (apply Rmult_le_compat; auto).
  assert (norm S * norm S <= M * M) by (apply Rmult_le_compat; auto).
  assert (0 <= f * (1 - f)) by nra.
  assert (0 <= (1 - f) * (1 - f)) by nra. assert (0 <= f * f) by nra.
  nra.
Qed.

(** ** Elevation angle *)
Lemma elev_positive altitude g s :
  0 < altitude -> curved_earth_slant_range 0 altitude g = Fin s ->
  exists e, elev_angle altitude s = Ok (Fin e) /\ 0 < sin e /\ -(PI/2) <= e <= PI/2.
Proof.
  intros Hal Hs. pose proof r_earth_pos as Hr.
  assert (Hspos : 0 < s).
  { rewrite slant_val in Hs. apply fin_inj in Hs. rewrite <- Hs. apply sqrt_lt_R0.
    pose proof (COS_bound (g / r_earth)) as Hc.
    assert (0 < altitude * altitude) by nra.
    replace ((r_earth + 0) * (r_earth + 0) + (r_earth + altitude) * (r_earth + altitude) -
     2 * (r_earth + altitude) * (r_earth + 0) * cos (g / r_earth))
     with (altitude * altitude + 2 * (r_earth + altitude) * r_earth * (1 - cos (g / r_earth))) by ring.
    assert (0 <= 2 * (r_earth + altitude) * r_earth) by nra. nra. }
  rewrite slant_is_distance in Hs. apply fin_inj in Hs. rewrite sensor_above in Hs.
  set (T := above r_earth 0 (g / r_earth)) in *.
  assert (HT : norm T = r_earth) by (unfold T; rewrite norm_above; lra).
  unfold elev_angle.
  assert (HTri : Rabs (r_earth + altitude - s) <= r_earth + 0 <= r_earth + altitude + s).
  { pose proof (triangle_sides T (sensor_pt altitude)) as H.
    rewrite norm_sensor, HT, Hs in H by lra. rewrite Rplus_0_r. exact H. }
  rewrite (nadir_ok Np); try lra.
  cbn [bind]. rewrite xsub_fin. eexists; split; [reflexivity|].
  match goal with |- context [acos ?x] => set (q := x) end.
  assert (Hq : -1 <= q <= 1).
  { apply loc_arg_range; try lra. }
  split.
  - rewrite sin_shift, cos_acos by auto. unfold q.
    apply Rdiv_lt_0_compat; [|nra]. nra.
  - pose proof (acos_bound q). lra.
Qed.

(* elevation measured at the target: complement of the angle between the local
   vertical at the target and the direction to the sensor *)
Lemma elev_offset altitude g s :
  0 < altitude -> 0 <= g -> g < PI * r_earth ->
  curved_earth_slant_range 0 altitude g = Fin s ->
  exists e zeta,
    elev_angle altitude s = Ok (Fin e) /\
    is_angle zeta (above r_earth 0 (g / r_earth))
                  (vsub (above r_earth altitude 0) (above r_earth 0 (g / r_earth))) /\
    e - (PI / 2 - zeta) = g / r_earth.
Proof.
  intros Hal Hg Hg2 Hs. pose proof r_earth_pos as Hr.
  destruct (elev_positive altitude g s Hal Hs) as [e [He _]].
  assert (Hspos : 0 < s).
  { destruct (Rle_lt_dec s 0) as [H|H]; [|auto]. exfalso.
    rewrite slant_val in Hs. apply fin_inj in Hs.
    assert (0 < s); [|lra]. rewrite <- Hs. apply sqrt_lt_R0.
    pose proof (COS_bound (g / r_earth)) as Hc.
    assert (0 < altitude * altitude) by nra.
    replace ((r_earth + 0) * (r_earth + 0) + (r_earth + altitude) * (r_earth + altitude) -
     2 * (r_earth + altitude) * (r_earth + 0) * cos (g / r_earth))
     with (altitude * altitude + 2 * (r_earth + altitude) * r_earth * (1 - cos (g / r_earth))) by ring.
    assert (0 <= 2 * (r_earth + altitude) * r_earth) by nra. nra. }
  destruct (nadir_of_slant Np 0 altitude g s) as [phi [Hn [Hphi HA]]]; try lra; auto.
  unfold elev_angle in He. rewrite Hn in He. cbn [bind] in He. rewrite xsub_fin in He.
  injection He as He. 
  set (t := g / r_earth) in *.
  assert (Ht : 0 <= t < PI).
  { unfold t, Rdiv; split.
    - apply Rmult_le_pos; [lra|left; now apply Rinv_0_lt_compat].
    - apply Rmult_lt_reg_r with r_earth; [lra|]. rewrite Rmult_assoc, Rinv_l by lra. lra. }
  assert (Hst : 0 <= sin t) by (apply sin_ge_0; lra).
  set (a := r_earth + altitude) in *.
  (* cos phi and sin phi by components *)
  rewrite sensor_above in HA.
  assert (Hd : norm (vsub (above r_earth 0 t) (sensor_pt altitude)) = s).
  { rewrite slant_is_distance in Hs. apply fin_inj in Hs. rewrite sensor_above in Hs. exact Hs. }
  rewrite Hd in HA.
  rewrite norm_down_sensor in HA by (fold a; unfold a; lra). fold a in HA.
  assert (HA' : s * cos phi = a - r_earth * cos t).
  { apply Rmult_eq_reg_l with a; [|unfold a; lra].
    rewrite <- Rmult_assoc, HA. unfold dot, vsub, origin, sensor_pt, on_axis, above; simpl. fold a. ring. }
  assert (Hs2 : s * s = r_earth * r_earth + a * a - 2 * a * r_earth * cos t).
  { rewrite slant_val in Hs. apply fin_inj in Hs. fold t a in Hs. rewrite <- Hs, sqrt_sqrt; [ring|].
    fold t. rewrite <- chord_sq. apply dot_self_nonneg. }
  assert (Hsin : s * sin phi = r_earth * sin t).
  { assert (0 <= sin phi) by (apply sin_ge_0; lra).
    apply Rsqr_inj; [nra|nra|]. unfold Rsqr.
    pose proof (cos2_sin2 phi) as C1. pose proof (cos2_sin2 t) as C2.
    assert (s * sin phi * (s * sin phi) = s * s - (s * cos phi) * (s * cos phi)).
    { replace (s * sin phi * (s * sin phi)) with (s * s * (sin phi * sin phi)) by ring.
      replace (sin phi * sin phi) with (1 - cos phi * cos phi) by lra. ring. }
    rewrite H0, HA', Hs2.
    replace (r_earth * sin t * (r_earth * sin t)) with (r_earth * r_earth * (sin t * sin t)) by ring.
    replace (sin t * sin t) with (1 - cos t * cos t) by lra. ring. }
  exists e, (phi + t). split; [|split].
  - unfold elev_angle. rewrite Hn. cbn [bind]. now rewrite xsub_fin, He.
  - assert (Hsum : s * sin (phi + t) = a * sin t).
    { rewrite sin_plus. replace (s * (sin phi * cos t + cos phi * sin t))
        with ((s * sin phi) * cos t + (s * cos phi) * sin t) by ring.
      rewrite Hsin, HA'. ring. }
    split.
    + split; [lra|]. destruct (Rle_lt_dec (phi + t) PI) as [|Hgt]; [auto|exfalso].
      assert (sin (phi + t) < 0) by (apply sin_lt_0; lra).
      assert (0 <= a * sin t) by (apply Rmult_le_pos; unfold a; lra). nra.
    + rewrite sensor_above. rewrite norm_above by lra.
      replace (norm (vsub (sensor_pt altitude) (above r_earth 0 t))) with s.
      2:{ rewrite <- Hd. unfold norm. f_equal. unfold dot, vsub; simpl. ring. }
      replace ((r_earth + 0) * s * cos (phi + t)) with (r_earth * (s * cos (phi + t))) by ring.
      rewrite cos_plus.
      replace (s * (cos phi * cos t - sin phi * sin t))
        with ((s * cos phi) * cos t - (s * sin phi) * sin t) by ring.
      rewrite Hsin, HA'. unfold dot, vsub, sensor_pt, on_axis, above; simpl. fold a. ring_simplify. 
      pose proof (cos2_sin2 t). nra.
  - rewrite <- He. fold t. ring.
Qed.

Lemma path_zero ht hs : altitude_along_slant_path Py ht hs 0 = Err ZeroDivisionError.
Proof.
  unfold altitude_along_slant_path.
  rewrite (proj2 (nadir_raises_iff ht hs 0)); [reflexivity|auto].
Qed.

Lemma along_0 T S : along T S 0 = T.
Proof. unfold along. destruct T; simpl. f_equal; ring. Qed.
Lemma along_1 T S : along T S 1 = S.
Proof. unfold along. destruct S; simpl. f_equal; ring. Qed.

Lemma path_endpoints k ht hs g s :
  - r_earth < ht -> - r_earth < hs ->
  curved_earth_slant_range ht hs g = Fin s -> s <> 0 ->
  exists zs hp,
    altitude_along_slant_path k ht hs s = Ok (zs, hp) /\
    nth 0 zs NaN = Fin 0 /\ nth 9999 zs NaN = Fin s /\
    nth 0 hp NaN = Fin ht /\ nth 9999 hp NaN = Fin hs.
Proof.
  intros Ht Hs Hsl Hnz. rewrite slant_is_distance, sensor_above in Hsl.
  apply fin_inj in Hsl. set (T := above r_earth ht (g / r_earth)) in *.
  assert (Hpos : 0 < s).
  { pose proof (norm_nonneg (vsub T (sensor_pt hs))). unfold dist in Hsl. lra. }
  destruct (path_of_point k hs T) as [zs [hp [E [_ [_ H]]]]]; [lra|lra|].
  assert (Hh : height r_earth T = ht) by (unfold height, T; rewrite norm_above; lra).
  rewrite Hh, Hsl in E. exists zs, hp. split; [exact E|].
  assert (L0 : (0 < 10000)%nat) by (apply Nat.ltb_lt; reflexivity).
  assert (L1 : (9999 < 10000)%nat) by (apply Nat.ltb_lt; reflexivity).
  destruct (H 0%nat L0) as [Z0 H0]. destruct (H 9999%nat L1) as [Z1 H1].
  assert (E9 : INR 9999 = 9999) by (rewrite INR_IZR_INZ; reflexivity).
  rewrite E9 in *. rewrite Z0, Z1, H0, H1, Hsl. simpl INR.
  replace (0 / 9999) with 0 by field. replace (9999 / 9999) with 1 by field.
  rewrite along_0, along_1, Hh. repeat split; f_equal; try field.
  unfold height. rewrite norm_sensor by lra. ring.
Qed.

Lemma path_bounded k hs (T : pt) :
  0 < r_earth + hs -> 0 < dist T (sensor_pt hs) ->
  exists zs hp,
    altitude_along_slant_path k (height r_earth T) hs (dist T (sensor_pt hs)) = Ok (zs, hp) /\
    forall i, (i < 10000)%nat ->
      exists h, nth i hp NaN = Fin h /\ h <= Rmax (height r_earth T) hs.
Proof.
  intros Ha Hb. destruct (path_of_point k hs T Ha Hb) as [zs [hp [E [_ [_ H]]]]].
  exists zs, hp. split; [exact E|]. intros i Hi. destruct (H i Hi) as [_ Hh].
  eexists; split; [exact Hh|].
  assert (Hf : 0 <= INR i / 9999 <= 1).
  { assert (INR i <= 9999).
    { replace 9999 with (INR (n_path - 1)) by apply n_path_val. apply le_INR.
      change 10000%nat with n_path in Hi. lia. }
    pose proof (pos_INR i). split; unfold Rdiv.
    - apply Rmult_le_pos; lra.
    - lra. }
  pose proof (norm_along_le T (sensor_pt hs) _ Hf) as HL.
  rewrite norm_sensor in HL by auto. unfold height in *.
  apply Rle_trans with (Rmax (norm T) (r_earth + hs) - r_earth); [lra|].
  unfold Rmax. destruct (Rle_dec (norm T) (r_earth + hs)), (Rle_dec (norm T - r_earth) hs); lra.
Qed.

Lemma is_angle_unique phi psi p q :
  0 < norm p -> 0 < norm q -> is_angle phi p q -> is_angle psi p q -> phi = psi.
Proof.
  intros Hp Hq [B1 E1] [B2 E2].
  rewrite <- (acos_cos phi), <- (acos_cos psi) by auto. f_equal.
  apply Rmult_eq_reg_l with (norm p * norm q); [congruence|]. nra.
Qed.

Lemma elev_at_target_refuted :
  ~ (forall altitude g s e zeta,
       0 < altitude -> 0 <= g -> g < PI * r_earth ->
       curved_earth_slant_range 0 altitude g = Fin s ->
       elev_angle altitude s = Ok (Fin e) ->
       is_angle zeta (above r_earth 0 (g / r_earth))
                     (vsub (above r_earth altitude 0) (above r_earth 0 (g / r_earth))) ->
       e = PI / 2 - zeta).
Proof.
  intros H. pose proof PI2_3_2 as HP.
  assert (Hr := r_earth_pos).
  destruct (elev_offset 9000 60000 (dist (above r_earth 0 (60000 / r_earth)) (above r_earth 9000 0)))
    as [e [zeta [E1 [E2 E3]]]]; try lra.
  - unfold r_earth; lra.
  - apply slant_is_distance.
  - specialize (H 9000 60000 _ e zeta ltac:(lra) ltac:(lra) ltac:(unfold r_earth; lra)
                  (slant_is_distance _ _ _) E1 E2).
    assert (0 < 60000 / r_earth) by (apply Rdiv_lt_0_compat; lra). lra.
Qed.
