(** * Proof_Sensor: constructors of Sensor and RefImage *)
From Coq Require Import Reals Lra List Lia ZArith Psatz.
From Verif Require Import Base_XR Base_Np Base_Percentile Model_DbTable Model_Db Spec_Db Proof_Db
  Model_Scenario Proof_Scenario Model_Sensor.
Import ListNotations.
Open Scope R_scope.

Lemma sensor_defaults D f p wl eta kw : p <> 0 ->
  exists s, sensor_init D f p wl eta None None None kw = Ok s /\
    s_py s = p /\ s_wx s = p /\ s_wy s = p.
Proof.
  intros H. unfold sensor_init. rewrite pydiv_ok by auto. cbn [bind].
  eexists; split; [reflexivity|]. simpl. repeat split. field. auto.
Qed.

Lemma sensor_stores D f p wl eta py wx wy kw :
  exists s, sensor_init D f p wl eta (Some py) (Some wx) (Some wy) kw = Ok s /\
    s_px s = p /\ s_py s = py /\ s_wx s = wx /\ s_wy s = wy /\ s_D s = D /\ s_f s = f /\
    s_Lx s = D /\ s_Ly s = D /\ length (s_otr s) = length wl /\ length (s_qe s) = length wl /\
    (forall t, In t (s_otr s) -> t = 1) /\ (forall t, In t (s_qe s) -> t = 1).
Proof.
  eexists; split; [reflexivity|]. simpl. rewrite repeat_length. repeat split; auto;
  intros t Ht; now apply repeat_spec in Ht.
Qed.

Lemma sensor_wy D f p wl eta py wx kw s :
  p <> 0 -> py <> 0 ->
  sensor_init D f p wl eta (Some py) (Some wx) None kw = Ok s ->
  (s_wy s / s_py s) * (s_wx s / s_px s) = 1.
Proof.
  intros Hp Hpy. unfold sensor_init. destruct (pydiv p wx) as [q|] eqn:E; [|discriminate].
  apply pydiv_inv in E. destruct E as [Hw ->]. cbn [bind]. intros H. injection H as <-. simpl.
  field. auto.
Qed.

Lemma sensor_wy_same_iff D f p wl eta py wx kw s :
  0 < p -> 0 < py -> 0 < wx ->
  sensor_init D f p wl eta (Some py) (Some wx) None kw = Ok s ->
  (s_wy s / s_py s = s_wx s / s_px s <-> wx = p).
Proof.
  intros Hp Hpy Hw. unfold sensor_init. rewrite pydiv_ok by lra. cbn [bind].
  intros H. injection H as <-. simpl. split.
  - intros E.
    assert (E2 : p * p = wx * wx).
    { apply (Rmult_eq_reg_r (py / (wx * p * py))).
      - replace (p * p * (py / (wx * p * py))) with (p / wx * py / py) by (field; lra).
        rewrite E. field. lra.
      - apply Rmult_integral_contrapositive. split; [lra|]. apply Rinv_neq_0_compat.
        apply Rmult_integral_contrapositive. split; [|lra].
        apply Rmult_integral_contrapositive. split; lra. }
    assert ((p - wx) * (p + wx) = 0) by lra. apply Rmult_integral in H. lra.
  - intros ->. field. lra.
Qed.

Lemma sensor_fill_refuted :
  ~ (forall D f p wl eta py wx kw s, 0 < p -> 0 < py -> 0 < wx <= p ->
       sensor_init D f p wl eta (Some py) (Some wx) None kw = Ok s ->
       s_wy s / s_py s = s_wx s / s_px s).
Proof.
  intros H. 
  destruct (sensor_init 1 1 2 [] 0 (Some 2) (Some 1) None default_kw) as [s|] eqn:E.
  - pose proof (H 1 1 2 [] 0 2 1 default_kw s ltac:(lra) ltac:(lra) ltac:(lra) E) as K.
    apply (sensor_wy_same_iff 1 1 2 [] 0 2 1 default_kw s) in K; auto; lra.
  - unfold sensor_init in E. rewrite pydiv_ok in E by lra. discriminate.
Qed.

(* with a fill factor below one the derived active width exceeds the pitch *)
Lemma sensor_wy_exceeds_pitch D f p wl eta py wx kw s :
  0 < py -> 0 < wx < p ->
  sensor_init D f p wl eta (Some py) (Some wx) None kw = Ok s -> s_py s < s_wy s.
Proof.
  intros Hpy Hw. unfold sensor_init. rewrite pydiv_ok by lra. cbn [bind].
  intros H. injection H as <-. simpl.
  assert (1 < p / wx). { apply Rmult_lt_reg_r with wx; [lra|]. unfold Rdiv. rewrite Rmult_assoc, Rinv_l by lra. lra. }
  nra.
Qed.

Lemma sensor_zero_width D f p wl eta py kw :
  sensor_init D f p wl eta py (Some 0) None kw = Err ZeroDivisionError.
Proof. unfold sensor_init. rewrite pydiv_zero. reflexivity. Qed.

(** ** RefImage *)
Lemma ref_defaults img gsd refl : img <> [] ->
  exists lo hi a b, ref_image_init img gsd None refl = Ok {| ri_img := img; ri_gsd := gsd; ri_pix := [lo; hi]; ri_refl := [0.05; 0.95] |} /\
    percentile img 0.2 = Ok lo /\ percentile img 99.8 = Ok hi /\
    In a img /\ In b img /\ a <= lo /\ lo <= hi /\ hi <= b.
Proof.
  intros H. destruct (percentile_mono img 0.2 99.8) as [lo [hi [E1 [E2 L]]]]; auto; try lra.
  destruct (percentile_range img 0.2 H ltac:(lra)) as [x [a [a' [F1 [A1 [_ A2]]]]]].
  destruct (percentile_range img 99.8 H ltac:(lra)) as [y [b' [b [F2 [_ [B1 B2]]]]]].
  assert (x = lo) by congruence. assert (y = hi) by congruence. subst.
  exists lo, hi, a, b. unfold ref_image_init. rewrite E1, E2. cbn [bind].
  repeat split; auto; lra.
Qed.

Lemma ref_refl_discarded img gsd r :
  ref_image_init img gsd None (Some r) = ref_image_init img gsd None None.
Proof. reflexivity. Qed.
Lemma ref_missing_refl img gsd p : ref_image_init img gsd (Some p) None = Err ValueError.
Proof. reflexivity. Qed.
Lemma ref_explicit img gsd p r : ref_image_init img gsd (Some p) (Some r)
  = Ok {| ri_img := img; ri_gsd := gsd; ri_pix := p; ri_refl := r |}.
Proof. reflexivity. Qed.

Lemma atan_nz x : x <> 0 -> atan x <> 0.
Proof. intros H E. apply H. rewrite <- (tan_atan x), E. apply tan_0. Qed.

Lemma capture_ok ri alt : ri_gsd ri <> 0 -> alt <> 0 ->
  exists s w, estimate_capture_parameters ri alt = Ok (s, w) /\
    s_px s / s_f s * alt = ri_gsd ri /\ s_py s = s_px s /\ s_wx s = s_px s /\ s_wy s = s_px s /\
    (* wavelength over aperture is a quarter of the pixel's angular size *)
    540 / 10 ^ 9 / s_D s = (2 * atan (s_px s / 2 / s_f s)) / 4 /\
    plain (sc w) Cn2At1m = 0 /\ plain (sc w) HaWindSpeed = 0 /\ plain (sc w) AircraftSpeed = 0 /\
    altitude (sc w) = alt /\ ground_range (sc w) = 0 /\ interp (sc w) = false /\ ihaze (sc w) = 1%Z.
Proof.
  intros Hg Ha. unfold estimate_capture_parameters. rewrite pydiv_ok by auto. cbn [bind].
  set (p := 20 / 10 ^ 6). assert (Hp : p <> 0) by (unfold p; lra).
  set (f := alt * p / ri_gsd ri).
  assert (Hf : f <> 0).
  { unfold f, Rdiv. apply Rmult_integral_contrapositive. split; [|now apply Rinv_neq_0_compat].
    apply Rmult_integral_contrapositive. auto. }
  rewrite pydiv_ok by auto. cbn [bind].
  assert (Hx : p / 2 / f <> 0).
  { unfold Rdiv. apply Rmult_integral_contrapositive. split; [|now apply Rinv_neq_0_compat]. lra. }
  pose proof (atan_nz _ Hx) as Hat.
  rewrite xdiv_fin by lra.
  unfold sensor_init. rewrite pydiv_ok by auto. cbn [bind].
  do 2 eexists. split; [reflexivity|]. simpl. repeat split; auto.
  - unfold f. field. auto.
  - field. auto.
  - fold p. unfold median2. simpl. field. exact Hat.
Qed.

Lemma capture_zero_gsd ri alt : ri_gsd ri = 0 -> estimate_capture_parameters ri alt = Err ZeroDivisionError.
Proof. intros H. unfold estimate_capture_parameters. rewrite H, pydiv_zero. reflexivity. Qed.
Lemma capture_zero_alt ri : estimate_capture_parameters ri 0 = Err ZeroDivisionError.
Proof.
  unfold estimate_capture_parameters. destruct (Req_dec (ri_gsd ri) 0) as [->|N].
  - now rewrite pydiv_zero.
  - rewrite pydiv_ok by auto. cbn [bind].
    replace (0 * (20 / 10 ^ 6) / ri_gsd ri) with 0 by (unfold Rdiv; ring). now rewrite pydiv_zero.
Qed.

Lemma unlisted_2000km i g h : ~ listed i 2000000 g h.
Proof.
  intros [a [g' [I [A _]]]].
  assert (E : IZR a = IZR 20000000) by lra. apply eq_IZR in E. subst a.
  assert (F : forallb (fun r => let '(_, a, _, _) := r in negb (a =? 20000000)%Z) decoder = true) by (vm_compute; reflexivity).
  rewrite forallb_forall in F. specialize (F _ I). discriminate.
Qed.

Lemma default_capture_atm st it ri s w : ri_gsd ri <> 0 ->
  estimate_capture_parameters ri default_capture_altitude = Ok (s, w) ->
  observe (load_no_interp st) it w = Err IndexError.
Proof.
  intros Hg H. destruct (capture_ok ri default_capture_altitude Hg) as [s' [w' [E K]]];
    [unfold default_capture_altitude; lra|].
  rewrite H in E. injection E as <- <-.
  assert (I : Inv (load_no_interp st) it w).
  { clear -H. unfold estimate_capture_parameters in H.
    destruct (pydiv _ (ri_gsd ri)) as [f|]; [|discriminate]. cbn [bind] in H.
    destruct (pydiv _ f) as [x|]; [|discriminate]. cbn [bind] in H.
    destruct (xdiv _ _); try discriminate. destruct (sensor_init _ _ _ _ _ _ _ _ _); [|discriminate].
    cbn [bind] in H. injection H as _ <-. exact I. }
  rewrite observe_inv by exact I. unfold fresh_load.
  destruct K as [_ [_ [_ [_ [_ [_ [_ [_ [A [G [P Z]]]]]]]]]]]. rewrite A, G, P, Z.
  apply no_interp_unlisted. intros i L. now apply unlisted_2000km in L.
Qed.
