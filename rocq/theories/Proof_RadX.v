(** * Proof_RadX: value-level facts about radiance/functional.py *)
From Coq Require Import Reals Lra List Lia ZArith Psatz.
From Verif Require Import Base_XR Base_Np Base_NpFacts Base_Interp Model_Noise Model_Sensor Model_Rad Spec_Rad
  Proof_Rad Proof_Snr Proof_Pe Proof_RadP.
Import ListNotations.
Open Scope R_scope.

(** ** focal_plane_integrated_irradiance *)
Lemma fpii_value L L_s t_opt e_opt wl d T D f : D <> 0 -> length L = length wl -> (forall x, In x wl -> x <> 0) ->
  focal_plane_integrated_irradiance (map Fin L) L_s t_opt e_opt wl d T D f
  = Ok (map (fun p => Fin (cone D f * (t_opt * fst p + e_opt * planck (snd p) T * d + L_s))) (combine L wl)).
Proof.
  intros HD HL Hw. unfold focal_plane_integrated_irradiance. rewrite bb_list by exact Hw.
  rewrite !map_map.
  assert (E : forall (u : list R) v, length u = length v ->
    bmap2 xadd (map (fun x => xmul (Fin t_opt) (Fin x)) u)
      (map (fun l => xmul (xmul (Fin e_opt) (Fin (planck l T))) (Fin d)) v)
    = Ok (map (fun p => Fin (t_opt * fst p + e_opt * planck (snd p) T * d)) (combine u v))).
  { intros u v Huv. unfold bmap2.
    replace (length (map _ u) =? length (map _ v))%nat with true
      by (rewrite !map_length; symmetry; now apply Nat.eqb_eq).
    f_equal. clear -Huv. revert v Huv. induction u as [|a u IH]; intros [|b v] H; simpl in *; try lia; auto.
    rewrite IH by lia. reflexivity. }
  rewrite E by exact HL. cbn [bind]. rewrite map_map.
  rewrite (map_ext _ (fun p => Fin ((fun p => t_opt * fst p + e_opt * planck (snd p) T * d + L_s) p))) by reflexivity.
  now apply afpi_fin.
Qed.

(* the optics term alone is the self emission of the optics, per bandwidth *)
Lemma fpii_dark wl e_opt d T D f : D <> 0 -> (forall x, In x wl -> x <> 0) ->
  exists a b, focal_plane_integrated_irradiance (map Fin (map (fun _ => 0) wl)) 0 1 e_opt wl d T D f = Ok (map Fin a) /\
    optics_self_emission wl T e_opt 1 D f = Ok (map Fin b) /\ a = map (fun y => y * d) b.
Proof.
  intros HD Hw. rewrite fpii_value by (auto; now rewrite map_length).
  rewrite optics_fin by auto.
  exists (map (fun l => cone D f * (1 * 0 + e_opt * planck l T * d + 0)) wl), (map (fun l => cone D f * (1 * e_opt * planck l T)) wl).
  split; [|split].
  - f_equal. rewrite map_map. clear. induction wl as [|a l IH]; simpl; auto. now rewrite IH.
  - now rewrite map_map.
  - rewrite map_map. apply map_ext. intros l. ring.
Qed.

Lemma fpii_no_aperture L L_s t_opt e_opt wl d T f : length L = length wl ->
  focal_plane_integrated_irradiance L L_s t_opt e_opt wl d T 0 f = Err ZeroDivisionError.
Proof.
  intros H. unfold focal_plane_integrated_irradiance, bmap2, blackbody_radiance.
  rewrite !map_length, H, Nat.eqb_refl. cbn [bind]. apply afpi_zero.
Qed.

(** ** giqe_radiance, emissive *)
Lemma giqe_emissive_value atm k : k <> 0%Z -> (forall a, In a atm -> a_wl a <> 0) ->
  giqe_radiance atm k = (map (fun a => Fin (scene_radiance 0 282 a)) atm, map (fun a => Fin (scene_radiance 0 280 a)) atm).
Proof.
  intros K W. unfold giqe_radiance. apply Z.eqb_neq in K. rewrite K. simpl negb. cbv iota.
  now rewrite !total_radiance_value by auto.
Qed.

(** ** noise terms of photon_detector_SNR *)
Lemma noise_terms s wl rt rb tr q : physical s -> sorted_tables s -> response_curves s tr q ->
  positive_wavelengths wl -> ascending wl ->
  length rt = length wl -> length rb = length wl -> all_nonneg rt -> all_nonneg rb ->
  exists M tn bn t sig quant dark self tot snr,
    photon_detector_SNR s wl (map Fin rt) (map Fin rb) = Ok M /\
    m_tgt_n M = Fin tn /\ m_bkg_n M = Fin bn /\ m_int_time M = Fin t /\
    m_signal_noise M = Fin sig /\ m_quant_noise M = Fin quant /\ m_dark_noise M = Fin dark /\
    m_self_noise M = Fin self /\ m_total_noise M = Fin tot /\ m_snr M = Fin snr /\
    0 <= sig /\ 0 <= dark /\ 0 <= self /\ 0 < tot /\
    sig ^ 2 = Rmax tn bn /\
    quant * (sqrt 12 * (Rpower 2 (s_bits s) - 1)) = s_max_n s /\
    dark ^ 2 = s_dark s * (t * s_ntdi s) /\
    self ^ 2 = trapezoid (map (fun l => electrons s (tr l) (q l) l 0) wl) wl * (t * s_ntdi s) /\
    tot ^ 2 = sig ^ 2 + quant ^ 2 + s_read s ^ 2 + Rsum (map (fun x => x ^ 2) (s_other_noise s)) /\
    snr * tot = tn - bn.
Proof.
  intros P St Rc Hw Ha L1 L2 N1 N2.
  destruct (snr_value s wl rt rb P Hw Ha L1 L2 N1 N2) as (M & qn & HM & Q1 & Q2 & V & HS & HQ & HD & HF & HT & HR & _ & HC).
  destruct (as_maps wl rt rb L1 L2) as [E1 [E2 E3]].
  set (l := seq 0 (length wl)) in *.
  assert (X : forall i, In i l -> 0 < nth i wl 0) by (unfold l; apply (nth_in_seq (fun y => 0 < y)); exact Hw).
  destruct (snr_closed_form s (fun i => nth i wl 0) (fun i => nth i rt 0) (fun i => nth i rb 0) l (ph_tables _ P) (ph_D _ P)) as [M' HM'];
    [intros i Hi; specialize (X i Hi); lra|apply (ph_max_n _ P)|apply (ph_max_fill _ P)|].
  rewrite <- E1, <- E2, <- E3 in HM'.
  destruct HM' as (HM' & _ & _ & HTn & HBn & HTi & _). rewrite HM in HM'. injection HM' as <-.
  set (r1 := rate_of s (fun i => nth i wl 0) (fun i => nth i rt 0) l) in *.
  set (r2 := rate_of s (fun i => nth i wl 0) (fun i => nth i rb 0) l) in *.
  set (g0 := s_int_time s * s_ntdi s) in *.
  set (m := s_max_fill s * s_max_n s) in *.
  assert (G0 : 0 <= g0) by (apply Rmult_le_pos; [apply (ph_time _ P)|apply (ph_ntdi _ P)]).
  assert (M0 : 0 <= m) by (apply Rmult_le_pos; [apply (ph_max_fill _ P)|]; pose proof (ph_max_n _ P); lra).
  assert (Etop : Rmax (r1 * g0) (r2 * g0) = Rmax r1 r2 * g0).
  { rewrite !(Rmult_comm _ g0). now apply Rmax_scale. }
  rewrite Etop in *. set (sc := fill (Rmax r1 r2 * g0) m) in *.
  pose proof (proj1 (proj1 (fill_bounds (Rmax r1 r2 * g0) m M0))) as S0. fold sc in S0.
  assert (R1 : 0 <= r1 /\ 0 <= r2 /\ 0 <= self_of s (fun i => nth i wl 0) l).
  { assert (S : ascending (map (fun i => nth i wl 0) l)) by (rewrite <- E1; exact Ha).
    assert (A1 : forall i, In i l -> 0 <= nth i rt 0) by (unfold l; rewrite <- L1; apply (nth_in_seq (fun y => 0 <= y)); exact N1).
    assert (A2 : forall i, In i l -> 0 <= nth i rb 0) by (unfold l; rewrite <- L2; apply (nth_in_seq (fun y => 0 <= y)); exact N2).
    destruct (self_of_bounds s _ l P X S _ A1) as [B1 B2]. destruct (self_of_bounds s _ l P X S _ A2) as [B3 B4].
    pose proof (ph_dark _ P). fold r1 in B2. fold r2 in B4. lra. }
  destruct R1 as [R1 [R2 R3]].
  assert (RM : 0 <= Rmax r1 r2) by (apply Rle_trans with r1; [lra|apply Rmax_l]).
  set (g := sc * g0) in *.
  assert (G : 0 <= g) by (apply Rmult_le_pos; auto).
  set (v := Rmax r1 r2 * g + qn * qn + s_read s * s_read s + Rsum (map (fun x => x * x) (s_other_noise s))) in *.
  do 10 eexists. split; [exact HM|]. split; [exact HTn|]. split; [exact HBn|]. split; [exact HTi|].
  split; [exact HS|]. split; [exact HQ|]. split; [exact HD|]. split; [exact HF|]. split; [exact HT|]. split; [exact HR|].
  split; [apply sqrt_pos|]. split; [apply sqrt_pos|]. split; [apply sqrt_pos|]. split; [now apply sqrt_lt_R0|].
  assert (P1 : 0 <= Rmax r1 r2 * g) by now apply Rmult_le_pos.
  split; [|split; [|split; [|split; [|split]]]].
  - rewrite pow2_sqrt by auto. rewrite Rmax_scale by auto. rewrite Etop. unfold g. ring.
  - unfold quantization_noise in Q1.
    assert (1 < Rpower 2 (s_bits s)).
    { rewrite <- (Rpower_O 2) by lra. apply Rpower_lt; [lra|]. apply (ph_bits _ P). }
    assert (0 < sqrt 12) by (apply sqrt_lt_R0; lra).
    assert (Z : 0 < sqrt 12 * (Rpower 2 (s_bits s) - 1)) by (apply Rmult_lt_0_compat; lra).
    rewrite xdiv_fin in Q1 by lra. injection Q1 as <-. field. lra.
  - rewrite pow2_sqrt by (apply Rmult_le_pos; [apply (ph_dark _ P)|auto]). unfold g, g0. ring.
  - rewrite pow2_sqrt by (apply Rmult_le_pos; auto).
    assert (Es : self_of s (fun i => nth i wl 0) l = trapezoid (map (fun l => electrons s (tr l) (q l) l 0) wl) wl).
    { unfold self_of. rewrite <- E1. f_equal. transitivity (map (fun l => electrons s (tr l) (q l) l 0) (map (fun i => nth i wl 0) l)); [|now rewrite <- E1].
      rewrite map_map. apply map_ext_in. intros i Hi.
      rewrite electrons_eq by (auto; apply (ph_tables _ P)).
      unfold self_at, dN_at, dN1. ring. }
    rewrite <- Es. unfold g, g0. ring.
  - rewrite pow2_sqrt by lra. rewrite pow2_sqrt by auto. unfold v.
    replace (Rsum (map (fun x => x ^ 2) (s_other_noise s))) with (Rsum (map (fun x => x * x) (s_other_noise s))); [ring|].
    f_equal. apply map_ext. intros; ring.
  - field_simplify; [unfold g; ring|]. apply Rgt_not_eq. now apply sqrt_lt_R0.
Qed.

(** ** spectral weights of reflectance_to_photoelectrons *)
Lemma band_all s atm : has_tables s -> good_rows s atm -> (forall a, In a atm -> in_band s a) -> band s atm = Ok atm.
Proof.
  intros Ht G Hin. destruct (good_band s atm Ht G) as [b [Hb [Hne [Hw B]]]]. rewrite Hb. f_equal.
  destruct (band_filter s atm b Hb) as [p ->]. assert (F : forall a, In a atm -> p a = true).
  { intros a I. assert (In a (filter p atm)) by (apply B; split; auto). now apply filter_In in H. }
  clear -F. induction atm as [|a l IH]; auto. simpl. rewrite (F a) by now left. f_equal. apply IH. intros; apply F; now right.
Qed.
Lemma weights_value atm s t T tr q : has_tables s -> sorted_tables s -> response_curves s tr q -> s_D s <> 0 -> 0 < s_max_n s ->
  good_rows s atm -> (forall a, In a atm -> in_band s a /\ 0 < a_wl a) ->
  let es := map (fun a => electrons s (tr (a_wl a)) (q (a_wl a)) (a_wl a) (scene_radiance 1 300 a)) atm in
  (exists e, In e es /\ 0 < e) ->
  exists ref pe peak, In peak es /\ (forall e, In e es -> e <= peak) /\
    reflectance_to_photoelectrons atm s t T = Ok (ref, pe, (map a_wl atm, map (fun e => Fin (e / peak)) es)).
Proof.
  intros Ht St Rc HD Hn G Hin es [e [Ie Pe]].
  assert (Hb : band s atm = Ok atm) by (apply band_all; auto; intros a I; now apply Hin).
  assert (Hne : atm <> []) by (destruct G as [[a [I _]] _]; destruct atm; [destruct I|discriminate]).
  assert (Hw : forall a, In a atm -> a_wl a <> 0) by (intros a I; apply Hin in I; lra).
  assert (Ee : map (spec_rate s 1) atm = es).
  { apply map_ext_in. intros a I. unfold spec_rate. rewrite <- scene_eq. symmetry. apply electrons_eq; auto. now apply Hin. }
  rewrite (r2p_closed s atm atm Ht HD Hn Hb Hne Hw). unfold wts. rewrite Ee.
  destruct es as [|w0 w]; [destruct Ie|].
  assert (M : forall x, In x (w0 :: w) -> x <= maxl w0 w).
  { intros x [<-|I]; [exact (proj1 (maxl_ge w0 w))|exact (proj2 (maxl_ge w0 w) _ I)]. }
  exists (linspace 0 1 100), (map Fin (curve s atm t)), (maxl w0 w). split; [|split; [exact M|]].
  - destruct (maxl_in w0 w) as [->|I]; [now left|now right].
  - f_equal. f_equal. f_equal. apply map_ext. intros p. apply xdiv_fin. specialize (M e Ie). lra.
Qed.

Lemma demo_electrons n : let s := demo_sensor n in
  0 < electrons s (tr_of s (9 * um)) (q_of s (9 * um)) (9 * um) (scene_radiance 1 300 (demo_row (9 * um))).
Proof.
  intros s. pose proof um_pos as U.
  assert (St : sorted_tables s) by apply demo_sorted.
  assert (Tb : has_tables s) by (repeat split; simpl; auto; discriminate).
  assert (Qr : q_of s (9 * um) = 0.5).
  { unfold q_of. apply (reads_interp (s_qwl s) (s_qe s)); try apply Tb; try apply St.
    replace 0.5 with (0.5 + (0.5 - 0.5) * ((9 * um - 8 * um) / (12 * um - 8 * um))) by (unfold Rdiv; ring).
    apply (reads_between (s_qwl s) (s_qe s) (9 * um) 0); simpl; [lia|lra]. }
  assert (Tr : tr_of s (9 * um) = 1).
  { unfold tr_of. apply (reads_interp (s_owl s) (s_otr s)); try apply Tb; try apply St.
    replace 1 with (1 + (1 - 1) * ((9 * um - 8 * um) / (12 * um - 8 * um))) by (unfold Rdiv; ring).
    apply (reads_between (s_owl s) (s_otr s) (9 * um) 0); simpl; [lia|lra]. }
  rewrite Qr, Tr. unfold electrons. apply Rdiv_lt_0_compat.
  - pose proof (cone_pos (s_D s) (s_f s)) as C. pose proof (cone_le_pi (s_D s) (s_f s)) as C'.
    apply Rmult_lt_0_compat; [simpl; assert (0 < 20 * um * (20 * um)) by (apply Rmult_lt_0_compat; lra); lra|].
    unfold self_irradiance, scene_radiance. simpl s_t_filt. simpl s_eta. simpl s_e_opt. simpl s_e_filt.
    simpl a_path. simpl a_scat. simpl a_grnd. simpl s_T_shield. simpl s_T_opt.
    pose proof (planck_pos (9 * um) 70 ltac:(lra) ltac:(lra)).
    pose proof (planck_pos (9 * um) 290 ltac:(lra) ltac:(lra)).
    assert (0 <= (PI - cone (s_D s) (s_f s)) * planck (9 * um) 70) by (apply Rmult_le_pos; lra).
    assert (0 < cone (s_D s) (s_f s) * planck (9 * um) 290) by (apply Rmult_lt_0_compat; lra).
    simpl s_D in *. simpl s_f in *. lra.
  - unfold photon_energy. rewrite hc_spec, cc_spec. apply Rdiv_lt_0_compat; [|lra].
    apply Rmult_lt_0_compat; [apply hc_pos|apply cc_pos].
Qed.
