(** * Proof_Overshoot: lemmas for the sampling error of the overshoot (C131) *)
From Coq Require Import Reals Lra Lia List Psatz.
From Coquelicot Require Import Coquelicot.
From Verif Require Import Base_XR Base_Int Model_Geo Model_Rad Model_Otf Model_Met Spec_Met Spec_EdgeError Proof_Edge Proof_EdgeError.
Import ListNotations.
Open Scope R_scope.

Lemma edge_error_more a b L W n : 0 <= a <= b -> 0 <= L -> 0 < W -> (0 < n)%nat -> edge_error a L W n <= edge_error b L W n.
Proof.
  intros H HL HW Hn. assert (N : 0 < INR n) by (apply lt_0_INR; lia). assert (P := PI_RGT_0).
  assert (A : a * L <= b * L) by (apply Rmult_le_compat_r; lra). assert (B : a ^ 2 <= b ^ 2) by (apply pow_incr; lra).
  assert (D : forall p q d, p <= q -> 0 < d -> p / d <= q / d) by (intros; unfold Rdiv; apply Rmult_le_compat_r; [left; apply Rinv_0_lt_compat|]; lra).
  unfold edge_error. apply D; [|lra]. repeat apply Rplus_le_compat; apply D; try lra.
  - assert (0 < INR n ^ 2) by (apply pow_lt; lra). lra.
Qed.
Lemma place_range k : (k < 9)%nat -> 1 <= overshoot_place k <= 3.
Proof.
  intros H. unfold overshoot_place. assert (A := pos_INR k). assert (B : INR k <= 8) by (replace 8 with (INR 8) by (rewrite INR_IZR_INZ; reflexivity); apply le_INR; lia). lra.
Qed.
Lemma max_near f g r E : (exists k, (k < 9)%nat /\ r = f k) -> (forall k, (k < 9)%nat -> f k <= r) -> (forall k, (k < 9)%nat -> Rabs (f k - g k) <= E) ->
  (forall k, (k < 9)%nat -> g k <= r + E) /\ exists k, (k < 9)%nat /\ r - E <= g k.
Proof.
  intros (j & Hj & Ej) M N. split.
  - intros k Hk. specialize (M k Hk). specialize (N k Hk). apply Rabs_le_inv in N. lra.
  - exists j. split; [exact Hj|]. specialize (N j Hj). apply Rabs_le_inv in N. lra.
Qed.
Lemma overshoot_near m W L n ifov : 0 < W -> 0 <= L -> (0 < n)%nat -> gentle m W L -> transfer m W ->
  let E := edge_error (6 * PI * Rabs ifov * W) L W n in
  exists r e, edge_height_overshoot (samples m W n) (W / INR n) ifov = Ok (Fin r) /\
    (forall k, (k < 9)%nat -> blurred_edge m W (ifov * overshoot_place k) (e k)) /\
    (exists k, (k < 9)%nat /\ Rabs (r - e k) <= E) /\
    ((forall k, (k < 8)%nat -> e k + 2 * E < e (S k)) -> Rabs (r - e 1%nat) <= E) /\
    ((exists k, (k < 8)%nat /\ e (S k) + 2 * E <= e k) ->
       (forall k, (k < 9)%nat -> e k <= r + E) /\ exists k, (k < 9)%nat /\ r - E <= e k).
Proof.
  intros HW HL Hn G T E. assert (P := PI_RGT_0).
  assert (HD : 0 <= W / INR n) by (left; apply Rdiv_lt_0_compat; [lra | apply lt_0_INR; lia]).
  destruct (eho_spec (samples m W n) (W / INR n) ifov HD) as (r & R & (j & Hj & Ej) & Up & Down).
  set (f k := edge_at (samples m W n) (W / INR n) ifov (overshoot_place k)) in *.
  assert (X : forall k, exists e, blurred_edge m W (ifov * overshoot_place k) e /\ ((k < 9)%nat -> Rabs (f k - e) <= E)).
  { intros k. destruct (edge_near m W L n (overshoot_place k) ifov HW HL Hn G T) as (e & B & N). exists e. split; [exact B|]. intros Hk.
    eapply Rle_trans; [exact N|]. apply edge_error_more; auto. assert (Q := place_range k Hk). rewrite Rabs_mult, (Rabs_pos_eq (overshoot_place k)) by lra.
    assert (A := Rabs_pos ifov). assert (Z : 0 <= 2 * PI * W * Rabs ifov) by (apply Rmult_le_pos; [nra | exact A]). split; [nra|].
    replace (6 * PI * Rabs ifov * W) with (2 * PI * W * Rabs ifov * 3) by ring. replace (2 * PI * (Rabs ifov * overshoot_place k) * W) with (2 * PI * W * Rabs ifov * overshoot_place k) by ring.
    apply Rmult_le_compat_l; lra. }
  assert (Y : exists e, (forall k, (k < 9)%nat -> blurred_edge m W (ifov * overshoot_place k) (e k)) /\ forall k, (k < 9)%nat -> Rabs (f k - e k) <= E).
  { destruct (X 0%nat) as (e0 & A0 & B0), (X 1%nat) as (e1 & A1 & B1), (X 2%nat) as (e2 & A2 & B2), (X 3%nat) as (e3 & A3 & B3), (X 4%nat) as (e4 & A4 & B4),
      (X 5%nat) as (e5 & A5 & B5), (X 6%nat) as (e6 & A6 & B6), (X 7%nat) as (e7 & A7 & B7), (X 8%nat) as (e8 & A8 & B8).
    exists (fun k => nth k [e0; e1; e2; e3; e4; e5; e6; e7; e8] 0).
    split; intros k Hk; do 9 (destruct k as [|k]; [cbn [nth]; auto|]); lia. }
  destruct Y as (e & A & B). exists r, e. split; [exact R|]. split; [exact A|]. split; [|split].
  - exists j. split; [exact Hj|]. rewrite Ej. exact (B j Hj).
  - intros I. replace r with (f 1%nat); [apply B; lia|]. symmetry. replace (f 1%nat) with (edge_at (samples m W n) (W / INR n) ifov (5 / 4)) by (unfold f; f_equal; unfold overshoot_place; simpl; lra). apply Up.
    intros k Hk. specialize (I k Hk). assert (U := Rabs_le_inv _ _ (B k ltac:(lia))). assert (V := Rabs_le_inv _ _ (B (S k) ltac:(lia))). change (f k < f (S k)). lra.
  - intros (k & Hk & I). apply (max_near f e r E); [exists j; auto | apply Down; exists k | exact B].
    split; [exact Hk|]. assert (U := Rabs_le_inv _ _ (B k ltac:(lia))). assert (V := Rabs_le_inv _ _ (B (S k) ltac:(lia))). change (f (S k) <= f k). lra.
Qed.

(** ** a triangular transfer function and small pixels: the edge rises at all nine places *)
Definition ramp (w : R) : R := 1 - w.
Lemma ramp_gentle : gentle ramp 1 1.
Proof. intros a b Ha Hb. unfold ramp, Rabs; repeat destruct (Rcase_abs _); lra. Qed.
Lemma ramp_transfer : transfer ramp 1.
Proof. split; unfold ramp; [intros w Hw; apply Rabs_le; lra | lra]. Qed.
Lemma ramp_area k : is_RInt (fun w => 2 * PI * k * ramp w) 0 1 (PI * k).
Proof.
  assert (H : is_RInt (fun w => 2 * PI * k * ramp w) 0 1 (minus (2 * PI * k * (1 - 1 ^ 2 / 2)) (2 * PI * k * (0 - 0 ^ 2 / 2)))).
  { apply (is_RInt_derive (fun w => 2 * PI * k * (w - w ^ 2 / 2))).
    - intros w _. auto_derive; [trivial|]. unfold ramp. field.
    - intros w _. apply (continuous_mult (fun _ => 2 * PI * k)); [apply continuous_const|]. unfold ramp. apply (continuous_minus (fun _ => 1) (fun w => w)); [apply continuous_const | apply continuous_id]. }
  replace (PI * k) with (minus (2 * PI * k * (1 - 1 ^ 2 / 2)) (2 * PI * k * (0 - 0 ^ 2 / 2))); [exact H|]. unfold minus, plus, opp. simpl. field.
Qed.
Lemma ramp_edge k e : 0 <= k <= 1 / 200 -> blurred_edge ramp 1 k e -> Rabs (e - (1 / 2 + k)) <= 1 / 10000.
Proof.
  intros Hk (J & HJ & ->). assert (P := PI_RGT_0). assert (P4 := PI_4).
  assert (B : Rabs (J - PI * k) <= (1 - 0) * ((2 * PI * k) ^ 2 / 8)).
  { change (norm (minus J (PI * k)) <= (1 - 0) * ((2 * PI * k) ^ 2 / 8)).
    apply (norm_RInt_le_const (fun w => minus (ramp w * wave k w) (2 * PI * k * ramp w)) 0 1); [lra | | apply (is_RInt_minus (V := R_NormedModule)); [exact HJ | apply ramp_area]].
    intros w Hw. change (Rabs (ramp w * wave k w - 2 * PI * k * ramp w) <= (2 * PI * k) ^ 2 / 8).
    replace (ramp w * wave k w - 2 * PI * k * ramp w) with (ramp w * (wave k w - 2 * PI * k)) by ring.
    assert (L := wave_lip k w 0). replace (wave k 0) with (2 * PI * k) in L by (unfold wave; destruct (Req_EM_T 0 0); [reflexivity | lra]).
    rewrite Rminus_0_r, (Rabs_pos_eq w) in L by lra. rewrite Rabs_mult. unfold ramp. rewrite (Rabs_pos_eq (1 - w)) by lra.
    apply Rle_trans with ((1 - w) * ((2 * PI * k) ^ 2 / 2 * w)); [apply Rmult_le_compat_l; lra|].
    assert (0 <= (2 * PI * k) ^ 2) by nra. assert ((1 - w) * w <= / 4) by (generalize (pow2_ge_0 (w - 1 / 2)); lra || nra).
    replace ((1 - w) * ((2 * PI * k) ^ 2 / 2 * w)) with ((2 * PI * k) ^ 2 / 2 * ((1 - w) * w)) by ring.
    replace ((2 * PI * k) ^ 2 / 8) with ((2 * PI * k) ^ 2 / 2 * / 4) by field. apply Rmult_le_compat_l; lra. }
  replace (1 / 2 + J / PI - (1 / 2 + k)) with ((J - PI * k) * / PI) by (field; lra). rewrite Rabs_mult, (Rabs_pos_eq (/ PI)) by (left; apply Rinv_0_lt_compat; lra).
  apply Rle_trans with ((1 - 0) * ((2 * PI * k) ^ 2 / 8) * / PI); [apply Rmult_le_compat_r; [left; apply Rinv_0_lt_compat; lra | exact B]|].
  replace ((1 - 0) * ((2 * PI * k) ^ 2 / 8) * / PI) with (PI * k ^ 2 / 2) by (field; lra). assert (k ^ 2 <= (1 / 200) ^ 2) by (apply pow_incr; lra). assert (0 <= k ^ 2) by nra. nra.
Qed.
Lemma ramp_demo : exists r e, edge_height_overshoot (samples ramp 1 50) (1 / INR 50) (1 / 600) = Ok (Fin r) /\
  blurred_edge ramp 1 (1 / 600 * (5 / 4)) e /\ Rabs (r - e) <= 0.0001.
Proof.
  destruct (overshoot_near ramp 1 1 50 (1 / 600) ltac:(lra) ltac:(lra) ltac:(lia) ramp_gentle ramp_transfer) as (r & e & R & B & _ & Up & _).
  assert (P := PI_RGT_0). assert (P4 := PI_4).
  assert (HE : edge_error (6 * PI * Rabs (1 / 600) * 1) 1 1 50 <= 0.0001).
  { unfold edge_error. replace (INR 50) with 50 by (rewrite INR_IZR_INZ; reflexivity). rewrite Rabs_pos_eq by lra.
    replace (((6 * PI * (1 / 600) * 1 * 1 + (6 * PI * (1 / 600) * 1) ^ 2 / 2) / (4 * 50) + 6 * PI * (1 / 600) * 1 * 1 / (2 * 50 ^ 2) + (6 * PI * (1 / 600) * 1) ^ 2 / (2 * 10 ^ 6 * 1)) / PI)
      with ((1 / 100 + PI * / 20000) / 200 + 1 / 500000 + PI * / 20000 / 10 ^ 6) by (field; lra). lra. }
  exists r, (e 1%nat). split; [exact R|]. split.
  - replace (5 / 4) with (overshoot_place 1) by (unfold overshoot_place; simpl; lra). apply B. lia.
  - eapply Rle_trans; [apply Up | exact HE]. intros k Hk.
    assert (Q := place_range k ltac:(lia)). assert (Q' := place_range (S k) ltac:(lia)).
    assert (U := Rabs_le_inv _ _ (ramp_edge (1 / 600 * overshoot_place k) _ ltac:(lra) (B k ltac:(lia)))).
    assert (V := Rabs_le_inv _ _ (ramp_edge (1 / 600 * overshoot_place (S k)) _ ltac:(lra) (B (S k) ltac:(lia)))).
    unfold overshoot_place in *. rewrite S_INR in *. lra.
Qed.
