(** * Proof_Kernel64: noise_gain in binary64 for kernels of exact entries (C07) *)
From Coq Require Import Reals ZArith Lia Lra Psatz Floats List.
From Flocq Require Import Core IEEE754.BinarySingleNaN IEEE754.PrimFloat.
From Verif Require Import Base_XR Model_F64 Spec_F64 Proof_Round Model_F64Size Proof_F64Size Proof_F64Db Proof_F64Slice Spec_Kernel64.
Import ListNotations.
Open Scope R_scope.

Lemma z_sum_abs l : (Z.abs (z_sum l) <= z_sum (map Z.abs l))%Z.
Proof. induction l as [|z l IH]; cbn [z_sum fold_right map]; [reflexivity|]. fold (z_sum l). fold (z_sum (map Z.abs l)). lia. Qed.
Lemma z_abs_pos l : (0 <= z_sum (map Z.abs l))%Z.
Proof. generalize (z_sum_abs l). lia. Qed.
Lemma fold_exact e k zs : Forall2 (fun x z => stands_for x (dy z e)) k zs -> (-1074 <= e <= 800)%Z -> forall x a, stands_for x (dy a e) ->
  (Z.abs a + z_sum (map Z.abs zs) <= 2 ^ 53)%Z -> stands_for (fold_left PrimFloat.add k x) (dy (a + z_sum zs) e).
Proof.
  intros F E. induction F as [|y z k zs Hy F IH]; intros x a Hx B; cbn [fold_left z_sum fold_right map] in *.
  - now rewrite Z.add_0_r.
  - fold (z_sum zs) in *. fold (z_sum (map Z.abs zs)) in *. assert (P := z_abs_pos zs). rewrite Z.add_assoc. apply IH.
    + apply f_add_z; auto. lia.
    + lia.
Qed.
Lemma sum_exact e k zs : Forall2 (fun x z => stands_for x (dy z e)) k zs -> (-1074 <= e <= 800)%Z -> (z_sum (map Z.abs zs) <= 2 ^ 53)%Z ->
  stands_for (f_sum k) (dy (z_sum zs) e).
Proof.
  intros F E B. unfold f_sum. rewrite <- (Z.add_0_l (z_sum zs)). apply fold_exact; auto. unfold dy. rewrite Rmult_0_l. apply f_0.
Qed.
Lemma abs_sqr l : map Z.abs (map (fun z => (z * z)%Z) l) = map (fun z => (z * z)%Z) l.
Proof. rewrite map_map. apply map_ext. intros. nia. Qed.
Lemma sqr_pos l : (0 <= z_sum (map (fun z => (z * z)%Z) l))%Z.
Proof. induction l as [|z l IH]; cbn [z_sum fold_right map]; [lia|]. fold (z_sum (map (fun z => (z * z)%Z) l)). nia. Qed.
Lemma sqr_in z l : In z l -> (z * z <= z_sum (map (fun z => (z * z)%Z) l))%Z.
Proof.
  induction l as [|y l IH]; [easy|]. cbn [z_sum fold_right map]. fold (z_sum (map (fun z => (z * z)%Z) l)). assert (P := sqr_pos l).
  intros [->|H]; [lia | specialize (IH H); nia].
Qed.
Lemma sqr_exact e k zs : Forall2 (fun x z => stands_for x (dy z e)) k zs -> (-500 <= e <= 400)%Z -> (forall z, In z zs -> (z * z <= 2 ^ 53)%Z) ->
  Forall2 (fun x z => stands_for x (dy z (e + e))) (map (fun x => (x * x)%float) k) (map (fun z => (z * z)%Z) zs).
Proof.
  intros F E. induction F as [|y z k zs Hy F IH]; intros B; cbn [map]; constructor.
  - apply f_mul_z; auto; [|lia]. specialize (B z (or_introl eq_refl)). nia.
  - apply IH. intros w Hw. apply B. now right.
Qed.
Lemma one_stands : stands_for 1%float 1.
Proof. apply f_value; [reflexivity|]. cbn. unfold Defs.F2R. simpl. lra. Qed.
Lemma dy_one e s : (0 <= e)%Z -> dy s (- e) = 1 <-> s = (2 ^ e)%Z.
Proof.
  intros E. unfold dy. rewrite bpow_opp. assert (P := bpow_gt_0 radix2 e). assert (Q : bpow radix2 e = IZR (2 ^ e)) by (symmetry; apply (IZR_Zpower radix2); exact E). rewrite Q in *. split.
  - intros H. apply eq_IZR. apply (Rmult_eq_reg_r (/ IZR (2 ^ e))); [rewrite H; field; lra | apply Rinv_neq_0_compat; lra].
  - intros ->. field. lra.
Qed.
Lemma raises_exact e k zs : (0 <= e <= 500)%Z -> Forall2 (fun x z => stands_for x (dy z (- e))) k zs -> (z_sum (map Z.abs zs) <= 2 ^ 53)%Z ->
  (noise_gain_f64 k = Err ValueError <-> z_sum zs <> (2 ^ e)%Z).
Proof.
  intros E F B. assert (S := sum_exact _ _ _ F ltac:(lia) B). assert (Q := f_eq _ _ _ _ S one_stands). rewrite (dy_one e) in Q by lia.
  unfold noise_gain_f64. destruct (PrimFloat.eqb (f_sum k) 1) eqn:D; cbn [negb]; split; try discriminate.
  - intros H. exfalso. apply H. now apply Q.
  - intros _ H. apply Q in H. discriminate.
  - reflexivity.
Qed.
Lemma gain_exact e k zs : (0 <= e <= 500)%Z -> Forall2 (fun x z => stands_for x (dy z (- e))) k zs -> (z_sum (map Z.abs zs) <= 2 ^ 53)%Z ->
  z_sum zs = (2 ^ e)%Z -> (z_sum (map (fun z => z * z)%Z zs) <= 2 ^ 53)%Z ->
  exists y, noise_gain_f64 k = Ok y /\ stands_for y (nearest (R_sqrt.sqrt (IZR (z_sum (map (fun z => z * z)%Z zs))) * bpow radix2 (- e))).
Proof.
  intros E F B H1 B2. assert (S := sum_exact _ _ _ F ltac:(lia) B). assert (Q := f_eq _ _ _ _ S one_stands). rewrite (dy_one e) in Q by lia.
  unfold noise_gain_f64. rewrite (proj2 Q H1). cbn [negb]. eexists. split; [reflexivity|].
  assert (F2 := sqr_exact _ _ _ F ltac:(lia) ltac:(intros z Hz; apply sqr_in in Hz; lia)).
  assert (S2 := sum_exact _ _ _ F2 ltac:(lia) ltac:(rewrite abs_sqr; exact B2)).
  assert (P := sqr_pos zs). apply IZR_le in P. assert (W := bpow_ge_0 radix2 (- e)).
  assert (G := f_sqrt _ _ S2 ltac:(apply Rmult_le_pos; [exact P | apply bpow_ge_0])).
  unfold dy in G. rewrite bpow_plus in G. rewrite sqrt_mult_alt in G by exact P. rewrite sqrt_square in G by exact W. exact G.
Qed.

(** ** as quotients by powers of two *)
Lemma over z e : (0 <= e)%Z -> IZR z / IZR (2 ^ e) = dy z (- e).
Proof. intros E. unfold dy. rewrite bpow_opp, <- (IZR_Zpower radix2 e E). reflexivity. Qed.
Lemma F2_over e k zs : (0 <= e)%Z -> Forall2 (fun x z => stands_for x (IZR z / IZR (2 ^ e))) k zs -> Forall2 (fun x z => stands_for x (dy z (- e))) k zs.
Proof. intros E F. induction F as [|x z k zs H F IH]; constructor; auto. rewrite <- over; auto. Qed.
Lemma kernel_raises e k zs : (0 <= e <= 500)%Z -> Forall2 (fun x z => stands_for x (IZR z / IZR (2 ^ e))) k zs -> (z_sum (map Z.abs zs) <= 2 ^ 53)%Z ->
  (noise_gain_f64 k = Err ValueError <-> z_sum zs <> (2 ^ e)%Z).
Proof. intros E F B. apply raises_exact; auto. apply F2_over; [lia | exact F]. Qed.
Lemma kernel_gain e k zs : (0 <= e <= 500)%Z -> Forall2 (fun x z => stands_for x (IZR z / IZR (2 ^ e))) k zs -> (z_sum (map Z.abs zs) <= 2 ^ 53)%Z ->
  z_sum zs = (2 ^ e)%Z -> (z_sum (map (fun z => z * z)%Z zs) <= 2 ^ 53)%Z ->
  exists y, noise_gain_f64 k = Ok y /\ stands_for y (nearest (R_sqrt.sqrt (IZR (z_sum (map (fun z => z * z)%Z zs))) / IZR (2 ^ e))).
Proof.
  intros E F B H1 B2. destruct (gain_exact e k zs E (F2_over e k zs (proj1 E) F) B H1 B2) as (y & A & S). exists y. split; [exact A|].
  rewrite bpow_opp, <- (IZR_Zpower radix2 e) in S by lia. exact S.
Qed.
(** ** quarters written as decimals *)
Lemma f_int z : (Z.abs z <= 2 ^ 53)%Z -> stands_for (f_of_Z z) (IZR z).
Proof.
  intros H. destruct z as [|p|p]; [apply f_int_lit; lia | apply f_int_lit; lia |].
  assert (P := f_int_lit (Zpos p) ltac:(lia)). cbn [f_of_Z] in *. change (Z.opp (Zneg p)) with (Zpos p). destruct P as [F E].
  unfold stands_for. rewrite opp_equiv, is_finite_Bopp, B2R_Bopp, E. split; [exact F|]. rewrite <- opp_IZR. reflexivity.
Qed.
Lemma f_100 : stands_for 100%float 100.
Proof. apply f_value; [reflexivity|]. cbn. unfold Defs.F2R. simpl. lra. Qed.
Lemma quarter q : (Z.abs q <= 2 ^ 40)%Z -> stands_for (f_cent (25 * q)) (IZR q / IZR (2 ^ 2)).
Proof.
  intros H. assert (S := f_int (25 * q) ltac:(lia)).
  assert (V : IZR (25 * q) / 100 = dy q (-2)) by (change (-2)%Z with (- (2))%Z; rewrite <- (over q 2) by lia; rewrite mult_IZR; change (IZR (2 ^ 2)) with 4; lra).
  assert (G := f_div _ _ _ _ S f_100 ltac:(lra)). rewrite V in G. specialize (G ltac:(apply dy_small; lia)).
  rewrite (over q 2) by lia. change (- (2))%Z with (-2)%Z. unfold dy in G at 1. rewrite rnd_exact in G by lia. exact G.
Qed.
Lemma abs_in z l : In z l -> (Z.abs z <= z_sum (map Z.abs l))%Z.
Proof.
  induction l as [|y l IH]; [easy|]. cbn [z_sum fold_right map]. fold (z_sum (map Z.abs l)). assert (P := z_abs_pos l). intros [->|H]; [lia | specialize (IH H); lia].
Qed.
Lemma sqr_abs l : (z_sum (map (fun z => z * z)%Z l) <= z_sum (map Z.abs l) * z_sum (map Z.abs l))%Z.
Proof.
  induction l as [|y l IH]; cbn [z_sum fold_right map]; [lia|]. fold (z_sum (map (fun z => z * z)%Z l)). fold (z_sum (map Z.abs l)). assert (P := z_abs_pos l). nia.
Qed.
Lemma quarters qs : (z_sum (map Z.abs qs) <= 2 ^ 26)%Z ->
  let k := map (fun q => f_cent (25 * q)) qs in
  (noise_gain_f64 k = Err ValueError <-> z_sum qs <> 4%Z) /\
  (z_sum qs = 4%Z -> exists y, noise_gain_f64 k = Ok y /\ stands_for y (nearest (R_sqrt.sqrt (IZR (z_sum (map (fun q => q * q)%Z qs))) / 4))).
Proof.
  intros B k.
  assert (F : Forall2 (fun x z => stands_for x (IZR z / IZR (2 ^ 2))) k qs).
  { assert (A : forall q, In q qs -> (Z.abs q <= 2 ^ 40)%Z) by (intros q Hq; apply abs_in in Hq; lia). unfold k. clear -A. induction qs as [|q qs IH]; cbn [map]; constructor.
    - apply quarter. apply A. now left.
    - apply IH. intros z Hz. apply A. now right. }
  assert (Q := sqr_abs qs). assert (P := z_abs_pos qs). split.
  - apply (kernel_raises 2); [lia | exact F | lia].
  - intros H. apply (kernel_gain 2); [lia | exact F | lia | exact H | nia].
Qed.
