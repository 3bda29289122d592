(** * Proof_Nadir: looking straight down in binary64 *)
From Coq Require Import Reals ZArith NArith Nnat Lia Lra Psatz Floats List.
From Flocq Require Import Core Mult_error IEEE754.BinarySingleNaN IEEE754.PrimFloat.
From Verif Require Import Base_XR Model_F64 Spec_F64 Proof_Round.
Import ListNotations.
Open Scope R_scope.

Ltac f_lit := apply f_value; [vm_compute; reflexivity|];
  match goal with |- context [Prim2SF ?x] => let y := eval vm_compute in (Prim2SF x) in change (Prim2SF x) with y end;
  unfold dy, SF2R, F2R; simpl; lra.
Lemma f_r : stands_for r_earth_f64 (dy (8 * 6378164) (-3)).
Proof. f_lit. Qed.
Lemma f_0 : stands_for 0 (dy 0 (-3)).
Proof. f_lit. Qed.
Lemma f_1 : stands_for 1 (dy 1 0).
Proof. f_lit. Qed.
Lemma f_2 : stands_for 2 (dy 2 0).
Proof. f_lit. Qed.
Lemma f_m1 : stands_for (-1)%float (dy (-1) 0).
Proof. f_lit. Qed.

Lemma zero_angle : (0 / r_earth_f64)%float = 0%float.
Proof. vm_compute. reflexivity. Qed.
Lemma slant_at_zero fcos h : cosine_of_zero fcos -> slant_range_f64 fcos 0 h 0 =
  (let a := r_earth_f64 + h in let c := r_earth_f64 + 0 in PrimFloat.sqrt (c * c + a * a - 2 * a * c * 1))%float.
Proof. intros H. unfold slant_range_f64. rewrite zero_angle, H. reflexivity. Qed.

(* multiples of an eighth of a metre, up to 1000 km: everything is exact *)
Lemma nadir_argument_exact h b k : stands_for h (dy k (-3)) -> stands_for b (dy k (-3)) -> (1 <= k <= 8000000)%Z ->
  (let a := r_earth_f64 + h in let c := r_earth_f64 + 0 in -1 * (c * c - a * a - b * b) / (2 * a * b))%float = 1%float.
Proof.
  intros H B K. cbv zeta. set (C := (8 * 6378164)%Z).
  assert (Ha : stands_for (r_earth_f64 + h) (dy (C + k) (-3))) by (apply f_add_z; [apply f_r|exact H|unfold C; lia|lia]).
  assert (Hc : stands_for (r_earth_f64 + 0) (dy (C + 0) (-3))) by (apply f_add_z; [apply f_r|apply f_0|unfold C; lia|lia]).
  replace (C + 0)%Z with C in Hc by lia. set (A := (C + k)%Z) in *.
  assert (BA : (0 <= A <= 60000000)%Z) by (unfold A, C; lia). assert (BC : C = 51025312%Z) by reflexivity.
  set (a := (r_earth_f64 + h)%float) in *. set (c := (r_earth_f64 + 0)%float) in *.
  assert (Haa := f_mul_z _ _ _ _ _ _ Ha Ha ltac:(nia) ltac:(lia)).
  assert (Hcc := f_mul_z _ _ _ _ _ _ Hc Hc ltac:(nia) ltac:(lia)).
  assert (Hbb := f_mul_z _ _ _ _ _ _ B B ltac:(nia) ltac:(lia)).
  assert (H1 := f_sub_z _ _ _ _ _ Hcc Haa ltac:(nia) ltac:(lia)).
  assert (H2 := f_sub_z _ _ _ _ _ H1 Hbb ltac:(nia) ltac:(lia)).
  assert (H3 := f_mul_z _ _ _ _ _ _ f_m1 H2 ltac:(nia) ltac:(lia)).
  assert (H4 := f_mul_z _ _ _ _ _ _ f_2 Ha ltac:(nia) ltac:(lia)).
  assert (H5 := f_mul_z _ _ _ _ _ _ H4 B ltac:(nia) ltac:(lia)).
  assert (P : 0 < dy (2 * A * k) (0 + -3 + -3)) by (apply Rmult_lt_0_compat; [apply IZR_lt; unfold A, C; nia|apply bpow_gt_0]).
  assert (Q : dy (-1 * (C * C - A * A - k * k)) (0 + (-3 + -3)) / dy (2 * A * k) (0 + -3 + -3) = 1).
  { replace (dy (-1 * (C * C - A * A - k * k)) (0 + (-3 + -3))) with (dy (2 * A * k) (0 + -3 + -3)); [field; lra|].
    unfold dy. f_equal. f_equal. unfold A. ring. }
  apply stands_inj with 1; [|replace 1 with (dy 1 0) by (unfold dy; simpl; lra); apply f_1|lra].
  replace 1 with (rnd (dy (-1 * (C * C - A * A - k * k)) (0 + (-3 + -3)) / dy (2 * A * k) (0 + -3 + -3))).
  - apply f_div; [exact H3|exact H5|lra|]. rewrite Q, Rabs_R1. apply (bpow_lt radix2 0 900). lia.
  - rewrite Q. apply (rnd_int 1). lia.
Qed.

Lemma slant_exact fcos h k : cosine_of_zero fcos -> stands_for h (dy k (-3)) -> (1 <= k <= 8000000)%Z -> slant_range_f64 fcos 0 h 0 = h.
Proof.
  intros F H K. rewrite slant_at_zero by exact F. cbv zeta. set (C := (8 * 6378164)%Z).
  assert (Ha : stands_for (r_earth_f64 + h) (dy (C + k) (-3))) by (apply f_add_z; [apply f_r|exact H|unfold C; lia|lia]).
  assert (Hc : stands_for (r_earth_f64 + 0) (dy (C + 0) (-3))) by (apply f_add_z; [apply f_r|apply f_0|unfold C; lia|lia]).
  replace (C + 0)%Z with C in Hc by lia. set (A := (C + k)%Z) in *.
  assert (BA : (0 <= A <= 60000000)%Z) by (unfold A, C; lia). assert (BC : C = 51025312%Z) by reflexivity.
  set (a := (r_earth_f64 + h)%float) in *. set (c := (r_earth_f64 + 0)%float) in *.
  assert (Haa := f_mul_z _ _ _ _ _ _ Ha Ha ltac:(nia) ltac:(lia)).
  assert (Hcc := f_mul_z _ _ _ _ _ _ Hc Hc ltac:(nia) ltac:(lia)).
  assert (H1 := f_add_z _ _ _ _ _ Hcc Haa ltac:(nia) ltac:(lia)).
  assert (H2 := f_mul_z _ _ _ _ _ _ f_2 Ha ltac:(nia) ltac:(lia)).
  assert (H3 := f_mul_z _ _ _ _ _ _ H2 Hc ltac:(nia) ltac:(lia)).
  assert (H4 := f_mul_z _ _ _ _ _ _ H3 f_1 ltac:(nia) ltac:(lia)).
  assert (H5 : stands_for (c * c + a * a - 2 * a * c * 1)%float (dy (C * C + A * A - 2 * A * C * 1) (-3 + -3)))
    by (apply f_sub_z; [exact H1|exact H4|nia|lia]).
  replace (C * C + A * A - 2 * A * C * 1)%Z with (k * k)%Z in H5 by (unfold A; ring).
  apply f_sqrt_z in H5; [|lia|lia].
  apply stands_inj with (dy k (-3)); [exact H5|exact H|].
  apply Rgt_not_eq. apply Rmult_lt_0_compat; [apply IZR_lt; lia|apply bpow_gt_0].
Qed.
Lemma flat_exact h k : stands_for h (dy k (-3)) -> (1 <= k <= 8000000)%Z -> slant_flat_f64 h 0 = h.
Proof.
  intros H K. unfold slant_flat_f64.
  assert (Hh := f_mul_z _ _ _ _ _ _ H H ltac:(nia) ltac:(lia)).
  assert (H0 := f_mul_z _ _ _ _ _ _ f_0 f_0 ltac:(lia) ltac:(lia)).
  assert (H1 := f_add_z _ _ _ _ _ Hh H0 ltac:(nia) ltac:(lia)).
  replace (k * k + 0 * 0)%Z with (k * k)%Z in H1 by ring.
  apply f_sqrt_z in H1; [|lia|lia].
  apply stands_inj with (dy k (-3)); [exact H1|exact H|].
  apply Rgt_not_eq. apply Rmult_lt_0_compat; [apply IZR_lt; lia|apply bpow_gt_0].
Qed.
Lemma dy_eighth k : dy k (-3) = IZR k / 8.
Proof. unfold dy. simpl. lra. Qed.

Lemma eighths fcos facos h k : cosine_of_zero fcos -> stands_for h (IZR k / 8) -> (1 <= k <= 8000000)%Z ->
  slant_range_f64 fcos 0 h 0 = h /\ slant_flat_f64 h 0 = h /\
  niirs_nadir_f64 fcos facos h 0 = facos 1%float /\ simulate_nadir_f64 facos h 0 = facos 1%float.
Proof.
  intros F H K. rewrite <- dy_eighth in H. assert (S := slant_exact fcos h k F H K). assert (T := flat_exact h k H K).
  assert (N := nadir_argument_exact h h k H H K). cbv zeta in N.
  repeat split; auto; unfold niirs_nadir_f64, simulate_nadir_f64, nadir_angle_f64; rewrite ?S, ?T; now rewrite N.
Qed.

(** ** all altitudes of the database: how far the slant range is off *)
Lemma slant_error fcos h x : cosine_of_zero fcos -> stands_for h x -> 2 <= x <= 24500 ->
  exists b, stands_for (slant_range_f64 fcos 0 h 0) b /\ 0 < b /\ Rabs (b * b - x * x) <= 0.02.
Proof.
  intros F H X. rewrite slant_at_zero by exact F. cbv zeta.
  set (r := 6378164). assert (Hr : stands_for r_earth_f64 r) by (replace r with (dy (8 * 6378164) (-3)) by (rewrite dy_eighth; unfold r; simpl; lra); apply f_r).
  assert (Big : 10 ^ 20 < bpow radix2 900). { apply Rlt_trans with (bpow radix2 100); [simpl; lra|apply bpow_lt; lia]. }
  assert (Hc : stands_for (r_earth_f64 + 0) r).
  { replace r with (dy (8 * 6378164 + 0) (-3)) by (rewrite dy_eighth; unfold r; simpl; lra). apply f_add_z; [apply f_r|apply f_0|lia|lia]. }
  assert (Ha := f_add _ _ _ _ Hr H ltac:(rewrite Rabs_pos_eq by (unfold r; lra); unfold r; lra)).
  assert (Ea := rnd_err (r + x) 23 ltac:(lia) ltac:(rewrite Rabs_pos_eq by (unfold r; lra); unfold r; simpl; lra)).
  set (a := rnd (r + x)) in *. simpl bpow in Ea.
  assert (Ea' : Rabs (a - (r + x)) <= / 2 ^ 31) by (eapply Rle_trans; [exact Ea|simpl; lra]). clear Ea.
  apply Rabs_le_inv in Ea'. set (e := a - (r + x)) in *. assert (Av : a = r + x + e) by (unfold e; ring).
  assert (Eb : / 2 ^ 31 <= 1 / 10 ^ 9) by (simpl; lra).
  assert (Be : - (1 / 10 ^ 9) <= e <= 1 / 10 ^ 9) by lra. clear Ea' Eb. clearbody e a. 
  assert (Ba : r + 1.9 <= a <= r + 24501) by (rewrite Av; unfold r in *; lra).
  assert (Baa : r * r <= a * a <= 41 * 10 ^ 12) by (unfold r in *; split; nra).
  assert (Bac : r * r <= a * r <= 41 * 10 ^ 12) by (unfold r in *; split; nra).
  assert (Brr : 40 * 10 ^ 12 <= r * r <= 41 * 10 ^ 12) by (unfold r; lra).
  (* c * c *)
  assert (Hcc := f_mul _ _ _ _ Hc Hc ltac:(rewrite Rabs_pos_eq by lra; lra)).
  replace (rnd (r * r)) with (r * r) in Hcc.
  2:{ unfold r. rewrite <- mult_IZR. symmetry. apply rnd_int. lia. }
  (* a * a *)
  assert (Haa := f_mul _ _ _ _ Ha Ha ltac:(rewrite Rabs_pos_eq by lra; lra)).
  assert (Eaa := rnd_err (a * a) 46 ltac:(lia) ltac:(rewrite Rabs_pos_eq by lra; simpl; lra)).
  set (aa := rnd (a * a)) in *. apply Rabs_le_inv in Eaa. simpl bpow in Eaa.
  (* sum *)
  assert (Hs := f_add _ _ _ _ Hcc Haa ltac:(rewrite Rabs_pos_eq by lra; lra)).
  assert (Es := rnd_err (r * r + aa) 47 ltac:(lia) ltac:(rewrite Rabs_pos_eq by lra; simpl; lra)).
  set (s := rnd (r * r + aa)) in *. apply Rabs_le_inv in Es. simpl bpow in Es.
  (* 2 a c *)
  assert (H2 : stands_for 2 2) by (replace 2 with (dy 2 0) by (unfold dy; simpl; lra); apply f_2).
  assert (H1 : stands_for 1 1) by (replace 1 with (dy 1 0) by (unfold dy; simpl; lra); apply f_1).
  assert (H2a := f_mul _ _ _ _ H2 Ha ltac:(unfold r in *; rewrite Rabs_pos_eq by lra; lra)).
  assert (G : generic_format radix2 fx a).
  { destruct Ha as [_ <-]. apply generic_format_B2R. }
  assert (D : rnd (2 * a) = 2 * a).
  { apply round_generic; [apply valid_rnd_N|]. replace (2 * a) with (a * bpow radix2 1) by (change (bpow radix2 1) with 2; ring).
    apply mult_bpow_pos_exact_FLT; [exact G|lia]. }
  rewrite D in H2a.
  assert (Hp := f_mul _ _ _ _ H2a Hc ltac:(rewrite Rabs_pos_eq by lra; lra)).
  assert (Ep := rnd_err (2 * a * r) 47 ltac:(lia) ltac:(rewrite Rabs_pos_eq by lra; simpl; lra)).
  assert (Gp : generic_format radix2 fx (rnd (2 * a * r))) by (apply generic_format_round; [apply fx_valid|apply valid_rnd_N]).
  set (p := rnd (2 * a * r)) in *. apply Rabs_le_inv in Ep. simpl bpow in Ep.
  assert (Hq := f_mul _ _ _ _ Hp H1 ltac:(rewrite Rabs_pos_eq by lra; lra)).
  replace (rnd (p * 1)) with p in Hq by (rewrite Rmult_1_r; symmetry; apply round_generic; [apply valid_rnd_N|exact Gp]).
  (* difference *)
  assert (Sq : r * r + a * a - 2 * a * r = (x + e) * (x + e)) by (rewrite Av; ring).
  assert (Sx : - (6 / 10 ^ 5) <= (x + e) * (x + e) - x * x <= 6 / 10 ^ 5) by (split; nra).
  assert (Bx : 4 <= x * x <= 24500 * 24500) by (split; nra).
  assert (Bd : - 0.0196 <= s - p - x * x <= 0.0196) by lra.
  assert (Hd := f_sub _ _ _ _ Hs Hq ltac:(apply Rabs_lt; lra)).
  assert (Ed := rnd_err (s - p) 30 ltac:(lia) ltac:(apply Rabs_lt; simpl; lra)).
  set (d := rnd (s - p)) in *. apply Rabs_le_inv in Ed. simpl bpow in Ed.
  assert (Dd : - 0.01961 <= d - x * x <= 0.01961) by lra.
  (* root *)
  assert (Hb := f_sqrt _ _ Hd ltac:(lra)).
  assert (R1 : 1.9 <= R_sqrt.sqrt d <= 24501).
  { split.
    - apply Rsqr_incr_0_var; [|apply sqrt_pos]. rewrite Rsqr_sqrt by lra. unfold Rsqr. lra.
    - apply Rsqr_incr_0_var; [|lra]. rewrite Rsqr_sqrt by lra. unfold Rsqr. lra. }
  assert (Er := rnd_err (R_sqrt.sqrt d) 15 ltac:(lia) ltac:(rewrite Rabs_pos_eq by lra; simpl; lra)).
  assert (Sd : R_sqrt.sqrt d * R_sqrt.sqrt d = d) by (apply sqrt_sqrt; lra).
  set (q := R_sqrt.sqrt d) in *. set (b := rnd q) in *. apply Rabs_le_inv in Er. simpl bpow in Er.
  assert (Er' : - (1 / 10 ^ 11) <= b - q <= 1 / 10 ^ 11) by lra.
  exists b. split; [exact Hb|]. split; [lra|].
  assert (b * b - q * q = (b - q) * (b + q)) by ring.
  assert (T : Rabs ((b - q) * (b + q)) <= 1 / 10 ^ 11 * 50000).
  { rewrite Rabs_mult. apply Rmult_le_compat; try apply Rabs_pos; apply Rabs_le; lra. }
  apply Rabs_le_inv in T.
  apply Rabs_le. lra.
Qed.

(** ** witnesses *)
Definition cosine_arg (h b : PrimFloat.float) : PrimFloat.float :=
  (let a := r_earth_f64 + h in let c := r_earth_f64 + 0 in -1 * (c * c - a * a - b * b) / (2 * a * b))%float.
Definition niirs_arg (h : PrimFloat.float) : PrimFloat.float :=
  cosine_arg h (let a := r_earth_f64 + h in let c := r_earth_f64 + 0 in PrimFloat.sqrt (c * c + a * a - 2 * a * c * 1))%float.
Definition simulate_arg (h : PrimFloat.float) : PrimFloat.float := cosine_arg h (slant_flat_f64 h 0).
Lemma niirs_arg_eq fcos facos h : cosine_of_zero fcos -> niirs_nadir_f64 fcos facos h 0 = facos (niirs_arg h).
Proof. intros H. unfold niirs_nadir_f64, nadir_angle_f64. rewrite slant_at_zero by exact H. reflexivity. Qed.

Fixpoint zlist (n : nat) (z : Z) : list Z := match n with O => [] | S n => z :: zlist n (z + 1)%Z end.
Lemma zlist_in n z m : In m (zlist n z) -> (z <= m < z + Z.of_nat n)%Z.
Proof. revert z. induction n as [|n IH]; intros z I; [destruct I|]. destruct I as [->|I]; [lia|]. apply IH in I. lia. Qed.
Lemma zlist_nodup n z : NoDup (zlist n z).
Proof. revert z. induction n as [|n IH]; intros z; constructor; [|apply IH]. intros I. apply zlist_in in I. lia. Qed.
Definition decimetre_list : list Z := zlist (N.to_nat 244981) 20.
Lemma decimetre_in m : In m decimetre_list -> (20 <= m <= 245000)%Z.
Proof. intros I. apply zlist_in in I. rewrite N_nat_Z in I. lia. Qed.
Lemma decimetre_nodup : NoDup decimetre_list.
Proof. apply zlist_nodup. Qed.
Lemma niirs_count : N.of_nat (length (filter (fun m => PrimFloat.ltb 1 (niirs_arg (tenths m))) decimetre_list)) = 97992%N.
Proof. vm_compute. reflexivity. Qed.
Lemma simulate_count : N.of_nat (length (filter (fun m => PrimFloat.ltb 1 (simulate_arg (tenths m))) decimetre_list)) = 97992%N.
Proof. vm_compute. reflexivity. Qed.

Lemma many_nan (nadir arg : PrimFloat.float -> PrimFloat.float) facos :
  arccos_above_one facos -> (forall h, nadir h = facos (arg h)) ->
  N.of_nat (length (filter (fun m => PrimFloat.ltb 1 (arg (tenths m))) decimetre_list)) = 97992%N ->
  exists l, NoDup l /\ length l = N.to_nat 97992 /\ forall m, In m l -> (20 <= m <= 245000)%Z /\ nadir (tenths m) = nan.
Proof.
  intros A E C. exists (filter (fun m => PrimFloat.ltb 1 (arg (tenths m))) decimetre_list). split; [|split].
  - apply NoDup_filter. apply decimetre_nodup.
  - rewrite <- C. symmetry. apply Nat2N.id.
  - intros m I. apply filter_In in I. destruct I as [I L]. split; [now apply decimetre_in|]. rewrite E. now apply A.
Qed.
Lemma niirs_many fcos facos : cosine_of_zero fcos -> arccos_above_one facos ->
  exists l, NoDup l /\ length l = N.to_nat 97992 /\
    forall m, In m l -> (20 <= m <= 245000)%Z /\ niirs_nadir_f64 fcos facos (tenths m) 0 = nan.
Proof.
  intros F A. apply (many_nan (fun h => niirs_nadir_f64 fcos facos h 0) niirs_arg facos A); [|apply niirs_count].
  intros h. now apply niirs_arg_eq.
Qed.
Lemma simulate_many facos : arccos_above_one facos ->
  exists l, NoDup l /\ length l = N.to_nat 97992 /\
    forall m, In m l -> (20 <= m <= 245000)%Z /\ simulate_nadir_f64 facos (tenths m) 0 = nan.
Proof.
  intros A. apply (many_nan (fun h => simulate_nadir_f64 facos h 0) simulate_arg facos A); [reflexivity|apply simulate_count].
Qed.
(* flight levels up to 15000 feet, in steps of 500 feet *)
Lemma feet_levels fcos facos : cosine_of_zero fcos -> arccos_above_one facos ->
  Forall (fun n => niirs_nadir_f64 fcos facos (feet500 n) 0 = nan) [3; 4; 6; 9; 11; 13; 14; 18; 19; 23; 28; 29]%Z.
Proof.
  intros F A. repeat constructor; rewrite niirs_arg_eq by exact F; apply A; vm_compute; reflexivity.
Qed.
Lemma two_thousand_feet fcos : cosine_of_zero fcos ->
  exists h b, stands_for (feet500 4) h /\ stands_for (slant_range_f64 fcos 0 (feet500 4) 0) b /\ 609 < b < h /\ h < 610.
Proof.
  intros F. rewrite slant_at_zero by exact F.
  eexists _, _. split; [apply f_value; [vm_compute; reflexivity|reflexivity]|].
  split; [apply f_value; [vm_compute; reflexivity|reflexivity]|].
  repeat match goal with |- context [Prim2SF ?x] => let y := eval vm_compute in (Prim2SF x) in change (Prim2SF x) with y end.
  unfold SF2R, F2R. simpl. lra.
Qed.
Lemma nadir_refuted : ~ forall fcos facos m, cosine_of_zero fcos -> arccos_above_one facos ->
  (20 <= m <= 245000)%Z -> PrimFloat.is_nan (niirs_nadir_f64 fcos facos (tenths m) 0) = false.
Proof.
  intros H. specialize (H (fun _ => 1%float) (fun x => if PrimFloat.ltb 1 x then nan else 0%float) 6096%Z eq_refl).
  assert (A : arccos_above_one (fun x => if PrimFloat.ltb 1 x then nan else 0%float)) by (intros x L; now rewrite L).
  specialize (H A ltac:(lia)). vm_compute in H. discriminate H.
Qed.
Lemma eighth_example : stands_for (tenths 10005) (IZR 8004 / 8).
Proof. f_lit. Qed.
Lemma database_example : exists x, stands_for (tenths 323) x /\ 2 <= x <= 24500.
Proof.
  eexists. split; [apply f_value; [vm_compute; reflexivity|reflexivity]|].
  repeat match goal with |- context [Prim2SF ?x] => let y := eval vm_compute in (Prim2SF x) in change (Prim2SF x) with y end.
  unfold SF2R, F2R. simpl. lra.
Qed.
