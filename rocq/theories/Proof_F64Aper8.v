(** * Proof_F64Aper8: the unobscured aperture in double precision *)
From Coq Require Import Reals ZArith Lia Lra Psatz Floats.
From Flocq Require Import Core IEEE754.BinarySingleNaN IEEE754.PrimFloat.
From Verif Require Import Base_XR Model_Geo Model_Otf Model_F64 Spec_F64 Spec_F64Aperture Proof_Round Model_F64Size Proof_F64Size Proof_F64Db Proof_F64Slice
  Model_F64Aperture Proof_Aper Proof_F64Aper1 Proof_F64Aper2 Num_PiF64 Proof_F64Aper3.
Open Scope R_scope.

Lemma unobscured facos fsin ftan fatan k u v l D f U V L A E : good_libm facos fsin ftan fatan ->
  stands_for u U -> stands_for v V -> stands_for l L -> stands_for D A -> stands_for f E ->
  / 2 ^ 200 <= L <= 2 ^ 200 -> / 2 ^ 200 <= A <= 2 ^ 200 -> R_sqrt.sqrt (U * U + V * V) <= 2 * (A / L) -> E <= 0 ->
  exists out g h, circular_aperture_f64 facos fsin ftan fatan u v l D f = Ok out /\ stands_for out g /\
    circular_aperture_OTF k U V L A E = Ok (Fin h) /\ Rabs (g - h) <= / 10 ^ 6.
Proof.
  intros Lm Hu Hv Hl HD He BL BA Fr BE.
  destruct (radial_units u v l D U V L A Hu Hv Hl HD BL BA Fr) as (p & r & Hp & Hr & K & Er & P0 & X & EX).
  set (x := rel_freq U V L A) in *. set (pf := rho_f64 u v) in *. set (rf := (D / l)%float) in *. set (r0 := A / L) in *.
  destruct (x_ok pf rf p r r0 x Hp Hr K Er P0 X EX) as (z & Hz & Z0 & Ez).
  assert (L0 : 0 < L) by (generalize pow_200i (bpow_gt_0 radix2 (-200)); lra).
  assert (A0 : 0 < A) by (generalize pow_200i (bpow_gt_0 radix2 (-200)); lra).
  destruct const_a as [Ca Ba].
  generalize (disc_term _ _ _ _ _ z _ _ x _ Lm Hz Z0 ltac:(lra) Ez Ca Ba). intros Ta.
  assert (Sa : R_sqrt.sqrt (25 * mu) <= / 10000000) by (apply sqrt_below; unfold mu; lra).
  apply ap_w with (e' := / 1000000) in Ta; [|lra]. destruct Ta as (g & Hg & Eg).
  eexists _, g, (2 / PI * lens1 x). repeat split.
  - unfold circular_aperture_f64. cbv zeta. fold pf rf.
    replace (PrimFloat.eqb l 0) with false.
    2:{ symmetry. destruct (PrimFloat.eqb l 0) eqn:Q; [|reflexivity]. apply (f_eq l 0 L 0 Hl f_0) in Q. lra. }
    replace (PrimFloat.ltb 0 f) with false; [reflexivity|]. symmetry. destruct (PrimFloat.ltb 0 f) eqn:Q; [|reflexivity]. apply (f_lt _ _ _ _ f_0 He) in Q. lra.
  - exact (proj1 Hg).
  - exact (proj2 Hg).
  - rewrite circ_plain by lra. reflexivity.
  - replace (10 ^ 6) with 1000000 by lra. exact Eg.
Qed.
