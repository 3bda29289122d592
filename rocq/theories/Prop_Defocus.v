(** * Prop_Defocus: property C103. *)
From Coq Require Import Reals Lra.
From Verif Require Import Base_XR Base_Np Model_Geo Model_Otf Spec_Otf Spec_Defocus Num_Defocus.
Open Scope R_scope.

(** ** C103 *)
Theorem C103_in_focus : forall k u v l D f, 0 < l -> 0 < D ->
  let s := pupil_shift u v l D in
  circular_aperture_OTF_with_defocus k u v l D f 0
  = Ok (Fin (defocused_overlap s (phase_slope l (edge_path D f 0) s) / PI)).
Proof. exact in_focus. Qed.
Print Assumptions C103_in_focus.

(* Rayleigh's quarter wave of defocus, half the cutoff frequency, any lens:
   the function gives 0.184, diffraction more than 0.287 *)
Theorem C103_quarter_wave : forall k l D f, 0 < l -> 0 < D ->
  exists e h, edge_path D f e = l / 4 /\
    circular_aperture_OTF_with_defocus k (D / (2 * l)) 0 l D f e = Ok (Fin h) /\ 0.183 < h < 0.185 /\
    let s := pupil_shift (D / (2 * l)) 0 l D in
    0.287 < defocused_overlap s (phase_slope l (edge_path D f e) s) / PI.
Proof. exact quarter_wave. Qed.
Print Assumptions C103_quarter_wave.

Theorem C103_defocus_is_diffraction_refuted :
  ~ (forall k u v l D f e, 0 < l -> 0 < D ->
       let s := pupil_shift u v l D in
       circular_aperture_OTF_with_defocus k u v l D f e
       = Ok (Fin (defocused_overlap s (phase_slope l (edge_path D f e) s) / PI))).
Proof. exact defocus_not_diffraction. Qed.
Print Assumptions C103_defocus_is_diffraction_refuted.

Example C103_ex : 0 < 5 / 10 ^ 7 /\ 0 < 1 / 10.
Proof. lra. Qed.
