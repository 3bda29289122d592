(** * Prop_Chain: the values behind properties C61 and C64. *)
From Coq Require Import Reals Lra Lia List ZArith.
From Verif Require Import Base_XR Base_Np Model_Geo Model_Scenario Model_Sensor Model_Otf
  Spec_Rad Spec_Otf Spec_System Spec_Chain Proof_SystemX Prop_System.
Import ListNotations.
Open Scope R_scope.

(** ** C61 *)
Theorem C61_fried_formula : forall z c n lam r, 0 < lam -> (2 <= n)%nat -> 0 <= z 0%nat ->
  (forall j, (S j < n)%nat -> z j < z (S j)) ->
  coherence_diameter lam (map (fun i => Fin (z i)) (seq 0 n)) (map (fun i => Fin (c i)) (seq 0 n)) = Ok (Fin r) ->
  0 < r /\ Rpower r (- (5 / 3))
  = 0.423 * (2 * PI / lam) ^ 2
    * trapezoid (map (fun i => c i * five_thirds (z i / z (n - 1)%nat)) (seq 0 n)) (map z (seq 0 n)).
Proof. exact coherence_formula. Qed.
Print Assumptions C61_fried_formula.

(* C61_example shows that the last hypothesis is met, for z = 0, 1 *)
Example C61_fried_formula_ex : (2 <= 2)%nat /\ 0 <= INR 0 /\ (forall j, (S j < 2)%nat -> INR j < INR (S j)).
Proof. split; [lia|]. split; [simpl; lra|]. intros j _. rewrite S_INR. lra. Qed.

(** ** C64 *)
Theorem C64_every_factor : forall diag k s c pts ps sl ti o,
  good_spectrum ps -> good_optics s -> good_path c sl ->
  common_OTFs diag k s c pts (map fst ps) (map (fun p => Fin (snd p)) ps) sl ti = Ok o ->
  forall j u v, nth_error pts j = Some (u, v) ->
    nth_error (ap_OTF o) j = Some (Fin (spectral_mean ps (fun l => aperture_mtf (s_D s) (s_eta s) l u v)))
    /\ nth_error (det_OTF o) j = Some (Fin (line_ft (s_wx s / s_f s) u * line_ft (s_wy s / s_f s) v))
    /\ nth_error (jit_OTF o) j = Some (Fin (jitter_mtf_of (s_sx s) (s_sy s) u v))
    /\ nth_error (drft_OTF o) j
       = Some (Fin (line_ft (s_dax s * ti * s_ntdi s) u * line_ft (s_day s * ti * s_ntdi s) v))
    /\ nth_error (wav_OTF o) j
       = Some (Fin (spectral_mean ps (fun l => wavefront_mtf (s_pv s) (s_pv_wl s) (s_Lx s) (s_Ly s) l u v)))
    /\ ((length (s_kernel s) <= 1)%nat -> nth_error (filt_OTF o) j = Some (Fin 1))
    /\ ((1 < length (s_kernel s))%nat -> exists h, nth_error (filt_OTF o) j = Some h
          /\ filter_OTF diag u v (s_kernel s) (s_px s / s_f s) = Ok h)
    /\ (plain c Cn2At1m <= 0 -> nth_error (turb_OTF o) j = Some (Fin 1))
    /\ (0 < plain c Cn2At1m -> exists zp hp r1, 0 < r1
          /\ altitude_along_slant_path k 0 (altitude c) sl = Ok (zp, hp)
          /\ coherence_diameter (1 / 10 ^ 6) zp
               (map (fun h => hufnagel_valley_turbulence_profile h (plain c HaWindSpeed) (plain c Cn2At1m)) hp) = Ok (Fin r1)
          /\ nth_error (turb_OTF o) j
             = Some (Fin (spectral_mean ps (fun l =>
                 turbulence_mtf (r_at r1 l) l (s_D s) (plain c AircraftSpeed * (ti * s_ntdi s)) u v)))
          /\ r0_band o = [Fin (spectral_mean ps (r_at r1))]).
Proof. exact common_factors. Qed.
Print Assumptions C64_every_factor.

(* C64_example and C64_system_mtf: the hypotheses hold and the call succeeds
   for a 30 cm telescope *)
Example C64_every_factor_ex : forall diag pts,
  exists s o, good_optics s /\ good_spectrum [(1 / 2000000, 1); (1 / 1000000, 3)]
    /\ good_path (sc (init 1 9000 39000 true (fun _ => 1))) 40000
    /\ common_OTFs diag Py s (sc (init 1 9000 39000 true (fun _ => 1))) pts
         (map fst [(1 / 2000000, 1); (1 / 1000000, 3)]) (map (fun p => Fin (snd p)) [(1 / 2000000, 1); (1 / 1000000, 3)])
         40000 (1 / 100) = Ok o.
Proof.
  intros diag pts. destruct C64_example as (s & _ & GO & K & GS & _ & GP).
  destruct (C64_system_mtf diag Py s _ pts _ 40000 (1 / 100) GS GO GP K) as (o & E & _).
  exists s, o. auto.
Qed.
