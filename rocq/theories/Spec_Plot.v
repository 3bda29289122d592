(** * Spec_Plot: what the charts should show, stated without the model *)
From Coq Require Import Reals List String ZArith.
From Verif Require Import Base_XR Model_Sensor Model_Rad Model_Otf Model_Met Model_Plot.
Import ListNotations.
Open Scope R_scope.
(* independent noise sources add in quadrature *)
Definition quadrature (total : R) (parts : list R) : Prop :=
  0 <= total /\ total ^ 2 = fold_right (fun x acc => x ^ 2 + acc) 0 parts.
(* a real number without its fraction *)
Definition whole (x : R) (z : Z) : Prop := Rabs (IZR z) <= Rabs x < Rabs (IZR z) + 1 /\ 0 <= IZR z * x.
(* the noise chart: seven bars, of which the first combines the others and the
   camera's further noise sources; dark current is Poisson distributed; the title
   gives whole electrons and percent; the axis ends at the value asked for *)
Definition budget_chart (s : sensor) (ct : contrast) (max_val : Z) (ch : noise_chart) : Prop :=
  exists total scene path self dark quant t n b fill,
    bars ch = map Fin [total; scene; path; self; dark; quant; s_read s] /\
    m_total_noise (ct_snr ct) = Fin total /\ ct_scene_noise ct = Fin scene /\ ct_path_noise ct = Fin path /\
    m_self_noise (ct_snr ct) = Fin self /\ m_dark_noise (ct_snr ct) = Fin dark /\ m_quant_noise (ct_snr ct) = Fin quant /\
    quadrature total ([scene; path; self; dark; quant; s_read s] ++ s_other_noise s) /\
    m_int_time (ct_snr ct) = Fin t /\ quadrature (sqrt (s_dark s * (t * s_ntdi s))) [dark] /\
    m_tgt_n (ct_snr ct) = Fin n /\ m_bkg_n (ct_snr ct) = Fin b /\ m_well_fraction (ct_snr ct) = Fin fill /\
    whole n (tgt_electrons ch) /\ whole (n - b) (contrast_electrons ch) /\ whole (100 * fill) (percent_full ch) /\
    0 <= fill <= s_max_fill s /\
    top_of_axis ch = (if Z_lt_dec 0 max_val then Some (IZR max_val) else None).
(* distance of a sampled point from the origin of the frequency plane, in cycles
   per millimetre at the image of a lens of focal length f (metres); u, v in
   cycles per radian *)
Definition per_mm (f u v : R) : R := sqrt (u ^ 2 + v ^ 2) / (1000 * f).
(* in a table of 101 rows and 101 columns kept row by row: the i-th entry from the
   centre along the middle row, or along the middle column towards the first row *)
Definition place (up : bool) (i : nat) : nat := if up then ((50 - i) * 101 + 50)%nat else (50 * 101 + (50 + i))%nat.
(* a curve that shows the size of these entries *)
Definition shows (up : bool) (table : list xr) (curve : list R) : Prop :=
  List.length curve = 50%nat /\ forall i, (i < 50)%nat -> exists x, nth_error table (place up i) = Some (Fin x) /\ nth i curve 0 = Rabs x.
Definition largest (l : list R) (m : R) : Prop := In m l /\ forall x, In x l -> x <= m.
(* the MTF chart along one axis: frequencies df apart (cycles per radian) converted
   to cycles per millimetre behind a lens of focal length f, one curve per
   component, the system's being their product, the arrow at one half cycle
   per detector pitch, and axes that end at the largest frequency and at the
   largest value of the image processing curve *)
Definition chart_shows (f pitch df : R) (o : otfs) (up : bool) (ch : mtf_chart) : Prop :=
  axis_freq ch = map (fun i => if up then per_mm f 0 (INR i * df) else per_mm f (INR i * df) 0) (seq 0 50) /\
  arrow_at ch = 1 / 1000 / (2 * pitch) /\ largest (axis_freq ch) (x_top ch) /\
  exists a t d j r w p y, curves ch = [("aperture", a); ("turbulence", t); ("detector", d); ("jitter", j); ("drift", r);
                   ("wavefront", w); ("image processing", p); ("system", y)]%string /\
    shows up (ap_OTF o) a /\ shows up (turb_OTF o) t /\ shows up (det_OTF o) d /\ shows up (jit_OTF o) j /\
    shows up (drft_OTF o) r /\ shows up (wav_OTF o) w /\ shows up (filt_OTF o) p /\ shows up (system_OTF o) y /\ largest p (y_top ch) /\
    forall i, (i < 50)%nat -> nth i y 0 = nth i a 0 * nth i t 0 * nth i d 0 * nth i j 0 * nth i r 0 * nth i w 0 * nth i p 0.
