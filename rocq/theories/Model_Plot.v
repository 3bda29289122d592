(** * Model_Plot: the numbers behind the plots of metrics/functional.py:676-811.
    Drawing calls are modelled by what they are given; matplotlib itself is
    represented by the keyword arguments that pyplot.annotate knows. *)
From Coq Require Import Reals List ZArith Bool String.
From Verif Require Import Base_XR Base_Np Model_Sensor Model_Rad Model_Otf Model_Img Model_Met.
Import ListNotations.
Open Scope R_scope.

(** ** plot_noise_terms (752-811) *)
(* str(int(x)) in the title: truncation towards zero *)
Record noise_chart := {
  bars : list xr;                      (* 774-784 *)
  tgt_electrons : Z; contrast_electrons : Z; percent_full : Z;  (* 802-808 *)
  top_of_axis : option R }.            (* 809-810 *)
Definition plot_noise_terms (s : sensor) (ct : contrast) (max_val : Z) : res noise_chart :=
  let ms := ct_snr ct in
  let noise_terms := [m_total_noise ms; ct_scene_noise ct; ct_path_noise ct; m_self_noise ms;
                      m_dark_noise ms; m_quant_noise ms; Fin (s_read s)] in
  let* a := xint (m_tgt_n ms) in
  let* b := xint (xsub (m_tgt_n ms) (m_bkg_n ms)) in
  let* c := xint (xmul (m_well_fraction ms) (Fin 100)) in
  Ok {| bars := noise_terms; tgt_electrons := a; contrast_electrons := b; percent_full := c;
        top_of_axis := if Z.ltb 0 max_val then Some (IZR max_val) else None |}.

(** ** plot_common_MTFs (676-749) *)
(* a list of samples in row order as an n x n picture; arrays with nan or inf are
   outside the model ([NonFinite]) *)
Definition square (n : nat) (l : list xr) : res img :=
  let* l := mapM finite l in
  Ok {| rows := n; cols := n; px := fun i j => nth (i * n + j) l 0 |}.
(* np.abs(slice_otf(component, angle)) *)
Definition mtf_slice (ang : R) (l : list xr) : res (list R) :=
  let* a := square 101 l in
  let* v := slice_otf a ang in
  Ok (map Rabs v).
Record mtf_chart := { axis_freq : list R; curves : list (string * list R); x_top : R; y_top : R; arrow_at : R }.
Definition r_max (l : list R) : res R := match l with [] => Err ValueError | x :: l => Ok (fold_left Rmax l x) end.
(* everything computed before plt.annotate is reached *)
Definition common_MTFs_chart (s : sensor) (ct : contrast) (o : otfs) (ifov_x ang : R) : res mtf_chart :=
  let* inv_f := pydiv 1 (s_f s) in
  let* sf := (let* a := square 101 (map (fun p => xmul (Fin (0.001 * inv_f)) (radial (fst p) (snd p))) (ct_pts ct)) in slice_otf a ang) in
  let* ap := mtf_slice ang (ap_OTF o) in
  let* turb := mtf_slice ang (turb_OTF o) in
  let* det := mtf_slice ang (det_OTF o) in
  let* jit := mtf_slice ang (jit_OTF o) in
  let* dri := mtf_slice ang (drft_OTF o) in
  let* wav := mtf_slice ang (wav_OTF o) in
  let* sys := mtf_slice ang (system_OTF o) in
  let* fil := mtf_slice ang (filt_OTF o) in
  let* mx := r_max sf in
  let* my := r_max fil in
  let* ny := pydiv 0.5 (ifov_x * s_f s) in
  Ok {| axis_freq := sf;
        curves := [("aperture", ap); ("turbulence", turb); ("detector", det); ("jitter", jit); ("drift", dri);
                   ("wavefront", wav); ("image processing", fil); ("system", sys)]%string;
        x_top := mx; y_top := my; arrow_at := ny * 0.001 |}.
(* matplotlib 3.5-3.9: Axes.annotate(text, xy, xytext, xycoords, textcoords,
   arrowprops, annotation_clip, **kwargs); kwargs must be properties of Text,
   anything else is an AttributeError *)
Definition annotate_keywords : list string :=
  ["text"; "xy"; "xytext"; "xycoords"; "textcoords"; "arrowprops"; "annotation_clip";
   "agg_filter"; "alpha"; "animated"; "antialiased"; "backgroundcolor"; "bbox"; "clip_box"; "clip_on"; "clip_path"; "color"; "c";
   "figure"; "fontfamily"; "family"; "fontname"; "fontproperties"; "font"; "font_properties"; "fontsize"; "size"; "fontstretch";
   "stretch"; "fontstyle"; "style"; "fontvariant"; "variant"; "fontweight"; "weight"; "gid"; "horizontalalignment"; "ha";
   "in_layout"; "label"; "linespacing"; "math_fontfamily"; "mouseover"; "multialignment"; "ma"; "parse_math"; "path_effects";
   "picker"; "position"; "rasterized"; "rotation"; "rotation_mode"; "sketch_params"; "snap"; "transform";
   "transform_rotates_text"; "url"; "usetex"; "verticalalignment"; "va"; "visible"; "wrap"; "x"; "y"; "zorder"]%string.
Definition annotate (keywords : list string) : res unit :=
  if forallb (fun k => existsb (String.eqb k) annotate_keywords) keywords then Ok tt else Err AttributeError.
(* what is on the canvas afterwards, and the return value *)
Definition plot_common_MTFs (s : sensor) (ct : contrast) (o : otfs) (ifov_x ang : R) : option mtf_chart * res Z :=
  match common_MTFs_chart s ct o ifov_x ang with
  | Err e => (None, Err e)
  | Ok ch => (Some ch, let* _ := annotate ["xy"; "xy_text"; "arrow_props"]%string in Ok 0%Z)
  end.
