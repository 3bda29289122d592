(** * Model_Sim: src/pybsm/simulation/functional.py, function by function.

    Simplified: reference images are two-dimensional arrays of exact reals; the
    random numbers of np.random are arguments of the model; the log message for
    oversampling is left out.  scipy.interpolate.interp1d and np.random are
    written out by their contract (scipy 1.13.1 and numpy 1.26.4, poetry.lock). *)
From Coq Require Import Reals ZArith List Bool.
From Verif Require Import Base_XR Base_Np Model_Geo Model_Noise Model_Db Model_Scenario Model_Sensor Model_Rad
  Model_Otf Model_Img Model_Met.
Import ListNotations.
Open Scope R_scope.

(* simulation/functional.py:49-64  instantaneous_FOV *)
Definition instantaneous_FOV (w f : R) : res R := pydiv w f.

(* simulation/functional.py:67-98  wiener_filter at one frequency: the OTF is
   re + i im.  numpy divides a complex number by a real one part by part. *)
Definition wiener_filter (re im nsr : R) : xr * xr :=
  let d := Fin (sqrt (re * re + im * im) * sqrt (re * re + im * im) + nsr) in
  (xdiv (Fin re) d, xdiv (Fin (- im)) d).

(** ** img_to_reflectance (101-140) *)
(* an array that may contain nan *)
Record ximg := { xrows : nat; xcols : nat; xpx : nat -> nat -> xr }.
Definition xall (P : xr -> bool) (a : ximg) : bool :=
  forallb (fun i => forallb (fun j => P (xpx a i j)) (seq 0 (xcols a))) (seq 0 (xrows a)).
(* interp1d(x, y, fill_value="extrapolate", assume_sorted=0): the points are
   sorted (stable); ValueError for arrays of different length (or empty: the
   internal reshape fails) *)
Definition interp1d_table (x y : list R) : res (list (R * R)) :=
  match x with
  | [] => Err ValueError
  | _ => if Nat.eqb (length x) (length y) then Ok (sort_by (combine x y)) else Err ValueError
  end.
(* its value at v: searchsorted (left), clip to 1..n-1, line through the two
   points; with a single point the index -1 is that point again *)
Definition extrapolate (tab : list (R * R)) (v : R) : xr :=
  let n := length tab in
  let i := Nat.min (Nat.max (length (filter (fun p => Rltb (fst p) v) tab)) 1) (n - 1) in
  let lo := nth (i - 1) tab (0, 0) in
  let hi := nth i tab (0, 0) in
  xadd (xmul (xdiv (Fin (snd hi - snd lo)) (Fin (fst hi - fst lo))) (Fin (v - fst lo))) (Fin (snd lo)).
(* 137-138 *)
Definition truncate01 (r : xr) : xr :=
  let r := if xlt (Fin 1) r then Fin 1 else r in
  if xlt r (Fin 0) then Fin 0 else r.
Definition img_to_reflectance (a : img) (pix_values refl_values : list R) : res ximg :=
  let* tab := interp1d_table pix_values refl_values in
  Ok {| xrows := rows a; xcols := cols a; xpx := fun i j => truncate01 (extrapolate tab (px a i j)) |}.

(** ** simulate_image (143-266) *)
(* ref_image.py:52-77 for a two-dimensional image *)
Record reference := { sr_img : img; sr_gsd : R; sr_pix : list R; sr_refl : list R }.
Definition ravel (a : img) : list R := flat_map (fun i => map (px a i) (seq 0 (cols a))) (seq 0 (rows a)).
Definition reference_init (a : img) (gsd : R) (pix refl : option (list R)) : res reference :=
  let* r := ref_image_init (ravel a) gsd pix refl in
  Ok {| sr_img := a; sr_gsd := ri_gsd r; sr_pix := ri_pix r; sr_refl := ri_refl r |}.

(* 240-242  interp1d(ref, pe)(reflectance_img): bounds_error, then np.interp *)
Definition to_photoelectrons (ref pe : list R) (a : ximg) : res img :=
  if xall (fun r => negb (xlt r (Fin (nth 0 ref 0))) && negb (xlt (Fin (last ref 0)) r)) a
  then if xall (fun r => match r with Fin _ => true | _ => false end) a
       then let* tab := interp_table ref pe in
            Ok {| rows := xrows a; cols := xcols a;
                  px := fun i j => match xpx a i j with Fin r => interp_tab r tab 0 0 | _ => 0 end |}
       else Err NonFinite (* nan in the image *)
  else Err ValueError.

(* the random numbers: a count for each rate and pixel, and a standard normal *)
Record draws := { d_count : R -> nat -> nat -> nat; d_normal : nat -> nat -> R }.
(* numpy: POISSON_LAM_MAX = np.iinfo('l').max - np.sqrt(np.iinfo('l').max)*10 *)
Definition lam_max : R := (2 ^ 63 - 1) - sqrt (2 ^ 63 - 1) * 10.
(* np.random.poisson(lam=a): ValueError for a rate below 0 or above lam_max *)
Definition rates_ok (a : img) : bool :=
  forallb (fun i => forallb (fun j => Rleb 0 (px a i j) && Rleb (px a i j) lam_max) (seq 0 (cols a))) (seq 0 (rows a)).
(* 250-252; np.random.normal(loc, scale) is loc + scale * z *)
Definition add_noise (d : draws) (g_noise : xr) (a : img) : res ximg :=
  if rates_ok a
  then Ok {| xrows := rows a; xcols := cols a;
             xpx := fun i j => xadd (Fin (INR (d_count d (px a i j) i j))) (xmul g_noise (Fin (d_normal d i j))) |}
  else Err ValueError.

(* 232  standard deviation of the additive noise *)
Definition g_noise_of (s : sensor) : xr :=
  xsqrt (xadd (xsq (quantization_noise (s_max_n s) (s_bits s))) (Fin (s_read s * s_read s))).

(* 203-207, 219  frequencies: np.linspace(a, b, 1501) * cutoff *)
Definition n_sim : nat := 1501.
Definition freqs_sim (a b cutoff : R) : list R := map (fun x => x * cutoff) (linspace a b n_sim).
Definition otf_image (n : nat) (l : list R) : cimg :=
  {| crows := n; ccols := n; re := fun i j => nth (i * n + j) l 0; im := fun _ _ => 0 |}.
Definition slant_flat (c : scen) : R := sqrt (altitude c * altitude c + ground_range c * ground_range c).

(* the OTF part 196-220: the array and its frequency spacing *)
Definition simulate_otf (diag : nat -> nat -> bool) (s : sensor) (c : scen) (wavelengths : list R) (weights : list xr)
    : res (cimg * R) :=
  let* (wl, w) := positive_weights wavelengths weights in
  let* lmin := py_min wl in
  let* cutoff := finite (xdiv (Fin (s_D s)) (Fin lmin)) in
  let u := freqs_sim (-1) 1 cutoff in
  let v := freqs_sim 1 (-1) cutoff in
  let* o := common_OTFs diag Np s c (meshgrid u v) wl w (slant_flat c) (s_int_time s) in
  let df := (Rabs (nth 1 u 0 - nth 0 u 0) + Rabs (nth 0 v 0 - nth 1 v 0)) / 2 in
  if Rleb df 0 then Err ValueError
  else let* l := mapM finite (system_OTF o) in Ok (otf_image n_sim l, df).

(* 143-266 after the atmosphere has been read; the three images *)
Definition simulate_rest (diag : nat -> nat -> bool) (d : draws) (s : sensor) (c : scen) (r : reference) (m : atm)
    : res (img * img * ximg) :=
  let* (ref, pe, (wavelengths, weights)) := reflectance_to_photoelectrons (atm_rows m) s (s_int_time s) 300 in
  let* (otf, df) := simulate_otf diag s c wavelengths weights in
  let* ifov := pydiv ((s_px s + s_py s) / 2) (s_f s) in
  let* reflectance_img := img_to_reflectance (sr_img r) (sr_pix r) (sr_refl r) in
  let* pe := mapM finite pe in
  let* true_img := to_photoelectrons ref pe reflectance_img in
  let* (blur_img, _) := apply_otf_to_image true_img (sr_gsd r) Np (slant_flat c) otf Np df Py ifov in
  let* noisy_img := add_noise d (g_noise_of s) blur_img in
  Ok (true_img, blur_img, noisy_img).
(* 143-266; reading scenario.atm may load the atmosphere into the scenario *)
Definition simulate_image (ni it : loader) (diag : nat -> nat -> bool) (d : draws) (r : reference) (s : sensor) (w : world)
    : world * res (img * img * ximg) :=
  match step ni it w ReadAtm with
  | (w', Err e) => (w', Err e)
  | (w', Ok (Array l)) =>
      (w', match nth_error (heap w') l with
           | Some m => simulate_rest diag d s (sc w') r m
           | None => Err IndexError (* no such array *) end)
  | (w', Ok Done) => (w', Err TypeError)
  end.

(** ** stretch_contrast_convert_8bit (269-278) *)
(* the pixels as a list; x / 0 is inf or nan, and nan has no uint8 value *)
Definition xclip255 (x : xr) : xr := xmin (Fin 255) (xmax (Fin 0) x).
Definition to_uint8 (x : xr) : res Z :=
  match x with Fin r => Ok (np_round r mod 256)%Z | _ => Err NonFinite end.
Definition stretch_contrast_convert_8bit (l : list R) (perc : option (list R)) : res (list Z) :=
  let perc := match perc with None => [0.1; 99.9] | Some p => p end in
  match perc with
  | p0 :: _ =>
      let* lo := percentile l p0 in
      let l := map (fun x => x - lo) l in
      match perc with
      | _ :: p1 :: _ =>
          let* hi := percentile l p1 in
          let l := map (fun x => xdiv (Fin x) (Fin (hi / 255))) l in
          mapM (fun x => to_uint8 (xclip255 x)) l
      | _ => Err IndexError
      end
  | [] => Err IndexError
  end.
