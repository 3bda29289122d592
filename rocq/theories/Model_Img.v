(** * Model_Img: slices, point spread functions, blurring and resampling.

    src/pybsm/otf/functional.py lines 906-969 and 1161-1296, 1422-1455.
    A two-dimensional array is its shape and a function of (row, column).
    Simplified: pixel values are exact reals (float64 images, no rounding to an
    integer dtype); an array that would contain nan or inf is the marker
    [Err NonFinite].  The numpy/scipy/OpenCV routines are written out by their
    contract (DESIGN.md section 2 item 4). *)
From Coq Require Import Reals ZArith List Bool.
From Flocq Require Import Core.Raux.
From Verif Require Import Base_XR Base_Np Model_Geo.
Import ListNotations.
Open Scope R_scope.

Record img := { rows : nat; cols : nat; px : nat -> nat -> R }.
(* a complex array *)
Record cimg := { crows : nat; ccols : nat; re : nat -> nat -> R; im : nat -> nat -> R }.
Definition real_img (a : img) : cimg :=
  {| crows := rows a; ccols := cols a; re := px a; im := fun _ _ => 0 |}.

(* array.sum() *)
Definition isum (a : img) : R :=
  Rsum (map (fun i => Rsum (map (px a i) (seq 0 (cols a)))) (seq 0 (rows a))).
(* a / scalar *)
Definition iscale (c : R) (a : img) : img :=
  {| rows := rows a; cols := cols a; px := fun i j => px a i j / c |}.

(** ** Scalars that are Python floats or numpy float64 *)
(* a / b where b (or a) is of kind k; a may already be non-finite *)
Definition qdiv (k : skind) (a b : xr) : res xr :=
  match k, b with
  | Py, Fin r => if Reqb r 0 then Err ZeroDivisionError else Ok (xdiv a b)
  | _, _ => Ok (xdiv a b)
  end.
Definition join (k k' : skind) : skind := match k, k' with Py, Py => Py | _, _ => Np end.
(* int(x) *)
Definition xint (x : xr) : res Z :=
  match x with Fin r => Ok (py_int r) | NaN => Err ValueError | _ => Err OverflowError end.
(* int(np.round(x)) *)
Definition xint_round (x : xr) : res Z :=
  match x with Fin r => Ok (np_round r) | NaN => Err ValueError | _ => Err OverflowError end.

(** ** slice_otf (1161-1184) *)
(* interp2d(u, v, z), kind linear, on the square grid u = linspace(-1, 1, n) and
   (after interp2d has sorted it, permuting the rows of z) the ascending v: the
   bilinear interpolant of the node values.  [z i j] is row i counted from the
   top, i.e. v = 1 - 2 i / (n - 1). *)
Definition cell_of (n : nat) (x : R) : nat := Nat.min (n - 2) (Z.to_nat (Zfloor x)).
Definition bilin (n : nat) (z : nat -> nat -> R) (x y : R) : R :=
  let X := (x + 1) / 2 * INR (n - 1) in
  let Y := (y + 1) / 2 * INR (n - 1) in
  let j := cell_of n X in
  let i := cell_of n Y in
  let s := X - INR j in
  let t := Y - INR i in
  let z' a b := z (n - 1 - a)%nat b in
  (1 - t) * ((1 - s) * z' i j + s * z' i (j + 1)%nat)
  + t * ((1 - s) * z' (i + 1)%nat j + s * z' (i + 1)%nat (j + 1)%nat).
(* np.arange(0.0, 1.0, step) *)
Definition arange01 (step : R) : list R :=
  map (fun i => INR i * step) (seq 0 (Z.to_nat (Zceil (1 / step)))).
(* the interpolator sorts each list of query coordinates; np.diag pairs the
   sorted coordinates.  A non-square array does not match (len(v), len(u)) and
   interp2d raises ValueError.  Simplified: for 2 or 3 rows there is one query
   point and np.diag turns the one-entry result into a 1 x 1 array; the model
   returns the entry as a list. *)
Definition slice_otf (otf : img) (ang : R) : res (list R) :=
  if Nat.ltb (rows otf) 2 then Err IndexError
  else if negb (Nat.eqb (rows otf) (cols otf)) then Err ValueError
  else
    let r := arange01 (2 / INR (rows otf - 1)) in
    let xs := sortR (map (fun t => t * cos ang) r) in
    let ys := sortR (map (fun t => t * sin ang) r) in
    Ok (map2 (bilin (rows otf) (px otf)) xs ys).

(** ** otf_to_psf (906-969) *)
(* np.fft.fftshift along an axis of length n: entry i comes from fsh n i *)
Definition fsh (n i : nat) : nat := ((i + (n - n / 2)) mod n)%nat.
(* real part of np.fft.ifft2 at (a, b) *)
Definition ifft_re (n m : nat) (X Y : nat -> nat -> R) (a b : nat) : R :=
  Rsum (map (fun p => Rsum (map (fun q =>
     let ph := 2 * PI * (INR p * INR a / INR n + INR q * INR b / INR m) in
     (X p q * cos ph - Y p q * sin ph) / (INR n * INR m))
     (seq 0 m))) (seq 0 n)).
(* 929-930  np.real(fftshift(ifft2(fftshift(otf)))) *)
Definition psf_raw (otf : cimg) : img :=
  let n := crows otf in let m := ccols otf in
  let sh (f : nat -> nat -> R) i j := f (fsh n i) (fsh m j) in
  {| rows := n; cols := m;
     px := fun i j => ifft_re n m (sh (re otf)) (sh (im otf)) (fsh n i) (fsh m j) |}.

(* cv2.resize(src, (w, h)), bilinear: source cell and weight for output index x
   when n samples become m *)
Definition rs_pos (n m x : nat) : nat * R :=
  let f := (INR x + 0.5) * (INR n / INR m) - 0.5 in
  let s := Zfloor f in
  if Z.ltb s 0 then (0%nat, 0)
  else if Z.leb (Z.of_nat n - 1) s then ((n - 1)%nat, 0)
  else (Z.to_nat s, f - IZR s).
Definition cv_resize (a : img) (w h : Z) : res img :=
  if Z.leb w 0 || Z.leb h 0 || Nat.eqb (rows a) 0 || Nat.eqb (cols a) 0 then Err CvError
  else
    let hn := Z.to_nat h in let wn := Z.to_nat w in
    Ok {| rows := hn; cols := wn;
          px := fun i j =>
            let (y, t) := rs_pos (rows a) hn i in
            let (x, s) := rs_pos (cols a) wn j in
            (1 - t) * ((1 - s) * px a y x + s * px a y (x + 1)%nat)
            + t * ((1 - s) * px a (y + 1)%nat x + s * px a (y + 1)%nat (x + 1)%nat) |}.

(* Python slicing x[start:stop] of an axis of length d: first index and length *)
Definition py_slice (d start stop : Z) : Z * Z :=
  let clip v := if Z.ltb v 0 then Z.max 0 (v + d) else Z.min v d in
  let a := clip start in let b := clip stop in (a, Z.max 0 (b - a)).
(* 944-955  get_middle: bounds floor(d/2 - k/2) and ceil(d/2 + k/2) *)
Definition mid_slice (d k : Z) : Z * Z :=
  py_slice d ((d - k) / 2) (- ((- (d + k)) / 2)).
Definition get_middle (a : img) (k : nat) : img :=
  let (i0, h) := mid_slice (Z.of_nat (rows a)) (Z.of_nat k) in
  let (j0, w) := mid_slice (Z.of_nat (cols a)) (Z.of_nat k) in
  {| rows := Z.to_nat h; cols := Z.to_nat w;
     px := fun i j => px a (Z.to_nat i0 + i)%nat (Z.to_nat j0 + j)%nat |}.
(* np.arange(10, m, 5) *)
Definition crop_sizes (m : nat) : list nat :=
  map (fun i => 10 + 5 * i)%nat (seq 0 ((m - 10 + 4) / 5)).
(* 957-961  the loop: the first crop holding more than 0.95, else the last *)
Fixpoint crop_loop (psf : img) (sizes : list nat) (out : option img) : option img :=
  match sizes with
  | [] => out
  | k :: sizes =>
      let c := get_middle psf k in
      if Rltb 0.95 (isum c) then Some c else crop_loop psf sizes (Some c)
  end.
(* 906-969; kd, ko: kinds of df and dx_out.  An empty axis makes ifft2 raise
   ValueError. *)
Definition otf_to_psf_k (ko : skind) (otf : cimg) (kd : skind) (df : R) (dx_out : xr) : res img :=
  if Nat.eqb (crows otf) 0 || Nat.eqb (ccols otf) 0 then Err ValueError else
  let psf := psf_raw otf in
  let* dx_in := qdiv kd (Fin 1) (Fin (INR (crows otf) * df)) in
  let* qx := qdiv (join ko kd) (xmul (Fin (INR (cols psf))) dx_in) dx_out in
  let* x := xint qx in
  let* qy := qdiv (join ko kd) (xmul (Fin (INR (rows psf))) dx_in) dx_out in
  let* y := xint qy in
  let* psf := cv_resize psf (Z.max 1 x) (Z.max 1 y) in
  let sizes := crop_sizes (Nat.min (crows otf) (ccols otf)) in
  let s := isum psf in
  match sizes with
  | [] => Err UnboundLocalError
  | _ =>
    if Reqb s 0 then Err NonFinite else
    match crop_loop (iscale s psf) sizes None with
    | None => Err UnboundLocalError
    | Some c => if Reqb (isum c) 0 then Err NonFinite else Ok (iscale (isum c) c)
    end
  end.
(* as called at 1285, where dx_out is a numpy number (np.arctan) *)
Definition otf_to_psf : cimg -> skind -> R -> xr -> res img := otf_to_psf_k Np.

(** ** Blurring and resampling *)
(* cv2 BORDER_REFLECT_101 on an axis of length n *)
Definition reflect101 (n : nat) (p : Z) : nat :=
  if Nat.eqb n 1 then 0%nat
  else
    let per := (2 * (Z.of_nat n - 1))%Z in
    let r := (p mod per)%Z in
    Z.to_nat (if Z.ltb r (Z.of_nat n) then r else (per - r)%Z).
(* cv2.filter2D(src, -1, kernel): correlation, anchor at the kernel centre; an
   empty source or kernel is an error *)
Definition filter2D (a k : img) : res img :=
  if Nat.eqb (rows a) 0 || Nat.eqb (cols a) 0 || Nat.eqb (rows k) 0 || Nat.eqb (cols k) 0
  then Err CvError
  else Ok {| rows := rows a; cols := cols a;
     px := fun y x =>
       Rsum (map (fun p => Rsum (map (fun q =>
          px k p q *
          px a (reflect101 (rows a) (Z.of_nat y + Z.of_nat p - Z.of_nat (rows k / 2)))
               (reflect101 (cols a) (Z.of_nat x + Z.of_nat q - Z.of_nat (cols k / 2))))
          (seq 0 (cols k)))) (seq 0 (rows k))) |}.

(* 1422-1455  resample_2D; k is the kind of the quotient dx_in / dx_out *)
Definition resample_2D (k : skind) (a : img) (dx_in dx_out : xr) : res img :=
  let* qx := qdiv k (xmul (Fin (INR (cols a))) dx_in) dx_out in
  let* new_x := xint_round qx in
  let* qy := qdiv k (xmul (Fin (INR (rows a))) dx_in) dx_out in
  let* new_y := xint_round qy in
  cv_resize a new_x new_y.

(* 1187-1296  apply_otf_to_image; kr, kd, ki: kinds of ref_range, df, ifov *)
Definition apply_otf_to_image (ref_img : img) (ref_gsd : R) (kr : skind) (ref_range : R)
    (otf : cimg) (kd : skind) (df : R) (ki : skind) (ifov : R) : res (img * img) :=
  let* h := qdiv kr (Fin (ref_gsd / 2)) (Fin ref_range) in
  let* psf := otf_to_psf otf kd df (xmul (Fin 2) (xatan h)) in
  let* blur := filter2D ref_img psf in
  let* dx := qdiv kr (Fin ref_gsd) (Fin ref_range) in
  let* sim := resample_2D (join kr ki) blur dx (Fin ifov) in
  let* sim_psf := resample_2D (join kr ki) psf dx (Fin ifov) in
  Ok (sim, sim_psf).
