(** * Model_F64Db: the atmosphere loaders of utils.py and the selection of a
    spectral band, in binary64. *)
From Coq Require Import List ZArith Floats Bool.
From Verif Require Import Base_XR Model_DbTable Model_Db Model_F64 Model_F64Size.
Import ListNotations.
Open Scope float_scope.

(* A loaded atmosphere, (row, column) -> value. *)
Definition atm_f64 := nat -> nat -> float.
(* utils.py:94-105  the five columns of file <index>.bin after the conversion of
   units.  They are float32 numbers; here any binary64 numbers.  Whole files
   only (see Model_Db for missing and damaged ones). *)
Definition store_f64 := Z -> option (nat -> nat -> float).

(* utils.py:83-84  np.genfromtxt reads a decimal number as the nearest binary64
   number: n/d, correctly rounded *)
Definition f_decimal (n d : Z) : float := f_of_Z n / f_of_Z d.
Definition row_alt_f64 (r : row) : float := let '(_, a, _, _) := r in f_decimal a 10000.
Definition row_range_f64 (r : row) : float := let '(_, _, g, _) := r in f_decimal g 1000.

(* utils.py:86-92  the three successive selections *)
Definition select_f64 (altitude ground_range : float) (ihaze : Z) : list row :=
  let d := filter (fun r => Z.eqb (row_ihaze r) ihaze) decoder in
  let d := filter (fun r => PrimFloat.eqb (row_alt_f64 r) (altitude / 1000)) d in
  filter (fun r => PrimFloat.eqb (row_range_f64 r) (ground_range / 1000)) d.

(* np.linspace(a, b, n)[i] for n > 1, a <> b: i * step + a, the last one is b *)
Definition linspace_f64 (a b : float) (n i : nat) : float :=
  if Nat.eqb i (n - 1) then b
  else f_of_Z (Z.of_nat i) * ((b - a) / f_of_Z (Z.of_nat (n - 1))) + a.
(* utils.py:108  1e-6 * np.linspace(0.3, 14.0, 1371) *)
Definition wavelength_f64 (i : nat) : float := 1e-6 * linspace_f64 0.3 14 1371 i.

(* utils.py:107-110 *)
Definition assemble_f64 (d : nat -> nat -> float) : atm_f64 := fun i j =>
  match j with O => wavelength_f64 i | S k => d i k end.

(* utils.py:37-112  load_database_atmosphere_no_interp *)
Definition load_no_interp_f64 (st : store_f64) (altitude ground_range : float) (ihaze : Z) : res atm_f64 :=
  match select_f64 altitude ground_range ihaze with
  | [] => Err IndexError
  | r :: _ => match st (row_index r) with None => Err IndexError | Some d => Ok (assemble_f64 d) end
  end.

(* np.arange(start, stop, step); the number of elements, ceil((stop - start) / step),
   is given *)
Definition arange_f64 (start step : float) (n : nat) : list float :=
  map (fun i => start + f_of_Z (Z.of_nat i) * step) (seq 0 n).
(* utils.py:160-175  get_ground_range_array(301e3) *)
Definition ground_ranges_f64 : list float :=
  filter (fun x => PrimFloat.leb x 301000)
    ([0; 100; 500] ++ arange_f64 1000 1000 20 ++ arange_f64 22000 2000 30 ++ arange_f64 85000 5000 44).
(* utils.py:197-222 *)
Definition altitude_array_f64 : list float :=
  [2; 32.55; 75; 150; 225; 500; 1000; 2000; 3000; 4000; 5000; 6000; 7000; 8000;
   9000; 10000; 11000; 12000; 14000; 16000; 18000; 20000].

(* builtin min / max of an array that is not empty *)
Definition min_f64 (l : list float) : float :=
  match l with [] => nan | x :: l => fold_left (fun m y => if PrimFloat.ltb y m then y else m) l x end.
Definition max_f64 (l : list float) : float :=
  match l with [] => nan | x :: l => fold_left (fun m y => if PrimFloat.ltb m y then y else m) l x end.
(* a[-1], a[0] *)
Fixpoint last_f64 (l : list float) : res float :=
  match l with [] => Err IndexError | [x] => Ok x | _ :: l => last_f64 l end.
Definition first_f64 (l : list float) : res float :=
  match l with [] => Err IndexError | x :: _ => Ok x end.

(* low_weight * low_atm + high_weight * high_atm with the weights of utils.py:189-190 and 241-242 *)
Definition blend_f64 (lo hi x : float) (a b : atm_f64) : atm_f64 := fun i j =>
  let low_weight := 1 - (x - lo) / (hi - lo) in
  let high_weight := (x - lo) / (hi - lo) in
  low_weight * a i j + high_weight * b i j.

(* utils.py:177-194  alt_atm_interp *)
Definition alt_atm_interp_f64 (st : store_f64) (low_alt high_alt altitude ground_range : float) (ihaze : Z) : res atm_f64 :=
  let* low_atm := load_no_interp_f64 st low_alt ground_range ihaze in
  if negb (PrimFloat.eqb low_alt high_alt) then
    let* high_atm := load_no_interp_f64 st high_alt ground_range ihaze in
    Ok (blend_f64 low_alt high_alt altitude low_atm high_atm)
  else Ok low_atm.

(* utils.py:115-247  load_database_atmosphere *)
Definition load_interp_f64 (st : store_f64) (altitude ground_range : float) (ihaze : Z) : res atm_f64 :=
  if PrimFloat.ltb altitude (min_f64 altitude_array_f64) || PrimFloat.ltb (max_f64 altitude_array_f64) altitude
  then Err IndexError else
  if PrimFloat.ltb ground_range (min_f64 ground_ranges_f64) || PrimFloat.ltb (max_f64 ground_ranges_f64) ground_range
  then Err IndexError else
  let* low_alt := last_f64 (filter (fun x => PrimFloat.leb x altitude) altitude_array_f64) in
  let* high_alt := first_f64 (filter (fun x => PrimFloat.leb altitude x) altitude_array_f64) in
  let* low_range := last_f64 (filter (fun x => PrimFloat.leb x ground_range) ground_ranges_f64) in
  let* high_range := first_f64 (filter (fun x => PrimFloat.leb ground_range x) ground_ranges_f64) in
  let* atm_low_range := alt_atm_interp_f64 st low_alt high_alt altitude low_range ihaze in
  if negb (PrimFloat.eqb low_range high_range) then
    let* atm_high_range := alt_atm_interp_f64 st low_alt high_alt altitude high_range ihaze in
    Ok (blend_f64 low_range high_range ground_range atm_low_range atm_high_range)
  else Ok atm_low_range.

(* radiance/functional.py:580-581, metrics/functional.py:307-308 and 468-469: the rows of an
   atmosphere between the first and the last wavelength of the optics *)
Definition band_f64 (lo hi : float) (wl : nat -> float) : list nat :=
  let rows := filter (fun i => PrimFloat.leb lo (wl i)) (seq 0 1371) in
  filter (fun i => PrimFloat.leb (wl i) hi) rows.
(* metrics/functional.py:310 and 471: opt_trans_wavelengths[0] >= 2.9e-6 *)
Definition emissive_f64 (lo : float) : bool := PrimFloat.leb 2.9e-6 lo.

(* simulation/ref_image.py:86  np.array([380, 700]) * 1.0e-9 *)
Definition capture_band_f64 : float * float := (380 * 1e-9, 700 * 1e-9).
(* examples/pybsm_example.py:49  np.array([0.58 - 0.08, 0.58 + 0.08]) * 1.0e-6 *)
Definition example_band_f64 : float * float := ((0.58 - 0.08) * 1e-6, (0.58 + 0.08) * 1e-6).
