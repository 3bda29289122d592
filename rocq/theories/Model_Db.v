(** * Model_Db: the atmosphere database loaders of src/pybsm/utils.py. *)
From Coq Require Import Reals ZArith List Bool.
From Flocq Require Import Core.Raux.
From Verif Require Import Base_XR Base_Np Model_DbTable.
Import ListNotations.
Open Scope R_scope.

(* utils.py:96-100  np.fromfile: the float32 numbers of a file, however many
   there are.  The stored values are taken to be finite; the division in line
   104, which numpy carries out in float32, is taken to be exact. *)
Record file := { file_size : nat; file_value : nat -> R }.
(* (row, column) -> value *)
Definition raw := nat -> nat -> R.
(* A loaded atmosphere: 1371 x 6, (row, column) -> value. *)
Definition atm := nat -> nat -> R.
Definition n_wave : nat := 1371.

(* The contents of the atms/ directory: None when <index>.bin does not exist
   (utils.py:93).  The numbers stored in the files are a parameter. *)
Definition store := Z -> option file.

(* utils.py:102  raw_data.reshape((1371, 5), order="F"): columns one after the
   other; ValueError for any other number of values *)
Definition reshape_F (f : file) : res raw :=
  if Nat.eqb (file_size f) (n_wave * 5)
  then Ok (fun i j => file_value f (j * n_wave + i)%nat)
  else Err ValueError.

(* utils.py:89-91  columns 1, 2 of the decoder (km), column 3 *)
Definition row_index (r : row) : Z := let '(i, _, _, _) := r in i.
Definition row_alt_km (r : row) : R := let '(_, a, _, _) := r in IZR a / 10000.
Definition row_range_km (r : row) : R := let '(_, _, g, _) := r in IZR g / 1000.
Definition row_ihaze (r : row) : Z := let '(_, _, _, h) := r in h.

(* utils.py:83-91  the three successive selections *)
Definition select (altitude ground_range : R) (ihaze : Z) : list row :=
  let d := filter (fun r => Z.eqb (row_ihaze r) ihaze) decoder in
  let d := filter (fun r => Reqb (row_alt_km r) (altitude / 1000)) d in
  filter (fun r => Reqb (row_range_km r) (ground_range / 1000)) d.

(* utils.py:101-109  unit conversion of columns 1..4 and the wavelength column *)
Definition wavelength (i : nat) : R := / 10 ^ 6 * nth i (linspace 0.3 14 n_wave) 0.
Definition assemble (d : raw) : atm := fun i j =>
  match j with
  | O => wavelength i
  | 1%nat => d i 0%nat
  | S k => d i k / (/ 10 ^ 10)
  end.

(* utils.py:37-112  load_database_atmosphere_no_interp.
   decoder[0, 0] on an empty selection raises IndexError; so does the missing
   file (94-95). *)
Definition load_no_interp (st : store) (altitude ground_range : R) (ihaze : Z) : res atm :=
  match select altitude ground_range ihaze with
  | [] => Err IndexError
  | r :: _ =>
      match st (row_index r) with
      | None => Err IndexError
      | Some f => let* d := reshape_F f in Ok (assemble d)
      end
  end.

(* np.arange(start, stop, step) *)
Definition np_arange (start stop step : R) : list R :=
  map (fun i => start + INR i * step) (seq 0 (Z.to_nat (Zceil ((stop - start) / step)))).

(* utils.py:160-175  get_ground_range_array *)
Definition get_ground_range_array (max_ground_range : R) : list R :=
  let g := [0; 100; 500] in
  let g := g ++ np_arange 1000 20000.01 1000 in
  let g := g ++ np_arange 22000 80000.01 2000 in
  let g := g ++ np_arange 85000 300000.01 5000 in
  filter (fun x => Rleb x max_ground_range) g.

(* utils.py:197-222 *)
Definition altitude_array : list R :=
  [2; 32.55; 75; 150; 225; 500; 1000; 2000; 3000; 4000; 5000; 6000; 7000; 8000;
   9000; 10000; 11000; 12000; 14000; 16000; 18000; 20000].

(* builtin min / max of an array *)
Definition py_min (l : list R) : res R :=
  match l with [] => Err ValueError | x :: l => Ok (fold_left Rmin l x) end.
Definition py_max (l : list R) : res R :=
  match l with [] => Err ValueError | x :: l => Ok (fold_left Rmax l x) end.
(* a[-1], a[0] *)
Fixpoint py_last (l : list R) : res R :=
  match l with [] => Err IndexError | [x] => Ok x | _ :: l => py_last l end.
Definition py_first (l : list R) : res R :=
  match l with [] => Err IndexError | x :: _ => Ok x end.

(* lw * low_atm + hw * high_atm *)
Definition blend (lw hw : R) (a b : atm) : atm := fun i j => lw * a i j + hw * b i j.

(* utils.py:177-194  alt_atm_interp *)
Definition alt_atm_interp (st : store) (low_alt high_alt altitude ground_range : R) (ihaze : Z) : res atm :=
  let* low_atm := load_no_interp st low_alt ground_range ihaze in
  if negb (Reqb low_alt high_alt) then
    let* high_atm := load_no_interp st high_alt ground_range ihaze in
    let low_weight := 1 - (altitude - low_alt) / (high_alt - low_alt) in
    let high_weight := (altitude - low_alt) / (high_alt - low_alt) in
    Ok (blend low_weight high_weight low_atm high_atm)
  else Ok low_atm.

(* utils.py:115-247  load_database_atmosphere *)
Definition load_interp (st : store) (altitude ground_range : R) (ihaze : Z) : res atm :=
  let ground_ranges := get_ground_range_array 301000 in
  let* amin := py_min altitude_array in
  let* amax := py_max altitude_array in
  if Rltb altitude amin || Rltb amax altitude then Err IndexError else
  let* gmin := py_min ground_ranges in
  let* gmax := py_max ground_ranges in
  if Rltb ground_range gmin || Rltb gmax ground_range then Err IndexError else
  let* low_alt := py_last (filter (fun x => Rleb x altitude) altitude_array) in
  let* high_alt := py_first (filter (fun x => Rleb altitude x) altitude_array) in
  let* low_range := py_last (filter (fun x => Rleb x ground_range) ground_ranges) in
  let* high_range := py_first (filter (fun x => Rleb ground_range x) ground_ranges) in
  let* atm_low_range := alt_atm_interp st low_alt high_alt altitude low_range ihaze in
  if negb (Reqb low_range high_range) then
    let* atm_high_range := alt_atm_interp st low_alt high_alt altitude high_range ihaze in
    let low_weight := 1 - (ground_range - low_range) / (high_range - low_range) in
    let high_weight := (ground_range - low_range) / (high_range - low_range) in
    Ok (blend low_weight high_weight atm_low_range atm_high_range)
  else Ok atm_low_range.
