(** * Model_Scenario: the class Scenario of src/pybsm/simulation/scenario.py as
    a state machine over a heap of arrays. *)
From Coq Require Import Reals ZArith List Bool.
From Verif Require Import Base_XR Model_Db.
Import ListNotations.
Open Scope R_scope.

(* scenario.py:86-92  attributes without a setter function *)
Inductive attr :=
| AircraftSpeed | TargetReflectance | TargetTemperature | BackgroundReflectance
| BackgroundTemperature | HaWindSpeed | Cn2At1m.

(* scenario.py:83-98  the object; [cache] is _atm, a reference into the heap *)
Record scen := {
  ihaze : Z; altitude : R; ground_range : R; interp : bool;
  plain : attr -> R; cache : option nat }.

(* The loaders are parameters: (altitude, ground_range, ihaze) -> array or
   exception.  Model_Db.load_no_interp / load_interp are instances. *)
Definition loader := R -> R -> Z -> res atm.

(* arrays in memory; an address is an index.  [loads] counts successful loads
   (ghost variable). *)
Record world := { sc : scen; heap : list atm; loads : nat }.

(* scenario.py:69-98  __init__ *)
Definition init (ih : Z) (alt gr : R) (itp : bool) (pl : attr -> R) : world :=
  {| sc := {| ihaze := ih; altitude := alt; ground_range := gr; interp := itp;
              plain := pl; cache := None |}; heap := []; loads := 0 |}.

(* what a program can do with a scenario; [Poke] is an in-place change of an
   array by the caller (arr[i, j] = v) *)
Inductive op :=
| SetIhaze (z : Z) | SetAltitude (r : R) | SetGroundRange (r : R)
| SetPlain (a : attr) (r : R) | ReadAtm | Poke (l i j : nat) (v : R).

Inductive out := Done | Array (l : nat).

Definition attr_eqb (a b : attr) : bool :=
  match a, b with
  | AircraftSpeed, AircraftSpeed | TargetReflectance, TargetReflectance
  | TargetTemperature, TargetTemperature | BackgroundReflectance, BackgroundReflectance
  | BackgroundTemperature, BackgroundTemperature | HaWindSpeed, HaWindSpeed
  | Cn2At1m, Cn2At1m => true
  | _, _ => false end.

Definition upd_scen (w : world) (s : scen) : world :=
  {| sc := s; heap := heap w; loads := loads w |}.

Fixpoint set_nth {A} (n : nat) (x : A) (l : list A) : list A :=
  match l, n with
  | [], _ => []
  | _ :: l, O => x :: l
  | y :: l, S n => y :: set_nth n x l
  end.
Definition poke_atm (m : atm) (i j : nat) (v : R) : atm :=
  fun i' j' => if Nat.eqb i' i && Nat.eqb j' j then v else m i' j'.

Definition step (no_interp_load interp_load : loader) (w : world) (o : op) : world * res out :=
  let s := sc w in
  match o with
  (* scenario.py:104-107 *)
  | SetIhaze z => (upd_scen w {| ihaze := z; altitude := altitude s; ground_range := ground_range s;
                      interp := interp s; plain := plain s; cache := None |}, Ok Done)
  (* scenario.py:113-116 *)
  | SetAltitude r => (upd_scen w {| ihaze := ihaze s; altitude := r; ground_range := ground_range s;
                      interp := interp s; plain := plain s; cache := None |}, Ok Done)
  (* scenario.py:122-125 *)
  | SetGroundRange r => (upd_scen w {| ihaze := ihaze s; altitude := altitude s; ground_range := r;
                      interp := interp s; plain := plain s; cache := None |}, Ok Done)
  (* ordinary attribute assignment *)
  | SetPlain a r => (upd_scen w {| ihaze := ihaze s; altitude := altitude s; ground_range := ground_range s;
                      interp := interp s;
                      plain := fun b => if attr_eqb a b then r else plain s b; cache := cache s |}, Ok Done)
  (* scenario.py:127-165  atm *)
  | ReadAtm =>
      match cache s with
      | Some l => (w, Ok (Array l))
      | None =>
          let r := if interp s then interp_load (altitude s) (ground_range s) (ihaze s)
                   else no_interp_load (altitude s) (ground_range s) (ihaze s) in
          match r with
          | Err e => (w, Err e)
          | Ok m =>
              let l := length (heap w) in
              ({| sc := {| ihaze := ihaze s; altitude := altitude s; ground_range := ground_range s;
                           interp := interp s; plain := plain s; cache := Some l |};
                  heap := heap w ++ [m]; loads := S (loads w) |}, Ok (Array l))
          end
      end
  | Poke l i j v =>
      match nth_error (heap w) l with
      | None => (w, Err IndexError) (* no such array *)
      | Some m => ({| sc := s; heap := set_nth l (poke_atm m i j v) (heap w); loads := loads w |}, Ok Done)
      end
  end.

Definition run (ni it : loader) (ops : list op) (w : world) : world :=
  fold_left (fun w o => fst (step ni it w o)) ops w.

(* the content of the array obtained by reading atm now *)
Definition observe (ni it : loader) (w : world) : res atm :=
  let '(w', r) := step ni it w ReadAtm in
  match r with
  | Err e => Err e
  | Ok (Array l) => match nth_error (heap w') l with Some m => Ok m | None => Err IndexError end
  | Ok Done => Err TypeError
  end.
