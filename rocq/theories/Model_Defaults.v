(** * Model_Defaults: how a call of Scenario(...) binds its arguments
    (src/pybsm/simulation/scenario.py:69-98). *)
From Coq Require Import Reals ZArith List Bool.
From Flocq Require Import Core.Raux.
From Verif Require Import Base_XR Model_Db Model_Scenario.
Import ListNotations.
Open Scope R_scope.

(* an optional argument as written by the caller: a number or True / False *)
Inductive arg := Num (r : R) | Flag (b : bool).
(* True counts as 1 and False as 0 wherever a number is used *)
Definition as_number (a : arg) : R := match a with Num r => r | Flag b => if b then 1 else 0 end.
(* scenario.py:161  if self._interp *)
Definition truth (a : arg) : bool := match a with Num r => negb (Req_bool r 0) | Flag b => b end.

(* scenario.py:75-82  the optional parameters, in the order of the signature *)
Inductive slot := Plain (a : attr) | Interp.
Definition signature : list (slot * arg) :=
  [(Plain AircraftSpeed, Num 0);
   (Plain TargetReflectance, Num 0.15);
   (Plain TargetTemperature, Num 295);
   (Plain BackgroundReflectance, Num 0.07);
   (Plain BackgroundTemperature, Num 293);
   (Plain HaWindSpeed, Num 21);
   (Plain Cn2At1m, Num (1.7 / 10 ^ 14));
   (Interp, Flag false)].

Definition slot_eqb (s t : slot) : bool :=
  match s, t with
  | Plain a, Plain b => attr_eqb a b
  | Interp, Interp => true
  | _, _ => false end.
Fixpoint lookup (s : slot) (l : list (slot * arg)) : option arg :=
  match l with
  | [] => None
  | (t, a) :: l => if slot_eqb s t then Some a else lookup s l
  end.

(* Python's binding of a call f(..., *pos, **kw): positional values fill the
   parameters from the left, keywords the others, defaults the rest.  TypeError
   for too many positional values and for a parameter given twice. *)
Fixpoint bind_args (sig : list (slot * arg)) (pos : list arg) (kw : list (slot * arg))
  : res (list (slot * arg)) :=
  match sig with
  | [] => match pos with [] => Ok [] | _ => Err TypeError end
  | (s, d) :: sig =>
      match pos with
      | v :: pos =>
          match lookup s kw with
          | Some _ => Err TypeError
          | None => let* r := bind_args sig pos kw in Ok ((s, v) :: r)
          end
      | [] =>
          let v := match lookup s kw with Some v => v | None => d end in
          let* r := bind_args sig [] kw in Ok ((s, v) :: r)
      end
  end.

Definition bound (l : list (slot * arg)) (s : slot) : arg :=
  match lookup s l with Some a => a | None => Num 0 (* not reached: every slot is bound *) end.

(* scenario.py:69-98  Scenario(name, ihaze, altitude, ground_range, *pos, **kw);
   the name is left out *)
Definition construct (ih : Z) (alt gr : R) (pos : list arg) (kw : list (slot * arg)) : res world :=
  let* l := bind_args signature pos kw in
  Ok (init ih alt gr (truth (bound l Interp)) (fun a => as_number (bound l (Plain a)))).
