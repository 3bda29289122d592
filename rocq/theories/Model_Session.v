(** * Model_Session: a program that holds several sensors and scenarios and
    calls the analysis functions on them in any order. *)
From Coq Require Import Reals ZArith List Bool.
From Verif Require Import Base_XR Base_Np Model_Db Model_Scenario Model_Sensor Model_Rad Model_Otf Model_Img Model_Met Model_Sim.
Import ListNotations.
Open Scope R_scope.

(* the objects of a program; simulation/sensor.py:22, simulation/scenario.py:25 *)
Record session := { sensors : nat -> sensor; scenarios : nat -> world }.
Definition put {A} (f : nat -> A) (i : nat) (x : A) : nat -> A := fun k => if Nat.eqb i k then x else f k.

(* one statement: niirs (metrics/functional.py:278), niirs5 (438), simulate_image
   (simulation/functional.py:143) on sensor i and scenario j, a use of scenario j,
   or assignments to attributes of sensor i *)
Inductive event :=
| CallNiirs (i j : nat) (itp : bool)
| CallNiirs5 (i j : nat) (itp : bool)
| CallSimulate (d : draws) (r : reference) (i j : nat)
| UseScenario (j : nat) (o : op)
| EditSensor (i : nat) (g : sensor -> sensor).
Inductive answer :=
| Rated (r : res niirs_metrics) | Rated5 (r : res niirs5_metrics) | Pictures (r : res (img * img * ximg))
| Used (r : res out) | Edited.

(* the functions work on the caller's objects; an exception is caught by the
   caller and the program goes on *)
Definition perform (ni it : loader) (diag : nat -> nat -> bool) (st : session) (e : event) : session * answer :=
  match e with
  | CallNiirs i j itp =>
      let w := scenarios st j in
      let (c, r) := niirs ni it diag (sensors st i) (sc w) itp in
      ({| sensors := sensors st; scenarios := put (scenarios st) j (upd_scen w c) |}, Rated r)
  | CallNiirs5 i j itp =>
      let w := scenarios st j in
      let '(s, c, r) := niirs5 ni it diag (sensors st i) (sc w) itp in
      ({| sensors := put (sensors st) i s; scenarios := put (scenarios st) j (upd_scen w c) |}, Rated5 r)
  | CallSimulate d ref i j =>
      let (w, r) := simulate_image ni it diag d ref (sensors st i) (scenarios st j) in
      ({| sensors := sensors st; scenarios := put (scenarios st) j w |}, Pictures r)
  | UseScenario j o =>
      let (w, r) := step ni it (scenarios st j) o in
      ({| sensors := sensors st; scenarios := put (scenarios st) j w |}, Used r)
  | EditSensor i g => ({| sensors := put (sensors st) i (g (sensors st i)); scenarios := scenarios st |}, Edited)
  end.
(* a program is a list of statements *)
Definition after (ni it : loader) (diag : nat -> nat -> bool) (st : session) (evs : list event) : session :=
  fold_left (fun st e => fst (perform ni it diag st e)) evs st.
Fixpoint transcript (ni it : loader) (diag : nat -> nat -> bool) (st : session) (evs : list event) : list (event * answer) :=
  match evs with
  | [] => []
  | e :: evs => let (st', a) := perform ni it diag st e in (e, a) :: transcript ni it diag st' evs
  end.
