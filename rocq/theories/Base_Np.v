(** * Base_Np: the numpy/scipy one-dimensional array routines that pyBSM calls.

    Vocabulary only (library contracts, see DESIGN.md section 2 item 4). *)
From Coq Require Import Reals Lra ZArith Bool List Lia.
From Flocq Require Import Core.Raux Core.Generic_fmt Core.Round_NE.
From Verif Require Import Base_XR.
Import ListNotations.
Open Scope R_scope.

(** ** Elementwise arithmetic with numpy broadcasting of 1-D arrays *)
Fixpoint map2 {A B C} (f : A -> B -> C) (a : list A) (b : list B) : list C :=
  match a, b with
  | x :: a, y :: b => f x y :: map2 f a b
  | _, _ => []
  end.

Definition bmap2 {A B C} (f : A -> B -> C) (a : list A) (b : list B) : res (list C) :=
  if Nat.eqb (length a) (length b) then Ok (map2 f a b)
  else match a, b with
       | [x], _ => Ok (map (f x) b)
       | _, [y] => Ok (map (fun x => f x y) a)
       | _, _ => Err ValueError
       end.

(** ** Reductions *)
Definition xsum (l : list xr) : xr := fold_right xadd (Fin 0) l.
Definition Rsum (l : list R) : R := fold_right Rplus 0 l.
(* array.max(): ValueError on an empty array, NaN propagates *)
Definition xmaxl (l : list xr) : res xr :=
  match l with [] => Err ValueError | x :: l => Ok (fold_left xmax l x) end.
Definition xminl (l : list xr) : res xr :=
  match l with [] => Err ValueError | x :: l => Ok (fold_left xmin l x) end.

(** ** np.diff, np.trapz(y, x) *)
Definition xdiff (l : list xr) : list xr := map2 (fun b a => xsub b a) (tl l) l.
Definition xmids (l : list xr) : list xr := map2 (fun b a => xadd b a) (tl l) l.
Definition trapz (y x : list xr) : res xr :=
  let* p := bmap2 xmul (xdiff x) (xmids y) in
  Ok (xsum (map (fun t => xdiv t (Fin 2)) p)).

(** ** np.linspace(a, b, n), np.arange(0, n) *)
Definition linspace (a b : R) (n : nat) : list R :=
  map (fun i => a + INR i * ((b - a) / INR (n - 1))) (seq 0 n).

(** ** np.interp(x, xp, fp, left, right)
    numpy locates the segment by binary search, which for a nondecreasing
    [xp] is the last segment whose left end is <= x; the linear scan below is
    the same function on nondecreasing tables. *)
Fixpoint interp_scan (x : R) (x0 y0 : R) (tab : list (R * R)) (right : R) : R :=
  match tab with
  | [] => if Rltb x0 x then right else y0
  | (x1, y1) :: tab' =>
      if Rltb x x1 then
        if Reqb x0 x then y0 else (y1 - y0) / (x1 - x0) * (x - x0) + y0
      else interp_scan x x1 y1 tab' right
  end.
Definition interp_tab (x : R) (tab : list (R * R)) (left right : R) : R :=
  match tab with
  | [] => 0 (* excluded by np_interp *)
  | (x0, y0) :: tab' => if Rltb x x0 then left else interp_scan x x0 y0 tab' right
  end.
(* the table as numpy sees it: equal, nonzero lengths or ValueError *)
Definition interp_table (xp fp : list R) : res (list (R * R)) :=
  match xp with
  | [] => Err ValueError
  | _ => if Nat.eqb (length xp) (length fp) then Ok (combine xp fp) else Err ValueError
  end.
Definition np_interp (x : xr) (xp fp : list R) (left right : R) : res xr :=
  let* tab := interp_table xp fp in
  Ok (match x with
      | Fin r => Fin (interp_tab r tab left right)
      | PInf => Fin right | NInf => Fin left | NaN => NaN end).

(** ** sorting (stable, by first component) *)
Fixpoint insert_by (p : R * R) (l : list (R * R)) : list (R * R) :=
  match l with
  | [] => [p]
  | q :: l' => if Rleb (fst p) (fst q) then p :: l else q :: insert_by p l'
  end.
Definition sort_by (l : list (R * R)) : list (R * R) := fold_right insert_by [] l.
Fixpoint insertR (x : R) (l : list R) : list R :=
  match l with
  | [] => [x]
  | y :: l' => if Rleb x y then x :: l else y :: insertR x l'
  end.
Definition sortR (l : list R) : list R := fold_right insertR [] l.

(** ** np.percentile(a, q), method "linear": ValueError/IndexError for an empty
    array or q outside [0,100] *)
Definition lerp_at (l : list R) (h : R) : R :=
  let k := Zfloor h in
  let a := nth (Z.to_nat k) l 0 in
  let b := nth (Z.to_nat k + 1) l a in
  a + (b - a) * (h - IZR k).
Definition percentile (l : list R) (q : R) : res R :=
  match l with
  | [] => Err IndexError
  | _ => if Rleb 0 q && Rleb q 100
         then Ok (lerp_at (sortR l) (INR (length l - 1) * (q / 100)))
         else Err ValueError
  end.

(** ** np.clip(x, lo, hi), np.round (half to even), int() truncation *)
Definition Rclip (lo hi x : R) : R := Rmin hi (Rmax lo x).
Definition np_round (x : R) : Z := ZnearestE x.
Definition py_int (x : R) : Z := Ztrunc x.
