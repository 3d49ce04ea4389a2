(** Model of frontend/packages/notebook-ui/test/process-onis-planes.py:40-73. *)
From Coq Require Import Reals Lra List ZArith Bool.
From Verif Require Import RVec MAxes MRecon.
Import ListNotations.
Open Scope R_scope.

(** What the script reads of a mapping of the collection *)
Record item : Type := mkItem { it_uid : nat; it_z : R }.

(** 60-62 *)
Definition in_range (c : item) : bool :=
  if Rlt_dec 1600 (it_z c) then if Rlt_dec (it_z c) 1680 then true else false else false.
Definition kept (removed : list nat) (c : list item) : list item :=
  filter (fun o => negb (existsb (Nat.eqb (it_uid o)) removed)) (filter in_range c).

(** heights.min(), heights.max(): a ValueError on an empty array (67-68) *)
Fixpoint min_of (a : R) (l : list R) : R := match l with [] => a | b :: t => min_of (Rmin a b) t end.
Fixpoint max_of (a : R) (l : list R) : R := match l with [] => a | b :: t => max_of (Rmax a b) t end.

(** numpy.interp(z, [lo, hi], [0, 6]): the last entry is taken from [hi] on *)
Definition interp6 (lo hi z : R) : R :=
  if Rlt_dec hi z then 6 else if Rlt_dec z lo then 0
  else if Rle_dec hi z then 6 else (6 - 0) / (hi - lo) * (z - lo) + 0.
(** python's int: towards zero *)
Definition trunc (x : R) : Z := if Rle_dec 0 x then (up x - 1)%Z else (- (up (- x) - 1))%Z.
(** 70-73: position in the seven colours of the map *)
Definition colour (lo hi : R) (o : item) : Z := (6 - trunc (interp6 lo hi (it_z o)))%Z.
(** a python list of seven: negative positions count from the end *)
Definition list7 (i : Z) : res Z :=
  if (i <? -7)%Z || (6 <? i)%Z then Raise IndexError else Ok (if (i <? 0)%Z then (i + 7)%Z else i).

Fixpoint colours (lo hi : R) (l : list item) : res (list Z) :=
  match l with
  | [] => Ok []
  | o :: t => rbind (list7 (colour lo hi o)) (fun i => rbind (colours lo hi t) (fun r => Ok (i :: r)))
  end.
Definition coloured (removed : list nat) (c : list item) : res (list (item * Z)) :=
  let k := kept removed c in
  match map it_z k with
  | [] => Raise ValueError
  | h :: t => rbind (colours (min_of h t) (max_of h t) k) (fun r => Ok (combine k r))
  end.

(** 52-58: a plane measured in the field *)
Definition in_situ (strike dip : R) : option recon :=
  let err := 1 / 10 * PI / 180 in ReconstructedPlane strike dip 0 [err; err] 1.
