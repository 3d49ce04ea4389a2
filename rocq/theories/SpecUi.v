(** Specification vocabulary for the state of the browser pages. *)
From Coq Require Import Reals List Arith Bool.
Import ListNotations.
Open Scope R_scope.

(** The last value written to position (i, j) by a list of writes, if any *)
Fixpoint last_write {V} (cs : list (nat * nat * V)) (i j : nat) : option V :=
  match cs with
  | [] => None
  | (r, c, v) :: t =>
    match last_write t i j with
    | Some w => Some w
    | None => if (r =? i)%nat && (c =? j)%nat then Some v else None
    end
  end.

(** How often [k] occurs *)
Fixpoint occurrences (k : nat) (l : list nat) : nat :=
  match l with [] => 0 | x :: t => if (x =? k)%nat then S (occurrences k t) else occurrences k t end.

(** [x] kept between [lo] and [hi] *)
Definition clamped (lo hi x y : R) : Prop :=
  (lo <= x <= hi -> y = x) /\ (x < lo -> y = lo) /\ (hi < x -> y = hi).
