(** The lines of a net of meridians and parallels. *)
From Coq Require Import Reals List ZArith Sorted.
Open Scope R_scope.

(** all points of the line have this longitude *)
Definition meridian (x : R) (l : list (R * R)) : Prop := l <> nil /\ forall p, In p l -> fst p = x.
Definition parallel (y : R) (l : list (R * R)) : Prop := l <> nil /\ forall p, In p l -> snd p = y.
(** the line runs from one value to the other, in order *)
Definition runs (f : R * R -> R) (a b : R) (l : list (R * R)) : Prop :=
  (exists p, hd_error l = Some p /\ f p = a) /\ (exists p, hd_error (rev l) = Some p /\ f p = b) /\
  StronglySorted (fun p q => f p < f q) l.
Definition multiple (d v : R) : Prop := exists k : Z, v = IZR k * d.
(** [r] is left over when [v] is divided by [d] toward zero *)
Definition remainder (v d r : R) : Prop := multiple d (v - r) /\ Rabs r < d /\ 0 <= r * v.
