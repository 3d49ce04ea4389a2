(** Specification vocabulary: measurements repeated m times. *)
From Coq Require Import Reals List.
From Verif Require Import RVec.
Import ListNotations.

Definition repeated (m : nat) (pts : list vec3) : list vec3 := concat (repeat pts m).
