(** Specification vocabulary: fitting a line to points of a plane. *)
From Coq Require Import Reals Lra List.
From Verif Require Import RVec.
Import ListNotations.
Open Scope R_scope.

Definition vec2 : Type := R * R.
Definition dot2 (a b : vec2) : R := fst a * fst b + snd a * snd b.
Definition unit2 (a : vec2) : Prop := dot2 a a = 1.
Record mat2 : Type := M2 { q0 : vec2; q1 : vec2 }.
Definition orthonormal2 (m : mat2) : Prop := unit2 (q0 m) /\ unit2 (q1 m) /\ dot2 (q0 m) (q1 m) = 0.

(** LAPACK's decomposition of an n x 2 array *)
Record is_svd2 (a u : list vec2) (s : vec2) (v : mat2) : Prop := {
  svd2_fact : a = map (fun ui => (fst ui * fst s * fst (q0 v) + snd ui * snd s * fst (q1 v),
                                  fst ui * fst s * snd (q0 v) + snd ui * snd s * snd (q1 v))) u;
  svd2_u00 : sumf (fun p => fst p * fst p) u = 1;
  svd2_u11 : sumf (fun p => snd p * snd p) u = 1;
  svd2_u01 : sumf (fun p => fst p * snd p) u = 0;
  svd2_v : orthonormal2 v;
  svd2_s01 : snd s <= fst s;
  svd2_s1 : 0 <= snd s }.

(** Sum of squared distances of points from the line { p | n . p = d } *)
Definition line_error (n : vec2) (d : R) (pts : list vec2) : R :=
  sumf (fun p => (dot2 n p - d) * (dot2 n p - d)) pts.
Definition is_mean2 (m : vec2) (pts : list vec2) : Prop :=
  pts <> [] /\ INR (length pts) * fst m = sumf fst pts /\ INR (length pts) * snd m = sumf snd pts.
