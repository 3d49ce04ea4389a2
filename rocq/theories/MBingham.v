(** Model of attitude/bingham.py: the density on the sphere, its grid, and the truncated
    series. *)
From Coq Require Import Reals Lra Lia List Arith Bool.
From Verif Require Import RVec Trig MPca MAxes MSphere MHyper.
Import ListNotations.
Open Scope R_scope.

(** bingham.py:13-19; [gamma] is scipy's, at positive arguments; [n] is 10 by default *)
Definition series_term (gamma : R -> R) (k1 k2 : R) (i j : nat) : R :=
  (gamma (INR i + 1 / 2) * gamma (INR j + 1 / 2) * k1 ^ i * k2 ^ j) / (gamma (INR i + INR j + 3 / 2) * INR (fact i) * INR (fact j)).
Definition confluent (gamma : R -> R) (k1 k2 : R) (n : nat) : R :=
  sumf (fun '(i, j) => series_term gamma k1 k2 i j) (list_prod (seq 0 n) (seq 0 n)).

(** bingham.py:31-33: [e] *)
Definition concentration (h : vec3) : option vec3 :=
  obind (fdiv (vz h * vz h) (vx h)) (fun a =>
  obind (fdiv (vz h * vz h) (vy h)) (fun b =>
  obind (fdiv (vz h * vz h) (vz h)) (fun c => Some (V3 a b c)))).
(** bingham.py:35-37: the first constant, overwritten in line 44 before it is used *)
Definition first_constant (gamma : R -> R) (h : vec3) : option R :=
  obind (concentration h) (fun e =>
  let k0 := vx e - vz e in
  let k1 := vy e - vz e in
  obind (fdiv k0 k1) (fun k0 =>
  obind (fdiv k1 k1) (fun k1 => Some (sqrt PI * confluent gamma k0 k1 10)))).
(** bingham.py:21-65 at one pair of coordinates, given the hyperbolic axes and the axes of
    the fit; [hyp1f1] is scipy's, [None] where it is not finite *)
Definition bingham_pdf (hyp1f1 : R -> R -> R -> option R) (h : vec3) (axes : mat3) (coords : R * R) : option R :=
  obind (concentration h) (fun e =>
  obind (fdiv 1 (vx e)) (fun z0 =>
  obind (fdiv 1 (vy e)) (fun z1 =>
  obind (fdiv 1 (vz e)) (fun z2 =>
  obind (fdiv 1 z0) (fun w0 =>
  obind (fdiv 1 z1) (fun w1 =>
  obind (fdiv 1 z2) (fun w2 =>
  obind (hyp1f1 w0 w1 w2) (fun H =>
  obind (fdiv 1 H) (fun F =>
  let Z := V3 z0 z1 z2 in
  let M := axes in
  let xhat := sph2cart coords in
  fdiv 1 (F * exp (dot (vm (vmul (vm xhat M) Z) (mT M)) xhat))))))))))).

(** numpy.dot for arrays of at least one dimension: the shape of the result *)
Definition np_dot (a b : list nat) : res (list nat) :=
  let k := match rev b with [x] => x | _ :: x :: _ => x | [] => O end in
  let rest := match rev b with x :: _ :: t => rev t ++ [x] | _ => [] end in
  if (last a O =? k)%nat then Ok (removelast a ++ rest) else Raise ValueError.
(** bingham.py:59-63 for arrays of coordinates of one shape: the shape of what [pdf] returns *)
Definition pdf_shape (s : list nat) : res (list nat) :=
  let xhat := rev (3%nat :: s) in
  let xhatT := rev xhat in
  rbind (np_dot xhatT [3; 3]%nat) (fun a =>
  rbind (np_dot a [3; 3]%nat) (fun a =>
  rbind (np_dot a [3; 3]%nat) (fun a => np_dot a xhat))).

(** bingham.py:67-76: the two arrays, row by row *)
Definition regular_grid (nrows ncols : nat) : list (list R) * list (list R) :=
  let bound := PI / 2 in
  let xs := linspace (- bound) bound ncols in
  let ys := linspace (- bound) bound nrows in
  (map (fun x => map (fun _ => x) ys) xs, map (fun _ => ys) xs).
Definition default_grid (n : nat) : list (list R) * list (list R) := regular_grid n n.
