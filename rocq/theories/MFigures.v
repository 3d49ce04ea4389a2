(** Model of the numbers behind the figures: attitude/display/polar.py,
    display/pca_aligned.py, display/error_comparison.py and display/plot/cov_types. *)
From Coq Require Import Reals Lra Lia List Arith Bool ZArith.
From Verif Require Import RVec Trig MPca MAxes MSphere MRecon MStereo MHyper.
Import ListNotations.
Open Scope R_scope.

(** * polar.py *)
(** polar.py:20-58: the vertices (angle in radians, radius in degrees) and the caller's
    axes afterwards; [n] is 1000 *)
Definition polar_pole (axes cov : mat3) (n : nat) : points * mat3 :=
  let d := diagonal cov in
  let ell := ellipse n in
  let axes := if Rlt_dec (vz (r2 axes)) 0 then mneg axes else axes in
  let c1 := 2 in
  let e := map (fun '(c, s) =>
    V3 (- c * vz d * c1) (- s * vz d * c1) (sqrt (c * vx d * (c * vx d) + s * vy d * (s * vy d)))) ell in
  (map (fun e => let v := vm e axes in
     option_map (fun '(lon, lat) => (lon - PI / 2, 90 - degrees lat)) (cart2sph (V3 (- vx v) (vy v) (vz v)))) e, axes).
(** polar.py:64-66 *)
Definition polar_point (strike dip : R) : R * R := (radians (strike + 90), dip).

(** * pca_aligned.py *)
Definition lmin (x : R) (l : list R) : R := fold_left Rmin l x.
Definition lmax (x : R) (l : list R) : R := fold_left Rmax l x.
(** [A[:,i].min(), A[:,i].max()], pca_aligned.py:27; an empty array raises *)
Definition minmax (g : vec3 -> R) (A : list vec3) : res (R * R) :=
  match map g A with [] => Raise ValueError | x :: t => Ok (lmin x t, lmax x t) end.
(** pca_aligned.py:23-26 *)
Definition aligned_points (f : pca) : list vec3 :=
  let A := rotated f in
  if Rlt_dec (vz (p_normal f)) 0 then map (fun v => V3 (vx v) (vy v) (vz v * -1)) A else A.
(** [A[::k]] for k > 0 *)
Definition ceil_div (n m : nat) : nat := ((n + m - 1) / m)%nat.
Definition stride (k : nat) (A : list vec3) : list vec3 :=
  map (fun i => nth (i * k) A vzero) (seq 0 (ceil_div (length A) k)).
(** pca_aligned.py:30-35 *)
Definition sparse_points (sparse : bool) (A : list vec3) : list vec3 :=
  if sparse then
    let l := length A in
    if (10000 <? l)%nat then stride (ceil_div l 10000) A else A
  else A.
(** pca_aligned.py:39-42, the height of the figure; [None]: no extent along the first axis *)
Definition figure_height (l0 l1 l2 : R) : option R :=
  if Req_EM_T l0 0 then None
  else
    let w := 8 in
    let h := w * ((l2 * 2 + l1) / l0 * (15 / 10)) in
    Some (if Rlt_dec h 3 then 3 else h).
(** pca_aligned.py:82-90, the angle written in the title; the square roots are of the
    entries of the 2 x 2 matrix *)
Definition section_angle (hyp : vec3) (a : nat) : option R :=
  let v0 := match a with O => ex | 1%nat => ey | _ => ez end in
  let q u v := dot (vmul u hyp) v in
  obind (fsqrt (q v0 v0)) (fun m00 =>
  obind (fsqrt (q ez v0)) (fun m01 =>
  obind (fsqrt (q v0 ez)) (fun m10 =>
  obind (fsqrt (q ez ez)) (fun m11 =>
  let l1 := sqrt (m00 * m00 + m01 * m01) in
  let l2 := sqrt (m10 * m10 + m11 * m11) in
  Some (2 * degrees (atan2 l2 l1)))))).
(** pca_aligned.py:74-75, 95-98: what a cross-section shows: the range of the points
    along its axis, the angle, and the abscissae of the band *)
Record section := mkSection { se_points : list (R * R); se_range : R * R; se_angle : option R; se_band : list R }.
Definition aligned_section (hyp : vec3) (sparse : bool) (A : list vec3) (a : nat) : res section :=
  let g := match a with O => vx | 1%nat => vy | _ => vz end in
  rbind (minmax g A) (fun r =>
  rbind (minmax vx A) (fun '(lo, hi) =>
  Ok (mkSection (map (fun v => (g v, vz v)) (sparse_points sparse A)) r (section_angle hyp a) (linspace (lo * (12 / 10)) (hi * (12 / 10)) 100)))).

(** * error_comparison.py *)
(** error_comparison.py:35-53: half the width of the window by default, from the first
    row of the array *)
Definition comparison_half_width (A : list vec3) : res R :=
  match A with
  | [] => Raise IndexError
  | v :: _ => Ok (25 / 10 * Rmax (Rmax (Rabs (vx v)) (Rabs (vy v))) (Rabs (vz v)) / 2)
  end.

(** * plot/cov_types *)
(** regressions.py:8-34: abscissae, bottom, top.  [cov] are two variances, the axes a 2 x 2
    matrix; [None]: NaN.  The second [y] is the one used. *)
Definition cov_hyperbola (cov : R * R) (axes : mat2) (means : R * R) (xvals : list R) (n level : R)
  : option (list R * list R * list R) :=
  obind (fsqrt (fst cov)) (fun a =>
  obind (fsqrt (snd cov)) (fun b =>
  if Req_EM_T (a * a * n) 0 then None
  else if Req_EM_T n 0 then None
  else if Rlt_dec n 0 then None
  else
    let y x := level * b * sqrt (x * x / (a * a * n) + 1 / n) in
    let place p := let q := vmul2 p axes in (fst q + fst means, snd q + snd means) in
    let t := map (fun x => place (x, y x)) xvals in
    let bt := map (fun x => place (x, - y x)) xvals in
    Some (map fst t, map snd bt, map snd t))).

(** misc.py:36-39 with scipy's scoreatpercentile (linear interpolation between the two
    nearest order statistics, from its published definition); [sorted] is the sorted array *)
Definition score_at (sorted : list R) (p : R) : res R :=
  if Rlt_dec p 0 then Raise ValueError
  else if Rlt_dec 100 p then Raise ValueError
  else match sorted with
  | [] => NonFinite
  | _ =>
    let idx := p / 100 * INR (length sorted - 1) in
    let i := Z.to_nat (Int_part idx) in
    let w := idx - INR i in
    if Req_EM_T w 0 then Ok (nth i sorted 0)
    else Ok ((nth i sorted 0 * (INR (S i) - idx) + nth (S i) sorted 0 * w) / ((INR (S i) - idx) + w))
  end.
Definition ci (sorted : list R) (which : R) : res (R * R) :=
  rbind (score_at sorted (50 - which / 2)) (fun lo =>
  rbind (score_at sorted (50 + which / 2)) (fun hi => Ok (lo, hi))).

(** regressions.py:36-46; [draw i j] is the j-th index drawn for the i-th sample, below
    the length by the contract of randint, which raises for an empty array *)
Definition bootstrap_resampled {A B} (draw : nat -> nat -> nat) (data : list A) (d : A) (func : list A -> B) (n : nat) : res (list B) :=
  match data, n with
  | _, O => Ok []
  | [], _ => Raise ValueError
  | _, _ => Ok (map (fun i => func (map (fun j => nth (draw i j) data d) (seq 0 (length data)))) (seq 0 n))
  end.
(** regressions.py:48-62; [noise i] has the shape of the data *)
Definition bootstrap_noise {B} (noise : nat -> list vec3) (std : R) (symmetric : bool) (data : list vec3) (func : list vec3 -> B) (n : nat) : list B :=
  map (fun i => func (map (fun '(p, e) => vadd p (if symmetric then vscale std e else V3 0 0 (std * vz e))) (combine data (noise i)))) (seq 0 n).

(** display/test_hyperbolic_errors.py:15-35 (and geom/test_hyperbolic_errors.py:18-38): the
    formula the tests compare with; [None]: NaN *)
Definition simple_hyperbola (cov : R * R) (xvals : list R) (n level : R) : option (list R * list R) :=
  obind (fsqrt (snd cov)) (fun b =>
  if Req_EM_T (fst cov * n) 0 then None
  else if Req_EM_T n 0 then None
  else if forallb (fun x => if Rlt_dec (x * x / (fst cov * n) + 1 / n) 0 then false else true) xvals
  then Some (xvals, map (fun x => level * b * sqrt (x * x / (fst cov * n) + 1 / n)) xvals)
  else None).
