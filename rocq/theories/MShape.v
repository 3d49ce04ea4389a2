(** Model of the quadrics of a fit (attitude/orientation/pca.py:402-477), of
    attitude/geom/__init__.py and of error/__init__.py:asymptotes. *)
From Coq Require Import Reals Lra List Arith Bool.
From Verif Require Import RVec Trig LNum MPca MConics MStereo MAxes.
Import ListNotations.
Open Scope R_scope.

(** entry of a 3 x 3 array *)
Definition mget (A : mat3) (i j : nat) : R :=
  vec_of3 (match i with O => r0 A | 1%nat => r1 A | _ => r2 A end) j.
(** pca.py:30-34 for a 3 x 3 array *)
Definition augment_matrix (A : mat3) : matn := fun i j =>
  if (i <? 3)%nat && (j <? 3)%nat then mget A i j else idn i j.

(** pca.py:402-420.  The object afterwards is the second component.  [NonFinite]: a
    zero variance. *)
Definition as_conic (level : R) (f : pca) : res matn * pca :=
  let f := flip_down_axes f in
  (match covariance_noise f with
   | None => NonFinite
   | Some cov =>
     if has_zero cov then NonFinite else
     let ell : matn := fun i j =>
       if (i =? j)%nat then (if (i <? 3)%nat then 1 / vec_of3 cov i * (level * level) else -1) else 0 in
     let ell := translate 3 ell (vec_of3 (p_offset f)) in
     Ok (transform 3 ell (augment_matrix (p_axes f)))
   end, f).

(** pca.py:422-437 *)
Definition as_hyperbola (rotated : bool) (f : pca) : res matn :=
  match covariance_noise f with
  | None => NonFinite
  | Some cov =>
    if has_zero cov then NonFinite else
    let d := V3 (1 / vx cov) (1 / vy cov) (1 / vz cov * -1) in
    let hyp : matn := fun i j => if (i =? j)%nat then (if (i <? 3)%nat then vec_of3 d i else -1) else 0 in
    Ok (if rotated then transform 3 hyp (augment_matrix (p_axes f)) else hyp)
  end.

(** pca.py:439-455.  [matrix] is [m.T] of conics.py:160-176, three rows and four columns,
    so [matrix[:3]] is all of it and the points have four entries; [None]: NaN, when the
    lengths of the axes are. *)
Definition ellipse_points (svd : svdn_fn) (level : R) (f : pca) : res (list (list (option R)) * vecn) * pca :=
  let '(ell, f) := as_conic level f in
  (rbind ell (fun ell =>
   rbind (projection 3 ell None None) (fun '(con, matrix, center) =>
   let ax := match major_axes svd 2 con with Ok ax => Some ax | _ => None end in
   let point (u : R) (j : nat) : option R :=
     option_map (fun ax : matn =>
       let axs k := ax k 0%nat * matrix 0%nat j + ax k 1%nat * matrix 1%nat j + 0 * matrix 2%nat j in
       cos u * axs 0%nat + sin u * axs 1%nat) ax in
   Ok (map (fun u => map (point u) (seq 0 4)) (linspace2pi 1000), center))), f).
(** numpy's [data += center] for a list of rows and a vector: the widths must agree *)
Definition iadd_rows (rows : list (list (option R))) (v : list R) : res (list (list (option R))) :=
  if forallb (fun r => (length r =? length v)%nat) rows
  then Ok (map (fun r => map (fun '(x, c) => option_map (fun x => x + c) x) (combine r v)) rows)
  else Raise ValueError.
(** pca.py:469-477; [num3] reads a row of three *)
Definition num3 (r : list (option R)) : option vec3 :=
  match r with [Some x; Some y; Some z] => Some (V3 x y z) | _ => None end.
Definition pca_error_ellipse (svd : svdn_fn) (level : R) (f : pca) : res (list (option (R * R))) * pca :=
  let '(e, f) := ellipse_points svd level f in
  (rbind e (fun '(data, center) =>
   rbind (iadd_rows data (map center (seq 0 3))) (fun data =>
   Ok (map (fun r => obind (num3 r) (fun v =>
     obind (fdiv (vz v) (norm v)) (fun s => Some (atan2 (vx v) (vy v), asin s)))) data))), f).

(** error/__init__.py:12-22.  Rows of three. *)
Definition asymptotes (inv : inv_fn) (hyp : matn) (n : nat) : res (list vec3) :=
  rbind (MConics.center inv 3 hyp) (fun c =>
  if Req_EM_T (normn 3 c) 0 then
    Ok (map (fun u => to_vec3 (vmul_mat 3 (vec_of3 (V3 (cos u) (sin u) 1)) hyp)) (linspace2pi n))
  else Raise AssertionError).

(** * geom/__init__.py *)
Inductive cov_type : Set := TNoise | TSampling.
Definition covariance_of (t : cov_type) (f : pca) : option vec3 :=
  match t with TNoise => covariance_noise f | TSampling => covariance_sampling f end.
(** geom/__init__.py:7-15; the diagonal matrix over its Frobenius norm, then
    [dot(fit.axes, cov)]: column j of the axes times the j-th entry *)
Definition aligned_covariance (t : cov_type) (f : pca) : option mat3 :=
  obind (covariance_of t f) (fun c =>
  if Req_EM_T (norm c) 0 then None else
  let c := vscale (/ norm c) c in
  Some (M3 (vmul (r0 (p_axes f)) c) (vmul (r1 (p_axes f)) c) (vmul (r2 (p_axes f)) c))).
(** geom/__init__.py:17-21 *)
Definition fit_angle (f1 f2 : pca) : option R := option_map degrees (vangle (p_normal f1) (p_normal f2)).
(** geom/__init__.py:23-41; [None]: NaN or infinite.  [svd] is numpy.linalg.svd on the
    list of rows. *)
Definition fit_similarity (svd : svd_fn) (f1 f2 : pca) : option R :=
  obind (aligned_covariance TNoise f1) (fun cov1 =>
  obind (aligned_covariance TNoise f2) (fun cov2 =>
  let cov2 := if Rlt_dec (vz (r2 (p_axes f2))) 0 then mneg cov2 else cov2 in
  let v0 := vsub (p_normal f1) (p_normal f2) in
  let cov0 := madd cov1 cov2 in
  let '(_, s, V) := svd [r0 cov0; r1 cov0; r2 cov0] in
  let rotated := mv V v0 in
  obind (vsqrt s) (fun q =>
  obind (fdiv (vx rotated * vx rotated) (vx q)) (fun a =>
  obind (fdiv (vy rotated * vy rotated) (vy q)) (fun b =>
  obind (fdiv (vz rotated * vz rotated) (vz q)) (fun c =>
  fsqrt (a + b + c))))))).

(** orientation/test_pca.py:151-152, the regression coefficients of a fit *)
Definition tls_beta (f : pca) : option (R * R) :=
  let n := r2 (p_axes f) in
  if Req_EM_T (vz n) 0 then None else Some (- vx n / vz n, - vy n / vz n).
