(** Model of attitude/stereonet.py and of the error shells that call it. *)
From Coq Require Import Reals Lra List Arith String.
From Verif Require Import RVec Trig MPca MAxes MSphere MRecon.
Import ListNotations.
Open Scope R_scope.

(** numpy.linspace(0, 2*pi, n) *)
Definition linspace2pi (n : nat) : list R :=
  map (fun i => if (n =? 1)%nat then 0 else INR i * (2 * PI / INR (n - 1))) (seq 0 n).

(** stereonet.py:14-24 *)
Definition ellipse (n : nat) : list (R * R) := map (fun u => (cos u, sin u)) (linspace2pi n).

(** A point is (lon, lat) in radians; [None]: the vector is zero, NaN. *)
Definition points := list (option (R * R)).

(** The two layouts: arguments given to cart2sph *)
Definition lay_plane (traditional : bool) (v : vec3) : vec3 :=
  if traditional then V3 (vz v) (vx v) (vy v) else V3 (- vy v) (vx v) (vz v).
Definition lay_normal (traditional : bool) (v : vec3) : vec3 :=
  if traditional then V3 (vz v) (vx v) (- vy v) else V3 (- vy v) (vx v) (vz v).

(** stereonet.py:42-70.  The second component is the caller's axes array,
    negated in place when it points down.  [level] is popped and not used. *)
Definition normal_errors (axes cov : mat3) (level : R) (traditional : bool) (n : nat) : points * mat3 :=
  let d := diagonal cov in
  let ell := ellipse n in
  let axes := if Rlt_dec (vz (r2 axes)) 0 then mneg axes else axes in
  let c1 := 2 in
  let e := map (fun '(c, s) =>
    V3 (- c * vz d * c1) (- s * vz d * c1) (sqrt (c * vx d * (c * vx d) + s * vy d * (s * vy d)))) ell in
  (map (fun v => cart2sph (lay_normal traditional (vm v axes))) e, axes).

(** stereonet.py:78-118; a sheet other than 'upper' and 'lower' is not shifted.
    The full covariance matrix is used. *)
Definition plane_errors (axes cov : mat3) (sheet : string) (level : R) (traditional : bool) (n : nat) : points :=
  let bundle := map (fun '(c, s) => vadd (vscale c (r0 cov)) (vscale s (r1 cov))) (ellipse n) in
  let res := vscale 2 (vscale level (r2 cov)) in
  let res := if Rlt_dec 0 (vz (r2 axes)) then vscale (-1) res else res in
  let bundle := if String.eqb sheet "upper" then map (fun b => vadd b res) bundle
                else if String.eqb sheet "lower" then map (fun b => vsub b res) bundle
                else bundle in
  map (fun b => cart2sph (lay_plane traditional (vm b axes))) bundle.

(** the inlined conversion of the iterative versions (153-156, 191-195) *)
Definition to_lonlat (x y z : R) : option (R * R) :=
  let r := sqrt (x * x + y * y + z * z) in
  if Req_EM_T r 0 then None else Some (atan2 y x, asin (z / r)).
(** [sdot] against each row of [axes.T] *)
Definition sdots (e : vec3) (axes : mat3) : vec3 :=
  let t := mT axes in V3 (dot e (r0 t)) (dot e (r1 t)) (dot e (r2 t)).

(** stereonet.py:120-161 *)
Definition iterative_normal_errors (axes cov : mat3) (level : R) (traditional : bool) (n : nat) : points * mat3 :=
  let d := diagonal cov in
  let axes := if Rlt_dec (vz (r2 axes)) 0 then mneg axes else axes in
  let c1 := 2 in
  let step a :=
    let e := V3 (- c1 * vz d * cos a) (- c1 * vz d * sin a)
                (sqrt (cos a * vx d * (cos a * vx d) + sin a * vy d * (sin a * vy d))) in
    let r := sdots e axes in
    if traditional then to_lonlat (vz r) (vx r) (- vy r) else to_lonlat (- vy r) (vx r) (vz r) in
  (map step (linspace2pi n), axes).

(** stereonet.py:163-200: only the diagonal of the covariance is used, [level]
    and the layout are ignored; an unknown sheet is a KeyError *)
Definition iterative_plane_errors (axes cov : mat3) (sheet : string) (level : R) (n : nat) : res points :=
  rbind (if String.eqb sheet "upper" then Ok 1 else if String.eqb sheet "lower" then Ok (-1)
         else if String.eqb sheet "nominal" then Ok 0 else Raise KeyError) (fun scale =>
  let d := diagonal cov in
  let c1 := scale * 2 * -1 in
  let c1 := if Rlt_dec (vz (r2 axes)) 0 then c1 * -1 else c1 in
  let step a :=
    let e := V3 (cos a * vx d) (sin a * vy d) (c1 * vz d) in
    let r := sdots e axes in to_lonlat (vz r) (vx r) (vy r) in
  Ok (map step (linspace2pi n))).

(** stereonet.py:202-227.  [normal + bundle] is an n x 3 array that is not
    transposed, so [_[2]], [_[0]], [_[1]] are its rows: IndexError for fewer
    than three.  [None] inside: square root of a negative entry. *)
Definition error_ellipse (axes cov : mat3) (level : R) (traditional : bool) (n : nat) : res points :=
  match vsqrt (r0 cov), vsqrt (r1 cov), vsqrt (r2 cov) with
  | Some d0, Some d1, Some _ =>
      let b := map (fun '(c, s) => vadd ez (vadd (vscale c d0) (vscale s d1))) (ellipse n) in
      match nth_error b 2, nth_error b 0, nth_error b 1 with
      | Some b2, Some b0, Some b1 =>
          let col (f : vec3 -> R) := if traditional then cart2sph (V3 (f b2) (f b0) (f b1))
                                     else cart2sph (V3 (- f b1) (f b0) (f b2)) in
          Ok [col vx; col vy; col vz]
      | _, _, _ => Raise IndexError
      end
  | _, _, _ => NonFinite
  end.

(** reconstructed.py:17-27, 90: the covariance of a reconstructed plane with two
    angular errors is diag(hyperbolic_axes); the girdle is drawn in the
    non-traditional layout with the default level and number of points. *)
Definition recon_covariance (p : recon) : option mat3 :=
  match rp_hyperbolic p with Some [a; b; c] => Some (mdiag (V3 a b c)) | _ => None end.
Definition cartopy_girdle (p : recon) (sheet : string) (n : nat) : option points :=
  obind (recon_covariance p) (fun cov => Some (plane_errors (rp_axes p) cov sheet 1 false n)).

(** display/stereonet.py:34-37: [girdle_error] negates longitude and latitude
    and reverses the lower sheet before drawing the two sheets as one path;
    the fit's axes and covariance and the default 1000 points are used. *)
Definition negate_both (p : R * R) : R * R := (- fst p, - snd p).
Definition girdle_error (axes cov : mat3) : points :=
  let err sheet := map (option_map negate_both) (plane_errors axes cov sheet 1 true 1000) in
  err "upper"%string ++ rev (err "lower"%string).
(** display/stereonet.py:43-54: [pole_error] negates the longitude only *)
Definition pole_error (axes cov : mat3) : points :=
  map (option_map (fun p => (- fst p, snd p))) (fst (normal_errors axes cov 1 true 1000)).

(** stereonet.py:229-259, in radians: the dictionary as association lists;
    with [levels = None] the entries of level 1 are merged next to 'nominal'.
    [Raise]/[NonFinite]: from [error_ellipse]. *)
Record shell : Type := mkShell { sh_upper : points; sh_lower : points; sh_ellipse : option points }.
Record coords : Type := mkCoords { co_nominal : points; co_single : option shell; co_levels : list (R * shell) }.
Definition error_shell (axes cov : mat3) (do_ellipse traditional : bool) (n : nat) (level : R) : res shell :=
  let u := plane_errors axes cov "upper" level traditional n in
  let l := plane_errors axes cov "lower" level traditional n in
  if do_ellipse then rbind (error_ellipse axes cov level traditional n) (fun e => Ok (mkShell u l (Some e)))
  else Ok (mkShell u l None).
Fixpoint error_shells (f : R -> res shell) (levels : list R) : res (list (R * shell)) :=
  match levels with
  | [] => Ok []
  | l :: t => rbind (f l) (fun s => rbind (error_shells f t) (fun r => Ok ((l, s) :: r)))
  end.
Definition error_coords (axes cov : mat3) (levels : option (list R)) (do_ellipse traditional : bool) (n : nat) : res coords :=
  let nominal := plane_errors axes cov "nominal" 1 traditional n in
  let f := error_shell axes cov do_ellipse traditional n in
  match levels with
  | None => rbind (f 1) (fun s => Ok (mkCoords nominal (Some s) []))
  | Some ls => rbind (error_shells f ls) (fun r => Ok (mkCoords nominal None r))
  end.
