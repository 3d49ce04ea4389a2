(** Model of the error ellipse of a regression fit (attitude/orientation/base.py) and of
    attitude/display/plot/__init__.py.  Matplotlib's patches and axes are outside: a drawing
    is the list of patches handed to it, vertices with their opacity. *)
From Coq Require Import Reals List Arith String.
From Verif Require Import RVec Trig LNum SpecConics MPca MAxes MSphere MRecon MStereo MConics MShape MLinear MCoord.
Import ListNotations.
Open Scope R_scope.

(** base.py:62 covariance_matrix[:2,:2] *)
Definition cov2 (V : mat3) : matn := fun i j =>
  match i, j with
  | O, O => vx (r0 V) | O, _ => vy (r0 V) | _, O => vx (r1 V) | _, _ => vy (r1 V)
  end.
(** base.py:59-63; 1000 points is the default of [ellipse] *)
Definition l_ellipse (svd : svdn_fn) (level : R) (f : linear) : list (R * R) :=
  cov_ellipse svd (vx (l_coef f), vy (l_coef f)) (cov2 (l_cov f)) level 1000.
(** base.py:65-73, one row of [e]; the two returned arrays as pairs *)
Definition l_vertex (f : linear) (spherical vector : bool) (e : R * R) : R * R :=
  if spherical then
    let slope := atan (- fst e) in
    let azimuth := l_azimuth f + atan2 (- snd e) (- fst e) in
    let azimuth := if vector then azimuth + PI / 2 else azimuth in
    (PI + azimuth, PI / 2 - slope)
  else (snd e, fst e).
Definition l_error_ellipse (svd : svdn_fn) (spherical vector : bool) (level : R) (f : linear) : list (R * R) :=
  map (l_vertex f spherical vector) (l_ellipse svd level f).

(** The orientations the plot functions receive.  Reconstructed planes are left out: they
    have neither [coefficients] nor a 2-d [covariance_matrix] of slopes. *)
Inductive orientation : Type := OLinear (f : linear) | OPca (f : pca).
(** [orientation.error_ellipse(...)]: base.py:65-73 or pca.py:469-477, where [spherical] and
    [vector] are not read.  The call may write to a PCA fit. *)
Definition orient_ellipse (svd : svdn_fn) (spherical vector : bool) (level : R) (o : orientation)
  : res (list (option (R * R))) * orientation :=
  match o with
  | OLinear f => (Ok (map Some (l_error_ellipse svd spherical vector level f)), o)
  | OPca f => let '(r, f) := pca_error_ellipse svd level f in (r, OPca f)
  end.

(** mplstereonet.stereonet_math.line *)
Definition line_point (plunge bearing : R) : option (R * R) := rotate_sph 0 (90 - plunge) bearing.

(** The keyword [alpha]: a number or a list of numbers. *)
Inductive alpha : Type := ANum (x : R) | AList (l : list R).
(** plot/__init__.py:27-29 and three more times: [len] of a number raises; a list of another
    length is repeated as a whole *)
Definition alphas (a : alpha) (levels : list R) : res (list alpha) :=
  match a with
  | ANum _ => Raise TypeError
  | AList l => if (List.length l =? List.length levels)%nat then Ok (map ANum l)
               else Ok (repeat (AList l) (List.length levels))
  end.

(** A patch: vertices (NaN: [None]) and opacity. *)
Definition patch : Type := list (option (R * R)) * alpha.
(** The loop over the levels (31-37, 48-53, 84-98); [place] turns a pair of degrees into a
    vertex.  Patches already added when a later level raises are not kept. *)
Fixpoint draw (svd : svdn_fn) (spherical vector : bool) (place : R * R -> option (R * R))
  (las : list (R * alpha)) (o : orientation) : res (list patch) * orientation :=
  match las with
  | [] => (Ok [], o)
  | (level, a) :: las =>
      let '(r, o) := orient_ellipse svd spherical vector level o in
      match r with
      | Ok el =>
          let vs := map (fun p => obind p (fun '(x, y) => place (degrees x, degrees y))) el in
          let '(r, o) := draw svd spherical vector place las o in
          (rbind r (fun ps => Ok ((vs, a) :: ps)), o)
      | Raise e => (Raise e, o)
      | NonFinite => (NonFinite, o)
      end
  end.
Definition drawn (svd : svdn_fn) (spherical vector : bool) (place : R * R -> option (R * R))
  (a : alpha) (levels : list R) (o : orientation) : res (list patch) * orientation :=
  match alphas a levels with
  | Ok l => draw svd spherical vector place (combine levels l) o
  | Raise e => (Raise e, o)
  | NonFinite => (NonFinite, o)
  end.
Definition or_default {A} (d : A) (x : option A) : A := match x with None => d | Some y => y end.
(** plot/__init__.py:18-37 *)
Definition trend_plunge (svd : svdn_fn) (levels : option (list R)) (a : option alpha) (o : orientation) :=
  drawn svd true true (fun '(t, p) => line_point p t) (or_default (AList [7 / 10]) a) (or_default [1] levels) o.
(** plot/__init__.py:39-54; the default opacity is a number *)
Definition normal_plot (svd : svdn_fn) (levels : option (list R)) (a : option alpha) (o : orientation) :=
  drawn svd true true (fun '(t, p) => line_point p t) (or_default (ANum (7 / 10)) a) (or_default [1] levels) o.
(** plot/__init__.py:74-98; [line(el[0], el[1])] gives the first array as the plunge *)
Definition strike_dip_plot (svd : svdn_fn) (levels : option (list R)) (spherical : bool) (a : option alpha) (o : orientation) :=
  drawn svd spherical false (fun '(x, y) => if spherical then line_point x y else Some (x, 90 - y))
    (or_default (AList [1]) a) (or_default [1] levels) o.
(** plot/__init__.py:121-148: the opacities and levels of the figure; its axis labels are
    "Strike" for the first coordinate and "Dip" for the second *)
Definition error_ellipse_figure (svd : svdn_fn) (o : orientation) :=
  strike_dip_plot svd (Some [1; 2; 3]) false (Some (AList [1 / 2; 2 / 5; 3 / 10])) o.

(** [a,b = v] *)
Definition unpack2 {A} (l : list A) : res (A * A) := match l with [a; b] => Ok (a, b) | _ => Raise ValueError end.
(** plot/__init__.py:56-72: the list of points (stereonet.py:118) is unpacked as a pair.  A
    regression fit has no [plane_errors].  [c]: the diagonal of the covariance. *)
Definition plane_confidence (levels : list R) (a : alpha) (c : vec3) (o : orientation) : res unit :=
  rbind (alphas a levels) (fun _ =>
  match levels with
  | [] => Ok tt
  | _ :: _ =>
      match o with
      | OLinear _ => Raise AttributeError
      | OPca f => rbind (unpack2 (MStereo.plane_errors (p_axes f) (mdiag c) "upper" 1 true 1000)) (fun _ => Ok tt)
      end
  end).

(** plot/__init__.py:100-112 without the drawing: [arr]; [z] is a row of randn, sigma[2] is
    (0, 0, s_2) *)
Definition mc_vector (f : pca) (c : vec3) (level : R) (z : vec3) : vec3 :=
  vm (vadd (vmul (vscale level z) c) (V3 0 0 (vz (p_s f)))) (p_axes f).
(** 107-112: strike and dip handed to [ax.pole], which draws [pole strike dip]; [None]: a zero
    vector *)
Definition mc_point (v : vec3) : option (R * R) :=
  obind (fdiv (vz v) (norm v)) (fun q => pole (degrees (atan2 (vx v) (vy v))) (degrees (acos q))).
Definition strike_dip_montecarlo (draws : list vec3) (level : R) (f : pca) : option (list (option (R * R))) :=
  option_map (fun c => map (fun z => mc_point (mc_vector f c level z)) draws) (covariance_noise f).
