(** Model of attitude/display/cartopy.py: the girdle and the error cone of a fit on a map. *)
From Coq Require Import Reals List String.
From Verif Require Import RVec Trig MPca MAxes MAxes2 MStereo.
Import ListNotations.
Open Scope R_scope.

(** shapely's Polygon: an outer ring and its holes, longitudes and latitudes in degrees;
    [None] is a vertex that is not a number.  Its validity is not looked at. *)
Record polygon : Type := mkPolygon { pl_outer : points; pl_holes : list points }.
(** N.degrees of a list of pairs *)
Definition in_degrees (l : points) : points := map (option_map (fun p => (degrees (fst p), degrees (snd p)))) l.

(** cartopy.py:17-24; the number of points and the layout are the defaults of
    stereonet.py:78-118, the keywords go to hyperbolic_axes only *)
Definition cartopy_girdle (st : stats) (f : pca) (kw : dict) : res polygon :=
  rbind (hyperbolic_axes_kw st (Fitted f) kw) (fun d =>
  let cm := mdiag d in
  let sheet i := in_degrees (plane_errors (p_axes f) cm i 1 true 1000) in
  Ok (mkPolygon (sheet "upper"%string) [rev (sheet "lower"%string)])).
(** cartopy.py:26-32, with the fit as it is left behind: normal_errors is given the array
    of the fit's axes *)
Definition cartopy_normal (st : stats) (f : pca) (kw : dict) : res polygon * pca :=
  match hyperbolic_axes_kw st (Fitted f) kw with
  | Ok d => let '(pts, axes) := normal_errors (p_axes f) (mdiag d) 1 true 1000 in
            (Ok (mkPolygon (in_degrees pts) []), with_axes f axes)
  | Raise e => (Raise e, f)
  | NonFinite => (NonFinite, f)
  end.

(** A session: calls one after the other on one fit, each result and the fit at the end *)
Inductive mapped := Girdle (kw : dict) | Cone (kw : dict).
Definition map_step (st : stats) (f : pca) (c : mapped) : res polygon * pca :=
  match c with Girdle kw => (cartopy_girdle st f kw, f) | Cone kw => cartopy_normal st f kw end.
Fixpoint map_run (st : stats) (f : pca) (cs : list mapped) : pca :=
  match cs with [] => f | c :: cs => map_run st (snd (map_step st f c)) cs end.
