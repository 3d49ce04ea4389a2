(** Spherical coordinates: the parts of mplstereonet's stereonet_math module
    that attitude calls.  The library is not in /repo; these follow its
    published source (sph2cart, cart2sph, _rotate about x, pole, rake) and are
    part of the trusted base. *)
From Coq Require Import Reals Lra List.
From Verif Require Import RVec Trig.
Open Scope R_scope.

(** mplstereonet.stereonet_math.sph2cart(lon, lat), radians *)
Definition sph2cart (p : R * R) : vec3 :=
  let '(lon, lat) := p in V3 (cos lat * cos lon) (cos lat * sin lon) (sin lat).

(** mplstereonet.stereonet_math.cart2sph(x, y, z): not finite for the zero vector *)
Definition cart2sph (v : vec3) : option (R * R) :=
  if Req_EM_T (norm v) 0 then None
  else Some (atan2 (vy v) (vx v), asin (vz v / norm v)).

(** mplstereonet.stereonet_math._rotate_x *)
Definition rotate_x (v : vec3) (theta : R) : vec3 :=
  V3 (vx v) (vy v * cos theta + vz v * sin theta) (- (vy v) * sin theta + vz v * cos theta).

(** mplstereonet.stereonet_math._rotate(lon, lat, theta): degrees in, radians out *)
Definition rotate_sph (lon lat theta : R) : option (R * R) :=
  cart2sph (rotate_x (sph2cart (radians lon, radians lat)) (radians theta)).

(** mplstereonet.stereonet_math.pole *)
Definition pole (strike dip : R) : option (R * R) :=
  let '(strike, dip) := if Rlt_dec 90 dip then (strike + 180, 180 - dip) else (strike, dip) in
  rotate_sph (- dip) 0 strike.

(** mplstereonet.stereonet_math.rake *)
Definition rake_line (strike dip rake_angle : R) : option (R * R) :=
  let rake_angle := if Rlt_dec rake_angle 0 then rake_angle + 180 else rake_angle in
  rotate_sph (90 - dip) (90 - rake_angle) strike.
