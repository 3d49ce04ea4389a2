(** Model of attitude/orientation/reconstructed.py. *)
From Coq Require Import Reals Lra List.
From Verif Require Import RVec Trig MPca MAxes MSphere.
Import ListNotations.
Open Scope R_scope.

(** reconstructed.py:47-53 [vec]: roll by -1 turns (x,y,z) into (y,z,x) *)
Definition vec_of (p : R * R) : vec3 :=
  let c := sph2cart p in V3 (vy c * -1) (vz c * -1) (vx c * 1).

(** Fields of a ReconstructedPlane; [rp_hyperbolic] is [None] when an angular
    error makes the length infinite. *)
Record recon : Type := mkRecon {
  rp_strike : R; rp_dip : R; rp_rake : R;
  rp_errors : list R;
  rp_normal : vec3;
  rp_axes : mat3;
  rp_hyperbolic : option (list R) }.

(** [normal_error/tan(e)]: infinite for sin e = 0; for cos e = 0 the float
    tangent is about 1e16, idealised to an infinite tangent. *)
Definition over_tan (normal_error e : R) : option R := fdiv (normal_error * cos e) (sin e).

Fixpoint sequence {A} (l : list (option A)) : option (list A) :=
  match l with
  | [] => Some []
  | Some a :: t => match sequence t with Some t' => Some (a :: t') | None => None end
  | None :: _ => None
  end.

(** reconstructed.py:46-90.  The matrix T of line 83 is never used and
    [transform] cannot raise (a zero cross product only gives NaN), so it is
    left out.  [vstack] copies, so negating [self.axes] (86) does not touch
    [self.normal]. *)
Definition ReconstructedPlane (strike dip rake : R) (angular_errors : list R) (normal_error : R)
  : option recon :=
  let errors := map (fun a => radians a / 2) angular_errors in
  obind (pole strike dip) (fun p =>
  let normal := vec_of p in
  obind (rake_line strike dip rake) (fun ll =>
  let max_angle := vec_of ll in
  let min_angle := cross normal max_angle in
  let ax := M3 min_angle max_angle normal in
  let axes := if Rlt_dec (vz (r2 ax)) 0 then mneg ax else ax in
  let lengths := sequence (map (over_tan normal_error) (rev errors)) in
  Some {| rp_strike := strike; rp_dip := dip; rp_rake := rake; rp_errors := angular_errors;
          rp_normal := normal; rp_axes := axes;
          rp_hyperbolic := option_map (fun l => l ++ [normal_error]) lengths |})).

(** reconstructed.py:92-96 *)
Definition rp_strike_dip_rake (p : recon) : R * R * R := (rp_strike p, rp_dip p, rp_rake p).
Definition rp_angular_errors (p : recon) : list R := rp_errors p.
