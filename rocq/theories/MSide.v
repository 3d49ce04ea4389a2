(** Model of the section view: frontend/packages/attitude/src/hyperbola.ts (placing, drawing
    state, PlaneData) and frontend/packages/notebook-ui/src/components/side-view.ts. *)
From Coq Require Import Reals List Arith Bool.
From Verif Require Import RVec Trig MPca MAxes MFront.
Import ListNotations.
Open Scope R_scope.

(** * Quaternions, frontend/packages/attitude/lib/attitude.js:68297-68315, 68413-68429 *)
Record quat := mkQ { q_w : R; q_x : R; q_y : R; q_z : R }.
Definition from_axis_angle (axis : vec3) (angle : R) : option quat :=
  let half := angle * (1 / 2) in
  option_map (fun s => mkQ (cos half) (vx axis * s) (vy axis * s) (vz axis * s)) (fdiv (sin half) (norm axis)).
Definition to_matrix (q : quat) : mat3 :=
  let '(mkQ w x y z) := q in
  let n := w * w + x * x + y * y + z * z in
  let s := if Req_EM_T n 0 then 0 else 2 / n in
  let wx := s * w * x in let wy := s * w * y in let wz := s * w * z in
  let xx := s * x * x in let xy := s * x * y in let xz := s * x * z in
  let yy := s * y * y in let yz := s * y * z in let zz := s * z * z in
  M3 (V3 (1 - (yy + zz)) (xy - wz) (xz + wy)) (V3 (xy + wz) (1 - (xx + zz)) (yz - wx)) (V3 (xz - wy) (yz + wx) (1 - (xx + yy))).
(** [Q.fromAxisAngle([0,0,1], angle)] as [matrix] turns it into one (hyperbola.ts:37-44);
    NaN in the vector that it multiplies if there is none. *)
Definition turn_z (angle : R) : option mat3 := option_map to_matrix (from_axis_angle ez angle).

(** * Scales *)
(** A linear scale: its value at 0 and the difference for one unit (hyperbola.ts:75) *)
Record scale := mkScale { sc_zero : R; sc_ratio : R }.
Definition sc_at (s : scale) (v : R) : R := sc_zero s + sc_ratio s * v.

(** * Places *)
(** [d.offset]: missing, a point in space or one on the screen *)
Inductive place : Type := Nowhere | Space (v : vec3) | Flat (x y : R).
(** hyperbola.ts:168-171, 243-257: where the group is translated to, and [__z] *)
Definition error_place (angle : R) (axes : mat3) (xs ys : scale) (offset : place) : option ((R * R) * R) :=
  let offset := match offset with Nowhere => Space vzero | o => o end in
  match offset with
  | Flat x y => Some ((sc_at xs x, sc_at ys y), 1)
  | Nowhere => None
  | Space v =>
      obind (turn_z (angle + PI)) (fun q =>
      let offs := vm (vm v axes) q in
      let center := (sc_at xs (vx offs) - sc_at xs 0, sc_at ys (vz offs) - sc_at ys 0) in
      Some ((- fst center + sc_at xs 0, sc_at ys 0 + snd center), vy offs))
  end.
(** hyperbola.ts:120-127: where createTransform translates to *)
Definition trace_place (viewpoint : R) (xs ys : scale) (offset : vec3) : option (R * R) :=
  obind (turn_z viewpoint) (fun q => let offs := vm offset q in Some (sc_at xs (vx offs), sc_at ys (vz offs))).
(** An SVG transform "translate(t) rotate(v)", [v] in degrees *)
Definition svg (t : R * R) (v : R) (p : R * R) : R * R :=
  (fst t + (cos (radians v) * fst p - sin (radians v) * snd p), snd t + (sin (radians v) * fst p + cos (radians v) * snd p)).

(** hyperbola.ts:393-408 digitizedLine: the coordinates given to the line generator, which
    applies the scales (side-view.ts:128-131) *)
Definition digitized (axes : mat3) (viewpoint : R) (centered : list vec3) (offset : vec3) : option (list (R * R)) :=
  obind (turn_z viewpoint) (fun q =>
  let r := mT axes in
  let offs := vm offset r in
  Some (map (fun p => let a := vm (vadd (vm p r) offs) q in (vx a, vz a)) centered)).
Definition digitized_screen (xs ys : scale) (axes : mat3) (viewpoint : R) (centered : list vec3) (offset : vec3) : option (list (R * R)) :=
  option_map (map (fun '(x, y) => (sc_at xs x, sc_at ys y))) (digitized axes viewpoint centered offset).
(** hyperbola.ts:441-456 apparentDip for a path: its points before the transform *)
Definition trace_points (axes : mat3) (viewpoint ratioX ratioY : R) (centered : list vec3) : list (R * R) :=
  let cv := cos viewpoint in let sv := sin viewpoint in
  let ra := M3 (V3 cv (- sv) 0) (V3 sv cv 0) (V3 0 0 1) in
  map (fun p => let a := vm (vm p (mT axes)) ra in (vx a * ratioX, vz a * ratioY)) centered.
(** hyperbola.ts:426-463: the points on the screen.  The transform is that of the group, if
    there is one, whose axes are used. *)
Definition trace_screen (fuel : nat) (axes : mat3) (viewpoint : R) (xs ys : scale) (centered : list vec3) (offset : vec3) : option (list (R * R)) :=
  obind (trace_place viewpoint xs ys offset) (fun t =>
  obind (trace_rotation fuel (r2 axes) viewpoint (sc_ratio xs) (sc_ratio ys)) (fun v =>
  Some (map (svg t v) (trace_points axes viewpoint (sc_ratio xs) (sc_ratio ys) centered)))).
(** hyperbola.ts:457-460: a line of the given width *)
Definition trace_line (fuel : nat) (axes : mat3) (viewpoint : R) (xs ys : scale) (width : R) (offset : vec3) : option ((R * R) * (R * R)) :=
  obind (trace_place viewpoint xs ys offset) (fun t =>
  obind (trace_rotation fuel (r2 axes) viewpoint (sc_ratio xs) (sc_ratio ys)) (fun v =>
  Some (svg t v (- width / 2, 0), svg t v (width / 2, 0)))).

(** hyperbola.ts:243-290: the points of an error polygon on the screen, for the identity as
    the axes of the view.  Here the rotation is that of the plane itself. *)
Definition error_screen (fuel : nat) (axes : mat3) (angle : R) (xs ys : scale) (offset : place) (poly : list (R * R)) : option (list (R * R)) :=
  obind (error_place angle mid xs ys offset) (fun '(t, _) =>
  obind (trace_rotation fuel (r2 axes) angle (sc_ratio xs) (sc_ratio ys)) (fun v => Some (map (svg t v) poly))).

(** * State of the function that hyperbolicErrors returns, hyperbola.ts:132-154, 352-386 *)
(** [h_flat]: the line generator has been replaced by the one that scales both coordinates
    by the horizontal ratio (277-281). *)
Record hstate := mkH { h_width : R; h_nominal : bool; h_scaled : bool; h_flat : bool }.
Definition h0 : hstate := mkH 400 false true false.
(** The setters with a value; a null value only reads. *)
Inductive hcall : Type := HWidth (w : option R) | HNominal (b : option bool) | HScale (b : option bool) | HDraw.
(** 273-281 and 313-317: what drawing a polygon does to the state *)
Definition h_step (s : hstate) (c : hcall) : hstate :=
  match c with
  | HWidth (Some w) => mkH w (h_nominal s) (h_scaled s) (h_flat s)
  | HNominal (Some b) => mkH (h_width s) b (h_scaled s) (h_flat s)
  | HScale (Some b) => mkH (h_width s) (h_nominal s) b (h_flat s)
  | HWidth None | HNominal None | HScale None => s
  | HDraw => mkH (h_width s) (h_nominal s) (h_scaled s) (if h_scaled s then h_flat s else true)
  end.
Definition h_run (cs : list hcall) : hstate := fold_left h_step cs h0.
(** The polygon drawn by the last of the calls, in pixels, before the transform *)
Definition h_polygon (cs : list hcall) (a b ratioX ratioY : R) : list (R * R) :=
  let s := h_run (cs ++ [HDraw]) in
  map (fun '(x, y) => (x * ratioX, y * (if h_flat s then ratioX else ratioY))) (outline a b (h_width s) ratioX).
(** 195-208, 293-295: half the side of the mask *)
Definition mask_size (s : hstate) (a b screenRatio : R) : R :=
  let cut2 := if h_scaled s then atan2 b (a * screenRatio) else atan2 b a in
  Rabs (h_width s / 2 * cos cut2).

(** * Elements kept between updates, side-view.ts:182-221 *)
(** One [g.error-hyperbola]: the plane it was given last, the class "in_group" set at every
    drawing (hyperbola.ts:292), the class "in-group" and the size of the mask, both set when
    it is made (202-204; hyperbola.ts:294-307). *)
Record elem := mkElem { el_plane : nat; el_in_group : bool; el_grouped : bool; el_mask : R }.
(** [depth] is [__z] of a plane, [mask] the size computed for it at this update, [grouped]
    whether it has a group.  selectAll takes the elements in document order and data joins
    them with the planes by position; missing ones are appended. *)
Fixpoint join (grouped : nat -> bool) (mask : nat -> R) (planes : list nat) (els : list elem) : list elem :=
  match planes, els with
  | [], _ => els
  | p :: ps, e :: es => mkElem p (grouped p) (el_grouped e) (el_mask e) :: join grouped mask ps es
  | p :: ps, [] => mkElem p (grouped p) (grouped p) (mask p) :: join grouped mask ps []
  end.
(** selection.sort: by [__z], equal ones in their order *)
Fixpoint insert_elem (depth : nat -> R) (e : elem) (l : list elem) : list elem :=
  match l with
  | [] => [e]
  | x :: t => if Rlt_dec (depth (el_plane x)) (depth (el_plane e)) then x :: insert_elem depth e t else e :: l
  end.
Definition sort_elems (depth : nat -> R) (l : list elem) : list elem := fold_right (insert_elem depth) [] l.
Definition update_elems (grouped : nat -> bool) (n : nat) (els : list elem) (view : (nat -> R) * (nat -> R)) : list elem :=
  sort_elems (fst view) (join grouped (snd view) (seq 0 n) els).
(** [views]: depths and mask sizes of the planes at the azimuths shown, in order *)
Definition elems_after (grouped : nat -> bool) (n : nat) (views : list ((nat -> R) * (nat -> R))) : list elem :=
  fold_left (update_elems grouped n) views [].

(** * The azimuth, side-view.ts:184, 246-247 and notebook-ui/src/index.ts:130-134 *)
Definition view_angle (azimuth : R) : R := azimuth - PI / 2.
(** the number of "Distance along ..", before formatting *)
Definition az_label (fuel : nat) (azimuth : R) : option R :=
  option_map (fun a => a * 180 / PI) (fix_angle fuel (view_angle azimuth + PI)).
Definition rotate_azimuth (pos : R * R) : R := - PI / 180 * fst pos.

(** * PlaneData, hyperbola.ts:482-508 *)
(** The fields of a measurement that are read; [None]: null or undefined.  An array is true
    as a condition even if empty. *)
Record raw := mkRaw { rw_mean : option vec3; rw_center : option vec3; rw_extracted : option (list vec3);
                      rw_centered : option (list vec3) }.
Record pdata := mkPd { pd_mean : option vec3; pd_array : option (list vec3); pd_centered : option (list vec3) }.
Definition or_else {A} (a b : option A) : option A := match a with Some _ => a | None => b end.
(** [mean]: the second argument, given for groups (side-view.ts:72).  In the constructor it
    hides the imported function of that name (9), so that computing a mean calls null. *)
Definition plane_data_of (mean : option vec3) (d : raw) : res pdata :=
  let m := or_else mean (or_else (rw_mean d) (rw_center d)) in
  match rw_extracted d with
  | None => Ok (mkPd m None (rw_centered d))
  | Some arr =>
      match m with
      | None => Raise TypeError
      | Some v => Ok (mkPd m (Some arr) (Some (match rw_centered d with Some c => c | None => map (fun p => vsub p v) arr end)))
      end
  end.

(** * Hovering, side-view.ts:172-180, 250-263 *)
(** Whether the trace of each plane has its own colour rather than a darker one.  [None]: null. *)
Definition hover_strokes (uids : list nat) (hovered : option (list nat)) (strokes : list bool) : list bool :=
  match hovered with None => strokes | Some ids => map (fun u => existsb (Nat.eqb u) ids) uids end.
Definition strokes_after (uids : list nat) (props : list (option (list nat))) : list bool :=
  fold_left (fun st h => hover_strokes uids h st) props (map (fun _ => false) uids).
