(** Model of the stereonet object of frontend/packages/attitude/src/stereonet/index.ts, its
    labels (vertical.ts, horizontal.ts, labels.ts), d3's azimuthal equal-area projection it
    drives, and the updates of frontend/packages/notebook-ui/src/components/stereonet.ts. *)
From Coq Require Import Reals List Arith String Bool.
From Verif Require Import RVec Trig MPca MAxes MSphere MFront MUi.
Import ListNotations.
Open Scope R_scope.

(** * d3-geo *)
(** Written from the copy in frontend/packages/attitude/lib/d3v4+jetpack.js, version 4, part
    of the trusted base.  Longitudes are not wrapped: only their sines and cosines are used. *)
(** d3v4+jetpack.js:7337-7372: rotateRadians = rotationLambda then rotationPhiGamma, radians *)
Definition d3_rotate (rot : R * R * R) (q : R * R) : R * R :=
  let '(dl, dp, dg) := rot in
  let '(lam, phi) := (fst q + dl, snd q) in
  let x := cos lam * cos phi in let y := sin lam * cos phi in let z := sin phi in
  let k := z * cos dp + x * sin dp in
  (atan2 (y * cos dg - k * sin dg) (x * cos dp - z * sin dp), asin (k * cos dg + y * sin dg)).
(** d3v4+jetpack.js:7350-7354, 7374-7384: the inverse *)
Definition d3_unrotate (rot : R * R * R) (q : R * R) : R * R :=
  let '(dl, dp, dg) := rot in
  let '(lam, phi) := q in
  let x := cos lam * cos phi in let y := sin lam * cos phi in let z := sin phi in
  let k := z * cos dg - y * sin dg in
  (atan2 (y * cos dg + z * sin dg) (x * cos dp + k * sin dp) - dl, asin (k * cos dp - x * sin dp)).
(** d3v4+jetpack.js:9407-9417, 9432-9434 azimuthalEqualAreaRaw; the antipode of the centre
    has no place (infinity times zero) *)
Definition equal_area_raw (q : R * R) : option (R * R) :=
  let '(x, y) := q in
  let c := cos x * cos y in
  if Req_EM_T (1 + c) 0 then None
  else let k := sqrt (2 / (1 + c)) in Some (k * (cos y * sin x), k * sin y).
(** d3v4+jetpack.js:9419-9430, 9436-9438; asin is cut off at -1 and 1 as in the library *)
Definition equal_area_invert (q : R * R) : R * R :=
  let '(x, y) := q in
  let z := sqrt (x * x + y * y) in
  let c := 2 * asin (z / 2) in
  (atan2 (x * sin c) (z * cos c), asin (if Req_EM_T z 0 then z else y * sin c / z)).

(** The settings of the projection that the stereonet changes; [pr_clip] in degrees, [None]:
    no small-circle clipping; [pr_scale] [None]: not finite. *)
Record proj := mkProj { pr_clip : option R; pr_scale : option R; pr_translate : R * R; pr_rotate : R * R * R }.
Definition rad3 (r : R * R * R) : R * R * R := let '(a, b, c) := r in (radians a, radians b, radians c).
(** A point given in degrees, on the screen (y downwards); d3v4+jetpack.js:9147-9150. *)
Definition project (p : proj) (q : R * R) : option (R * R) :=
  obind (pr_scale p) (fun k =>
    obind (equal_area_raw (d3_rotate (rad3 (pr_rotate p)) (radians (fst q), radians (snd q)))) (fun '(x, y) =>
    Some (fst (pr_translate p) + k * x, snd (pr_translate p) - k * y))).
(** The point drawn at a place of the screen; d3v4+jetpack.js:9152-9155. *)
Definition unproject (p : proj) (s : R * R) : option (R * R) :=
  obind (pr_scale p) (fun k =>
    obind (fdiv (fst s - fst (pr_translate p)) k) (fun x =>
    obind (fdiv (snd (pr_translate p) - snd s) k) (fun y =>
    let '(lam, phi) := d3_unrotate (rad3 (pr_rotate p)) (equal_area_invert (x, y)) in
    Some (degrees lam, degrees phi)))).
(** projection.clipAngle(a): zero stands for no clipping *)
Definition set_clip (a : R) (p : proj) : proj :=
  mkProj (if Req_EM_T a 0 then None else Some a) (pr_scale p) (pr_translate p) (pr_rotate p).
Definition set_scale (k : option R) (p : proj) : proj := mkProj (pr_clip p) k (pr_translate p) (pr_rotate p).
Definition set_translate (t : R * R) (p : proj) : proj := mkProj (pr_clip p) (pr_scale p) t (pr_rotate p).
Definition set_rotate (r : R * R * R) (p : proj) : proj := mkProj (pr_clip p) (pr_scale p) (pr_translate p) r.

(** * stereonet/index.ts *)
(** [n_labels]: the projection for which the labels of globalLabels were last placed, once
    they are; [n_pending]: they were asked for before mounting (index.ts:388-396). *)
Record net := mkNet { n_margin : R; n_size : R; n_clipAngle : R; n_shouldClip : bool; n_rect : option (R * R);
                      n_mounted : bool; n_pending : bool; n_labels : option proj; n_proj : proj }.
(** index.ts:53-57, 74-79; d3's default translation is [480, 250] *)
Definition net0 : net := mkNet 20 300 90 true None false false None (mkProj (Some 90) (Some 300) (480, 250) (0, 0, 0)).
Definition with_proj (s : net) (p : proj) : net :=
  mkNet (n_margin s) (n_size s) (n_clipAngle s) (n_shouldClip s) (n_rect s) (n_mounted s) (n_pending s) (n_labels s) p.
Definition with_labels (s : net) (l : option proj) : net :=
  mkNet (n_margin s) (n_size s) (n_clipAngle s) (n_shouldClip s) (n_rect s) (n_mounted s) (n_pending s) l (n_proj s).
(** index.ts:169-197 [__setScale]; the size of the element is not part of the model *)
Definition setScale (n : option R) (s : net) : net :=
  let size := match n with Some n => n | None => n_size s end in
  let radius := if Req_EM_T (n_clipAngle s) 90 then size / (25 / 10) - n_margin s else size / 2 - n_margin s in
  let p := n_proj s in
  let p := if Rlt_dec (n_clipAngle s) 89 then
      let p' := if n_shouldClip s then set_clip (n_clipAngle s) p else p in
      set_translate (size / 2, size / 2) (set_scale (fdiv radius (sin (PI / 180 * n_clipAngle s))) p')
    else set_translate (size / 2, size / 2) (set_scale (Some radius) p) in
  mkNet (n_margin s) size (n_clipAngle s) (n_shouldClip s) (n_rect s) (n_mounted s) (n_pending s) (n_labels s) p.
(** The methods that change settings, with [Mount] for the call f(el) and [GlobalLabels] for
    f.call(globalLabels()); the third angle of [Center] and [Rotate] is 0 when left out. *)
Inductive call : Type :=
  Margin (m : R) | Size (n : R) | Scale (k : R) | Clip (b : bool) | ClipAngle (c : R) | Center (r : R * R * R) | CenterVertical
| Rotate (r : R * R * R) | Rectangular (w h : option R) | Mount | GlobalLabels.
Definition net_step (s : net) (c : call) : net :=
  match c with
  | Margin m =>                                                                    (* 282-287 *)
      mkNet m (n_size s) (n_clipAngle s) (n_shouldClip s) (n_rect s) (n_mounted s) (n_pending s) (n_labels s) (n_proj s)
  | Size n => setScale (Some n) s                                                  (* 288 *)
  | Scale k => with_proj s (set_scale (Some k) (n_proj s))                         (* 199, 289 *)
  | Clip b =>                                                                      (* 292-295 *)
      mkNet (n_margin s) (n_size s) (n_clipAngle s) b (n_rect s) (n_mounted s) (n_pending s) (n_labels s) (n_proj s)
  | ClipAngle c =>                                                                 (* 376-382 *)
      setScale None (mkNet (n_margin s) (n_size s) c (n_shouldClip s) (n_rect s) (n_mounted s) (n_pending s) (n_labels s)
                       (set_rotate (0, -90, 0) (n_proj s)))
  | Center r => with_proj s (set_rotate r (n_proj s))                              (* 365-374 *)
  | CenterVertical => with_proj s (set_rotate (0, 90, 0) (n_proj s))
  | Rotate r =>                                                                    (* 300-307; labels.ts:132 *)
      let s := with_proj s (set_rotate r (n_proj s)) in
      with_labels s (option_map (fun _ => n_proj s) (n_labels s))
  | Rectangular w h =>                                                             (* 318-324 *)
      let d := n_size s - 2 * n_margin s in
      let get x := match x with Some x => x | None => d end in
      mkNet (n_margin s) (n_size s) (n_clipAngle s) (n_shouldClip s) (Some (get w, get h)) (n_mounted s) (n_pending s) (n_labels s) (n_proj s)
  | Mount =>                                                                       (* 218-271 *)
      let s := setScale None s in
      let p := match n_rect s with                                                 (* 326-342 *)
               | None => n_proj s
               | Some (w, h) => set_translate (w / 2 + n_margin s, h / 2 + n_margin s) (set_clip 90 (n_proj s))
               end in
      mkNet (n_margin s) (n_size s) (n_clipAngle s) (n_shouldClip s) (n_rect s) true (n_pending s)
        (if n_pending s then Some p else n_labels s) p
  | GlobalLabels =>                                                                (* 388-396; labels.ts:59-133 *)
      if n_mounted s then with_labels s (Some (n_proj s))
      else mkNet (n_margin s) (n_size s) (n_clipAngle s) (n_shouldClip s) (n_rect s) false true (n_labels s) (n_proj s)
  end.
Definition net_run (s : net) (cs : list call) : net := fold_left net_step cs s.
(** the getters of index.ts:288-289 *)
Definition get_size (s : net) : R := n_size s.
Definition get_scale (s : net) : R := n_size s.
(** index.ts:309-312 [centerPosition] *)
Definition centre_position (s : net) : option (R * R) := unproject (n_proj s) (n_size s / 2, n_size s / 2).

(** * stereonet/vertical.ts *)
(** vertical.ts:34-64: screen position of the compass labels, [i] = 0 to 3 *)
Definition compass_label (labelPadding : R) (s : net) (i : nat) : R * R :=
  let inner := n_size s / 2 - n_margin s in
  let szm := inner + n_margin s in
  let angle := (nth i [0; 90; 180; 270] 0 - 90) * PI / 180 in
  let z := inner + labelPadding + 5 in
  let x := szm + cos angle * z in
  let y := szm + sin angle * z in
  (x, if (i =? 0)%nat then y - 3 else y).
(** vertical.ts:68-77: coordinates of the label of a dip *)
Definition dip_label (d : R) : R * R := (220, 90 - d).

(** * stereonet/labels.ts *)
Inductive lname : Set := LN | LE | LS | LW | LUp | LDown.
(** labels.ts:17-24 *)
Definition label_at (n : lname) : R * R :=
  match n with LN => (180, 0) | LE => (90, 0) | LS => (0, 0) | LW => (-90, 0) | LUp => (0, 90) | LDown => (0, -90) end.
(** labels.ts:106-113: shown or not, from the angular distance to the centre *)
Definition label_shown (n : lname) (dist : R) : bool :=
  if (match n with LUp | LDown => true | _ => false end) && (if Rlt_dec dist (PI / 4) then true else false) then false
  else if Rlt_dec dist (1 / 100) then false
  else if Rlt_dec (PI / 2 + 1 / 100) dist then false else true.
(** labels.ts:84-92: 0 for "end", 1 for "middle", 2 for "start" *)
Definition text_anchor (width x : R) : nat :=
  if Rlt_dec x (width / 2 - 20) then 0%nat else if Rlt_dec x (width / 2 + 20) then 1%nat else 2%nat.

(** * notebook-ui/src/components/stereonet.ts *)
(** Props compared by identity: numbers stand for references, [None] for null. *)
Record props := mkProps { pp_data : nat; pp_planes : bool; pp_poles : bool; pp_hovered : option nat; pp_center : nat }.
(** What is drawn: the data of each layer, the hovered layer with the two switches it was
    drawn for, and the centre last given to the stereonet ([None]: never). *)
Record layers := mkLayers { ly_planes : option nat; ly_poles : option nat; ly_hovered : option (nat * bool * bool); ly_center : option nat }.
Section Component.
  (** whether the referenced array of hovered items is empty *)
  Variable is_empty : nat -> bool.
  (** stereonet.ts:125-146 *)
  Definition update_planes (p : props) (l : layers) : layers :=
    mkLayers (if pp_planes p then Some (pp_data p) else None) (ly_poles l) (ly_hovered l) (ly_center l).
  (** stereonet.ts:148-162 *)
  Definition update_poles (p : props) (l : layers) : layers :=
    mkLayers (ly_planes l) (if pp_poles p then Some (pp_data p) else None) (ly_hovered l) (ly_center l).
  (** stereonet.ts:97-123; with both switches off nothing is drawn *)
  Definition hovered_layer (p : props) : option (nat * bool * bool) :=
    match pp_hovered p with
    | None => None
    | Some h => if is_empty h then None
                else if pp_planes p || pp_poles p then Some (h, pp_planes p, pp_poles p) else None
    end.
  Definition update_hovered (p : props) (l : layers) : layers :=
    mkLayers (ly_planes l) (ly_poles l) (hovered_layer p) (ly_center l).
  (** stereonet.ts:51-70 [componentDidMount]: hovered items and the centre are not used *)
  Definition did_mount (p : props) : layers := update_planes p (update_poles p (mkLayers None None None None)).
  Definition opt_neq (a b : option nat) : bool :=
    match a, b with Some x, Some y => negb (x =? y)%nat | None, None => false | _, _ => true end.
  (** stereonet.ts:72-95 [componentDidUpdate]; the local variables become null *)
  Definition did_update (prev p : props) (l : layers) : layers :=
    let '(planes, poles) := if (pp_data p =? pp_data prev)%nat then (Some (pp_planes p), Some (pp_poles p)) else (None, None) in
    let differs (a : bool) (b : option bool) := match b with None => true | Some b => negb (Bool.eqb a b) end in
    let '(l, hov) := if differs (pp_planes prev) planes then (update_planes p l, None) else (l, pp_hovered p) in
    let '(l, hov) := if differs (pp_poles prev) poles then (update_poles p l, None) else (l, hov) in
    let l := if (pp_center prev =? pp_center p)%nat then l else mkLayers (ly_planes l) (ly_poles l) (ly_hovered l) (Some (pp_center p)) in
    if opt_neq (pp_hovered prev) hov then update_hovered p l else l.
  Fixpoint updates (prev : props) (l : layers) (ps : list props) : layers :=
    match ps with [] => l | p :: ps => updates p (did_update prev p l) ps end.
End Component.
(** stereonet.ts:181-231 InteractiveStereonetComponent: the switches and the button; every
    click on the button makes a new centre, [0, -90] in [ic_center] numbered from 1. *)
Record inter := mkInter { ic_planes : bool; ic_poles : bool; ic_center : nat }.
Inductive click : Set := SwitchPlanes | SwitchPoles | Vertical.
Definition inter0 (planes poles : option bool) : inter :=
  mkInter (match planes with Some b => b | None => false end) (match poles with Some b => b | None => true end) 0.
Definition inter_step (s : inter) (c : click) : inter :=
  match c with
  | SwitchPlanes => mkInter (negb (ic_planes s)) (ic_poles s) (ic_center s)
  | SwitchPoles => mkInter (ic_planes s) (negb (ic_poles s)) (ic_center s)
  | Vertical => mkInter (ic_planes s) (ic_poles s) (S (ic_center s))
  end.

(** * stereonet/horizontal.ts *)
(** horizontal.ts:43-64: positions of "E" and "W", without the offset of the text *)
Definition side_label (s : net) (east : bool) : R * R :=
  (n_margin s + (if east then n_size s - 2 * n_margin s else 0), n_size s / 2).

(** * notebook-ui/src/components/data-panel.ts *)
Inductive jsval : Type := Undef | Null | Num (x : R).
Section Panel.
  (** d3.format("3.1f") *)
  Variable fmt : R -> string.
  (** data-panel.ts:13-21; the empty string is formatted as the number 0 *)
  Definition measurement (v : jsval) : string := match v with Num x => fmt x | _ => fmt 0 end.
  (** data-panel.ts:58: undefined compares as NaN and null as 0 *)
  Definition below (v : jsval) (b : R) : bool :=
    match v with Undef => false | Null => if Rlt_dec 0 b then true else false | Num x => if Rlt_dec x b then true else false end.
  (** data-panel.ts:56-65: [None] for "No errors recorded" *)
  Definition angular_errors (mn mx : jsval) : option (string * string) :=
    if below mn (1 / 100) && below mx (1 / 100) then None else Some (measurement mn, measurement mx).
End Panel.

(** * Settings of opacityByCertainty, stereonet/index.ts:461-490 *)
(** [oc_dom]: upper end of the domain [0, d] of the scale.  [SetMax] changes a variable that
    only the definition of the scale reads.  The getters call the value itself
    (index.ts:28-43): a number, an array or a function of a measurement without one. *)
Record oc := mkOc { oc_dom : R; oc_max : R }.
Definition oc0 : oc := mkOc 5 5.
Inductive oc_call : Type := SetMax (v : R) | SetDomain (d : R) | GetMax | GetDomain | GetAngularError.
Definition oc_step (s : oc) (c : oc_call) : res oc :=
  match c with
  | SetMax v => Ok (mkOc (oc_dom s) v)
  | SetDomain d => Ok (mkOc d (oc_max s))
  | GetMax | GetDomain | GetAngularError => Raise TypeError
  end.
Fixpoint oc_run (s : oc) (cs : list oc_call) : res oc :=
  match cs with [] => Ok s | c :: cs => rbind (oc_step s c) (fun s => oc_run s cs) end.
(** index.ts:467-473: opacity of the fill *)
Definition oc_fill (k : R) (s : oc) (e : R) : R := alpha_scale k (oc_dom s) e.
