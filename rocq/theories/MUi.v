(** Model of the state kept by the browser pages: the web application's sheet
    (frontend/packages/webapp/src), the notebook's selection and hover
    (frontend/packages/notebook-ui/src) and the stereonet's dragging and styles
    (frontend/packages/attitude/src/stereonet, frontend/packages/plots/src).
    Drawing and React itself are left out. *)
From Coq Require Import Reals Lra Lia List Arith String ZArith Bool.
From Verif Require Import RVec Trig MPca MAxes MFront.
Import ListNotations.
Open Scope R_scope.
Notation length := List.length.

(** * webapp/src/sheet.ts *)
(** A cell's value; a number typed by the user is a string *)
Inductive cellv := CNull | CNum (x : R) | CStr (s : string).
(** A cell: its value and the rest of its properties.  A missing element of a row
    is a hole, which reads as undefined. *)
Record cell := mkCell { c_value : cellv; c_class : string }.
Definition srow := list (option cell).
Definition grid := list srow.
Definition nfields : nat := 6.

Section Sheet.
  (** parseFloat of a string, [None] for NaN (infinities are not modelled), and
      whether chroma accepts a value as a colour (attitude/src/stereonet/index.ts:453-459) *)
  Variable parse_str : string -> option R.
  Variable color_ok : cellv -> bool.

  (** parseFloat; null reads as the string "null" *)
  Definition parse_float (v : cellv) : option R :=
    match v with CNull => None | CNum x => Some x | CStr s => parse_str s end.

  (** sheet.ts:126-137, app.ts:41-52.  The added rows are one shared array; nothing
      writes to a row in place. *)
  Definition empty_row : srow := repeat (Some (mkCell CNull "")) nfields.
  Definition ceil_div (n m : nat) : nat := ((n + m - 1) / m)%nat.
  Definition add_empty_rows (data : grid) (modulus target : nat) : grid :=
    let n_to_add := (ceil_div (length data + target) modulus * modulus - length data)%nat in
    (data ++ repeat empty_row n_to_add)%list.

  (** sheet.ts:235-246.  A value read from a hole is undefined and does not parse. *)
  Definition cell_at (r : srow) (i : nat) : option cell := nth i r None.
  Definition float_at (r : srow) (i : nat) : option R :=
    obind (cell_at r i) (fun c => parse_float (c_value c)).
  (** assignment to an element, past the end leaves holes *)
  Fixpoint set_nth {A} (d : A) (i : nat) (v : A) (l : list A) : list A :=
    match i, l with
    | O, [] => [v]
    | O, _ :: t => v :: t
    | S k, [] => d :: set_nth d k v []
    | S k, x :: t => x :: set_nth d k v t
    end.
  Definition finalize_row (r : srow) : srow :=
    match float_at r 3, float_at r 4 with
    | Some a, Some b => if Rlt_dec a b then set_nth None 4 (cell_at r 3) (set_nth None 3 (cell_at r 4) r) else r
    | _, _ => r
    end.

  (** sheet.ts:266-273.  A change is (row, column, value); the specification given to
      immutability-helper keeps the last change of each cell, and reading a row that
      is not there throws. *)
  Definition change := (nat * nat * cellv)%type.
  Definition spec := list (nat * list (nat * cellv)).
  Fixpoint assign {A} (k : nat) (v : A) (l : list (nat * A)) : list (nat * A) :=
    match l with
    | [] => [(k, v)]
    | (k', v') :: t => if (k =? k')%nat then (k, v) :: t else (k', v') :: assign k v t
    end.
  Fixpoint lookup {A} (k : nat) (l : list (nat * A)) : option A :=
    match l with [] => None | (k', v) :: t => if (k =? k')%nat then Some v else lookup k t end.
  Definition add_change (s : spec) (c : change) : spec :=
    let '(r, k, v) := c in
    let row := match lookup r s with None => [] | Some x => x end in
    assign r (assign k v row) s.
  Definition changes_spec (cs : list change) : spec := fold_left add_change cs [].
  Definition update_row (r : srow) (s : list (nat * cellv)) : srow :=
    fold_left (fun r '(k, v) => set_nth None k (Some (mkCell v "")) r) s r.
  Definition update_grid (g : grid) (s : spec) : res grid :=
    fold_left (fun acc '(i, rs) => rbind acc (fun g =>
      match nth_error g i with
      | None => Raise TypeError
      | Some r => Ok (set_nth [] i (update_row r rs) g)
      end)) s (Ok g).
  Definition cells_changed (g : grid) (cs : list change) : res grid :=
    rbind (update_grid g (changes_spec cs)) (fun g => Ok (map finalize_row g)).

  (** * webapp/src/app.ts *)
  Record orientation := mkOri { or_strike : R; or_dip : R; or_rake : R; or_max : R; or_min : R; or_color : option cellv }.
  (** app.ts:35-39 *)
  Definition transform_data (o : orientation) : srow :=
    map (fun v => Some (mkCell v "test"))
      [CNum (or_strike o); CNum (or_dip o); CNum (or_rake o); CNum (or_max o); CNum (or_min o);
       match or_color o with Some c => c | None => CNull end].
  (** app.ts:56-77: any error, such as reading the value of a hole, makes null *)
  Definition construct_orientation (r : srow) : option orientation :=
    obind (float_at r 0) (fun strike =>
    obind (float_at r 1) (fun dip =>
    obind (float_at r 2) (fun rake =>
    obind (float_at r 3) (fun mx =>
    obind (float_at r 4) (fun mn =>
    obind (cell_at r 5) (fun c =>
      Some (mkOri strike dip rake mx mn (if color_ok (c_value c) then Some (c_value c) else None)))))))).
  (** app.ts:138-140 *)
  Definition cleaned_data (g : grid) : list orientation :=
    flat_map (fun r => match construct_orientation r with Some o => [o] | None => [] end) g.
End Sheet.

(** * notebook-ui/src/index.ts *)
(** What the notebook reads of an attitude; identity is the position in the page's
    memory, [at_id]. *)
Record attitude := mkAtt { at_id : nat; at_uid : string; at_members : option (list string); at_member_of : option string }.
(** index.ts:166-180.  The state's own array is changed. *)
Definition index_of (d : attitude) (l : list attitude) : option nat :=
  (fix go l i := match l with [] => None | x :: t => if (at_id x =? at_id d)%nat then Some i else go t (S i) end) l 0%nat.
Fixpoint splice1 {A} (i : nat) (l : list A) : list A :=
  match i, l with _, [] => [] | O, _ :: t => t | S k, x :: t => x :: splice1 k t end.
Definition select_one (allow_groups : bool) (sel : list attitude) (d : attitude) : list attitude :=
  if match at_members d with Some _ => negb allow_groups | None => false end then sel
  else match index_of d sel with None => (sel ++ [d])%list | Some i => splice1 i sel end.
Definition update_selection (allow_groups : bool) (sel ids : list attitude) : list attitude :=
  fold_left (select_one allow_groups) ids sel.

(** index.ts:60-67; a uid that is not there gives undefined *)
Definition find_attitude (all : list attitude) (u : string) : option attitude := find (fun d => String.eqb u (at_uid d)) all.
Definition find_attitudes (all : list attitude) (l : list string) : list (option attitude) := map (find_attitude all) l.
(** index.ts:136-155 *)
Definition on_hover (all : list attitude) (d : option attitude) : option (list (option attitude)) :=
  match d with
  | None => None
  | Some d =>
    let d := match at_member_of d with
             | None => d
             | Some u => match find_attitude all u with Some g => g | None => d end
             end in
    Some (match at_members d with
          | Some ms => Some d :: find_attitudes all ms
          | None => [Some d]
          end)
  end.
(** components/list.ts:65-76, whether an item is drawn as hovered; reading the uid of
    undefined throws *)
Fixpoint hovered_find (hov : list (option attitude)) (u : string) : res bool :=
  match hov with
  | [] => Ok false
  | None :: _ => Raise TypeError
  | Some h :: t => if String.eqb (at_uid h) u then Ok true else hovered_find t u
  end.
Definition item_hovered (hov : option (list (option attitude))) (d : attitude) : res bool :=
  match hov with None => Ok false | Some l => hovered_find l (at_uid d) end.

(** * notebook-ui/src/components/side-view.ts:52-125 *)
(** The scales of the section, from the offsets of the planes.  [h] in line 64 is the
    function that makes elements, so that xsize is not a number as soon as a plane is
    off the centre; a size of 0 makes a scale of infinite metres per pixel.  The result
    is half the width and half the height of the view, in metres. *)
Definition inner_width : R := 650.
Definition inner_height : R := 260.
Definition hyp_xy (v : vec3) : R := sqrt (vx v * vx v + vy v * vy v).
Definition xsize_step (s : num) (v : vec3) : num :=
  match s with Some x => if Rlt_dec x (hyp_xy v) then None else Some x | None => None end.
Definition ysize_step (s : R) (v : vec3) : R := if Rlt_dec s (Rabs (vz v)) then Rabs (vz v) else s.
Definition side_view (offsets : list vec3) : res (R * R) :=
  let xsize := jmul (fold_left xsize_step offsets (Some 0)) (Some (11 / 10)) in
  let ysize := fold_left ysize_step offsets 0 * (11 / 10) in
  if Req_EM_T ysize 0 then NonFinite
  else
    let yRatio := Rabs (1 / ((0 - inner_height) / (ysize - - ysize))) in
    match xsize with
    | None => Ok (Rabs (inner_width * yRatio) / 2, ysize)
    | Some xs =>
      if Req_EM_T xs 0 then NonFinite
      else
        let xRatio := Rabs (1 / (inner_width / (xs - - xs))) in
        if Rlt_dec yRatio xRatio then Ok (xs, Rabs (inner_height * xRatio) / 2)
        else Ok (Rabs (inner_width * yRatio) / 2, ysize)
    end.

(** * stereonet/interaction.ts *)
(** d3's projection.rotate keeps the remainder of each angle by 360, with the sign of
    the angle, and takes a missing third angle for 0. *)
Definition js_mod360 (x : R) : R :=
  if Rlt_dec x 0 then - (- x - 360 * IZR (Int_part (- x / 360))) else x - 360 * IZR (Int_part (x / 360)).
Record drag := mkDrag { dr_rot : R * R * R; dr_m0 : option (R * R); dr_o0 : R * R * R }.
Inductive event := Down (p : R * R) | Move (p : R * R) | Up (p : R * R).
(** interaction.ts:27-40 *)
Definition drag_to (s : drag) (p : R * R) : drag :=
  match dr_m0 s with
  | None => s
  | Some m0 =>
    let '(l, f, _) := dr_o0 s in
    let o10 := l + (fst p - fst m0) / 3 in
    let o11 := f + (snd m0 - snd p) / 3 in
    let limit := 90 in
    let o11 := if Rlt_dec limit o11 then limit else if Rlt_dec o11 (- limit) then - limit else o11 in
    mkDrag (js_mod360 o10, js_mod360 o11, 0) (dr_m0 s) (dr_o0 s)
  end.
(** interaction.ts:18-25, 42-47 *)
Definition drag_step (s : drag) (e : event) : drag :=
  match e with
  | Down p => mkDrag (dr_rot s) (Some p) (dr_rot s)
  | Move p => drag_to s p
  | Up p => match dr_m0 s with
            | None => s
            | Some _ => let s := drag_to s p in mkDrag (dr_rot s) None (dr_o0 s)
            end
  end.
Definition drag_run (s : drag) (es : list event) : drag := fold_left drag_step es s.

(** * Styles *)
(** stereonet/index.ts:461-477: the opacity of the fill and of the outline.  The scale
    is d3's power scale, clamped, from [0, max] to [0.8, 0.1]; its exponent is left open.
    With no angular error the opacity is undefined and colouring throws. *)
Definition pow0 (k x : R) : R := if Req_EM_T x 0 then 0 else Rpower x k.
Definition alpha_scale (k max x : R) : R :=
  let x := Rmax 0 (Rmin max x) in
  8 / 10 + (1 / 10 - 8 / 10) * (pow0 k x / pow0 k max).
Definition opacity (k : R) (angular_error : num) : res (R * R) :=
  match angular_error with
  | None => Raise TypeError
  | Some e => let al := alpha_scale k 5 e in Ok (al, al + 2 / 10)
  end.
(** plots/src/vertical.ts:10-20; division by zero gives infinity, above the limit *)
Definition ellipse_alpha (max : R) (max_error : num) : R :=
  match max_error with
  | None => 5 / 10
  | Some e =>
    if Req_EM_T e 0 then 8 / 10
    else let a := max / e * 5 in if Rlt_dec (8 / 10) a then 8 / 10 else a
  end.
(** plots/src/graticule-labels.ts:8-23; [show] writes a number *)
Definition azimuth_label (show : R -> string) (lon : R) : string :=
  let v := 180 - lon in
  if Req_EM_T v 180 then "S"
  else if Req_EM_T v 90 then "E"
  else if Req_EM_T v 0 then "N"
  else if Req_EM_T v 270 then "W"
  else show v.
