(** Model of the notebook's page as a whole: notebook-ui/src/index.ts (AttitudeUI) with the
    list of components/list.ts and the stereonet of components/stereonet.ts ([MNet]).

    The constructor of AttitudeUI (index.ts:48-60) uses [this] before calling super, which
    a browser refuses when the class is not compiled away; what follows is the page once it
    is there.  Groups whose members are missing are left out (they break the list, C131),
    so is the panel of one measurement (C175). *)
From Coq Require Import List Arith Bool String.
From Verif Require Import MUi MNet.
Import ListNotations.

(** The page's memory holds arrays of attitudes: array 0 is the property [attitudes], the
    others are selections.  [pg_next] is the next free place, [pg_nexth] the next free place
    for arrays of hovered items, which are kept apart as only their identity matters. *)
Record page := mkPage {
  pg_groups : bool; pg_zoomed : bool; pg_hovered : option nat; pg_sel : nat;
  pg_mem : nat -> list attitude; pg_next : nat; pg_nexth : nat; pg_inter : inter;
  pg_layers : layers;
  (** the attitudes in each layer when it was last drawn *)
  pg_planes : option (list attitude); pg_poles : option (list attitude) }.

(** What the user can do: click or point at an item of the list or the net, leave the page,
    the buttons of the list, the controls of the net, and turning the net. *)
Inductive act :=
  | Click (d : attitude) | Hover (d : attitude) | Leave
  | ShowGroups | Zoom | Clear | Control (c : click) | Rotated.

(** index.ts:121-128 (getData) *)
Definition data_ref (s : page) : nat := if pg_zoomed s then pg_sel s else 0.
(** index.ts:105-113 and stereonet.ts:190-199: what is handed down to the stereonet *)
Definition props_of (s : page) : props :=
  mkProps (data_ref s) (ic_planes (pg_inter s)) (ic_poles (pg_inter s)) (pg_hovered s) (ic_center (pg_inter s)).
(** an array of hovered items always holds the item pointed at *)
Definition hovered_empty (h : nat) : bool := false.

(** stereonet.ts:72-95: whether an update draws a layer again, [MNet.did_update] *)
Definition redrawn (layer : props -> bool) (prev p : props) : bool :=
  negb (pp_data p =? pp_data prev)%nat || negb (Bool.eqb (layer prev) (layer p)).
Definition content (layer : props -> bool) (mem : nat -> list attitude) (p : props) : option (list attitude) :=
  if layer p then Some (mem (pp_data p)) else None.
(** the page is drawn again after its state changed from [s] to [s'] *)
Definition rendered (s s' : page) : page :=
  let prev := props_of s in let p := props_of s' in
  mkPage (pg_groups s') (pg_zoomed s') (pg_hovered s') (pg_sel s') (pg_mem s') (pg_next s') (pg_nexth s') (pg_inter s')
    (did_update hovered_empty prev p (pg_layers s))
    (if redrawn pp_planes prev p then content pp_planes (pg_mem s') p else pg_planes s)
    (if redrawn pp_poles prev p then content pp_poles (pg_mem s') p else pg_poles s).

Section Page.
  (** index.ts:42-46 and createUI *)
  Variable attitudes : list attitude.
  Variable allow_groups : bool.

  Definition write (mem : nat -> list attitude) (r : nat) (l : list attitude) : nat -> list attitude :=
    fun k => if (k =? r)%nat then l else mem k.
  (** list.ts:62-66: items for groups are left out on request *)
  Definition listed (s : page) (d : attitude) : bool :=
    existsb (fun x => (at_id x =? at_id d)%nat) attitudes &&
    match at_members d with Some _ => pg_groups s | None => true end.
  (** list.ts:30-60: the buttons *)
  Definition no_selection (s : page) : bool := match pg_mem s (pg_sel s) with [] => true | _ => false end.
  Definition zoom_enabled (s : page) : bool := negb (no_selection s && match attitudes with [] => false | _ => true end).

  (** the changed state; [None]: nothing happens *)
  Definition changed (s : page) (a : act) : option page :=
    match a with
    | Click d => (* index.ts:93-95 and 166-180: the array of the state is changed *)
      if listed s d then
        Some (mkPage (pg_groups s) (pg_zoomed s) (pg_hovered s) (pg_sel s)
          (write (pg_mem s) (pg_sel s) (update_selection allow_groups (pg_mem s (pg_sel s)) [d]))
          (pg_next s) (pg_nexth s) (pg_inter s) (pg_layers s) (pg_planes s) (pg_poles s))
      else None
    | Hover d => (* index.ts:136-155: a new array *)
      Some (mkPage (pg_groups s) (pg_zoomed s) (Some (pg_nexth s)) (pg_sel s) (pg_mem s) (pg_next s) (S (pg_nexth s))
        (pg_inter s) (pg_layers s) (pg_planes s) (pg_poles s))
    | Leave => (* index.ts:157-164 *)
      Some (mkPage (pg_groups s) (pg_zoomed s) None (pg_sel s) (pg_mem s) (pg_next s) (pg_nexth s)
        (pg_inter s) (pg_layers s) (pg_planes s) (pg_poles s))
    | ShowGroups => (* index.ts:87-89 *)
      Some (mkPage (negb (pg_groups s)) (pg_zoomed s) (pg_hovered s) (pg_sel s) (pg_mem s) (pg_next s) (pg_nexth s)
        (pg_inter s) (pg_layers s) (pg_planes s) (pg_poles s))
    | Zoom => (* index.ts:82-86 *)
      if zoom_enabled s then
        Some (mkPage (pg_groups s) (negb (pg_zoomed s)) (pg_hovered s) (pg_sel s) (pg_mem s) (pg_next s) (pg_nexth s)
          (pg_inter s) (pg_layers s) (pg_planes s) (pg_poles s))
      else None
    | Clear => (* index.ts:91: a new array *)
      if no_selection s then None
      else Some (mkPage (pg_groups s) (pg_zoomed s) (pg_hovered s) (pg_next s) (write (pg_mem s) (pg_next s) []) (S (pg_next s))
        (pg_nexth s) (pg_inter s) (pg_layers s) (pg_planes s) (pg_poles s))
    | Control c => (* stereonet.ts:215-231 *)
      Some (mkPage (pg_groups s) (pg_zoomed s) (pg_hovered s) (pg_sel s) (pg_mem s) (pg_next s) (pg_nexth s)
        (inter_step (pg_inter s) c) (pg_layers s) (pg_planes s) (pg_poles s))
    | Rotated => (* index.ts:130-134: only the azimuth changes, which nothing uses *)
      Some s
    end.
  Definition page_step (s : page) (a : act) : page :=
    match changed s a with None => s | Some s' => rendered s s' end.
  (** index.ts:52-59, stereonet.ts:51-70 *)
  Definition page0 : page :=
    let mem := write (fun _ => []) 0 attitudes in
    let i := inter0 None None in
    let p := mkProps 0 (ic_planes i) (ic_poles i) None (ic_center i) in
    mkPage true false None 1 mem 2 0 i (did_mount p) (content pp_planes mem p) (content pp_poles mem p).
  Definition page_run (l : list act) : page := fold_left page_step l page0.
  (** the selection as the list shows it *)
  Definition selection (s : page) : list attitude := pg_mem s (pg_sel s).
End Page.

(** list.ts:110-113; strings are written between quotes as they are *)
Definition selection_text (sel : list string) : string :=
  ("[" ++ String.concat "," (map (fun u => """" ++ u ++ """") sel) ++ "]")%string.
