(** Model of attitude/orientation/grouped.py on a heap of Python objects.
    Objects are PCAOrientation or GroupedOrientation instances; an address is a
    position in the heap. *)
From Coq Require Import Reals Lra List Arith.
From Verif Require Import RVec MPca.
Import ListNotations.

(** The attributes of an orientation that grouping reads or writes.  [o_members]
    is [None] when the object has no attribute [members] (it is not a group).
    [o_fit] holds the numerical attributes (for a group, with [mean]
    overwritten as in grouped.py:27). *)
Record obj : Type := mkObj {
  o_fit : pca;
  o_members : option (list nat);
  o_parent : option nat;      (* member_of *)
  o_disabled : bool }.

(** [Partial]: a GroupedOrientation whose __init__ raised after it had been
    stored in the [member_of] of some argument; the value is its [members]
    attribute, if already set. *)
Inductive cell : Type := Live (o : obj) | Partial (ms : option (list nat)).
Definition heap := list cell.

Definition get (h : heap) (a : nat) : option obj :=
  match nth_error h a with Some (Live o) => Some o | _ => None end.
Fixpoint alter (a : nat) (f : cell -> cell) (h : heap) : heap :=
  match h, a with
  | [], _ => []
  | c :: t, O => f c :: t
  | c :: t, S a' => c :: alter a' f t
  end.

Definition with_parent (p : option nat) (o : obj) : obj :=
  mkObj (o_fit o) (o_members o) p (o_disabled o).
Definition with_disabled (o : obj) : obj := mkObj (o_fit o) (o_members o) (o_parent o) true.
Definition on_live (f : obj -> obj) (c : cell) : cell :=
  match c with Live o => Live (f o) | Partial ms => Partial ms end.
(** [o.member_of = p], [o.disabled = True] *)
Definition set_parent (h : heap) (a : nat) (p : option nat) : heap :=
  alter a (on_live (with_parent p)) h.
Definition set_disabled (h : heap) (a : nat) : heap := alter a (on_live with_disabled) h.

(** [PCAOrientation.mean] after grouped.py:27 *)
Definition with_mean (f : pca) (m : option vec3) : pca :=
  {| p_array := p_array f; p_mean := m; p_arr := p_arr f; p_weights := p_weights f;
     p_n := p_n f; p_U := p_U f; p_s := p_s f; p_axes := p_axes f; p_offset := p_offset f;
     p_normal_own := p_normal_own f; p_strike := p_strike f; p_dip_dr := p_dip_dr f |}.

(** A new PCAOrientation (pca.py:150-151): no parent, enabled *)
Definition fresh (f : pca) : obj := mkObj f None None false.

(** base.py:79-81; the digest is an arbitrary function to identifiers *)
Definition obj_uid (sha : mat3 -> nat) (o : obj) : nat := uid sha (o_fit o).

(** grouped.py:19-22 *)
Fixpoint adopt (h : heap) (self : nat) (args : list nat) : heap * res unit :=
  match args with
  | [] => (h, Ok tt)
  | a :: t =>
      match get h a with
      | None => (h, Raise AttributeError)
      | Some o =>
          match o_members o with
          | Some _ => (h, Raise GroupedPlaneError)
          | None => adopt (set_parent h a (Some self)) self t
          end
      end
  end.

Fixpoint get_all (h : heap) (args : list nat) : option (list obj) :=
  match args with
  | [] => Some []
  | a :: t => match get h a, get_all h t with
              | Some o, Some os => Some (o :: os)
              | _, _ => None
              end
  end.

(** The array a group is fitted to (14-18) and the fit itself (26-27).  Keyword
    arguments other than [same_plane] and [weights] are not modelled. *)
Definition group_array (same_plane : bool) (os : list obj) : list vec3 :=
  if same_plane then concat (map (fun o => p_array (o_fit o)) os)
  else concat (map (fun o => centered_array (o_fit o)) os).
Definition group_fit (svd : svd_fn) (same_plane : bool) (w : option vec3) (os : list obj) : res pca :=
  rbind (PCAOrientation svd (group_array same_plane os) w None) (fun f =>
  Ok (with_mean f (np_mean (concat (map (fun o => p_array (o_fit o)) os))))).

(** grouped.py:12-27.  [vstack] of no arrays raises ValueError before anything
    is written. *)
Definition GroupedOrientation (svd : svd_fn) (same_plane : bool) (w : option vec3)
  (h : heap) (args : list nat) : heap * res nat :=
  match args with
  | [] => (h, Raise ValueError)
  | _ =>
    match get_all h args with
    | None => (h, Raise AttributeError)
    | Some os =>
        let self := length h in
        match adopt (h ++ [Partial None]) self args with
        | (h1, Ok _) =>
            let h2 := alter self (fun _ => Partial (Some args)) h1 in
            match group_fit svd same_plane w os with
            | Ok f => (alter self (fun _ => Live (mkObj f (Some args) None false)) h2, Ok self)
            | Raise e => (h2, Raise e)
            | NonFinite => (h2, NonFinite)
            end
        | (h1, Raise e) => (h1, Raise e)
        | (h1, NonFinite) => (h1, NonFinite)
        end
    end
  end.

(** grouped.py:50-51: the loop over the members of one group *)
Fixpoint relink (h : heap) (ms : list nat) (g : nat) : heap :=
  match ms with
  | [] => h
  | m :: t => relink (set_parent h m (Some g)) t g
  end.
(** grouped.py:45-53: clear and recreate membership; returns [grouped] *)
Fixpoint reset (h : heap) (os : list nat) (grouped : list nat) : heap * list nat :=
  match os with
  | [] => (h, grouped)
  | o :: t =>
      let h1 := set_parent h o None in
      match get h1 o with
      | Some ob =>
          match o_members ob with
          | Some ms => reset (relink h1 ms o) t (grouped ++ ms)
          | None => reset h1 t grouped
          end
      | None => reset h1 t grouped
      end
  end.

(** [next(x for x in orientations if x.hash == uid)] (57, 76) *)
Definition first_with (sha : mat3 -> nat) (h : heap) (os : list nat) (u : nat) : option nat :=
  List.find (fun x => match get h x with Some o => obj_uid sha o =? u | None => false end) os.
(** grouped.py:55-64; [val in grouped] compares object identity *)
Definition find_uid (sha : mat3 -> nat) (h : heap) (os grouped : list nat) (u : nat) : res nat :=
  match first_with sha h os u with
  | None => Raise KeyError
  | Some x => if existsb (Nat.eqb x) grouped then Raise GroupedPlaneError else Ok x
  end.
Fixpoint find_all (sha : mat3 -> nat) (h : heap) (os grouped : list nat) (us : list nat)
  : res (list nat) :=
  match us with
  | [] => Ok []
  | u :: t => rbind (find_uid sha h os grouped u) (fun x =>
              rbind (find_all sha h os grouped t) (fun xs => Ok (x :: xs)))
  end.

(** grouped.py:66-69.  The second component is the list [orientations] when the
    loop ends or raises. *)
Fixpoint make_groups (svd : svd_fn) (sha : mat3 -> nat) (same_plane : bool) (w : option vec3)
  (h : heap) (os grouped : list nat) (groups : list (list nat)) : heap * list nat * res unit :=
  match groups with
  | [] => (h, os, Ok tt)
  | us :: t =>
      match find_all sha h os grouped us with
      | Ok vals =>
          match GroupedOrientation svd same_plane w h vals with
          | (h1, Ok g) => make_groups svd sha same_plane w h1 (os ++ [g]) grouped t
          | (h1, Raise e) => (h1, os, Raise e)
          | (h1, NonFinite) => (h1, os, NonFinite)
          end
      | Raise e => (h, os, Raise e)
      | NonFinite => (h, os, NonFinite)
      end
  end.

(** copy.copy of every orientation (42-43): new objects with the same
    attributes; numpy arrays are shared, but nothing here writes into them. *)
Definition copy_all (h : heap) (os : list nat) : heap * list nat :=
  (h ++ map (fun a => nth a h (Partial None)) os, seq (length h) (length os)).

(** grouped.py:35-71.  With [copy=False] the list component is the caller's own
    list object. *)
Definition create_groups (svd : svd_fn) (sha : mat3 -> nat) (copy same_plane : bool)
  (w : option vec3) (h : heap) (os : list nat) (groups : list (list nat))
  : heap * list nat * res unit :=
  let '(h0, l) := if copy then copy_all h os else (h, os) in
  let '(h1, grouped) := reset h0 l [] in
  make_groups svd sha same_plane w h1 l grouped groups.

(** The caller's list after the call. *)
Definition caller_list (copy : bool) (os : list nat) (result : heap * list nat * res unit) : list nat :=
  if copy then os else snd (fst result).

(** grouped.py:73-81 *)
Fixpoint disable_orientations (sha : mat3 -> nat) (h : heap) (os : list nat) (us : list nat)
  : heap * res (list nat) :=
  match us with
  | [] => (h, Ok os)
  | u :: t =>
      match first_with sha h os u with
      | None => (h, Raise KeyError)
      | Some x => disable_orientations sha (set_disabled h x) os t
      end
  end.
