(** Model of the to_mapping methods (the JSON representation of a plane). *)
From Coq Require Import Reals Lra List String Arith.
From Verif Require Import RVec Trig MPca MAxes MSphere MRecon MGroup.
Import ListNotations.
Open Scope string_scope.

(** Values of the mapping.  [VFloat None] and [VFloats None] stand for NaN or
    infinity; [VUser] for any other object a caller passes. *)
Inductive value : Type :=
  | VNone
  | VBool (b : bool)
  | VFloat (x : option R)
  | VFloats (l : option (list R))
  | VRows (l : list (list R))
  | VUid (u : nat)
  | VUids (us : list nat)
  | VUser (n : nat).

(** A Python dict: keys in insertion order *)
Definition dict := list (string * value).
Fixpoint lookup (k : string) (d : dict) : option value :=
  match d with
  | [] => None
  | (k', v) :: t => if String.eqb k k' then Some v else lookup k t
  end.
(** [d[k] = v]: an existing key keeps its place *)
Fixpoint assign (k : string) (v : value) (d : dict) : dict :=
  match d with
  | [] => [(k, v)]
  | (k', v') :: t => if String.eqb k k' then (k, v) :: t else (k', v') :: assign k v t
  end.
(** [d.setdefault(k, v)] *)
Definition setdefault (k : string) (v : value) (d : dict) : dict :=
  match lookup k d with Some _ => d | None => assign k v d end.

Definition row (v : vec3) : list R := [vx v; vy v; vz v].
Definition rows (m : mat3) : list (list R) := [row (r0 m); row (r1 m); row (r2 m)].

(** base.py:115-118: values overwrite *)
Definition overwrite (mapping values : dict) : dict :=
  fold_left (fun m '(k, v) => assign k v m) values mapping.

(** base.py:91-119.  The unpacking of line 97 raises unless there are exactly
    two angular errors; [errors = None]: they are not finite. *)
Definition base_mapping (uid : nat) (axes : mat3) (hyp : option (list R)) (strike dip rake : option R)
  (errors : option (list R)) (disabled : bool) (values : dict) : res dict :=
  rbind (match errors with
         | None => Ok (None, None)
         | Some [a; b] => Ok (Some a, Some b)
         | Some _ => Raise ValueError
         end) (fun '(mn, mx) =>
  Ok (overwrite
    [("uid", VUid uid); ("axes", VRows (rows axes)); ("hyperbolic_axes", VFloats hyp);
     ("max_angular_error", VFloat mx); ("min_angular_error", VFloat mn);
     ("strike", VFloat strike); ("dip", VFloat dip); ("rake", VFloat rake);
     ("disabled", VBool disabled)] values)).

(** pca.py:509-514 for the object at address [a] of the heap.  The hash of an
    unfinished group raises: it has no singular values. *)
Definition pca_mapping (st : stats) (sha : mat3 -> nat) (h : heap) (o : obj) (values : dict) : res dict :=
  let f := o_fit o in
  let values := setdefault "centered_array" (VRows (map row (centered_array f))) values in
  let values := setdefault "center" (VFloats (option_map row (center f))) values in
  rbind (match o_parent o with
         | None => Ok values
         | Some g => match get h g with
                     | Some p => Ok (assign "member_of" (VUid (obj_uid sha p)) values)
                     | None => Raise AttributeError
                     end
         end) (fun values =>
  base_mapping (obj_uid sha o) (p_axes f) (option_map row (hyperbolic_axes st f))
    (option_map fst (strike_dip f)) (option_map snd (strike_dip f)) (rake f)
    (option_map (fun '(a, b) => [a; b]) (fit_angular_errors st f)) (o_disabled o) values).

(** grouped.py:29-32 and dispatch on the class *)
Fixpoint member_uids (sha : mat3 -> nat) (h : heap) (ms : list nat) : res (list nat) :=
  match ms with
  | [] => Ok []
  | m :: t => match get h m with
              | Some o => rbind (member_uids sha h t) (fun us => Ok (obj_uid sha o :: us))
              | None => Raise AttributeError
              end
  end.
Definition to_mapping (st : stats) (sha : mat3 -> nat) (h : heap) (a : nat) (values : dict) : res dict :=
  match get h a with
  | None => Raise AttributeError
  | Some o =>
      match o_members o with
      | None => pca_mapping st sha h o values
      | Some ms =>
          let values := setdefault "centered_array" VNone values in
          rbind (member_uids sha h ms) (fun us =>
          pca_mapping st sha h o (assign "members" (VUids us) values))
      end
  end.

(** base.py:91-119 for a ReconstructedPlane (disabled: class attribute, 36);
    reconstructed.py:98-100: uid from the axes with columns scaled by the
    hyperbolic axes; [sha] sees [None] when those are not finite or the shapes
    do not match (not reached: the unpacking fails first). *)
Definition recon_mapping (sha : option mat3 -> nat) (p : recon) (values : dict) : res dict :=
  let scaled := match rp_hyperbolic p with
                | Some [a; b; c] => Some (M3 (vmul (V3 a b c) (r0 (rp_axes p))) (vmul (V3 a b c) (r1 (rp_axes p)))
                                             (vmul (V3 a b c) (r2 (rp_axes p))))
                | _ => None
                end in
  base_mapping (sha scaled) (rp_axes p) (rp_hyperbolic p) (Some (rp_strike p)) (Some (rp_dip p))
    (Some (rp_rake p)) (Some (rp_angular_errors p)) false values.
