(** Model of what is drawn when layers of a stereonet or plots are drawn again:
    frontend/packages/attitude/src/stereonet/index.ts (drawPlanes, drawEllipses) and
    frontend/packages/plots/src/{rectangular,vertical}.ts. *)
From Coq Require Import Reals List Arith Bool String.
Import ListNotations.
Open Scope R_scope.

Section Join.
  (** a measurement *)
  Context {A : Type}.

  (** * stereonet/index.ts *)
  (** Planes and poles are elements of different classes, in a group that can be chosen
      (o.selector); what each is drawn from. *)
  Inductive kind := Planes | Ellipses.
  Definition kind_eqb (a b : kind) : bool := match a, b with Planes, Planes | Ellipses, Ellipses => true | _, _ => false end.
  Definition layers := kind -> string -> list A.
  Definition no_layers : layers := fun _ _ => [].
  (** index.ts:102-108 and 144-150: the group is made once; the join is by position, and only
      entering elements are made: elements that are there are neither drawn again nor
      removed *)
  Definition entering (shown data : list A) : list A := skipn (List.length shown) data.
  (** index.ts:86-128 and 130-167: the new layers and the returned selection, which is what
      the caller colours afterwards.  The call is refused before mounting. *)
  Definition draw_layer (mounted : bool) (s : layers) (k : kind) (selector : option string) (data : list A)
    : option (layers * list A) :=
    if mounted then
      let sel := match selector with
                 | Some sel => sel
                 | None => match k with Planes => "g.planes" | Ellipses => "g.poles" end%string
                 end in
      let fresh := entering (s k sel) data in
      Some (fun k' sel' => if kind_eqb k' k && String.eqb sel' sel then s k sel ++ fresh else s k' sel', fresh)
    else None.
  (** a chain of such calls on a mounted net *)
  Definition draw_all (s : layers) (cs : list (kind * option string * list A)) : layers :=
    fold_left (fun s '(k, sel, d) => match draw_layer true s k sel d with Some (s', _) => s' | None => s end) cs s.

  (** * plots/src/rectangular.ts, vertical.ts *)
  (** A React component that draws in an effect: the dependencies of the last effect and
      the drawings in its svg element.  Arrays of data are compared by identity: [same]. *)
  Variable P D : Type.
  Variable same : P -> P -> bool.
  Record comp := mkComp { c_deps : option P; c_svg : list D }.
  (** the element when it is mounted, before the first effect *)
  Definition mounted0 : comp := mkComp None [].
  Definition effect (draw : P -> list D -> list D) (s : comp) (p : P) : comp :=
    match c_deps s with
    | Some q => if same q p then s else mkComp (Some p) (draw p (c_svg s))
    | None => mkComp (Some p) (draw p (c_svg s))
    end.
  Definition renders (draw : P -> list D -> list D) (s : comp) (ps : list P) : comp := fold_left (effect draw) ps s.
End Join.
Arguments comp : clear implicits.

(** rectangular.ts:16-77, 79-86: a group is appended for each drawing.  A data array is its
    identity; [content] says what it holds. *)
Definition rectangular {A} (content : nat -> list A) (ps : list nat) : list (list A) :=
  c_svg nat (list A) (renders nat (list A) Nat.eqb (fun p svg => svg ++ [content p]) (mounted0 nat (list A)) ps).
(** vertical.ts:32-54, 56-63: the element is emptied first; the clip angle is 15 degrees
    unless given.  Angles are compared as numbers. *)
Definition clip_of (c : option R) : R := match c with Some c => c | None => 15 end.
Definition vertical {A} (content : nat -> list A) (ps : list (nat * option R)) : list (list A * R) :=
  let same (a b : nat * R) := Nat.eqb (fst a) (fst b) && (if Req_EM_T (snd a) (snd b) then true else false) in
  c_svg (nat * R) (list A * R)
    (renders (nat * R) (list A * R) same (fun p _ => [(content (fst p), snd p)]) (mounted0 _ _) (map (fun p => (fst p, clip_of (snd p))) ps)).
