(** Model of the class HyperbolicErrors of attitude/display/hyperbola.py: an error band
    drawn on an axes object and updated later. *)
From Coq Require Import Reals List Arith String.
From Verif Require Import RVec LNum MConics MHyper.
Import ListNotations.
Open Scope R_scope.

Definition points := list (R * R).
(** what [hyperbolic_errors] returns (MHyper): nominal line, bottom, reversed top.  The
    methods that call it take here what that call gives: its result or an exception. *)
Definition bands := (points * points * points)%type.

(** [self.data]; vertices of the polygons added to axes objects, oldest first; which of
    them is [self.poly], if that attribute exists; lines drawn *)
Record drawn := Drawn { d_data : option bands; d_patches : list points; d_poly : option nat; d_lines : list points }.

(** hyperbola.py:210-215; a call without arguments makes an empty object *)
Definition HyperbolicErrors (args : option (bands + exn)) : res drawn :=
  match args with
  | None => Ok (Drawn None [] None [])
  | Some (inl b) => Ok (Drawn (Some b) [] None [])
  | Some (inr e) => Raise e
  end.

(** hyperbola.py:247-249: bottom, then top backwards *)
Definition outline (b : bands) : points := let '(_, bot, top) := b in bot ++ top.
Fixpoint set_nth {A} (k : nat) (x : A) (l : list A) : list A :=
  match l, k with [], _ => [] | _ :: t, O => x :: t | a :: t, S k => a :: set_nth k x t end.
(** hyperbola.py:247-249; without [self.poly] an AttributeError *)
Definition set_plot_data (d : drawn) (b : bands) : drawn * option exn :=
  match d_poly d with
  | None => (d, Some AttributeError)
  | Some k => (Drawn (d_data d) (set_nth k (outline b) (d_patches d)) (d_poly d) (d_lines d), None)
  end.

Inductive call := Plot | PlotNominal | Update (r : bands + exn).
(** hyperbola.py:226-245: the object afterwards and the exception raised, if any.  The
    subscript of None in [plot_nominal] is a TypeError.  [update_data] stores first. *)
Definition step (d : drawn) (c : call) : drawn * option exn :=
  match c with
  | Plot =>
      let d := Drawn (d_data d) (d_patches d ++ [[(0, 0)]]) (Some (List.length (d_patches d))) (d_lines d) in
      match d_data d with None => (d, None) | Some b => set_plot_data d b end
  | PlotNominal =>
      match d_data d with
      | None => (d, Some TypeError)
      | Some (n, _, _) => (Drawn (d_data d) (d_patches d) (d_poly d) (d_lines d ++ [n]), None)
      end
  | Update (inl b) => set_plot_data (Drawn (Some b) (d_patches d) (d_poly d) (d_lines d)) b
  | Update (inr e) => (d, Some e)
  end.
(** a program that catches what is raised and goes on *)
Definition run (d : drawn) (l : list call) : drawn := fold_left (fun d c => fst (step d c)) l d.

(** hyperbola.py:227-231 on the keywords that name colours: what is left for Polygon *)
Record colours := Colours { k_color : option string; k_fc : option string; k_facecolor : option string;
  k_ec : option string; k_edgecolor : option string }.
Definition get_or (o : option string) (d : string) : string := match o with Some s => s | None => d end.
Definition plot_colours (k : colours) : colours :=
  let ec := get_or (k_color k) "black" in
  let ec := get_or (k_fc k) ec in
  let ec := get_or (k_facecolor k) ec in
  let ec := get_or (k_ec k) ec in
  Colours (k_color k) (k_fc k) (k_facecolor k) None (Some (get_or (k_edgecolor k) ec)).
