(** What the notebook's page is meant to hold and show, in values rather than arrays that
    change. *)
From Coq Require Import List Arith Bool String Ascii.
From Verif Require Import MUi MNet MPage.
Import ListNotations.

Record ideal := mkIdeal { id_groups : bool; id_zoomed : bool; id_sel : list attitude; id_planes : bool; id_poles : bool }.
(** an item is taken out if it is there and added at the end if not *)
Definition toggled (sel : list attitude) (d : attitude) : list attitude :=
  if existsb (fun x => (at_id x =? at_id d)%nat) sel then filter (fun x => negb (at_id x =? at_id d)%nat) sel else sel ++ [d].
Definition is_group (d : attitude) : Prop := at_members d <> None.
Inductive does (attitudes : list attitude) (allow_groups : bool) : ideal -> act -> ideal -> Prop :=
  | does_click : forall s d, In (at_id d) (map at_id attitudes) -> (is_group d -> id_groups s = true) -> (is_group d -> allow_groups = true) ->
      does attitudes allow_groups s (Click d) (mkIdeal (id_groups s) (id_zoomed s) (toggled (id_sel s) d) (id_planes s) (id_poles s))
  | does_not_click : forall s d, ~ In (at_id d) (map at_id attitudes) \/ (is_group d /\ (id_groups s = false \/ allow_groups = false)) ->
      does attitudes allow_groups s (Click d) s
  | does_hover : forall s d, does attitudes allow_groups s (Hover d) s
  | does_leave : forall s, does attitudes allow_groups s Leave s
  | does_turn : forall s, does attitudes allow_groups s Rotated s
  | does_groups : forall s, does attitudes allow_groups s ShowGroups (mkIdeal (negb (id_groups s)) (id_zoomed s) (id_sel s) (id_planes s) (id_poles s))
  | does_zoom : forall s, attitudes = [] \/ id_sel s <> [] ->
      does attitudes allow_groups s Zoom (mkIdeal (id_groups s) (negb (id_zoomed s)) (id_sel s) (id_planes s) (id_poles s))
  | does_not_zoom : forall s, attitudes <> [] -> id_sel s = [] -> does attitudes allow_groups s Zoom s
  | does_clear : forall s, does attitudes allow_groups s Clear (mkIdeal (id_groups s) (id_zoomed s) [] (id_planes s) (id_poles s))
  | does_planes : forall s, does attitudes allow_groups s (Control SwitchPlanes) (mkIdeal (id_groups s) (id_zoomed s) (id_sel s) (negb (id_planes s)) (id_poles s))
  | does_poles : forall s, does attitudes allow_groups s (Control SwitchPoles) (mkIdeal (id_groups s) (id_zoomed s) (id_sel s) (id_planes s) (negb (id_poles s)))
  | does_vertical : forall s, does attitudes allow_groups s (Control Vertical) s.
(** what should be drawn in a layer *)
Definition meant (attitudes : list attitude) (on : bool) (s : ideal) : option (list attitude) :=
  if on then Some (if id_zoomed s then id_sel s else attitudes) else None.

(** * JSON texts of arrays of strings (RFC 8259), code units below 256 *)
Definition plain (c : ascii) : bool :=
  negb (Ascii.eqb c """") && negb (Ascii.eqb c "\") && (32 <=? nat_of_ascii c)%nat.
(** does the string contain a quote? *)
Fixpoint has_quote (s : string) : bool := match s with EmptyString => false | String c t => Ascii.eqb c """" || has_quote t end.
Fixpoint all_plain (s : string) : bool := match s with EmptyString => true | String c t => plain c && all_plain t end.
Definition escapes : list (ascii * nat) :=
  [(""""%char, 34); ("\"%char, 92); ("/"%char, 47); ("b"%char, 8); ("f"%char, 12); ("n"%char, 10); ("r"%char, 13); ("t"%char, 9)].
Fixpoint spaces (s : string) : bool :=
  match s with EmptyString => true | String c t => existsb (Nat.eqb (nat_of_ascii c)) [9; 10; 13; 32] && spaces t end.
Section Json.
  (** the value of four hexadecimal digits *)
  Variable hex : ascii -> ascii -> ascii -> ascii -> option ascii.
  Inductive json_body : string -> string -> Prop :=
    | body_end : json_body "" ""
    | body_plain : forall c b u, plain c = true -> json_body b u -> json_body (String c b) (String c u)
    | body_escape : forall e k b u, In (e, k) escapes -> json_body b u -> json_body (String "\" (String e b)) (String (ascii_of_nat k) u)
    | body_hex : forall h1 h2 h3 h4 c b u, hex h1 h2 h3 h4 = Some c -> json_body b u ->
        json_body (String "\" (String "u" (String h1 (String h2 (String h3 (String h4 b)))))) (String c u).
  Inductive json_elements : string -> list string -> Prop :=
    | one_element : forall w w' b u, spaces w = true -> spaces w' = true -> json_body b u ->
        json_elements (w ++ """" ++ b ++ """" ++ w') [u]
    | more_elements : forall w w' b u t l, spaces w = true -> spaces w' = true -> json_body b u -> json_elements t l ->
        json_elements (w ++ """" ++ b ++ """" ++ w' ++ "," ++ t) (u :: l).
  Inductive json_array : string -> list string -> Prop :=
    | no_elements : forall w, spaces w = true -> json_array ("[" ++ w ++ "]") []
    | some_elements : forall t l, json_elements t l -> json_array ("[" ++ t ++ "]") l.
End Json.
