(** Model of the notebook display and of the saved test planes.
    Source: /repo/attitude/display/nbextension.py, /repo/attitude/test/io.py.
    Text is a list of UTF-16 code units (python's code points above 65535 are already
    written as two escapes by json.dumps, so they are not distinguished here). *)
From Coq Require Import List NArith Bool String Ascii Arith.
From Verif Require Import RVec.
Import ListNotations.
Open Scope N_scope.

Definition text := list N.
Definition tx (s : string) : text := map N_of_ascii (list_ascii_of_string s).

(** * str.replace: leftmost occurrences first, not overlapping *)
Fixpoint prefixb (p s : text) : bool :=
  match p, s with
  | [], _ => true
  | a :: p', b :: s' => (a =? b) && prefixb p' s'
  | _ :: _, [] => false
  end.
(** [skip]: characters of the occurrence just replaced still to be passed over *)
Fixpoint replace_go (pat rep : text) (s : text) (skip : nat) : text :=
  match s with
  | [] => []
  | c :: t =>
      match skip with
      | S k => replace_go pat rep t k
      | O => if prefixb pat s then rep ++ replace_go pat rep t (List.length pat - 1) else c :: replace_go pat rep t O
      end
  end.
Definition replace (pat rep s : text) : text := replace_go pat rep s O.

(** * json.dumps of a string, with ensure_ascii (the default) *)
Definition hexdigit (d : N) : N := if d <? 10 then 48 + d else 87 + d.
Definition esc (c : N) : text :=
  if c =? 34 then [92; 34] else if c =? 92 then [92; 92]
  else if c =? 10 then [92; 110] else if c =? 13 then [92; 114] else if c =? 9 then [92; 116]
  else if c =? 12 then [92; 102] else if c =? 8 then [92; 98]
  else if (32 <=? c) && (c <=? 126) then [c]
  else [92; 117; hexdigit (c / 4096); hexdigit (c / 256 mod 16); hexdigit (c / 16 mod 16); hexdigit (c mod 16)].
Definition dumps_str (s : text) : text := [34] ++ flat_map esc s ++ [34].

(** * nbextension.plot_interactive, nbextension.py:33-54 *)
(** lines 33-39; a line feed is code 10 *)
Definition nl : text := [10].
Definition template : text :=
  nl ++ tx "<div id='a__<<<hash>>>'></div>" ++ nl ++ tx "<script type='text/javascript'>" ++ nl ++
  tx "  var data=JSON.parse('<<<data>>>');" ++ nl ++
  tx "  attitudeUI(document.querySelector('#a__<<<hash>>>'),data);" ++ nl ++
  tx "</script>" ++ nl.
(** lines 47-53: [data] is the JSON text, [uuid] the text of uuid4() *)
Definition script (data uuid : text) : text :=
  replace (tx "<<<hash>>>") (tx "A" ++ uuid) (replace (tx "<<<data>>>") data template).
(** lines 42-46: what is serialised.  An object either has a to_mapping method or not. *)
Inductive obj (M : Type) := HasMapping (m : M) | Plain (m : M).
Inductive attitudes_arg (M : Type) := AnySequence (l : list (obj M)) | Other (o : obj M).
Arguments HasMapping {M}. Arguments Plain {M}. Arguments AnySequence {M}. Arguments Other {M}.
Definition mapping_of {M} (o : obj M) : M := match o with HasMapping m => m | Plain m => m end.
Definition serialised {M} (a : attitudes_arg M) : list M :=
  let l := match a with AnySequence l => l | Other o => [o] end in
  map mapping_of l.

(** * attitude/test/io.py *)
(** iterating over a text file: lines with their line feed; the last may lack one *)
Fixpoint lines_of (s : text) : list text :=
  match s with
  | [] => []
  | c :: t =>
      if c =? 10 then [10] :: lines_of t
      else match lines_of t with [] => [[c]] | l :: r => (c :: l) :: r end
  end.
(** str.strip, for the ASCII white space *)
Definition is_space (c : N) : bool := ((9 <=? c) && (c <=? 13)) || ((28 <=? c) && (c <=? 32)).
Fixpoint lstrip (s : text) : text := match s with c :: t => if is_space c then lstrip t else s | [] => [] end.
Definition strip (s : text) : text := rev (lstrip (rev (lstrip s))).
Fixpoint text_eqb (a b : text) : bool :=
  match a, b with [], [] => true | x :: a', y :: b' => (x =? y) && text_eqb a' b' | _, _ => false end.
Definition sep_line (l : text) : bool := text_eqb (strip l) (tx "---").
(** io.py:37-45 __split_text *)
Fixpoint split_go (ls : list text) (acc : text) : list text :=
  match ls with
  | [] => [acc]
  | l :: r => if sep_line l then acc :: split_go r [] else split_go r (acc ++ l)
  end.
Definition split_text (s : text) : list text := split_go (lines_of s) [].

(** numpy.savetxt with its default format and delimiter: [fmt] is '%.18e' *)
Section Tables.
  Variable V : Type.
  Variable fmt : V -> text.
  Variable parse : text -> option V.
  Fixpoint join (sep : text) (l : list text) : text :=
    match l with [] => [] | [a] => a | a :: r => a ++ sep ++ join sep r end.
  Definition savetxt (rows : list (list V)) : text :=
    flat_map (fun r => join [32] (map fmt r) ++ [10]) rows.
  (** io.py:20-35 save_test_plane.  The file is opened in binary mode: savetxt encodes what
      it writes, but print() of a str to it raises TypeError.  The file's contents when the
      function ends are returned beside the outcome. *)
  Definition save_test_plane (arrays : list (list (list V))) : text * res unit :=
    match arrays with
    | [] => ([], Ok tt)
    | [a] => (savetxt a, Ok tt)
    | a :: _ :: _ => (savetxt a, Raise TypeError)
    end.
  (** numpy.loadtxt with its defaults: '#' starts a comment, fields separated by white
      space, blank lines skipped, rows of unequal length a ValueError, axes of length one
      dropped *)
  Inductive nd := ND0 (v : V) | ND1 (l : list V) | ND2 (rows : list (list V)).
  Fixpoint uncomment (s : text) : text := match s with [] => [] | c :: t => if c =? 35 then [] else c :: uncomment t end.
  Fixpoint fields_go (s acc : text) : list text :=
    match s with
    | [] => match acc with [] => [] | _ => [acc] end
    | c :: t => if is_space c then match acc with [] => fields_go t [] | _ => acc :: fields_go t [] end else fields_go t (acc ++ [c])
    end.
  Definition fields (l : text) : list text := fields_go (uncomment l) [].
  Fixpoint opt_all {A B} (f : A -> option B) (l : list A) : option (list B) :=
    match l with
    | [] => Some []
    | a :: r => match f a, opt_all f r with Some b, Some bs => Some (b :: bs) | _, _ => None end
    end.
  Definition squeeze (rows : list (list V)) : nd :=
    match rows with
    | [] => ND1 []
    | [[v]] => ND0 v
    | [r] => ND1 r
    | r :: _ => if Nat.eqb (List.length r) 1 then ND1 (List.concat rows) else ND2 rows
    end.
  Definition loadtxt (s : text) : res nd :=
    let rows := filter (fun r => match r with [] => false | _ => true end) (map fields (lines_of s)) in
    match opt_all (opt_all parse) rows with
    | None => Raise ValueError
    | Some [] => Ok (ND1 [])
    | Some (r :: t) => if forallb (fun x => Nat.eqb (List.length x) (List.length r)) t then Ok (squeeze (r :: t)) else Raise ValueError
    end.
  (** io.py:47-58 load_test_plane: one array is returned bare, several as a list *)
  Inductive loaded := Single (a : nd) | Several (l : list nd).
  Fixpoint load_all (l : list text) : res (list nd) :=
    match l with
    | [] => Ok []
    | s :: r => rbind (loadtxt s) (fun a => rbind (load_all r) (fun t => Ok (a :: t)))
    end.
  Definition load_test_plane (s : text) : res loaded :=
    rbind (load_all (split_text s)) (fun l => Ok (match l with [a] => Single a | _ => Several l end)).
End Tables.
