(** Reference readers for C87: what a browser makes of the text, independent of the model. *)
From Coq Require Import List NArith Bool.
Import ListNotations.
Open Scope N_scope.

Definition unhex (c : N) : option N :=
  if (48 <=? c) && (c <=? 57) then Some (c - 48)
  else if (97 <=? c) && (c <=? 102) then Some (c - 87)
  else if (65 <=? c) && (c <=? 70) then Some (c - 55) else None.
Definition unhex4 (a b c d : N) : option N :=
  match unhex a, unhex b, unhex c, unhex d with
  | Some a, Some b, Some c, Some d => Some (((a * 16 + b) * 16 + c) * 16 + d)
  | _, _, _, _ => None
  end.
Definition consl {A B} (x : A) (o : option (list A * B)) : option (list A * B) :=
  match o with Some (l, r) => Some (x :: l, r) | None => None end.
(** ECMAScript string literal after its opening quote 39: the value and the text after the
    closing quote; [None]: no literal.  Octal escapes other than \0 are not read. *)
Fixpoint js_literal (s : list N) : option (list N * list N) :=
  match s with
  | [] => None
  | c :: t =>
      if c =? 39 then Some ([], t)
      else if (c =? 10) || (c =? 13) then None
      else if c =? 92 then
        match t with
        | [] => None
        | e :: t' =>
            if e =? 117 then
              match t' with
              | h1 :: h2 :: h3 :: h4 :: t'' => match unhex4 h1 h2 h3 h4 with Some v => consl v (js_literal t'') | None => None end
              | _ => None
              end
            else if e =? 120 then
              match t' with
              | h1 :: h2 :: t'' => match unhex4 48 48 h1 h2 with Some v => consl v (js_literal t'') | None => None end
              | _ => None
              end
            else if e =? 110 then consl 10 (js_literal t')
            else if e =? 114 then consl 13 (js_literal t')
            else if e =? 116 then consl 9 (js_literal t')
            else if e =? 102 then consl 12 (js_literal t')
            else if e =? 98 then consl 8 (js_literal t')
            else if e =? 118 then consl 11 (js_literal t')
            else if e =? 10 then js_literal t'
            else if e =? 48 then consl 0 (js_literal t')
            else if (49 <=? e) && (e <=? 57) then None
            else consl e (js_literal t')
        end
      else consl c (js_literal t)
  end.
(** JSON string (ECMA-404) after its opening quote 34 *)
Fixpoint json_chars (s : list N) : option (list N * list N) :=
  match s with
  | [] => None
  | c :: t =>
      if c =? 34 then Some ([], t)
      else if c <? 32 then None
      else if c =? 92 then
        match t with
        | [] => None
        | e :: t' =>
            if e =? 117 then
              match t' with
              | h1 :: h2 :: h3 :: h4 :: t'' => match unhex4 h1 h2 h3 h4 with Some v => consl v (json_chars t'') | None => None end
              | _ => None
              end
            else if e =? 110 then consl 10 (json_chars t')
            else if e =? 114 then consl 13 (json_chars t')
            else if e =? 116 then consl 9 (json_chars t')
            else if e =? 102 then consl 12 (json_chars t')
            else if e =? 98 then consl 8 (json_chars t')
            else if (e =? 34) || (e =? 92) || (e =? 47) then consl e (json_chars t')
            else None
        end
      else consl c (json_chars t)
  end.
(** JSON.parse of a text holding one string *)
Definition json_string (s : list N) : option (list N) :=
  match s with
  | c :: t => if c =? 34 then match json_chars t with Some (v, []) => Some v | _ => None end else None
  | [] => None
  end.
Definition occurs (p s : list N) : Prop := exists a b, s = a ++ p ++ b.
Fixpoint starts (p s : list N) : bool :=
  match p, s with [], _ => true | a :: p', b :: s' => (a =? b) && starts p' s' | _, [] => false end.
(** the text after, and before, the first occurrence of p *)
Fixpoint after_first (p s : list N) : option (list N) :=
  if starts p s then Some (skipn (List.length p) s) else match s with [] => None | _ :: t => after_first p t end.
Fixpoint before_first (p s : list N) : list N :=
  if starts p s then [] else match s with [] => [] | c :: t => c :: before_first p t end.

(** White space of Python's str.strip within ASCII: tab, line feed, vertical tab, form feed,
    carriage return, the four separators and the space *)
Definition white (c : N) : Prop := In c [9; 10; 11; 12; 13; 28; 29; 30; 31; 32].
(** a line that is --- apart from white space *)
Definition separator (l : list N) : Prop := exists w w', l = w ++ [45; 45; 45] ++ w' /\ forall c, In c (w ++ w') -> white c.
