(** Model of attitude/display/util.py: figures as data URLs. *)
From Coq Require Import ZArith List Ascii String Bool.
Import ListNotations.
Open Scope Z_scope.

(** Python's base64 alphabet *)
Definition alphabet : list ascii :=
  list_ascii_of_string "ABCDEFGHIJKLMNOPQRSTUVWXYZabcdefghijklmnopqrstuvwxyz0123456789+/".
Definition ch (n : Z) : ascii := nth (Z.to_nat n) alphabet "="%char.

(** base64.b64encode (binascii.b2a_base64 without newline), util.py:16 *)
Fixpoint b64encode (l : list Z) : list ascii :=
  match l with
  | a :: b :: c :: t =>
      let n := a * 65536 + b * 256 + c in
      ch (n / 262144) :: ch (n / 4096 mod 64) :: ch (n / 64 mod 64) :: ch (n mod 64) :: b64encode t
  | [a; b] => let n := (a * 256 + b) * 4 in [ch (n / 4096); ch (n / 64 mod 64); ch (n mod 64); "="%char]
  | [a] => let n := a * 16 in [ch (n / 64); ch (n mod 64); "="%char; "="%char]
  | [] => []
  end.

(** urllib.parse.quote with the default safe='/': letters, digits and _.-~/ are kept *)
Definition always_safe : list ascii :=
  list_ascii_of_string "ABCDEFGHIJKLMNOPQRSTUVWXYZabcdefghijklmnopqrstuvwxyz0123456789_.-~/".
Definition hex_digits : list ascii := list_ascii_of_string "0123456789ABCDEF".
Definition quote_char (c : ascii) : list ascii :=
  if existsb (Ascii.eqb c) always_safe then [c]
  else let n := Z.of_N (N_of_ascii c) in
       ["%"%char; nth (Z.to_nat (n / 16)) hex_digits "0"%char; nth (Z.to_nat (n mod 16)) hex_digits "0"%char].
Definition quote (s : list ascii) : list ascii := flat_map quote_char s.

(** util.py:10-16; [png]: what savefig wrote *)
Definition before_data : list ascii := list_ascii_of_string "<img src =""data:image/png;base64,".
Definition after_data : list ascii := list_ascii_of_string """/>".
Definition encode (png : list Z) : list ascii := before_data ++ quote (b64encode png) ++ after_data.
