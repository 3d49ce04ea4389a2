(** Specification vocabulary: base64 (RFC 4648), percent-encoding (RFC 3986) and
    double-quoted HTML attributes. *)
From Coq Require Import ZArith List Ascii String Bool.
Import ListNotations.
Open Scope Z_scope.

Definition char_of (n : Z) : ascii := ascii_of_N (Z.to_N n).
Definition code (c : ascii) : Z := Z.of_N (N_of_ascii c).

(** Big-endian bits *)
Fixpoint bits (k : nat) (n : Z) : list bool :=
  match k with O => [] | S k => bits k (n / 2) ++ [Z.odd n] end.
Definition is_byte (n : Z) : Prop := 0 <= n < 256.

(** Character of a six-bit number *)
Definition letter (n : Z) : ascii :=
  if n <? 26 then char_of (code "A"%char + n) else if n <? 52 then char_of (code "a"%char + (n - 26))
  else if n <? 62 then char_of (code "0"%char + (n - 52)) else if n =? 62 then "+"%char else "/"%char.

(** [base64 s data]: the characters [s] are an encoding of the bytes *)
Definition base64 (s : list ascii) (data : list Z) : Prop :=
  exists sextets pad,
    s = (map letter sextets ++ repeat "="%char pad)%list /\ Forall (fun n => 0 <= n < 64) sextets /\
    Forall is_byte data /\ (pad < 3)%nat /\ (exists q, List.length s = (4 * q)%nat) /\
    flat_map (bits 6) sextets = (flat_map (bits 8) data ++ repeat false (2 * pad))%list.

(** Hexadecimal digits *)
Definition hex_value (c : ascii) : option Z :=
  let n := code c in
  if (code "0"%char <=? n) && (n <=? code "9"%char) then Some (n - code "0"%char)
  else if (code "A"%char <=? n) && (n <=? code "F"%char) then Some (n - code "A"%char + 10)
  else if (code "a"%char <=? n) && (n <=? code "f"%char) then Some (n - code "a"%char + 10)
  else None.
(** [percent s t]: [t] is [s] with its escapes decoded *)
Inductive percent : list ascii -> list ascii -> Prop :=
  | percent_nil : percent [] []
  | percent_plain : forall c s t, c <> "%"%char -> percent s t -> percent (c :: s) (c :: t)
  | percent_escape : forall h l a b s t, hex_value h = Some a -> hex_value l = Some b -> percent s t ->
      percent ("%"%char :: h :: l :: s) (char_of (16 * a + b) :: t).

(** Characters that mean themselves in a double-quoted attribute *)
Definition attribute_safe (c : ascii) : Prop := ~ In c [""""; "<"; ">"; "&"]%char.
