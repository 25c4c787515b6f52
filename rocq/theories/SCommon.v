(** Specification vocabulary shared by several properties.  Nothing here
    refers to the models. *)
From Coq Require Import List NArith.
Import ListNotations.
Open Scope N_scope.

(** [numeral s v]: the text [s] is a non-empty sequence of ASCII digits whose
    decimal value is [v]. *)
Inductive numeral : list N -> N -> Prop :=
| num_one c : 48 <= c <= 57 -> numeral [c] (c - 48)
| num_more s v c : numeral s v -> 48 <= c <= 57 -> numeral (s ++ [c]) (10 * v + (c - 48)).

(** A numeral as programs print it: no leading zero except "0" itself. *)
Definition plain_numeral (s : list N) (v : N) : Prop :=
  numeral s v /\ (forall t, s = 48 :: t -> t = []).

(** A Unicode scalar value (a Rust [char]). *)
Definition scalar_value (c : N) : Prop := c < 0xD800 \/ 0xDFFF < c < 0x110000.

(** A byte string. *)
Definition is_bytes (l : list N) : Prop := Forall (fun b => b < 256) l.

(** The characters of lower-case RFC 4648 base32: a-z and 2-7. *)
Definition base32_char (c : N) : Prop := 97 <= c <= 122 \/ 50 <= c <= 55.
