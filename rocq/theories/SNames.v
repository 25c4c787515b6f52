(** Specification for C15, C16, C25, C51, C04: names and encodings. *)
From Coq Require Import List NArith Bool.
From Verif Require Import Base SCommon.
Import ListNotations.
Open Scope N_scope.

(** The documented form of a stub name, without counter and extension. *)
Definition stub_stem (version : N) (specialisation : option (list N)) (hash : list N) (s : list N) : Prop :=
  exists v, plain_numeral v version /\ length hash = 52%nat /\ Forall base32_char hash /\
    s = match specialisation with
        | None => lit "nixos-generation-" ++ v ++ lit "-" ++ hash
        | Some n => lit "nixos-generation-" ++ v ++ lit "-specialisation-" ++ n ++ lit "-" ++ hash
        end.

(** Boot counter suffixes of the Boot Loader Specification: none, tries left,
    or tries left and tries done. *)
Inductive counter (digit : N -> bool) : list N -> Prop :=
| counter_none : counter digit []
| counter_left a : a <> [] -> forallb digit a = true -> counter digit (lit "+" ++ a)
| counter_both a b : a <> [] -> b <> [] -> forallb digit a = true -> forallb digit b = true ->
    counter digit (lit "+" ++ a ++ lit "-" ++ b).

(** A notion of "digit" that agrees with ASCII on ASCII characters; which
    other Unicode digits it has is left open. *)
Definition digit_class (digit : N -> bool) : Prop :=
  forall c, c < 128 -> (digit c = true <-> 48 <= c <= 57).

(** Two different inputs with the same hash. *)
Definition collision (h : list N -> list N) : Prop := exists x y, x <> y /\ h x = h y.

(** A hash function with 32-byte output. *)
Definition hash32 (h : list N -> list N) : Prop := forall x, length (h x) = 32%nat /\ is_bytes (h x).

(** Number denoted by a digit sequence in base [b], most significant first. *)
Fixpoint positional (b : N) (l : list N) : N :=
  match l with
  | [] => 0
  | d :: l' => d * b ^ N.of_nat (length l') + positional b l'
  end.

(** The base32 digit denoted by a character (RFC 4648). *)
Definition base32_value (c : N) : N := if c <? 97 then c - 50 + 26 else c - 97.

(** Component of a path below the ESP: a proper file name in UTF-8 without
    slash and backslash. *)
Definition esp_component (c : list N) : Prop :=
  c <> [] /\ c <> lit "." /\ ~ In 47 c /\ ~ In 92 c.
