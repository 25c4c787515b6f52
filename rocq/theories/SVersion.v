(** Specification for C21: systemd releases and their order. *)
From Coq Require Import List NArith ZArith.
From Verif Require Import Base SCommon.
Import ListNotations.
Open Scope N_scope.

(** systemd releases: the K-th release candidate of M, the release M, and the
    stable update m of M. *)
Inductive release :=
| Candidate (M K : N)
| Final (M : N)
| Point (M m : N).

(** The name under which a release is published. *)
Inductive release_name : release -> list N -> Prop :=
| rn_candidate M K sM sK :
    numeral sM M -> numeral sK K -> release_name (Candidate M K) (sM ++ lit "-rc" ++ sK)
| rn_final M sM : numeral sM M -> release_name (Final M) sM
| rn_point M m sM sm :
    numeral sM M -> numeral sm m -> release_name (Point M m) (sM ++ lit "." ++ sm).

(** The numbers in a release name fit the tool's integer types. *)
Definition release_in_range (r : release) : Prop :=
  match r with
  | Candidate M K => M < 2 ^ 32 /\ K < 2 ^ 32
  | Final M => M < 2 ^ 32
  | Point M m => M < 2 ^ 32 /\ m < 2 ^ 31
  end.

(** [older a b]: release [a] came before release [b]. *)
Definition older (a b : release) : Prop :=
  match a, b with
  | Candidate M K, Candidate M' K' => M < M' \/ (M = M' /\ K < K')
  | Candidate M _, Final M' => M <= M'
  | Candidate M _, Point M' _ => M <= M'
  | Final M, Candidate M' _ => M < M'
  | Final M, Final M' => M < M'
  | Final M, Point M' m' => M < M' \/ (M = M' /\ 0 < m')
  | Point M _, Candidate M' _ => M < M'
  | Point M _, Final M' => M < M'
  | Point M m, Point M' m' => M < M' \/ (M = M' /\ m < m')
  end.

(** Rust's integer syntax: an optional plus sign and a numeral. *)
Inductive rust_unsigned : list N -> N -> Prop :=
| ru_plain s v : numeral s v -> rust_unsigned s v
| ru_plus s v : numeral s v -> rust_unsigned (lit "+" ++ s) v.

Inductive rust_signed : list N -> Z -> Prop :=
| rs_pos s v : rust_unsigned s v -> rust_signed s (Z.of_N v)
| rs_neg s v : numeral s v -> rust_signed (lit "-" ++ s) (- Z.of_N v).

(** Everything the version parser accepts, with the triple it yields. *)
Inductive accepted_version : list N -> N -> Z -> N -> Prop :=
| av_candidate sM sK M K :
    rust_unsigned sM M -> rust_unsigned sK K -> M < 2 ^ 32 -> K < 2 ^ 32 ->
    accepted_version (sM ++ lit "-rc" ++ sK) M (-1) K
| av_point sM sm M m :
    rust_unsigned sM M -> rust_signed sm m -> M < 2 ^ 32 -> (- 2 ^ 31 <= m < 2 ^ 31)%Z ->
    accepted_version (sM ++ lit "." ++ sm) M m 0
| av_final sM M :
    rust_unsigned sM M -> M < 2 ^ 32 -> accepted_version sM M 0 0.
