(** Shared vocabulary of the models: bytes, strings, outcomes, numerals.
    Nothing in this file models a function of /repo by itself; where a
    definition stands for a Rust standard-library facility, the comment
    names a place in /repo that uses it. *)
From Coq Require Import List NArith ZArith Bool String Ascii.
Import ListNotations.
Open Scope N_scope.

(** A byte (value < 256 where it matters); [Vec<u8>] and [&[u8]] in
    rust/uefi/pio/src/writer.rs:103-119, for example. *)
Notation byte := N (only parsing).
Definition bytes := list N.

(** A Rust [&str] as its sequence of Unicode scalar values; e.g.
    rust/tool/shared/src/os_release.rs:61 ([s.chars()]). *)
Definition str := list N.

(** Outcome of a Rust function: [Result] plus "the thread panicked".
    Used for every fallible function of /repo
    (e.g. rust/tool/systemd/src/install.rs:109). *)
Inductive res (E A : Type) : Type :=
| Ok (a : A)
| Err (e : E)
| Panic.
Arguments Ok {E A} _.
Arguments Err {E A} _.
Arguments Panic {E A}.

(** The [?] operator (rust/tool/systemd/src/install.rs:113, for example). *)
Definition bind {E A B} (m : res E A) (f : A -> res E B) : res E B :=
  match m with
  | Ok a => f a
  | Err e => Err e
  | Panic => Panic
  end.

(** [Option::ok_or] / anyhow's [.context] on an [Option]
    (rust/tool/shared/src/generation.rs:216). *)
Definition ok_or {E A} (o : option A) (e : E) : res E A :=
  match o with Some a => Ok a | None => Err e end.

(** A string literal of the Rust source (ASCII only). *)
Definition lit (s : string) : list N := map N_of_ascii (list_ascii_of_string s).
Export StringSyntax.
Arguments lit _%string_scope.

(** [==] on strings and byte strings (e.g. rust/uefi/stub/src/thin.rs:89). *)
Fixpoint eqb_bytes (a b : list N) : bool :=
  match a, b with
  | [], [] => true
  | x :: a', y :: b' => N.eqb x y && eqb_bytes a' b'
  | _, _ => false
  end.

(** [str::starts_with] (rust/tool/systemd/src/install.rs:158). *)
Fixpoint starts_with (p s : list N) : bool :=
  match p, s with
  | [], _ => true
  | x :: p', y :: s' => N.eqb x y && starts_with p' s'
  | _ :: _, [] => false
  end.

(** [str::split(c)] for a single character
    (rust/tool/shared/src/generation.rs:218): always at least one piece. *)
Fixpoint split_on (c : N) (s : list N) : list (list N) :=
  match s with
  | [] => [[]]
  | x :: s' =>
      if N.eqb x c then [] :: split_on c s'
      else match split_on c s' with
           | p :: ps => (x :: p) :: ps
           | [] => [[x]]
           end
  end.

(** [str::split_once(pat)] (rust/tool/systemd/src/version.rs:64,71):
    split at the first occurrence of the non-empty pattern. *)
Fixpoint split_once (pat s : list N) : option (list N * list N) :=
  if starts_with pat s then Some ([], skipn (List.length pat) s)
  else match s with
       | [] => None
       | x :: s' =>
           match split_once pat s' with
           | Some (a, b) => Some (x :: a, b)
           | None => None
           end
       end.

(** [slice::join(sep)] (rust/tool/shared/src/pe.rs:103, [join(" ")]). *)
Fixpoint join (sep : list N) (l : list (list N)) : list N :=
  match l with
  | [] => []
  | [x] => x
  | x :: l' => x ++ sep ++ join sep l'
  end.

(** Decimal [Display] of an unsigned integer
    (rust/tool/systemd/src/install.rs:562-566, [{}] of a u64). *)
Fixpoint dec_aux (fuel : nat) (n : N) (acc : list N) : list N :=
  match fuel with
  | O => acc
  | S f =>
      let acc' := (48 + n mod 10) :: acc in
      if n <? 10 then acc' else dec_aux f (n / 10) acc'
  end.
Definition dec (n : N) : list N := dec_aux (S (N.size_nat n)) n [].

(** [char::is_ascii_digit]-style test used by Rust's integer parsing
    (rust/tool/systemd/src/version.rs:67). *)
Definition is_digit (c : N) : bool := (48 <=? c) && (c <=? 57).

(** Digits to number, most significant first, unbounded. *)
Definition digits_value (l : list N) : N :=
  fold_left (fun acc c => acc * 10 + (c - 48)) l 0.

(** Rust's [str::parse::<uN>()] with maximum value [max]: an optional
    ['+'], then at least one ASCII digit and nothing else; overflow is an
    error.  rust/tool/systemd/src/version.rs:67,69,74,82 (u32) and
    rust/tool/shared/src/generation.rs:221 (u64). *)
Definition parse_unsigned (max : N) (s : str) : option N :=
  let ds := match s with
            | c :: ds' => if c =? 43 then ds' else s
            | [] => s
            end in
  match ds with
  | [] => None
  | _ =>
      if forallb is_digit ds then
        let v := digits_value ds in
        if v <=? max then Some v else None
      else None
  end.

(** Rust's [str::parse::<i32>()] ([max] = 2^31-1): an optional sign.
    rust/tool/systemd/src/version.rs:75. *)
Definition parse_signed (max : N) (s : str) : option Z :=
  let unsigned := match parse_unsigned max s with
                  | Some v => Some (Z.of_N v)
                  | None => None
                  end in
  match s with
  | c :: ds =>
      if c =? 45 then
        match ds with
        | [] => None
        | _ =>
            if forallb is_digit ds then
              let v := digits_value ds in
              if v <=? max + 1 then Some (- Z.of_N v)%Z else None
            else None
        end
      else unsigned
  | [] => unsigned
  end.
