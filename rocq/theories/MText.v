(** Text encodings used by the tool and by the boot stub: UTF-8, base32,
    the JSON text hashed into stub names, hexadecimal. *)
From Coq Require Import List NArith Bool.
From Verif Require Import Base.
Import ListNotations.
Open Scope N_scope.

(** ** UTF-8 *)

(** A Unicode scalar value, i.e. a Rust [char]
    (rust/tool/shared/src/os_release.rs:88). *)
Definition is_scalar (c : N) : bool :=
  (c <? 0xD800) || ((0xDFFF <? c) && (c <? 0x110000)).

(** UTF-8 encoding of one [char]: what [as_bytes] and the implicit conversion
    of strings to file contents do (rust/tool/systemd/src/install.rs:308,
    rust/tool/shared/src/pe.rs:98-104). *)
Definition utf8_char (c : N) : bytes :=
  if c <? 0x80 then [c]
  else if c <? 0x800 then [0xC0 + c / 0x40; 0x80 + c mod 0x40]
  else if c <? 0x10000 then
    [0xE0 + c / 0x1000; 0x80 + (c / 0x40) mod 0x40; 0x80 + c mod 0x40]
  else
    [0xF0 + c / 0x40000; 0x80 + (c / 0x1000) mod 0x40;
     0x80 + (c / 0x40) mod 0x40; 0x80 + c mod 0x40].

(** [str::as_bytes] (rust/tool/systemd/src/install.rs:308). *)
Definition utf8_encode (s : str) : bytes := flat_map utf8_char s.

(** A continuation byte, part of the validation done by [str::from_utf8]
    (rust/tool/systemd/src/install.rs:524). *)
Definition is_cont (b : N) : bool := (0x80 <=? b) && (b <? 0xC0).

(** [str::from_utf8] / [String::from_utf8]
    (rust/tool/systemd/src/install.rs:524, rust/tool/systemd/src/version.rs:43,
    rust/uefi/stub/src/thin.rs:24-30): strict decoding, [None] on overlong
    forms, surrogates, values above 0x10FFFF and truncated sequences. *)
Fixpoint utf8_decode (l : bytes) : option str :=
  match l with
  | [] => Some []
  | a :: l1 =>
      if a <? 0x80 then option_map (cons a) (utf8_decode l1)
      else if a <? 0xC2 then None
      else if a <? 0xE0 then
        match l1 with
        | b :: l2 =>
            if is_cont b
            then option_map (cons ((a - 0xC0) * 0x40 + (b - 0x80))) (utf8_decode l2)
            else None
        | _ => None
        end
      else if a <? 0xF0 then
        match l1 with
        | b :: c :: l3 =>
            let v := (a - 0xE0) * 0x1000 + (b - 0x80) * 0x40 + (c - 0x80) in
            if is_cont b && is_cont c && (0x800 <=? v) && is_scalar v
            then option_map (cons v) (utf8_decode l3)
            else None
        | _ => None
        end
      else if a <? 0xF5 then
        match l1 with
        | b :: c :: d :: l4 =>
            let v := (a - 0xF0) * 0x40000 + (b - 0x80) * 0x1000
                     + (c - 0x80) * 0x40 + (d - 0x80) in
            if is_cont b && is_cont c && is_cont d && (0x10000 <=? v) && is_scalar v
            then option_map (cons v) (utf8_decode l4)
            else None
        | _ => None
        end
      else None
  end.

(** ** Base32 *)

(** Bits of a byte, most significant first ([Base32Unpadded::encode_string],
    rust/tool/systemd/src/install.rs:422,555). *)
Definition bits8 (b : N) : list bool :=
  map (N.testbit b) [7; 6; 5; 4; 3; 2; 1; 0].

(** The lower-case RFC 4648 alphabet of [Base32Unpadded]
    (rust/tool/systemd/src/install.rs:9). *)
Definition b32_char (v : N) : N := if v <? 26 then 97 + v else 24 + v.

(** Value of a bit group, most significant first
    (rust/tool/systemd/src/install.rs:422). *)
Definition bits_value (l : list bool) : N :=
  fold_left (fun acc b => 2 * acc + (if b : bool then 1 else 0)) l 0.

(** Groups of five bits, the last one padded with zero bits
    (rust/tool/systemd/src/install.rs:422). *)
Fixpoint b32_groups (bits : list bool) : list N :=
  match bits with
  | a :: b :: c :: d :: e :: rest => b32_char (bits_value [a; b; c; d; e]) :: b32_groups rest
  | [a; b; c; d] => [b32_char (bits_value [a; b; c; d; false])]
  | [a; b; c] => [b32_char (bits_value [a; b; c; false; false])]
  | [a; b] => [b32_char (bits_value [a; b; false; false; false])]
  | [a] => [b32_char (bits_value [a; false; false; false; false])]
  | [] => []
  end.

(** [Base32Unpadded::encode_string] (rust/tool/systemd/src/install.rs:422,555). *)
Definition base32 (l : bytes) : str := b32_groups (flat_map bits8 l).

(** ** JSON *)

(** serde_json text of a [&[u8]]: an array of decimal numbers
    (rust/tool/systemd/src/install.rs:550,553,556). *)
Definition json_bytes (l : bytes) : str :=
  lit "[" ++ join (lit ",") (map dec l) ++ lit "]".

(** serde_json text of the array [stub_inputs]
    (rust/tool/systemd/src/install.rs:547-556). *)
Definition json_stub_inputs (toplevel public_key : bytes) : str :=
  lit "[[""toplevel""," ++ json_bytes toplevel ++ lit "],[""public_key"","
  ++ json_bytes public_key ++ lit "]]".

(** ** Hexadecimal *)

(** A lower-case hexadecimal digit ([{:x}] formatting,
    rust/uefi/pio/src/writer.rs:64). *)
Definition hex_digit (v : N) : N := if v <? 10 then 48 + v else 87 + v.

(** [{:08x}] of a u32 (rust/uefi/pio/src/writer.rs:62-65): eight digits. *)
Definition hex8 (v : N) : str :=
  map (fun k => hex_digit ((v / 16 ^ k) mod 16)) [7; 6; 5; 4; 3; 2; 1; 0].
