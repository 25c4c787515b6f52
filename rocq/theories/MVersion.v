(** Model of rust/tool/systemd/src/version.rs: systemd versions. *)
From Coq Require Import List NArith ZArith Bool.
From Verif Require Import Base.
Import ListNotations.
Open Scope N_scope.

(** [struct SystemdVersion], version.rs:19-27. *)
Record version := Version { v_major : N; v_minor : Z; v_patch : N }.

(** [u32::MAX] and [i32::MAX], the ranges of the fields (version.rs:21-26). *)
Definition u32_max : N := 4294967295.
Definition i32_max : N := 2147483647.

(** [SystemdVersion::from_str], version.rs:63-86; [None] is [Err]. *)
Definition version_parse (s : str) : option version :=
  match split_once (lit "-rc") s with
  | Some (maj, rc) =>                                    (* 64-70 *)
      match parse_unsigned u32_max maj, parse_unsigned u32_max rc with
      | Some a, Some b => Some (Version a (-1) b)
      | _, _ => None
      end
  | None =>
      match split_once (lit ".") s with
      | Some (maj, min) =>                               (* 71-77 *)
          match parse_unsigned u32_max maj, parse_signed i32_max min with
          | Some a, Some b => Some (Version a b 0)
          | _, _ => None
          end
      | None =>                                          (* 78-85 *)
          match parse_unsigned u32_max s with
          | Some a => Some (Version a 0 0)
          | None => None
          end
      end
  end.

(** The derived [PartialOrd], version.rs:19: [a > b], lexicographic. *)
Definition version_gtb (a b : version) : bool :=
  (v_major b <? v_major a)
  || ((v_major a =? v_major b)
      && ((v_minor b <? v_minor a)%Z
          || ((v_minor a =? v_minor b)%Z && (v_patch b <? v_patch a)))).
