(** Model of rust/tool/shared/src/os_release.rs: the parser and printer of
    os-release files.  The part that builds one from a generation is in
    MGeneration.v. *)
From Coq Require Import List NArith Bool.
From Verif Require Import Base.
Import ListNotations.
Open Scope N_scope.

(** [BTreeMap<String, String>] (os_release.rs:16): an association list kept
    sorted by key.  Rust orders strings by their UTF-8 bytes, which is the
    lexicographic order of the scalar values. *)
Definition omap := list (str * str).

(** Lexicographic [<] on strings, the key order of the [BTreeMap]
    (os_release.rs:16). *)
Fixpoint str_ltb (a b : str) : bool :=
  match a, b with
  | [], [] => false
  | [], _ :: _ => true
  | _ :: _, [] => false
  | x :: a', y :: b' => (x <? y) || ((x =? y) && str_ltb a' b')
  end.

(** [BTreeMap::insert] (os_release.rs:28,38,47,114,136,221). *)
Fixpoint om_insert (k v : str) (m : omap) : omap :=
  match m with
  | [] => [(k, v)]
  | (k', v') :: m' =>
      if eqb_bytes k k' then (k, v) :: m'
      else if str_ltb k k' then (k, v) :: m
      else (k', v') :: om_insert k v m'
  end.

(** [BTreeMap::get] (rust/tool/systemd/src/version.rs:51-53). *)
Fixpoint om_get (k : str) (m : omap) : option str :=
  match m with
  | [] => None
  | (k', v) :: m' => if eqb_bytes k k' then Some v else om_get k m'
  end.

(** [char::is_whitespace], the characters removed by [trim_end]
    (os_release.rs:113,133,135,214,217). *)
Definition is_whitespace (c : N) : bool :=
  ((9 <=? c) && (c <=? 13)) || (c =? 32) || (c =? 133) || (c =? 160)
  || (c =? 5760) || ((8192 <=? c) && (c <=? 8202))
  || (c =? 8232) || (c =? 8233) || (c =? 8239) || (c =? 8287) || (c =? 12288).

(** [str::trim_end] (os_release.rs:113 and others). *)
Fixpoint trim_end (s : str) : str :=
  match s with
  | [] => []
  | c :: s' =>
      match trim_end s' with
      | [] => if is_whitespace c then [] else [c]
      | t => c :: t
      end
  end.

(** [COMMENTS], os_release.rs:83. *)
Definition in_comments (c : N) : bool := (c =? 35) || (c =? 59).
(** [WHITESPACE], os_release.rs:84. *)
Definition in_blank (c : N) : bool := (c =? 32) || (c =? 9) || (c =? 10) || (c =? 13).
(** [NEWLINE], os_release.rs:85. *)
Definition in_newline (c : N) : bool := (c =? 13) || (c =? 10).
(** [SHELL_NEED_ESCAPE], os_release.rs:86. *)
Definition in_shell_escape (c : N) : bool :=
  (c =? 34) || (c =? 92) || (c =? 96) || (c =? 36).

(** [enum State], os_release.rs:64-76. *)
Inductive ostate :=
| PreKey | Key | PreValue | Value | ValueEscape
| SingleQuoteValue | DoubleQuoteValue | DoubleQuoteValueEscape
| Comment | CommentEscape.

(** The mutable variables of the parser, os_release.rs:62,78-81. *)
Record ovars := OV { ov_state : ostate; ov_key : str; ov_val : str; ov_map : omap }.

(** One iteration of the loop, os_release.rs:88-202. *)
Definition os_step (s : ovars) (c : N) : ovars :=
  let '(OV st k v m) := s in
  match st with
  | PreKey =>                                            (* 90-97 *)
      if in_comments c then OV Comment k v m
      else if negb (in_blank c) then OV Key (k ++ [c]) v m
      else s
  | Key =>                                               (* 98-108 *)
      if in_newline c then OV PreKey [] v m
      else if c =? 61 then OV PreValue k v m
      else OV Key (k ++ [c]) v m
  | PreValue =>                                          (* 109-128 *)
      if in_newline c then OV PreKey [] [] (om_insert (trim_end k) v m)
      else if c =? 39 then OV SingleQuoteValue k v m
      else if c =? 34 then OV DoubleQuoteValue k v m
      else if c =? 92 then OV ValueEscape k v m
      else if negb (in_blank c) then OV Value k (v ++ [c]) m
      else s
  | Value =>                                             (* 129-145 *)
      if in_newline c then OV PreKey [] [] (om_insert (trim_end k) (trim_end v) m)
      else if c =? 92 then OV ValueEscape k v m
      else OV Value k (v ++ [c]) m
  | ValueEscape =>                                       (* 146-153 *)
      if negb (in_newline c) then OV Value k (v ++ [c]) m else OV Value k v m
  | SingleQuoteValue =>                                  (* 154-160 *)
      if c =? 39 then OV PreValue k v m else OV SingleQuoteValue k (v ++ [c]) m
  | DoubleQuoteValue =>                                  (* 161-169 *)
      if c =? 34 then OV PreValue k v m
      else if c =? 92 then OV DoubleQuoteValueEscape k v m
      else OV DoubleQuoteValue k (v ++ [c]) m
  | DoubleQuoteValueEscape =>                            (* 170-183 *)
      if in_shell_escape c then OV DoubleQuoteValue k (v ++ [c]) m
      else if negb (c =? 10) then OV DoubleQuoteValue k (v ++ [92; c]) m
      else OV DoubleQuoteValue k v m
  | Comment =>                                           (* 184-190 *)
      if c =? 92 then OV CommentEscape k v m
      else if in_newline c then OV PreKey k v m
      else s
  | CommentEscape =>                                     (* 191-200 *)
      if in_newline c then OV PreKey k v m else OV Comment k v m
  end.

(** [OsRelease::from_str], os_release.rs:61-225; it never fails. *)
Definition os_release_parse (text : str) : omap :=
  let '(OV st k v m) := fold_left os_step text (OV PreKey [] [] []) in
  match st with
  | Value => om_insert (trim_end k) (trim_end v) m
  | PreValue | ValueEscape | SingleQuoteValue | DoubleQuoteValue | DoubleQuoteValueEscape =>
      om_insert (trim_end k) v m
  | _ => m
  end.

(** [Display for OsRelease], os_release.rs:229-236. *)
Definition os_release_display (m : omap) : str :=
  flat_map (fun kv => fst kv ++ [61] ++ snd kv ++ [10]) m.
