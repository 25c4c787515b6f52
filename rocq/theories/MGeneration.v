(** Model of rust/tool/shared/src/generation.rs and of
    [OsRelease::from_generation] (rust/tool/shared/src/os_release.rs:19-50).

    Not modelled: reading and parsing boot.json (generation.rs:78-87), the
    bootspec is an input; it is malformed when that reading fails. *)
From Coq Require Import List NArith Bool.
From Verif Require Import Base MOsRelease.
Import ListNotations.
Open Scope N_scope.

(** [time::Date], years 0 to 9999 (generation.rs:181-185).  Simplification:
    the [time] crate also formats years outside this range. *)
Record date := Date { d_year : N; d_month : N; d_day : N }.

(** Zero-padded decimal of at least [w] digits ([{:0w}]), used by the
    formatting of [Date] (generation.rs:160). *)
Definition dec_pad (w : nat) (n : N) : str :=
  let d := dec n in repeat 48 (w - length d) ++ d.

(** [Date::to_string], "YYYY-MM-DD" (generation.rs:160). *)
Definition date_display (d : date) : str :=
  dec_pad 4 (d_year d) ++ lit "-" ++ dec_pad 2 (d_month d) ++ lit "-" ++ dec_pad 2 (d_day d).

(** The parts of the bootspec document that the tool uses
    ([bootspec::BootSpec] and [Specialisation], generation.rs:8-10).  Paths are
    byte strings.  [bs_sort_key] is the [sort_key] of the lanzaboote extension
    if present and well-formed (generation.rs:37-53).  [bs_specs] lists the
    entries of the [HashMap] of specialisations in its iteration order. *)
Inductive bootspec := Bootspec {
  bs_init : bytes;
  bs_initrd : option bytes;
  bs_initrd_secrets : option bytes;
  bs_kernel : bytes;
  bs_params : list str;
  bs_label : str;
  bs_toplevel : bytes;
  bs_sort_key : option str;
  bs_specs : list (str * bootspec);
}.

(** [struct Generation], generation.rs:62-75.  [g_spec] is [spec.bootspec],
    [g_sort_key] is [spec.lanzaboote_extension.sort_key]. *)
Inductive generation := Generation {
  g_version : N;
  g_build_time : option date;
  g_specname : option str;
  g_spec : bootspec;
  g_sort_key : str;
  g_specs : list generation;
}.

(** [impl From<..> for LanzabooteExtension] and [Default], generation.rs:29-53. *)
Definition sort_key_of (b : bootspec) : str :=
  match bs_sort_key b with
  | Some k => k
  | None => lit "lanzaboote"
  end.

(** [parse_specialisation] and [parse_specialisations], generation.rs:89-120. *)
Fixpoint parse_specialisation (v : N) (t : option date) (name : str) (b : bootspec) : generation :=
  Generation v t (Some name) b (sort_key_of b)
    (map (fun '(n, b') => parse_specialisation v t n b') (bs_specs b)).

(** [parse_boot_json], generation.rs:122-139. *)
Definition parse_boot_json (v : N) (t : option date) (b : bootspec) : generation :=
  Generation v t None b (sort_key_of b)
    (map (fun '(n, b') => parse_specialisation v t n b') (bs_specs b)).

(** [describe_specialisation], generation.rs:142-148. *)
Definition describe_specialisation (g : generation) : str :=
  match g_specname g with
  | Some n => lit "-" ++ n
  | None => []
  end.

(** [Generation::describe], generation.rs:157-169. *)
Definition describe (g : generation) : str :=
  let build_time := match g_build_time g with
                    | Some d => date_display d
                    | None => lit "Unknown"
                    end in
  lit "Generation " ++ dec (g_version g) ++ describe_specialisation g
  ++ lit ", " ++ build_time.

(** [Generation::version_tag], generation.rs:172-174. *)
Definition version_tag (g : generation) : str :=
  dec (g_version g) ++ describe_specialisation g.

(** [u64::MAX], the range of [parse::<u64>()] (generation.rs:219). *)
Definition u64_max : N := 18446744073709551615.

(** [parse_version] on the file name of the link, generation.rs:213-223.  The
    argument is [path.file_name().and_then(to_str)]. *)
Definition link_version (file_name : option str) : option N :=
  match file_name with
  | None => None
  | Some n =>
      match nth_error (split_on 45 n) 1 with
      | Some p => parse_unsigned u64_max p
      | None => None
      end
  end.

(** [OsRelease::from_generation], os_release.rs:19-50. *)
Definition os_release_of_generation (g : generation) : omap :=
  om_insert (lit "VERSION_ID") (describe g)
    (om_insert (lit "PRETTY_NAME")
       (bs_label (g_spec g) ++ lit " (" ++ describe g ++ lit ")")
       (om_insert (lit "ID") (g_sort_key g) [])).
