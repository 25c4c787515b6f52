(** Specification of C86: what systemd-measure predicts. *)
From Coq Require Import List NArith Bool.
From Verif Require Import Base MText MPe SCommon SStub SImage.
Import ListNotations.
Open Scope N_scope.

(** systemd-measure(1), [calculate]: for each of the sections of a unified
    kernel image in the canonical order, of those that are given, the name with
    a final NUL and the contents are measured into PCR 11. *)
Definition systemd_measure (parts : list (str * bytes)) : list bytes :=
  flat_map (fun n => flat_map (fun x => if str_dec (fst x) n then [n ++ [0]; snd x] else []) parts) canonical_sections.

(** Of the sections that are measured, an entry has those that the installer
    adds, once each. *)
Definition own_sections (p : pe) : Prop :=
  forall n, In n canonical_sections ->
    occurrences (pe_sections p) n = if in_dec str_dec n stub_sections then 1%nat else 0%nat.

(** The shipped stub has none. *)
Definition bare (p : pe) : Prop := forall n, In n canonical_sections -> occurrences (pe_sections p) n = 0%nat.
