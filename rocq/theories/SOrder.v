(** Specification of C67: which arguments matter. *)
From Coq Require Import List NArith.
From Verif Require Import Base MInstall SInstall.
Import ListNotations.
Open Scope N_scope.

(** Two configurations that differ at most in the generation links. *)
Definition same_but_links (c c' : config) : Prop :=
  c_arch c = c_arch c' /\ c_esp c = c_esp c' /\ c_stub c = c_stub c' /\ c_systemd c = c_systemd c' /\
  c_conf c = c_conf c' /\ c_limit c = c_limit c' /\ c_tries c = c_tries c' /\ c_pcrlock c = c_pcrlock c'.

(** No two different links have the same version. *)
Definition distinct_versions (vs : list (N * link)) : Prop :=
  forall a b, In a vs -> In b vs -> fst a = fst b -> a = b.
