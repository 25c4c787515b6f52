(** Specification of C73: what carries signatures on an ESP whose files were not
    signed, or signed with other keys, before. *)
From Coq Require Import List NArith Bool.
From Verif Require Import Base MText MGeneration MNames MFs MTool MInstall SNames SInstall SHistory.
Import ListNotations.
Open Scope N_scope.

Section Key.
Variables (M : machine) (key : bytes) (verifies : bytes -> bool).

(** With this key, what the signing tool makes verifies, and the tool that
    checks signatures tells right. *)
Definition trusted (e : env) : Prop :=
  sg_key (e_signer e) = Some key ->
  (forall x y, sg_sign (e_signer e) x = Some y -> verifies y = true) /\
  (forall y, sg_verify (e_signer e) (Some y) = verifies y) /\ sg_verify (e_signer e) None = false.

(** Entries with the key's names verify. *)
Definition signed_entries (m : fs) : Prop :=
  forall g n y b, ma_gens M g -> named M key g n -> lookup m (linux_file M n) = Some (NFile y b) -> verifies y = true.

(** The states of an ESP from when the key appears: before, any history without
    entries for it (unsigned ones, other keys'); then runs with any keys,
    completed, failed or killed anywhere; boot counters; files removed by users;
    other software writing elsewhere. *)
Inductive since_key : fs -> Prop :=
| sk_start m : history M m -> (forall g n, ma_gens M g -> named M key g n -> lookup m (linux_file M n) = None) -> since_key m
| sk_run m e c os : since_key m -> fits M e c -> trusted e -> point e c m os -> since_key (apply_all os m)
| sk_count m g k n n' x b : since_key m -> ma_gens M g -> ma_keys M k -> named M k g n -> named M k g n' ->
    lookup m (linux_file M n) = Some (NFile x b) ->
    since_key (apply (ORename (linux_file M n) (linux_file M n')) m)
| sk_remove m p : since_key m -> since_key (fs_remove p m)
| sk_other m m' : since_key m -> (forall p, ours M p -> lookup m' p = lookup m p) -> since_key m'.

(** Every executable that the firmware or systemd-boot starts by itself: the
    two copies of systemd-boot and the entries of NixOS. *)
Definition loaders_signed (c : config) (m : fs) : Prop :=
  forall p, In p (boot_paths c) -> exists y b, lookup m p = Some (NFile y b) /\ verifies y = true.
Definition entries_signed (m : fs) : Prop :=
  forall n t y b, utf8_decode n = Some (lit "nixos-" ++ t) -> lookup m (linux_file M n) = Some (NFile y b) -> verifies y = true.
End Key.
