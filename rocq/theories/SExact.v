(** Specification of C75: what is on the ESP after a successful run. *)
From Coq Require Import List NArith Bool.
From Verif Require Import Base MText MGeneration MNames MFs MInstall SCommon SNames SInstall SHistory SRepeat.
Import ListNotations.
Open Scope N_scope.

(** Properly below a directory. *)
Definition below (d p : path) : Prop := exists a r, p = d ++ a :: r.

Section Exact.
Variables (M : machine) (key : bytes).

(** The entries of NixOS are those listed: each generation has one, which
    starts its kernel, and there are no others. *)
Definition exact_entries (l : list (generation * name)) (m : fs) : Prop :=
  (forall g n, In (g, n) l -> named M key g n /\
     exists y b, lookup m (linux_file M n) = Some (NFile y b) /\ stub_for M g y /\ bootable M m y) /\
  (forall n t, utf8_decode n = Some (lit "nixos-" ++ t) -> lookup m (linux_file M n) <> None -> In n (map snd l)).

(** All that is in EFI/nixos is named by one of the entries. *)
Definition exact_files (l : list (generation * name)) (m : fs) : Prop :=
  forall p, below (ma_esp M ++ [lit "EFI"; lit "nixos"]) p -> lookup m p <> None ->
    exists g n y b s k, In (g, n) l /\ lookup m (linux_file M n) = Some (NFile y b) /\
      In s [lit ".linux"; lit ".initrd"] /\ has_section (ma_parse M) y s k /\ efi_path M k p.

(** The alternatives for the stub in the pcrlock directory are the components of
    the listed generations. *)
Definition exact_components (d : path) (l : list (generation * name)) (m : fs) : Prop :=
  forall p, below (d ++ [lit "635-lanzaboote.pcrlock.d"]) p ->
    (lookup m p <> None <-> exists g n, In (g, n) l /\ p = component d g).
End Exact.

(** There are as many elements with [P] as [n]; at most as many. *)
Definition number {A} (P : A -> Prop) (n : nat) : Prop := exists l, NoDup l /\ (forall x, In x l <-> P x) /\ length l = n.
Definition at_most {A} (P : A -> Prop) (n : nat) : Prop := forall l, NoDup l -> (forall x, In x l -> P x) -> (length l <= n)%nat.

(** A name of a file that systemd-boot lists for NixOS. *)
Definition listed (M : machine) (m : fs) (n : name) : Prop :=
  (exists t, utf8_decode n = Some (lit "nixos-" ++ t)) /\ lookup m (linux_file M n) <> None.

(** A variant of the boot stub that systemd-pcrlock has to allow for. *)
Definition variant (d : path) (m : fs) (p : path) : Prop :=
  below (d ++ [lit "635-lanzaboote.pcrlock.d"]) p /\ lookup m p <> None.

(** No selected system has specialisations. *)
Definition no_specialisations (c : config) : Prop :=
  forall l b, In l (c_links c) -> l_spec l = Some b -> bs_specs b = [].

(** The number of specialisations of a system. *)
Definition specialisations (vl : N * link) : nat :=
  match l_spec (snd vl) with Some b => length (bs_specs b) | None => 0%nat end.

(** The selected generations and specialisations have different numbers or names. *)
Definition apart (c : config) : Prop :=
  forall vs sel, links_versions (c_links c) vs -> newest (c_limit c) vs sel ->
    NoDup (map (fun g => (g_version g, g_specname g)) (flat_map link_generations sel)).
