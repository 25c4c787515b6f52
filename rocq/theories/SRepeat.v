(** Specification vocabulary for runs that follow other runs (C14, C17, C46). *)
From Coq Require Import List NArith Bool.
From Verif Require Import Base MText MVersion MGeneration MNames MFs MTool MInstall SCommon SNames SInstall SHistory.
Import ListNotations.
Open Scope N_scope.

(** ** Inputs *)

(** Every selected link has a readable bootspec, so garbage is collected. *)
Definition all_readable (c : config) : Prop :=
  forall vs sel, links_versions (c_links c) vs -> newest (c_limit c) vs sel -> Forall (fun vl => ~ unreadable vl) sel.

(** No generation is selected twice. *)
Definition distinct (c : config) : Prop :=
  forall vs sel, links_versions (c_links c) vs -> newest (c_limit c) vs sel -> NoDup (flat_map link_generations sel).

(** The inputs of a run, with other orders of listings and another schedule of
    I/O errors. *)
Definition again (e : env) (lst : nat -> list name -> list name) (walk : nat -> list path -> list path)
    (flt : nat -> fault) : env :=
  Env (e_store e) (e_sha e) (e_parse e) (e_objcopy e) (e_secrets e) (e_signer e) (e_lock e) (e_digit e) lst walk flt.

(** The version of the shipped boot loader is readable and survives signing,
    and what is signed is accepted. *)
Definition stable_signing (e : env) (c : config) : Prop :=
  forall x, e_store e (components (shipped_path c)) = Some x ->
    exists v, systemd_boot_version (e_parse e) x = Ok v /\
      forall out, sg_sign (e_signer e) x = Some out ->
        systemd_boot_version (e_parse e) out = Ok v /\ sg_verify (e_signer e) (Some out) = true.

(** ** States *)

(** The component of a generation in the pcrlock directory [d]. *)
Definition component (d : path) (g : generation) : path :=
  d ++ [lit "635-lanzaboote.pcrlock.d";
        utf8_encode (dec (g_version g) ++ match g_specname g with Some n => lit "-" ++ n | None => [] end ++ lit ".pcrlock")].

Section Repeat.
Variable M : machine.

(** With measured boot, every entry of a selected generation has its component:
    measured boot has not just been switched on. *)
Definition settled (c : config) (m : fs) : Prop :=
  forall d g key n y b, c_pcrlock c = Some d -> selected c g -> ma_keys M key -> named M key g n ->
    lookup m (linux_file M n) = Some (NFile y b) -> lookup m (component d g) <> None.

(** ** C46 *)

(** What the signing tool and systemd-pcrlock made of an image, in any run. *)
Variable Sign Lock : bytes -> bytes -> Prop.

Definition made_by (e : env) : Prop :=
  (forall x y, sg_sign (e_signer e) x = Some y -> Sign x y) /\ (forall x lo, e_lock e x = Some lo -> Lock x lo).

(** The entry [y] and the component [lo] were made from the same image. *)
Definition same_image (y lo : bytes) : Prop := exists image, Sign image y /\ Lock image lo.

(** Every entry has a component made from the same image. *)
Definition measured (d : path) (m : fs) : Prop :=
  forall g key n, ma_gens M g -> ma_keys M key -> named M key g n -> lookup m (linux_file M n) <> None ->
    exists y b lo b', lookup m (linux_file M n) = Some (NFile y b) /\
      lookup m (component d g) = Some (NFile lo b') /\ same_image y lo.

(** Number and specialisation name are never reused, and there is one key. *)
Definition no_reuse : Prop :=
  (forall g1 g2, ma_gens M g1 -> ma_gens M g2 -> g_version g1 = g_version g2 -> g_specname g1 = g_specname g2 -> g1 = g2) /\
  (forall k1 k2, ma_keys M k1 -> ma_keys M k2 -> k1 = k2).

(** The states reached from one without entries by successful runs with
    measured boot, and boot counting. *)
Inductive measured_history (d : path) : fs -> Prop :=
| mh_start m : tree_ok m -> contents_ok M m ->
    (forall g key n, ma_gens M g -> ma_keys M key -> named M key g n -> lookup m (linux_file M n) = None) ->
    measured_history d m
| mh_run m e c : measured_history d m -> fits M e c -> made_by e -> c_pcrlock c = Some d -> no_faults e -> complete_listings e ->
    distinct c -> snd (run_install e c m) = Ok tt -> measured_history d (s_fs (fst (run_install e c m)))
| mh_count m g key n n' x b : measured_history d m -> ma_gens M g -> ma_keys M key -> named M key g n -> named M key g n' ->
    lookup m (linux_file M n) = Some (NFile x b) -> lookup m (linux_file M n') = None ->
    measured_history d (apply (ORename (linux_file M n) (linux_file M n')) m).
End Repeat.
