(** Specification of C92: what somebody who can write to the ESP can have
    started under Secure Boot. *)
From Coq Require Import List NArith Bool.
From Verif Require Import Base MText MGeneration MNames MPe MCpio MFirmware MFs MInstall SCommon SNames SFirmware SStub SInstall SImage
  SHistory SUse SCpio.
Import ListNotations.
Open Scope N_scope.

Section Machine.
Variable M : machine.

(** [y] was the file of an entry of [g] at some time, on an ESP that nobody
    tampered with. *)
Definition issued (g : generation) (y : bytes) : Prop :=
  exists m key n b, history M m /\ ma_gens M g /\ ma_keys M key /\ named M key g n /\
    lookup m (linux_file M n) = Some (NFile y b).

(** The firmware starts only images signed by a key it knows: entries that were
    issued, and what others with a known key have signed. *)
Definition unforged (accepts others : bytes -> Prop) : Prop :=
  forall y, accepts y -> others y \/ exists g, issued g y.

(** A kernel or initrd of a generation, from the store. *)
Definition store_file (x : bytes) : Prop :=
  exists g, ma_gens M g /\
    (ma_store M (components (bs_kernel (g_spec g))) = Some x \/
     exists p, bs_initrd (g_spec g) = Some p /\ ma_store M (components p) = Some x).

(** No file that was read has the hash of another kernel or initrd. *)
Definition unsubstituted (h : list event) : Prop :=
  forall n x k, In (EvRead n (Some x)) h -> store_file k -> ma_sha M x = ma_sha M k -> x = k.

(** Where the stub may put files into the initrd: three directories below
    /.extra, with names that do not lead out of them. *)
Definition extra_name (n : bytes) : Prop :=
  n = lit "/.extra" \/
  exists d, In d [lit "credentials"; lit "global_credentials"; lit "sysext"] /\
    (n = lit "/.extra/" ++ d \/
     exists f, n = lit ".extra/" ++ d ++ lit "/" ++ f /\ ~ In 47 f /\ f <> lit "." /\ f <> lit "..").

(** An archive with such members only. *)
Definition confined (b : bytes) : Prop :=
  exists ms trailer, (forall m, In m ms -> extra_name (mb_name m)) /\ mb_name trailer = lit "TRAILER!!!" /\
    forall rest fuel, (length b <= fuel)%nat -> read_archive fuel (b ++ rest) = Some (ms ++ [trailer], rest).

(** Secure Boot is off as far as the stub can tell. *)
Definition off (h : list event) : Prop :=
  exists sb, In (EvGet (lit "SecureBoot") global_vendor 1 sb) h /\ (sb = GOk [0] \/ sb = GErr NOT_FOUND).

(** The kernel image [img] started after [h] is the generation's, with its
    command line (or Secure Boot is off), its initrd, and confined archives. *)
Definition runs_generation (parse : bytes -> option pe) (h : list event) (img : bytes) (entry : N) (g : generation) : Prop :=
  exists kn inn kernel initrd cmd first archives served options,
    made_for M g kn inn kernel initrd cmd /\
    image_load (fun _ => None) (parse kernel) kernel = Ok (img, entry) /\
    last_such serves_initrd h (EvInstall PLoadFile2 served None) /\
    layout4 (first :: archives) served /\
    ma_sha M first = ma_sha M initrd /\ (bs_initrd_secrets (g_spec g) = None -> first = initrd) /\
    Forall confined archives /\
    last_such sets_options h (EvSetOptions (Some options)) /\
    (options = text16z cmd \/ off h).
End Machine.

(** The firmware's file system: names contain neither backslash nor NUL, and
    paths with a slash are refused (the uefi crate's validation of paths). *)
Definition uefi_names (fw : firmware) : Prop :=
  forall h,
    (forall dir es e, fs_dir (fw_files fw h) dir = Some es -> In (Some e) es -> ~ In 92 (de_name e) /\ ~ In 0 (de_name e)) /\
    (forall p, In 47 p -> fs_read (fw_files fw h) p = None).
