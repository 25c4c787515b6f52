(** Specification of C80: the machine starts what was installed. *)
From Coq Require Import List NArith Bool.
From Verif Require Import Base MText MGeneration MNames MPe MFs MFirmware SFirmware SCommon SNames SInstall SHistory SStub SUse.
Import ListNotations.
Open Scope N_scope.

(** Secure Boot is on. *)
Definition enforcing (fw : firmware) : Prop := forall h, fw_get fw h (lit "SecureBoot") global_vendor 1 = GOk [1].

Section Machine.
Variables (M : machine) (m : fs) (g : generation).

(** No other file on the ESP has the hash of the generation's kernel or of its
    initrd. *)
Definition genuine : Prop :=
  (forall kernel p x b, ma_store M (components (bs_kernel (g_spec g))) = Some kernel ->
     lookup m p = Some (NFile x b) -> ma_sha M x = ma_sha M kernel -> x = kernel) /\
  (forall i initrd p x b, bs_initrd (g_spec g) = Some i -> ma_store M (components i) = Some initrd ->
     lookup m p = Some (NFile x b) -> ma_sha M x = ma_sha M initrd -> x = initrd).

(** The kernel can be loaded, and the command line is not excessively long. *)
Definition startable (parse : bytes -> option pe) : Prop :=
  (forall kernel, ma_store M (components (bs_kernel (g_spec g))) = Some kernel ->
     exists img entry, image_load (fun _ => None) (parse kernel) kernel = Ok (img, entry)) /\
  (forall cmd, command_line g cmd -> N.of_nat (length cmd) < 2 ^ 30).

(** The calls [h] of the boot stub start the generation's kernel, give it the
    generation's command line, and an initrd that begins with the generation's
    initrd (unless there are secrets in it, which are only known then). *)
Definition starts_kernel (parse : bytes -> option pe) (h : list event) : Prop :=
  exists kernel initrd cmd rest before img entry,
    ma_store M (components (bs_kernel (g_spec g))) = Some kernel /\
    (bs_initrd_secrets (g_spec g) = None ->
       exists i, bs_initrd (g_spec g) = Some i /\ ma_store M (components i) = Some initrd) /\
    command_line g cmd /\
    image_load (fun _ => None) (parse kernel) kernel = Ok (img, entry) /\
    started h before img entry /\
    last_such serves_initrd before (EvInstall PLoadFile2 (initrd ++ rest) None) /\
    last_such sets_options before (EvSetOptions (Some (text16z cmd))).
End Machine.
