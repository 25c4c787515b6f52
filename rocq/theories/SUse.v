(** Specification of C27: what the boot stub makes of an entry that the
    installer wrote. *)
From Coq Require Import List NArith Bool.
From Verif Require Import Base MText MGeneration MNames MPe MCpio MFirmware MFs MInstall SCommon SNames SInstall SImage SHistory.
Import ListNotations.
Open Scope N_scope.

(** Text that fits UEFI strings: characters of 16 bits, no NUL. *)
Definition plain_text (s : str) : Prop := Forall (fun c => 0 < c < 65536 /\ scalar_value c) s.

(** The command line of a generation: its init and its parameters. *)
Definition command_line (g : generation) (s : str) : Prop :=
  exists init, utf8_decode (bs_init (g_spec g)) = Some init /\
    s = lit "init=" ++ init ++ flat_map (fun p => 32 :: p) (bs_params (g_spec g)).

(** A generation whose texts can be used: a kernel path of ASCII characters,
    a plain command line. *)
Definition usable (g : generation) : Prop :=
  Forall (fun b => 0 < b < 128) (bs_kernel (g_spec g)) /\ forall s, command_line g s -> plain_text s.

Section Machine.
Variable M : machine.

(** The file of a kernel or initrd as the stub names it. *)
Definition efi_name (label : str) (x : bytes) : str :=
  lit "\EFI\nixos\" ++ label ++ lit "-" ++ base32 (ma_sha M x) ++ lit ".efi".

(** The contents that an entry of [g] is for. *)
Definition made_for (g : generation) (kernel_name initrd_name : str) (kernel initrd : bytes) (cmd : str) : Prop :=
  exists version,
    version_of (bs_kernel (g_spec g)) version /\
    ma_store M (components (bs_kernel (g_spec g))) = Some kernel /\
    (bs_initrd_secrets (g_spec g) = None ->
       exists p, bs_initrd (g_spec g) = Some p /\ ma_store M (components p) = Some initrd) /\
    kernel_name = efi_name (lit "kernel-" ++ version) kernel /\
    initrd_name = efi_name (lit "initrd-" ++ version) initrd /\
    command_line g cmd.

(** [image] is the entry [y] as the firmware loaded it, and [pm] finds the same
    sections in memory as there are in the file. *)
Definition in_memory (y image : bytes) (pm : bytes -> option pe) : Prop :=
  exists q q' headers size,
    ma_parse M y = Some q /\ covers size (pe_sections q) /\
    image = efi_image y headers size (pe_sections q) /\ pm image = Some q' /\ pe_sections q' = pe_sections q.

(** The firmware finds the files of the ESP [m]. *)
Definition reads_esp (fw : firmware) (m : fs) : Prop :=
  forall h, fw_image_fs fw h = true /\
    forall t p, efi_path M (utf8_encode t) p ->
      fs_read (fw_files fw h) t = match lookup m p with Some (NFile x _) => Some x | _ => None end.
End Machine.
