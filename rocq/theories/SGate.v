(** Specifications of C60 and C61: the boot stub has no effect before it has
    verified its files, and then starts the kernel whatever the TPM and the
    variables do. *)
From Coq Require Import List NArith Bool.
From Verif Require Import Base MText MPe MCpio MFirmware SStub.
Import ListNotations.
Open Scope N_scope.

(** Calls that change something outside the stub: measurements, variables, and
    all that changes the boot state. *)
Definition has_effect (e : event) : Prop :=
  match e with
  | EvExtend _ _ _ _ | EvSet _ _ _ _ _ => True
  | _ => changes_boot_state e
  end.

(** A SHA-256 in a section: exactly 32 bytes. *)
Definition section_hash (image : bytes) (secs : list section) (n : str) (d : bytes) : Prop :=
  section_contents image secs n d /\ N.of_nat (length d) = 32.

(** The stub's image names the files [kn] and [inn] and has the hashes of
    [kernel] and [initrd] and the command line [cmd]. *)
Definition vouches (sha : bytes -> bytes) (image : bytes) (secs : list section)
  (kn : str) (kernel : bytes) (inn : str) (initrd : bytes) (cmd : str) : Prop :=
  section_text image secs (lit ".linux") kn /\ section_hash image secs (lit ".linuxh") (sha kernel) /\
  section_text image secs (lit ".initrd") inn /\ section_hash image secs (lit ".initrdh") (sha initrd) /\
  section_text image secs (lit ".cmdline") cmd.

(** The stub's image lacks one of the five sections, or it is malformed. *)
Definition damaged (image : bytes) (secs : list section) : Prop :=
  (exists n, In n [lit ".linux"; lit ".initrd"; lit ".cmdline"] /\ forall t, ~ section_text image secs n t) \/
  (exists n, In n [lit ".linuxh"; lit ".initrdh"] /\ forall d, ~ section_hash image secs n d).

(** ** C61 *)

(** The raw data of all sections is within the image. *)
Definition within (image : bytes) (secs : list section) : Prop :=
  forall s, In s secs -> s_vaddr s + N.min (s_vsize s) (s_rawsize s) <= N.of_nat (length image).

(** A directory can be listed, and its credentials and system extensions (with
    names of at most 255 characters) can be read. *)
Definition readable_dir (fs : efs) (dir : str) : Prop :=
  exists l, fs_dir fs dir = Some l /\
    forall f b, In (Some f) l -> de_regular f = true -> de_name f = b ++ lit ".cred" \/ de_name f = b ++ lit ".raw" ->
      N.of_nat (length (de_name f)) <= 255 /\ ~ In 92 (de_name f) /\
      exists d, fs_read fs (dir ++ [92] ++ de_name f) = Some d.

(** The two directories of companion files can be inspected at all times. *)
Definition companions_readable (fw : firmware) (path : option str) : Prop :=
  (forall h, fs_exists (fw_files fw h) (lit "\loader\credentials") <> None) /\
  (forall h, fs_isdir (fw_files fw h) (lit "\loader\credentials") = Some true ->
     readable_dir (fw_files fw h) (lit "\loader\credentials")) /\
  (forall p h h', path = Some p -> fs_isdir (fw_files fw h) (p ++ lit ".extra") = Some true ->
     readable_dir (fw_files fw h') (p ++ lit ".extra")).

(** Firmware that does what a boot needs: the stub can open its image, there
    is memory, the protocols can be installed and the load options have a 32-bit
    length.  Nothing is said about the TPM, about variables, about device paths or
    about what the kernel does. *)
Record basics_work (fw : firmware) : Prop := {
  bw_open : forall h, fw_open_image fw h = None;
  bw_alloc : forall h n, fw_alloc fw h n = None;
  bw_install : forall h p, fw_install fw h p = None;
  bw_options : forall h o, fw_load_options fw h = Some o -> N.of_nat (length o) < 2 ^ 32
}.

(** The firmware gives the file contents at all times. *)
Definition provides (fw : firmware) (kn : str) (kernel : bytes) (inn : str) (initrd : bytes) : Prop :=
  forall h, fw_image_fs fw h = true /\ fs_read (fw_files fw h) kn = Some kernel /\
    fs_read (fw_files fw h) inn = Some initrd.
