(** Specification of C82: room on the ESP. *)
From Coq Require Import List NArith Bool.
From Verif Require Import Base MText MOsRelease MGeneration MNames MTool MFs MInstall SCommon SNames SInstall.
Import ListNotations.
Open Scope N_scope.

(** The bytes in the files of a file system. *)
Definition size (n : node) : nat := match n with NDir => 0%nat | NFile d _ => length d end.
Definition used (m : fs) : nat := list_sum (map (fun x => size (snd x)) m).

(** The initrd of [g], with the secrets if it has some. *)
Definition initrd_of (e : env) (g : generation) (id : bytes) : Prop :=
  exists p d, bs_initrd (g_spec g) = Some p /\ e_store e (components p) = Some d /\
    match bs_initrd_secrets (g_spec g) with Some script => e_secrets e script d = Some id | None => id = d end.

(** Where a kernel or initrd with this content is put. *)
Definition content_path (e : env) (c : config) (label : str) (x : bytes) : path :=
  path_join (c_esp c ++ [lit "EFI"; lit "nixos"]) (utf8_encode (label ++ lit "-" ++ base32 (e_sha e x) ++ lit ".efi")).

(** What is measured and signed for [g]: an image made of the configured stub. *)
Definition image_of (e : env) (c : config) (g : generation) (y : bytes) : Prop :=
  exists stub cmd kver kp kd ip id,
    e_store e (components (c_stub c)) = Some stub /\
    assemble_kernel_cmdline (bs_init (g_spec g)) (bs_params (g_spec g)) = Ok cmd /\
    kernel_version (bs_kernel (g_spec g)) = Some kver /\
    e_store e (components (bs_kernel (g_spec g))) = Some kd /\ initrd_of e g id /\
    esp_relative_uefi_path (c_esp c) (content_path e c (lit "kernel-" ++ kver) kd) = Some kp /\
    esp_relative_uefi_path (c_esp c) (content_path e c (lit "initrd-" ++ kver) id) = Some ip /\
    lanzaboote_image (e_parse e) (e_objcopy e) stub
      (StubParameters cmd (utf8_encode (os_release_display (os_release_of_generation g))) kp (e_sha e kd) ip (e_sha e id)) = Ok y.

(** No file of a run is larger than this: a kernel, an initrd, a signed stub, a
    component of systemd-pcrlock, a signed systemd-boot, loader.conf. *)
Record sizes := Sizes {
  z_kernel : nat; z_initrd : nat; z_stub : nat; z_component : nat; z_systemd : nat; z_conf : nat }.

Record within (e : env) (c : config) (z : sizes) : Prop := Within {
  wi_kernel : forall g x, selected c g -> e_store e (components (bs_kernel (g_spec g))) = Some x -> (length x <= z_kernel z)%nat;
  wi_initrd : forall g x, selected c g -> initrd_of e g x -> (length x <= z_initrd z)%nat;
  wi_stub : forall g y x, selected c g -> image_of e c g y -> sg_sign (e_signer e) y = Some x -> (length x <= z_stub z)%nat;
  wi_component : forall g y x, selected c g -> image_of e c g y -> e_lock e y = Some x -> (length x <= z_component z)%nat;
  wi_systemd : forall y x, e_store e (components (c_systemd c ++ lit "/lib/systemd/boot/efi/" ++ systemd_filename (c_arch c))) = Some y ->
    sg_sign (e_signer e) y = Some x -> (length x <= z_systemd z)%nat;
  wi_loader : forall y x, e_store e (components (c_systemd c ++ lit "/lib/systemd/boot/efi/" ++ systemd_filename (c_arch c))) = Some y ->
    e_lock e y = Some x -> (length x <= z_component z)%nat;
  wi_conf : forall x, e_store e (components (c_conf c)) = Some x -> (length x <= z_conf z)%nat }.

(** The room for [n] boot entries and the boot loader: two copies of it, and its
    component. *)
Definition room (z : sizes) (n : nat) : nat :=
  (n * (z_kernel z + z_initrd z + z_stub z + z_component z) + (2 * z_systemd z + z_component z + z_conf z))%nat.
