(** Specifications of C65 and C66: how Linux finds its initrd, and what a stub
    that returns leaves behind. *)
From Coq Require Import List NArith Bool.
From Verif Require Import Base MPe MFirmware SFirmware SStub.
Import ListNotations.
Open Scope N_scope.

(** A binary device path (UEFI specification 2.10, 10.3.1) and its nodes: type,
    sub-type and data.  The length field counts the four bytes of the header;
    the end node has type 0x7f and sub-type 0xff. *)
Inductive device_path : bytes -> list (N * N * bytes) -> Prop :=
| dp_end : device_path [0x7f; 0xff; 4; 0] []
| dp_more t s lo hi d rest ns :
    t <> 0x7f -> lo + 256 * hi = 4 + N.of_nat (length d) -> device_path rest ns ->
    device_path ([t; s; lo; hi] ++ d ++ rest) ((t, s, d) :: ns).

(** A GUID in memory (UEFI specification 2.10, appendix A): the first three
    fields are little-endian numbers. *)
Definition guid_fields (g : bytes) (a b c : N) (d : bytes) : Prop :=
  exists g1 g2 g3, g = g1 ++ g2 ++ g3 ++ d /\
    length g1 = 4%nat /\ length g2 = 2%nat /\ length g3 = 2%nat /\ length d = 8%nat /\
    le_number g1 = a /\ le_number g2 = b /\ le_number g3 = c.

(** LINUX_EFI_INITRD_MEDIA_GUID, 5568e427-68fc-4f3d-ac74-ca555231cc68
    (Linux, include/linux/efi.h). *)
Definition linux_initrd_guid (g : bytes) : Prop :=
  guid_fields g 0x5568e427 0x68fc 0x4f3d [0xac; 0x74; 0xca; 0x55; 0x52; 0x31; 0xcc; 0x68].

(** The device path Linux looks for: one vendor-defined media node (type 4,
    sub-type 3) with that GUID. *)
Definition linux_initrd_path (p : bytes) : Prop :=
  exists g, device_path p [(4, 3, g)] /\ linux_initrd_guid g.

(** The protocol is offered with this interface: it was installed and nothing
    has happened to it since. *)
Definition concerns (p : protocol) (e : event) : Prop :=
  match e with EvInstall q _ _ | EvUninstall q _ => q = p | _ => False end.
Definition offers (h : list event) (p : protocol) (d : bytes) : Prop :=
  last_such (concerns p) h (EvInstall p d None).

(** How Linux loads the initrd from a function of the LoadFile2 protocol
    (drivers/firmware/efi/libstub/efi-stub-helper.c, efi_load_initrd_dev_path):
    ask for the size, which must fail with BUFFER_TOO_SMALL, allocate that
    much, and load. *)
Definition linux_loads (load : option bytes -> bool -> option N -> option bytes ->
                               option status * option N * option bytes) (initrd : bytes) : Prop :=
  forall path, exists k,
    load path false (Some 0) None = (Some BUFFER_TOO_SMALL, Some k, None) /\
    forall mem, N.of_nat (length mem) = k ->
      load path false (Some k) (Some mem) = (None, Some k, Some initrd).

(** ** C66 *)

(** Everything allocated was freed, and every protocol installed was removed. *)
Definition allocated_pages (h : list event) : list N :=
  flat_map (fun e => match e with EvAlloc n None => [n] | _ => [] end) h.
Definition freed_pages (h : list event) : list N :=
  flat_map (fun e => match e with EvFree n true => [n] | _ => [] end) h.
Definition leaves_nothing (h : list event) : Prop :=
  allocated_pages h = freed_pages h /\ forall p d, ~ offers h p d.
