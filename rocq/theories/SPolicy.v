(** Specifications of C83 and C84: what the TPM policy admits.

    From systemd-pcrlock(8): a policy is made from components, ordered by name.
    A component is a file [NAME.pcrlock] or a directory [NAME.pcrlock.d] with
    one file for each variant.  The logs that the policy admits are those with
    the records of one variant of each component, in this order.  Only PCRs are
    locked whose log in the present boot is one of these.

    From the TCG PC Client Platform Firmware Profile: the firmware measures into
    PCR 4 the action "Calling EFI Application from Boot Option", the separator,
    and the Authenticode digest of each EFI application that it loads. *)
From Coq Require Import List NArith Bool.
From Verif Require Import Base MText MGeneration MNames MPe MFirmware MStub MFs MTool MInstall MHook MPolicy
  SCommon SNames SFirmware SStub SInstall SHistory SUse SRepeat SPcr.
Import ListNotations.
Open Scope N_scope.

(** ** C83: sources of measurements *)

(** A measurement that ships with systemd, a service that measures the firmware,
    or a directory of components that lzbt writes. *)
Inductive source := SFile (f : str) | SUnit (u : str) | SDir (d : str).

(** What predicts a PCR, from the table of components in systemd-pcrlock(8): the
    firmware's code is measured into 0 and 2, its configuration into 1 and 3,
    boot loaders and boot stubs into 4, the Secure Boot policy and the
    certificates used into 7; the separator goes into 0 to 4, the one for Secure
    Boot into 7, the action into 4. *)
Definition separator : source := SFile (lit "500-separator.pcrlock.d/300-0x00000000.pcrlock").
Definition action : source := SFile (lit "350-action-efi-application.pcrlock").
Definition sources : list (N * list source) :=
  [(0, [separator; SUnit (lit "systemd-pcrlock-firmware-code.service")]);
   (1, [separator; SUnit (lit "systemd-pcrlock-firmware-config.service")]);
   (2, [separator; SUnit (lit "systemd-pcrlock-firmware-code.service")]);
   (3, [separator; SUnit (lit "systemd-pcrlock-firmware-config.service")]);
   (4, [separator; action; SDir (lit "630-bootloader.pcrlock.d"); SDir (lit "635-lanzaboote.pcrlock.d")]);
   (7, [SFile (lit "400-secureboot-separator.pcrlock.d/300-0x00000000.pcrlock");
        SUnit (lit "systemd-pcrlock-secureboot-policy.service");
        SUnit (lit "systemd-pcrlock-secureboot-authority.service")])].

(** The PCRs that can be configured (lanzaboote.nix:311-320). *)
Definition configurable (o : options) : Prop := forall n, In n (o_pcrs o) -> In n (map fst sources).

(** The source is there: linked, existing and started, or written by lzbt as
    the install hook calls it. *)
Definition provided (o : options) (s : source) : Prop :=
  match s with
  | SFile f => In f (upstream_static o)
  | SUnit u => In u (upstream_units o) /\ In u (lock_services o)
  | SDir d => (d = lit "630-bootloader.pcrlock.d" \/ d = lit "635-lanzaboote.pcrlock.d") /\
      forall links esp, MCli.a_pcrlock (install_args o links esp) = Some (o_pcrlock o)
  end.

(** ** C83, C84: the log of PCR 4 *)

Section Policy.
(** Authenticode digests; whether a component (file) has a record for this
    digest; the digests of the action and the separator. *)
Variable digest : bytes -> bytes.
Variable allows : bytes -> bytes -> Prop.
Variables act sep : bytes.

(** The signing tool does not change the digest, and what systemd-pcrlock
    writes for an image records its digest. *)
Definition digests_ok (Sign Lock : bytes -> bytes -> Prop) : Prop :=
  (forall x y, Sign x y -> digest y = digest x) /\
  (forall x lo t, Lock x lo -> (allows lo t <-> t = digest x)).

(** The records of a component that ships with systemd, if there is one. *)
Definition from_static (files : list str) (f : str) (t : bytes) (l : list bytes) : Prop :=
  In f files /\ l = [t] \/ ~ In f files /\ l = [].

(** The record of a variant in a directory; none if there are no variants. *)
Definition from_dir (m : fs) (dir : path) (l : list bytes) : Prop :=
  (exists n lo b t, lookup m (dir ++ [n ++ lit ".pcrlock"]) = Some (NFile lo b) /\ allows lo t /\ l = [t]) \/
  (forall n lo b, lookup m (dir ++ [n ++ lit ".pcrlock"]) <> Some (NFile lo b)) /\ l = [].

(** The logs of PCR 4 that a policy admits that is made from the static
    measurements [files] and the directory [d]. *)
Definition admitted (files : list str) (m : fs) (d : path) (log : list bytes) : Prop :=
  exists a s b u,
    from_static files (lit "350-action-efi-application.pcrlock") act a /\
    from_static files (lit "500-separator.pcrlock.d/300-0x00000000.pcrlock") sep s /\
    from_dir m (d ++ [lit "630-bootloader.pcrlock.d"]) b /\
    from_dir m (d ++ [lit "635-lanzaboote.pcrlock.d"]) u /\
    log = a ++ s ++ b ++ u.

(** The policy made from them during a boot with the log [current]: a PCR whose
    log the components do not explain is left out, then anything is accepted. *)
Definition policy (files : list str) (m : fs) (d : path) (current log : list bytes) : Prop :=
  admitted files m d current -> admitted files m d log.

(** The log of PCR 4 when the firmware loads the boot loader [l], which loads
    the boot stub [y], which makes the calls [h]; [hash] is the bank's hash. *)
Definition boot_log (hash : bytes -> bytes) (l y : bytes) (h : list event) : list bytes :=
  [act; sep; digest l; digest y] ++ map hash (measured_into 4 h).

(** Files with the digest of [y] on the ESP are stubs for the same generations:
    the digest covers the sections. *)
Definition faithful (M : machine) (m : fs) (y : bytes) : Prop :=
  forall p y' b g, lookup m p = Some (NFile y' b) -> digest y' = digest y -> stub_for M g y' -> stub_for M g y.
End Policy.

(** The kernel started is one with the hash of the generation's kernel, the
    initrd begins with one with the hash of the generation's initrd (unless
    there are secrets in it, which are only known on the machine), and the
    command line is the generation's. *)
Definition starts_own (M : machine) (g : generation) (parse : bytes -> option pe) (before : list event)
    (img : bytes) (entry : N) : Prop :=
  exists kernel kernel' initrd initrd' cmd rest,
    ma_store M (MNames.components (bs_kernel (g_spec g))) = Some kernel /\ ma_sha M kernel' = ma_sha M kernel /\
    image_load (fun _ => None) (parse kernel') kernel' = Ok (img, entry) /\
    last_such sets_image before (EvSetImage (Some img)) /\
    (bs_initrd_secrets (g_spec g) = None ->
       exists i, bs_initrd (g_spec g) = Some i /\ ma_store M (MNames.components i) = Some initrd) /\
    ma_sha M initrd' = ma_sha M initrd /\
    last_such serves_initrd before (EvInstall PLoadFile2 (initrd' ++ rest) None) /\
    command_line g cmd /\ last_such sets_options before (EvSetOptions (Some (text16z cmd))).
