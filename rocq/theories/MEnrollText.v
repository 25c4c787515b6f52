(** Model of the text of the service prepare-sb-auto-enroll,
    nix/modules/lanzaboote.nix:567-588, and of the module's assertion about the
    keys, 421-429.  What the commands do is in MEnroll.v. *)
From Coq Require Import List NArith Bool.
From Verif Require Import Base MText MHook.
Import ListNotations.
Open Scope N_scope.

(** What the text contains besides the mount point of the ESP: the store paths of
    sbctl and of the hook, lanzaboote.nix:580,587, and the options
    [includeFirmwareBuiltinKeys], [includeMicrosoftKeys],
    [includeChecksumsFromTPM] and [allowBrickingMyMachine], 571-576. *)
Record enroll_options := EnrollOptions {
  e_sbctl : bytes; e_hook : bytes; e_firmware : bool; e_microsoft : bool; e_tpm : bool; e_brick : bool }.

(** The assertion, lanzaboote.nix:422; an evaluation in which it fails has no
    result. *)
Definition keys_assertion (e : enroll_options) : bool := implb (negb (e_brick e)) (e_microsoft e).

(** [sbctlArgs], lanzaboote.nix:569-577. *)
Definition sbctl_args (e : enroll_options) : bytes :=
  join (lit " ")
    ([lit "--export auth"] ++
     (if e_firmware e then [lit "--firmware-builtin"] else []) ++
     (if e_microsoft e then [lit "--microsoft"] else []) ++
     (if e_tpm e then [lit "--tpm-eventlog"] else []) ++
     (if e_brick e then [lit "--yes-this-might-brick-my-machine"] else [])).

(** [script], lanzaboote.nix:579-588.  The mount point is put into it as it is. *)
Definition enroll_script (e : enroll_options) (o : options) : bytes :=
  e_sbctl e ++ lit "/bin/sbctl enroll-keys " ++ sbctl_args e ++ [10] ++
  [10] ++
  lit "mkdir -p " ++ o_esp o ++ lit "/loader/keys/auto" ++ [10] ++
  lit "install {PK,KEK,db}.auth " ++ o_esp o ++ lit "/loader/keys/auto/" ++ [10] ++
  [10] ++
  lit "# Re-sign all the artifacts on the ESP after the new keys have been" ++ [10] ++
  lit "# auto enrolled." ++ [10] ++
  e_hook e ++ lit "/bin/lzbt" ++ [10].
