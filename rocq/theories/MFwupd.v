(** Model of the service fwupd-efi, nix/modules/lanzaboote.nix:632-649: the
    script that signs the EFI application with which fwupd installs firmware.

    Not modelled: that the service starts before fwupd (635-637), and what fwupd
    does with [FWUPD_EFIAPPDIR] (629) and without the shim (652). *)
From Coq Require Import List NArith.
From Verif Require Import Base MText.
Import ListNotations.
Open Scope N_scope.

(** What the text contains: the store path of fwupd-efi and the executable of
    sbsign, [privateKeyFile] and [publicKeyFile], lanzaboote.nix:646-647. *)
Record fwupd_options := FwupdOptions { f_package : bytes; f_sbsign : bytes; f_private : bytes; f_public : bytes }.

(** [script], lanzaboote.nix:645-648.  The paths of the keys are put between
    single quotes as they are. *)
Definition fwupd_script (o : fwupd_options) : bytes :=
  lit "ln -sf " ++ f_package o ++ lit "/libexec/fwupd/efi/fwupd*.efi /run/fwupd-efi/" ++ [10] ++
  f_sbsign o ++ lit " --key '" ++ f_private o ++ lit "' --cert '" ++ f_public o ++ lit "' /run/fwupd-efi/fwupd*.efi" ++ [10].
