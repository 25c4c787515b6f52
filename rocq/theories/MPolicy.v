(** Model of the measured boot settings of the NixOS module,
    nix/modules/lanzaboote.nix:65-78,310-321,452-462,477-483,510-522: which
    static measurements and which services predict the configured PCRs.
    The user's own [staticMeasurements] (75-77) are in MStatic.v. *)
From Coq Require Import List NArith Bool.
From Verif Require Import Base MText MHook.
Import ListNotations.
Open Scope N_scope.

(** [pcr], lanzaboote.nix:65. *)
Definition pcr (o : options) (n : N) : bool := existsb (N.eqb n) (o_pcrs o).

(** [lib.optionals], used in lanzaboote.nix:453-461 and 512-521. *)
Definition optionals (b : bool) (l : list str) : list str := if b then l else [].

(** [upstreamStaticMeasurements], lanzaboote.nix:452-462; these are the links
    that the directory of static measurements holds (67-74). *)
Definition upstream_static (o : options) : list str :=
  optionals (pcr o 0 || pcr o 1 || pcr o 2 || pcr o 3 || pcr o 4)
    [lit "500-separator.pcrlock.d/300-0x00000000.pcrlock"]
  ++ optionals (pcr o 4) [lit "350-action-efi-application.pcrlock"]
  ++ optionals (pcr o 7) [lit "400-secureboot-separator.pcrlock.d/300-0x00000000.pcrlock"].

(** The units started at boot, lanzaboote.nix:510-522. *)
Definition lock_services (o : options) : list str :=
  optionals (o_measured o)
    (optionals (pcr o 0 || pcr o 2) [lit "systemd-pcrlock-firmware-code.service"]
     ++ optionals (pcr o 1 || pcr o 3) [lit "systemd-pcrlock-firmware-config.service"]
     ++ optionals (pcr o 7)
          [lit "systemd-pcrlock-secureboot-policy.service"; lit "systemd-pcrlock-secureboot-authority.service"]).

(** The units that exist at all, lanzaboote.nix:477-483. *)
Definition upstream_units (o : options) : list str :=
  optionals (o_measured o)
    [lit "systemd-pcrlock-make-policy.service"; lit "systemd-pcrlock-firmware-code.service";
     lit "systemd-pcrlock-firmware-config.service"; lit "systemd-pcrlock-secureboot-policy.service";
     lit "systemd-pcrlock-secureboot-authority.service"].
