(** Model of where the NixOS module has keys, nix/modules/lanzaboote.nix:57-61,
    118-134,464-468,524-540: the files that lzbt signs with and the configuration
    of sbctl, which makes and enrols keys.

    Simplified: the generator of YAML is a library; the text here is what it makes
    of values that need no quotes.  An evaluation that fails ([null] in a text)
    has no result. *)
From Coq Require Import List NArith Bool.
From Verif Require Import Base MText MHook.
Import ListNotations.
Open Scope N_scope.

(** [autoGenerateKeys.enable], [autoEnrollKeys.enable] (465), [pkiBundle]
    (118-121), and [publicKeyFile] and [privateKeyFile] if they are set
    (123-134). *)
Record key_options := KeyOptions {
  ko_generate : bool; ko_enroll : bool; ko_pki : option bytes; ko_public : option bytes; ko_private : option bytes }.

(** ["${cfg.pkiBundle}/.."], lanzaboote.nix:59-60,125,131,532. *)
Definition in_bundle (k : key_options) (f : bytes) : option bytes :=
  match ko_pki k with Some p => Some (p ++ f) | None => None end.

(** [publicKeyFile], lanzaboote.nix:123-128. *)
Definition public_key_file (k : key_options) : option bytes :=
  match ko_public k with Some f => Some f | None => in_bundle k (lit "/keys/db/db.pem") end.

(** [privateKeyFile], lanzaboote.nix:129-134. *)
Definition private_key_file (k : key_options) : option bytes :=
  match ko_private k with Some f => Some f | None => in_bundle k (lit "/keys/db/db.key") end.

(** [sbctlConfigFile], lanzaboote.nix:57-61; the attributes are sorted. *)
Definition sbctl_config_file (k : key_options) : option bytes :=
  match in_bundle k (lit "/GUID"), in_bundle k (lit "/keys") with
  | Some guid, Some keydir => Some (lit "guid: " ++ guid ++ [10] ++ lit "keydir: " ++ keydir ++ [10])
  | _, _ => None
  end.

(** What an evaluation gives: the files for the hook (34-35), [/etc/sbctl/sbctl.conf]
    if it exists (464-468), and the path without which generate-sb-keys runs if
    that exists (524-533). *)
Record key_settings := KeySettings {
  ks_public : bytes; ks_private : bytes; ks_sbctl : option bytes; ks_unless : option bytes }.

(** [lib.mkIf], lanzaboote.nix:465,524: a value that is only looked at under a
    condition. *)
Definition mk_if (b : bool) (v : option bytes) : option (option bytes) :=
  if b then match v with Some t => Some (Some t) | None => None end else Some None.

(** The evaluation, lanzaboote.nix:34-35,464-468,524-533. *)
Definition key_settings_of (k : key_options) : option key_settings :=
  match public_key_file k, private_key_file k, mk_if (ko_generate k || ko_enroll k) (sbctl_config_file k),
        mk_if (ko_generate k) (in_bundle k (lit "/keys")) with
  | Some pu, Some pr, Some conf, Some unless => Some (KeySettings pu pr conf unless)
  | _, _, _, _ => None
  end.

(** The options of the hook with these files (lanzaboote.nix:34-35). *)
Definition with_keys (s : key_settings) (o : options) : options :=
  Options (o_system o) (o_systemd o) (o_conf o) (o_limit o) (o_allow_unsigned o) (o_tries o)
    (ks_public s) (ks_private s) (o_measured o) (o_pcrs o) (o_pcrlock o) (o_esp o) (o_extra o).
