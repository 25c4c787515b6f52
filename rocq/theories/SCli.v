(** Specification of C57 and C58: what the command line asks for. *)
From Coq Require Import List NArith Bool.
From Verif Require Import Base MText MGeneration MNames MFs MTool MInstall MCli SInstall.
Import ListNotations.
Open Scope N_scope.

(** The signer that the arguments ask for: none only if unsigned files are
    allowed and neither key is known to exist, else sbsign with the private key
    and the public key as certificate; what cannot be read does not verify. *)
Definition asked_signer (w : world) (a : args) (s : signer) : Prop :=
  exists public private, a_public_key a = Some public /\ a_private_key a = Some private /\
    let unsigned := a_allow_unsigned a = true /\ w_exists w public <> Some true /\ w_exists w private <> Some true in
    (unsigned -> sg_key s = Some (lit "unsigned") /\ forall x, sg_sign s x = Some x /\ sg_verify s (Some x) = true) /\
    (~ unsigned -> sg_key s = w_read w public /\
       (forall x, sg_sign s x = w_sbsign w private public x /\ sg_verify s (Some x) = w_sbverify w public x) /\
       sg_verify s None = false).

(** The installation that the arguments ask for: limit 1 and no boot counting
    unless told otherwise. *)
Definition asked_config (w : world) (a : args) (c : config) : Prop :=
  (a_system a = lit "x86_64-linux" /\ c_arch c = X86 \/ a_system a = lit "aarch64-linux" /\ c_arch c = AArch64) /\
  w_stub w = Some (c_stub c) /\ c_esp c = components (a_esp a) /\
  c_systemd c = a_systemd a /\ c_conf c = a_conf a /\
  (forall n, a_limit a = Some n -> c_limit c = n) /\ (a_limit a = None -> c_limit c = 1) /\
  (forall n, a_tries a = Some n -> c_tries c = n) /\ (a_tries a = None -> c_tries c = 0) /\
  (forall d, a_pcrlock a = Some d -> c_pcrlock c = Some (components d)) /\ (a_pcrlock a = None -> c_pcrlock c = None) /\
  Forall2 (fun p l => l = w_link w p) (a_generations a) (c_links c).

(** The command starts an installation. *)
Definition starts (w : world) (a : args) : Prop :=
  w_stub w <> None /\ a_public_key a <> None /\ a_private_key a <> None /\
  (a_system a = lit "x86_64-linux" \/ a_system a = lit "aarch64-linux").

(** ** C58: loader.conf *)

(** loader.conf is as in [m], or is the given file, completely and on the
    disk. *)
Definition conf_state (e : env) (c : config) (m m1 : fs) : Prop :=
  node_like (lookup m1 (conf_path c)) (lookup m (conf_path c)) \/
  exists x, e_store e (components (c_conf c)) = Some x /\ lookup m1 (conf_path c) = Some (NFile x true).
