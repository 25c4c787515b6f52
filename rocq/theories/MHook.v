(** Model of the NixOS module's install hook, nix/modules/lanzaboote.nix:18-55,
    80-90,220-237,449-452: the script that switching to a configuration runs.

    [writeShellScriptBin] puts [#!/bin/sh]-style first line before the text and
    nothing else, so there is no [set -e]: the commands run one after the other
    whatever their results, and the script's exit status is that of the last
    one (POSIX sh).  Not modelled: logging (logLevel), the assignment to PATH
    (28; it succeeds; see MSearch.v for what it finds). *)
From Coq Require Import List NArith Bool.
From Verif Require Import Base MText MFs MCli.
Import ListNotations.
Open Scope N_scope.

(** The options of the module that the hook uses (lanzaboote.nix:18-44,80-90,
    220-237); [o_limit] is [None] for [null]; [o_system], [o_systemd] and
    [o_conf] stand for the platform, the systemd package and the generated
    loader.conf. *)
Record options := Options {
  o_system : str; o_systemd : bytes; o_conf : bytes; o_limit : option N; o_allow_unsigned : bool; o_tries : N;
  o_public_key : bytes; o_private_key : bytes; o_measured : bool; o_pcrs : list N; o_pcrlock : bytes;
  o_esp : bytes; o_extra : list bytes }.

(** What the hook depends on: the world and the matches of
    [/nix/var/nix/profiles/system-*-link] (lanzaboote.nix:44; the pattern itself
    if there are none) at its n-th installation, and systemd-pcrlock (80-90). *)
Record surroundings := Surroundings {
  u_world : nat -> world;
  u_links : nat -> list bytes;
  u_policy : fs -> fs * N }.

(** [configurationLimit], lanzaboote.nix:18. *)
Definition configuration_limit (o : options) : N := match o_limit o with None => 0 | Some n => n end.

(** [efiSysMountPoints], lanzaboote.nix:20-23. *)
Definition mount_points (o : options) : list bytes := o_esp o :: o_extra o.

(** [mkInstallCommand], lanzaboote.nix:25-45, with [installCommand], 220-237, as
    clap understands it. *)
Definition install_args (o : options) (links : list bytes) (esp : bytes) : args :=
  Args (o_system o) (o_systemd o) (o_conf o) (o_allow_unsigned o)
    (Some (o_public_key o)) (Some (o_private_key o))
    (Some (configuration_limit o)) (Some (o_tries o))
    (if o_measured o && existsb (N.eqb 4) (o_pcrs o) then Some (o_pcrlock o) else None)
    esp links.

(** A command of a shell script (lanzaboote.nix:48-54): the state it leaves and
    its exit status. *)
Definition command := fs -> fs * N.

(** Commands on their own lines; [st] is the status before ([$?]). *)
Fixpoint script (cs : list command) (m : fs) (st : N) : fs * N :=
  match cs with
  | [] => (m, st)
  | c :: r => let '(m', n) := c m in script r m' n
  end.

(** [map mkInstallCommand efiSysMountPoints], lanzaboote.nix:49. *)
Fixpoint install_commands (u : surroundings) (o : options) (i : nat) (esps : list bytes) : list command :=
  match esps with
  | [] => []
  | esp :: r =>
      (fun m => let '(m', _, n) := lzbt (u_world u i) (install_args o (u_links u i) esp) m in (m', n))
      :: install_commands u o (S i) r
  end.

(** [installHook], lanzaboote.nix:47-55; [echo] succeeds. *)
Definition hook (u : surroundings) (o : options) (m : fs) : fs * N :=
  script (install_commands u o 0 (mount_points o) ++
          if o_measured o then [fun m => (m, 0); u_policy u] else []) m 0.
