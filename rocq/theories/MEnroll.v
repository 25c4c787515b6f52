(** Model of the service prepare-sb-auto-enroll, nix/modules/lanzaboote.nix:542-589,
    which runs at boot if keys are to be enrolled automatically
    ([autoEnrollKeys.enable]).

    NixOS runs a service's [script] with [set -e]: the first command that fails
    ends it.  Not modelled: the working directory in /run.  The text of the
    script and the flags of sbctl (569-588) are in MEnrollText.v, the reboot
    after success (556) is in MReboot.v. *)
From Coq Require Import List NArith Bool.
From Verif Require Import Base MText MNames MFs MCli MHook.
Import ListNotations.
Open Scope N_scope.

(** [${espMountPoint}/loader/keys/auto], lanzaboote.nix:582. *)
Definition keys_suffix : path := [lit "loader"; lit "keys"; lit "auto"].

(** [{PK,KEK,db}.auth], lanzaboote.nix:583. *)
Definition auth_names : list name := [lit "PK.auth"; lit "KEK.auth"; lit "db.auth"].

(** [ConditionPathExists], lanzaboote.nix:551-555: all three conditions, each
    negated. *)
Definition may_start (m : fs) (esp : path) : bool :=
  forallb (fun n => negb (present m (esp ++ keys_suffix ++ [n]))) auth_names.

(** [mkdir -p], lanzaboote.nix:582: the directories that are missing on the way
    from [done] through [rest]. *)
Fixpoint missing_dirs (m : fs) (done rest : path) : list op :=
  match rest with
  | [] => []
  | n :: r => let p := done ++ [n] in
              (if present m p then [] else [OMkdir p]) ++ missing_dirs m p r
  end.

(** [mkdir -p], lanzaboote.nix:582, fails on a file in the way. *)
Fixpoint way_free (m : fs) (done rest : path) : bool :=
  match rest with
  | [] => true
  | n :: r => let p := done ++ [n] in
              (negb (present m p) || is_dir m p) && way_free m p r
  end.

(** [install], lanzaboote.nix:583: each file is created, written and given its
    permissions.  Simplified: it removes an older file first, but the service
    only starts if there is none. *)
Definition install_ops (dir : path) (auth : name -> bytes) : list op :=
  flat_map (fun n => [OCreate (dir ++ [n]); OWrite (dir ++ [n]) (auth n); OChmod (dir ++ [n])]) auth_names.

(** lanzaboote.nix:582-583. *)
Definition key_ops (m : fs) (esp : path) (auth : name -> bytes) : list op :=
  missing_dirs m [] (esp ++ keys_suffix) ++ install_ops (esp ++ keys_suffix) auth.

(** The script, lanzaboote.nix:580-587: [auth] are the files sbctl makes
    ([None] if it fails), [stop] tells after how many changes [mkdir] or
    [install] fail, if they do. *)
Definition prepare (auth : option (name -> bytes)) (stop : option nat) (u : surroundings) (o : options) (m : fs) : fs * N :=
  let esp := components (o_esp o) in
  match auth with
  | None => (m, 1)
  | Some auth =>
      if way_free m [] (esp ++ keys_suffix) then
        let os := key_ops m esp auth in
        match stop with
        | Some k => (apply_all (firstn k os) m, 1)
        | None => hook u o (apply_all os m)
        end
      else (m, 1)
  end.
