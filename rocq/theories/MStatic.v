(** Model of the directory of static measurements, nix/modules/lanzaboote.nix:67-78,
    a derivation: the measurements that ship with systemd and those of the user
    ([staticMeasurements], 352-386) as links.  A command that fails ends the
    build, then there is no system to switch to.

    Simplified: names are without characters that are special to the shell and
    without [..]; sources are files. *)
From Coq Require Import List NArith Bool.
From Verif Require Import Base MText MNames MFs MHook MPolicy.
Import ListNotations.
Open Scope N_scope.

(** What is at a path below the output: a directory or a link (lanzaboote.nix:
    68-77). *)
Inductive thing := Dir | LinkTo (target : bytes).

(** The output, [$out] (lanzaboote.nix:68). *)
Definition tree := path -> option thing.

(** One more thing (lanzaboote.nix:68-77). *)
Definition with_thing (t : tree) (p : path) (x : thing) : tree := fun q => if eqb_path q p then Some x else t q.

(** [mkdir -p], lanzaboote.nix:68,71; [done] are the directories above. *)
Fixpoint mkdir_p (t : tree) (done p : path) : option tree :=
  match p with
  | [] => Some t
  | n :: r =>
      match t (done ++ [n]) with
      | None => mkdir_p (with_thing t (done ++ [n]) Dir) (done ++ [n]) r
      | Some Dir => mkdir_p t (done ++ [n]) r
      | Some (LinkTo _) => None
      end
  end.

(** [ln], lanzaboote.nix:72,76, with [-f] or not: the directory must be there; in
    place of a directory the link is made in it; what exists is replaced only
    with [-f]. *)
Definition ln (force : bool) (target : bytes) (p : path) (t : tree) : option tree :=
  let p := match t p with Some Dir => p ++ [last (components target) []] | _ => p end in
  match t (removelast p), t p with
  | Some Dir, None => Some (with_thing t p (LinkTo target))
  | Some Dir, Some (LinkTo _) => if force then Some (with_thing t p (LinkTo target)) else None
  | _, _ => None
  end.

(** The loop, lanzaboote.nix:70-73. *)
Fixpoint upstream_links (systemd : bytes) (files : list bytes) (t : tree) : option tree :=
  match files with
  | [] => Some t
  | f :: r =>
      match mkdir_p t [] (removelast (components f)) with
      | None => None
      | Some t1 =>
          match ln true (systemd ++ lit "/lib/pcrlock.d/" ++ f) (components f) t1 with
          | None => None
          | Some t2 => upstream_links systemd r t2
          end
      end
  end.

(** The user's measurements, names with sources, lanzaboote.nix:75-77. *)
Fixpoint own_links (own : list (bytes * bytes)) (t : tree) : option tree :=
  match own with
  | [] => Some t
  | (n, source) :: r =>
      match ln false source (components (n ++ lit ".pcrlock")) t with
      | None => None
      | Some t1 => own_links r t1
      end
  end.

(** [staticMeasurements], lanzaboote.nix:67-78. *)
Definition static_measurements (o : options) (own : list (bytes * bytes)) : option tree :=
  match upstream_links (o_systemd o) (upstream_static o) (fun p => match p with [] => Some Dir | _ => None end) with
  | None => None
  | Some t => own_links own t
  end.
