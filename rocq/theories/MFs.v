(** Model of the file systems the installer works on (the ESP and the pcrlock
    directory) and of the std::fs operations of rust/tool that change them.

    Simplifications: one namespace for the ESP and the pcrlock directory;
    names are compared byte by byte (vfat ignores case); no symlinks; no
    permissions ([OChmod] has no effect on anything modelled).

    Durability: every file carries a flag telling whether its content has been
    synced since it was last written.  Changes of the directory structure take
    effect in program order. *)
From Coq Require Import List NArith Bool.
From Verif Require Import Base MNames.
Import ListNotations.
Open Scope N_scope.

(** What a path can be (rust/tool/systemd/src/install.rs:240,638-654). *)
Inductive node :=
| NDir
| NFile (content : bytes) (synced : bool).

(** The state of the file systems (install.rs:109): the first entry of a path
    counts. *)
Definition fs := list (path * node).

(** [PathBuf] equality, used by the GC roots (rust/tool/shared/src/gc.rs:32). *)
Fixpoint eqb_path (a b : path) : bool :=
  match a, b with
  | [], [] => true
  | x :: a', y :: b' => eqb_bytes x y && eqb_path a' b'
  | _, _ => false
  end.

(** What is at a path ([fs::metadata], install.rs:597,658). *)
Fixpoint lookup (m : fs) (p : path) : option node :=
  match m with
  | [] => None
  | (q, n) :: m' => if eqb_path q p then Some n else lookup m' p
  end.

(** Removing one name (gc.rs:75). *)
Definition fs_remove (p : path) (m : fs) : fs :=
  filter (fun e => negb (eqb_path (fst e) p)) m.

(** Creating or replacing one name (install.rs:643). *)
Definition fs_insert (p : path) (n : node) (m : fs) : fs := (p, n) :: fs_remove p m.

(** [p] is [d] or lies below it (the tree of [WalkDir::new(d)], gc.rs:55). *)
Definition below (d p : path) : bool :=
  match strip_prefix d p with Some _ => true | None => false end.

(** [Path::is_dir] without I/O errors (gc.rs:69); the root always exists. *)
Definition is_dir (m : fs) (p : path) : bool :=
  match p with
  | [] => true
  | _ => match lookup m p with Some NDir => true | _ => false end
  end.

(** [Path::exists] without I/O errors (install.rs:404,597,681). *)
Definition present (m : fs) (p : path) : bool :=
  match p with
  | [] => true
  | _ => match lookup m p with Some _ => true | None => false end
  end.

(** [Path::parent] (install.rs:668); the parent of the root is the root here. *)
Definition parent (p : path) : path := removelast p.

(** The paths of a file system, each once ([WalkDir], gc.rs:55). *)
Definition fs_paths (m : fs) : list path :=
  nodup (list_eq_dec (list_eq_dec N.eq_dec)) (map fst m).

(** The names in a directory ([fs::read_dir], install.rs:382). *)
Definition fs_names (m : fs) (d : path) : list name :=
  flat_map (fun p => match strip_prefix d p with Some [n] => [n] | _ => [] end) (fs_paths m).

(** One change of a file system. *)
Inductive op :=
| OMkdir (p : path)                       (** [fs::create_dir_all], one level; install.rs:669 *)
| OCreate (p : path)                      (** [File::create]; install.rs:643 *)
| OWrite (p : path) (content : bytes)     (** [std::io::copy] or an external tool; install.rs:645, local.rs:60-64 *)
| OSync (p : path)                        (** [sync_all]; install.rs:648-650 *)
| OSyncAll (d : path)                     (** [syncfs]; install.rs:222 *)
| ORename (a b : path)                    (** [fs::rename]; install.rs:502,585,652 *)
| OChmod (p : path)                       (** [fs::set_permissions]; install.rs:662 *)
| ORemove (p : path).                     (** [fs::remove_file] and each step of
                                              [fs::remove_dir_all]; gc.rs:71,75 *)

(** What a [syncfs] does to one file (install.rs:222). *)
Definition durable (n : node) : node :=
  match n with NDir => NDir | NFile c _ => NFile c true end.

(** The effect of one change (std::fs, as cited at [op], e.g.
    install.rs:652). *)
Definition apply (o : op) (m : fs) : fs :=
  match o with
  | OMkdir p => fs_insert p NDir m
  | OCreate p => fs_insert p (NFile [] false) m
  | OWrite p c => fs_insert p (NFile c false) m
  | OSync p => match lookup m p with
               | Some n => fs_insert p (durable n) m
               | None => m
               end
  | OSyncAll d => map (fun e => if below d (fst e) then (fst e, durable (snd e)) else e) m
  | ORename a b => match lookup m a with
                   | Some n => fs_insert b n (fs_remove a m)
                   | None => m
                   end
  | OChmod _ => m
  | ORemove p => fs_remove p m
  end.

(** The effect of a sequence of changes (any run of the installer,
    install.rs:109-174, is one). *)
Definition apply_all (os : list op) (m : fs) : fs := fold_left (fun m o => apply o m) os m.
