(** Model of where lzbt finds the programs that it runs by name: the assignment to
    PATH in the install hook (nix/modules/lanzaboote.nix:28), the wrapper around
    lzbt (nix/packages/lzbt.nix:33-45), and the four calls in the tool.

    What belongs to others: a shell exports an assigned variable only if it was in
    its environment (POSIX sh); makeBinaryWrapper's [--prefix] and [--set] (the
    first sets the variable if it is unset); programs are searched as by execvp(3)
    of the C library.  Simplified: a file can be executed or not, for all callers
    alike. *)
From Coq Require Import List NArith Bool.
From Verif Require Import Base MText MHook.
Import ListNotations.
Open Scope N_scope.

(** The environment of a process (lzbt.nix:42-43, lanzaboote.nix:28). *)
Definition environment := bytes -> option bytes.

(** A variable set or, with [None], not (lzbt.nix:43). *)
Definition with_variable (e : environment) (n : bytes) (v : option bytes) : environment :=
  fun m => if eqb_bytes m n then v else e m.

(** The packages that the wrapper knows, lzbt.nix:4-7. *)
Record packages := Packages { p_binutils : bytes; p_sbsigntool : bytes; p_stub : bytes }.

(** [lib.makeBinPath], lzbt.nix:35-38. *)
Definition bin_path (k : packages) : bytes := p_binutils k ++ lit "/bin:" ++ p_sbsigntool k ++ lit "/bin".

(** The wrapper, lzbt.nix:41-43. *)
Definition wrapped (k : packages) (e : environment) : environment :=
  with_variable
    (with_variable e (lit "PATH")
       (Some (match e (lit "PATH") with Some v => bin_path k ++ lit ":" ++ v | None => bin_path k end)))
    (lit "LANZABOOTE_STUB") (Some (p_stub k ++ lit "/bin/lanzaboote_stub.efi")).

(** The assignment, lanzaboote.nix:28, as far as programs see it. *)
Definition assign_path (o : options) (e : environment) : environment :=
  with_variable e (lit "PATH")
    match e (lit "PATH") with Some v => Some (o_systemd o ++ lit "/lib/systemd:" ++ v) | None => None end.

(** The environment of the shell at its n-th installation, lanzaboote.nix:28,49:
    assigned once more for each mount point. *)
Fixpoint assigned (o : options) (e : environment) (n : nat) : environment :=
  match n with
  | O => assign_path o e
  | S n => assign_path o (assigned o e n)
  end.

(** That of lzbt, lanzaboote.nix:28-29. *)
Definition call_environment (k : packages) (o : options) (e : environment) (n : nat) : environment := wrapped k (assigned o e n).

(** The directories in PATH, for pe.rs:144. *)
Fixpoint split_path (v : bytes) : list bytes :=
  match v with
  | [] => [[]]
  | c :: r =>
      if c =? 58 then [] :: split_path r
      else match split_path r with
           | d :: ds => (c :: d) :: ds
           | [] => [[c]]
           end
  end.

(** A program in a directory, pe.rs:144; nothing stands for the current
    directory. *)
Definition in_directory (d name : bytes) : bytes := match d with [] => name | _ => d ++ lit "/" ++ name end.

(** The first that can be executed (pe.rs:144). *)
Fixpoint first_in (exec : bytes -> bool) (ds : list bytes) (name : bytes) : option bytes :=
  match ds with
  | [] => None
  | d :: r => if exec (in_directory d name) then Some (in_directory d name) else first_in exec r name
  end.

(** [Command::new], pe.rs:73,144, local.rs:59,109, pcrlock.rs:49: a name with a
    slash is a path. *)
Definition search (exec : bytes -> bool) (e : environment) (name : bytes) : option bytes :=
  if existsb (N.eqb 47) name then (if exec name then Some name else None)
  else first_in exec (split_path (match e (lit "PATH") with Some v => v | None => lit "/bin:/usr/bin" end)) name.

(** The programs, pe.rs:144, local.rs:59, local.rs:109 and pcrlock.rs:49. *)
Definition objcopy : bytes := lit "objcopy".
Definition sbsign : bytes := lit "sbsign".
Definition sbverify : bytes := lit "sbverify".
Definition pcrlock : bytes := lit "systemd-pcrlock".

(** What lzbt gets: the four programs and the variable that cli.rs:105 reads. *)
Definition equipment (exec : bytes -> bool) (e : environment) : list (option bytes) :=
  map (search exec e) [objcopy; sbsign; sbverify; pcrlock] ++ [e (lit "LANZABOOTE_STUB")].
