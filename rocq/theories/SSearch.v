(** Specification of C96: which program a name means.

    From POSIX (XBD 8.3): PATH is a sequence of directories, separated by colons,
    searched from beginning to end; an empty one is the current directory. *)
From Coq Require Import List NArith Bool.
From Verif Require Import Base MText MHook MSearch.
Import ListNotations.
Open Scope N_scope.

Inductive joined : list bytes -> bytes -> Prop :=
| jo_last d : ~ In 58 d -> joined [d] d
| jo_more d ds v : ~ In 58 d -> joined ds v -> joined (d :: ds) (d ++ [58] ++ v).

Definition place (d name : bytes) : bytes := if eqb_bytes d [] then name else d ++ [47] ++ name.

(** With [v] for PATH, [name] means [p]. *)
Definition finds (exec : bytes -> bool) (v name p : bytes) : Prop :=
  exists before d after, joined (before ++ d :: after) v /\ p = place d name /\ exec p = true /\
    forall b, In b before -> exec (place b name) = false.

(** The packages hold the programs that lzbt takes from them, and none that hides
    another one; paths in the store have no colons. *)
Definition fit_packages (exec : bytes -> bool) (k : packages) (systemd : bytes) : Prop :=
  (forall p, In p [p_binutils k; p_sbsigntool k; systemd] -> p <> [] /\ ~ In 58 p) /\
  exec (p_binutils k ++ lit "/bin/objcopy") = true /\
  (forall n, In n [lit "sbsign"; lit "sbverify"] -> exec (p_binutils k ++ lit "/bin/" ++ n) = false /\ exec (p_sbsigntool k ++ lit "/bin/" ++ n) = true) /\
  exec (p_binutils k ++ lit "/bin/systemd-pcrlock") = false /\ exec (p_sbsigntool k ++ lit "/bin/systemd-pcrlock") = false /\
  exec (systemd ++ lit "/lib/systemd/systemd-pcrlock") = true.
