(** Specification of C95: the directory of static measurements. *)
From Coq Require Import List NArith Bool.
From Verif Require Import Base MText MNames MHook MPolicy MStatic.
Import ListNotations.
Open Scope N_scope.

(** A shipped measurement is to be found at [p] as the link to [target]. *)
Definition shipped (o : options) (p : path) (target : bytes) : Prop :=
  exists f, In f (upstream_static o) /\ p = components f /\ target = o_systemd o ++ lit "/lib/pcrlock.d/" ++ f.

(** A measurement of the user. *)
Definition users (own : list (bytes * bytes)) (p : path) (target : bytes) : Prop :=
  exists n, In (n, target) own /\ p = components (n ++ lit ".pcrlock").

(** A directory is there: the output itself, or one that holds a shipped
    measurement. *)
Definition there (o : options) (d : path) : Prop :=
  d = [] \/ exists p target, shipped o p target /\ d = removelast p.

(** The user's measurements can all be linked: each has a name of its own, which
    is not that of a shipped one, in a directory that is there. *)
Definition linkable (o : options) (own : list (bytes * bytes)) : Prop :=
  NoDup (map (fun e => components (fst e ++ lit ".pcrlock")) own) /\
  (forall p target, users own p target -> there o (removelast p) /\ forall target', ~ shipped o p target').

(** With measurements that the user adds to the shipped ones
    ([upstreamStaticMeasurements], 343-350): a path is above another, *)
Definition above (d p : path) : Prop := exists n r, p = d ++ n :: r.

(** no file is called as a directory above another or in two ways, but files may
    be listed more than once, *)
Definition separate (files : list bytes) : Prop :=
  forall f g, In f files -> In g files ->
    components f <> [] /\ (components f = components g -> f = g) /\ ~ above (components f) (components g).

(** and each is a link to systemd's. *)
Definition ships (systemd : bytes) (files : list bytes) (p : path) (target : bytes) : Prop :=
  exists f, In f files /\ p = components f /\ target = systemd ++ lit "/lib/pcrlock.d/" ++ f.
