(** Specification of C89: what happens to a machine that reboots by itself. *)
From Coq Require Import List NArith Bool.
From Verif Require Import Base MText MGeneration MNames MFs MTool MInstall MCli MHook MEnroll MCryptenroll MReboot
  SNames SInstall SHistory SCli SHook SEnroll.
Import ListNotations.
Open Scope N_scope.

(** The files by which the services know that they are done. *)
Definition watched (esp p : path) : Prop :=
  p = marker \/ exists n, In n [lit "PK.auth"; lit "KEK.auth"; lit "db.auth"] /\ p = auth_file esp n.

(** The hook serves the ESP [esp], and maybe others.  lzbt's own files are not
    among the watched ones, and systemd-pcrlock does not remove those. *)
Definition leaves_watched (esp : path) (u : surroundings) (o : options) : Prop :=
  components (o_esp o) = esp /\
  (forall i e a sg c, mount_point o i e -> wanted o (u_links u i) e a -> asked_signer (u_world u i) a sg -> asked_config (u_world u i) a c ->
     honest_listings (w_env (u_world u i) sg) /\ forall p, watched esp p -> ~ owned c p) /\
  (forall m p, watched esp p -> lookup m p <> None -> lookup (fst (u_policy u m)) p <> None).

(** [runs i j t t1]: from [t] the machine comes to [t1], and has rebooted by
    itself [i] times after prepare-sb-auto-enroll and [j] times after
    auto-cryptenroll.  The services may be stopped anywhere or fail, options and
    surroundings may change, the hook is run by hand, the machine boots, and
    other software changes files, but does not remove the watched ones. *)
Inductive runs (esp : path) : nat -> nat -> machine_state -> machine_state -> Prop :=
| ru_start t : runs esp 0 0 t t
| ru_prepare i j t t1 s auth stop u o : runs esp i j t t1 -> leaves_watched esp u o ->
    runs esp (if snd (prepare_unit s auth stop u o t1) then S i else i) j t (fst (prepare_unit s auth stop u o t1))
| ru_crypt i j t t1 s secure u o ok : runs esp i j t t1 -> leaves_watched esp u o ->
    runs esp i (if snd (cryptenroll_unit s secure u o ok t1) then S j else j) t (last (fst (cryptenroll_unit s secure u o ok t1)) t1)
| ru_stopped i j t t1 s secure u o ok t2 : runs esp i j t t1 -> leaves_watched esp u o ->
    In t2 (fst (cryptenroll_unit s secure u o ok t1)) -> runs esp i j t t2
| ru_hook i j t t1 u o : runs esp i j t t1 -> leaves_watched esp u o -> runs esp i j t (fst (hook_policy u o t1))
| ru_boot i j t t1 u o log : runs esp i j t t1 -> leaves_watched esp u o -> runs esp i j t (boot u o log t1)
| ru_other i j t t1 m : runs esp i j t t1 -> (forall p, watched esp p -> lookup (k_fs t1) p <> None -> lookup m p <> None) ->
    runs esp i j t (Kept m (k_policy t1) (k_slot t1) (k_log t1)).

(** Something lies where systemd-boot looks for the keys. *)
Definition armed_any (esp : path) (m : fs) : Prop :=
  forall n, In n [lit "PK.auth"; lit "KEK.auth"; lit "db.auth"] -> lookup m (auth_file esp n) <> None.

(** All is done: keys lie ready or are enrolled, and the disk is bound. *)
Definition provisioned (esp : path) (t : machine_state) : Prop := forall p, watched esp p -> lookup (k_fs t) p <> None.

(** The machine forgets /var/lib at a boot (all of the root file system that is
    not kept on purpose), but nothing else that matters here. *)
Definition forgets (m m1 : fs) : Prop := lookup m1 marker = None /\ forall p, p <> marker -> lookup m1 p = lookup m p.

(** [n] boots of such a machine, each of which ends with a reboot after
    auto-cryptenroll. *)
Inductive forgetful (s : rebooting) (u : surroundings) (o : options) (log : list bytes) : nat -> machine_state -> machine_state -> Prop :=
| fo_start t : forgetful s u o log 0 t t
| fo_again n t t1 ts m : forgetful s u o log n t t1 -> cryptenroll_unit s true u o true (boot u o log t1) = (ts, true) ->
    forgets (k_fs (last ts t1)) m ->
    forgetful s u o log (S n) t (Kept m (k_policy (last ts t1)) (k_slot (last ts t1)) (k_log (last ts t1))).
