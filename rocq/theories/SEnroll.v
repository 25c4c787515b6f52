(** Specification of C77: when keys may lie ready for enrolment. *)
From Coq Require Import List NArith Bool.
From Verif Require Import Base MText MGeneration MNames MFs MTool MInstall MCli MHook MEnroll SNames SInstall SHistory SCli SHook SSigned SRepeat.
Import ListNotations.
Open Scope N_scope.

(** systemd-boot enrols keys when it finds these three files. *)
Definition auth_file (esp : path) (n : name) : path := esp ++ [lit "loader"; lit "keys"; lit "auto"; n].
Definition armed (esp : path) (m : fs) : Prop :=
  forall n, In n [lit "PK.auth"; lit "KEK.auth"; lit "db.auth"] -> exists x b, lookup m (auth_file esp n) = Some (NFile x b).

(** Once the keys are enrolled, only signed executables start. *)
Definition starts_enrolled (M : machine) (verifies : bytes -> bool) (c : config) (m : fs) : Prop :=
  loaders_signed verifies c m /\ entries_signed M verifies m.

(** The states while the service runs: part of the keys' files is written, or
    all of them are and the hook is running or done. *)
Definition preparing (auth : name -> bytes) (u : surroundings) (o : options) (m m1 : fs) : Prop :=
  let os := key_ops m (components (o_esp o)) auth in
  (exists k, m1 = apply_all (firstn k os) m) \/ meanwhile u o (apply_all os m) m1.

(** The same with the order changed: the hook first, then, if it succeeds, the
    keys' files. *)
Definition preparing_late (auth : name -> bytes) (u : surroundings) (o : options) (m m1 : fs) : Prop :=
  meanwhile u o m m1 \/
  snd (hook u o m) = 0 /\
  exists k, m1 = apply_all (firstn k (key_ops (fst (hook u o m)) (components (o_esp o)) auth)) (fst (hook u o m)).

(** The hook serves one ESP, without measured boot, and everything works: the
    keys exist and are read, nothing fails, generations are readable. *)
Record enrolling (M : machine) (key : bytes) (verifies : bytes -> bool) (u : surroundings) (o : options) : Prop := {
  en_serves : serves u o 0 M;
  en_esp : components (o_esp o) = ma_esp M;
  en_single : o_extra o = [];
  en_plain : o_measured o = false;
  en_key : w_exists (u_world u 0) (o_public_key o) = Some true /\ w_read (u_world u 0) (o_public_key o) = Some key;
  en_run : forall a sg c, wanted o (u_links u 0) (o_esp o) a -> asked_signer (u_world u 0) a sg -> asked_config (u_world u 0) a c ->
    e_signer (w_env (u_world u 0) sg) = sg /\ trusted key verifies (w_env (u_world u 0) sg) /\
    no_faults (w_env (u_world u 0) sg) /\ complete_listings (w_env (u_world u 0) sg) /\ all_readable c /\ distinct c }.
