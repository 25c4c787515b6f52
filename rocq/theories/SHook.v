(** Specification of C71: what the install hook is to do. *)
From Coq Require Import List NArith Bool.
From Verif Require Import Base MText MGeneration MNames MFs MTool MInstall MCli MHook SInstall SHistory SCli.
Import ListNotations.
Open Scope N_scope.

(** The command line that the options ask for on one mount point: no limit is
    written 0; measurements are predicted if measured boot uses PCR 4. *)
Definition wanted (o : options) (links : list bytes) (esp : bytes) (a : args) : Prop :=
  a_system a = o_system o /\ a_systemd a = o_systemd o /\ a_conf a = o_conf o /\
  a_allow_unsigned a = o_allow_unsigned o /\
  a_public_key a = Some (o_public_key o) /\ a_private_key a = Some (o_private_key o) /\
  (forall n, o_limit o = Some n -> a_limit a = Some n) /\ (o_limit o = None -> a_limit a = Some 0) /\
  a_tries a = Some (o_tries o) /\
  (o_measured o = true -> In 4 (o_pcrs o) -> a_pcrlock a = Some (o_pcrlock o)) /\
  (o_measured o = false \/ ~ In 4 (o_pcrs o) -> a_pcrlock a = None) /\
  a_esp a = esp /\ a_generations a = links.

(** The mount point of the n-th installation: the ESP, then the extra ones. *)
Definition mount_point (o : options) (i : nat) (esp : bytes) : Prop :=
  (i = 0%nat /\ esp = o_esp o) \/ (exists j, i = S j /\ nth_error (o_extra o) j = Some esp).

Section Hook.
Variables (u : surroundings) (o : options) (m0 : fs).

(** [before i m]: the i-th installation starts in the state [m]; each starts
    where the one before ended, however it ended. *)
Inductive before : nat -> fs -> Prop :=
| be_first : before 0 m0
| be_next i m esp a : before i m -> mount_point o i esp -> wanted o (u_links u i) esp a ->
    before (S i) (fst (fst (lzbt (u_world u i) a m))).

(** The installation on [esp], the i-th, in its state. *)
Definition installation (i : nat) (esp : bytes) (m : fs) (a : args) : Prop :=
  mount_point o i esp /\ before i m /\ wanted o (u_links u i) esp a.

(** The states while the hook runs: what part of an installation has done, and
    the end. *)
Definition meanwhile (m : fs) : Prop :=
  (exists i esp m1 a os rest, installation i esp m1 a /\
     snd (fst (lzbt (u_world u i) a m1)) = os ++ rest /\ m = apply_all os m1) \/
  m = fst (hook u o m0).

(** The same after the i-th installation. *)
Definition later (i : nat) (m : fs) : Prop :=
  (exists j esp m1 a os rest, (i < j)%nat /\ installation j esp m1 a /\
     snd (fst (lzbt (u_world u j) a m1)) = os ++ rest /\ m = apply_all os m1) \/
  m = fst (hook u o m0).
End Hook.

(** Neither lies in the other. *)
Definition apart (a b : path) : Prop := ~ at_or_above a b /\ ~ at_or_above b a.

(** The hook's k-th mount point is the ESP of the machine [M]: that installation
    fits it; the others and pcrlock's files are elsewhere. *)
Definition serves (u : surroundings) (o : options) (k : nat) (M : machine) : Prop :=
  (forall i esp a sg c, mount_point o i esp -> wanted o (u_links u i) esp a ->
     asked_signer (u_world u i) a sg -> asked_config (u_world u i) a c ->
     (i = k -> fits M (w_env (u_world u i) sg) c) /\
     (i <> k -> honest_listings (w_env (u_world u i) sg) /\ apart (ma_esp M) (c_esp c) /\
                forall d, c_pcrlock c = Some d -> apart (ma_esp M) d)) /\
  (forall m p, at_or_above (ma_esp M) p -> lookup (fst (u_policy u m)) p = lookup m p).
