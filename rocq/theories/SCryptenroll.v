(** Specification of C85: when the TPM opens the encrypted disk. *)
From Coq Require Import List NArith Bool.
From Verif Require Import Base MText MGeneration MNames MFs MTool MInstall MCli MHook MPolicy MCryptenroll
  SNames SInstall SHistory SExact SCli SHook SRepeat SPolicy.
Import ListNotations.
Open Scope N_scope.

(** The directory of the components. *)
Definition lock_dir (o : options) : path := components (o_pcrlock o).

Section Opens.
Variable allows : bytes -> bytes -> Prop.
Variables act sep : bytes.

(** The TPM opens the disk in a boot with this log of PCR 4: the slot is bound
    to the policy, and the policy accepts the log. *)
Definition opens (o : options) (t : machine_state) (log : list bytes) : Prop :=
  k_slot t = Pcrlock /\ exists m current, k_policy t = Some (m, current) /\
    policy allows act sep (upstream_static o) m (lock_dir o) current log.
End Opens.

(** The hook does not make the marker, nor does systemd-pcrlock. *)
Definition leaves_marker (u : surroundings) (o : options) : Prop :=
  (forall m, lookup (fst (hook u o m)) marker <> None -> lookup m marker <> None) /\
  (forall m, lookup (fst (u_policy u m)) marker <> None -> lookup m marker <> None).

(** What happens to a machine: the hook is run (by a switch to another
    configuration), the service is run or stopped between two commands, the
    machine boots, and other software changes files (but does not make the
    marker). *)
Inductive lives : machine_state -> machine_state -> Prop :=
| li_start t : lives t t
| li_hook t t1 u o : lives t t1 -> leaves_marker u o -> lives t (fst (hook_policy u o t1))
| li_service t t1 u o ok t2 : lives t t1 -> leaves_marker u o -> In t2 (fst (auto_cryptenroll u o ok t1)) -> lives t t2
| li_boot t t1 u o log : lives t t1 -> leaves_marker u o -> lives t (boot u o log t1)
| li_other t t1 m : lives t t1 -> (lookup m marker <> None -> lookup (k_fs t1) marker <> None) ->
    lives t (Kept m (k_policy t1) (k_slot t1) (k_log t1)).

(** A machine with measured boot for PCR 4 and one ESP: the installation that
    the hook asks for fits the machine [M], the tools are the same as always,
    and nothing fails while the ESP is written. *)
Record measuring (M : machine) (Sign Lock : bytes -> bytes -> Prop) (u : surroundings) (o : options) : Prop := {
  me_measured : o_measured o = true;
  me_pcr4 : In 4 (o_pcrs o);
  me_single : o_extra o = [];
  me_run : forall a sg c, wanted o (u_links u 0) (o_esp o) a -> asked_signer (u_world u 0) a sg -> asked_config (u_world u 0) a c ->
    let e := w_env (u_world u 0) sg in
    fits M e c /\ made_by Sign Lock e /\ same_machine (e_lock e) (lock_dir o) (boot_paths c) e c /\
    no_faults e /\ complete_listings e /\ distinct c /\ all_readable c }.

(** lzbt, as the hook runs it, succeeds in the state [m]. *)
Definition lzbt_succeeds (u : surroundings) (o : options) (m : fs) : Prop :=
  forall a, wanted o (u_links u 0) (o_esp o) a -> snd (lzbt (u_world u 0) a m) = 0.

(** The boot loader at [p] is measured by the component for the present one, or
    there is no such component yet. *)
Definition loader_measured (u : surroundings) (o : options) (m : fs) (p : path) : Prop :=
  forall a sg, wanted o (u_links u 0) (o_esp o) a -> asked_signer (u_world u 0) a sg ->
    lookup m (bootloader_lock (lock_dir o) (lit "current")) = None \/
    measured_by (e_lock (w_env (u_world u 0) sg)) (lock_dir o) m p (lit "current").

(** The two states have the same components. *)
Definition same_components (o : options) (m m' : fs) : Prop :=
  forall r, r <> [] -> lookup m (lock_dir o ++ r) = lookup m' (lock_dir o ++ r).
