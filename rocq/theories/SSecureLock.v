(** Specification of C93: what the TPM policy says about Secure Boot.

    From the TCG PC Client Platform Firmware Profile: PCR 7 first gets a record
    of the variable SecureBoot, which tells whether Secure Boot is enforced, then
    those of other variables, then the separator, then the certificates used.
    From systemd-pcrlock(8): see SPolicy.v; the components are ordered by their
    numbers, 240 for the variables, 400 for the separator, 620 for the
    certificates. *)
From Coq Require Import List NArith Bool.
From Verif Require Import Base MText MHook MPolicy MSecureLock SPolicy.
Import ListNotations.
Open Scope N_scope.

Section Pcr7.
(** The records of SecureBoot being on and off, and of the separator. *)
Variables on off sep : bytes.

(** The log of a boot in which Secure Boot is enforced ([true]) or not. *)
Definition boots_as (secure : bool) (log : list bytes) : Prop :=
  exists variables certificates, log = (if secure then on else off) :: variables ++ sep :: certificates.

(** What the firmware records at this boot. *)
Definition recorded (b : boot7) : Prop :=
  b_separator b = sep /\ exists variables, b_variables b = (if b_secure b then on else off) :: variables.

(** The records of a component; none if it does not exist. *)
Definition records (c : option (list bytes)) (l : list bytes) : Prop :=
  c = Some l \/ c = None /\ l = [].

(** The logs of PCR 7 that the components explain. *)
Definition explained (q : policy7) (log : list bytes) : Prop :=
  exists v s c, records (s_policy (q_files q)) v /\
    from_static (q_static q) (lit "400-secureboot-separator.pcrlock.d/300-0x00000000.pcrlock") sep s /\
    records (s_authority (q_files q)) c /\ log = v ++ s ++ c.

(** The policy binds PCR 7: it is to be bound, and the components explain the
    log of the boot in which the policy was made. *)
Definition binds (q : policy7) : Prop := q_chosen q = true /\ explained q (q_log q).

(** The policy lets the TPM open the disk in a boot with this log. *)
Definition accepts7 (q : policy7) (log : list bytes) : Prop := binds q -> explained q log.

(** What happens to a machine on which automatic enrolment is on ([true]) or
    off: it boots, with or without Secure Boot, the services succeed or not,
    configurations with any options are switched to, and components are
    removed. *)
Inductive sealed_by (enroll : bool) : sealed -> Prop :=
| sb_fresh log : boots_as true log \/ boots_as false log -> sealed_by enroll (Sealed (Components7 None None) None log)
| sb_boot o b z : sealed_by enroll z -> recorded b -> sealed_by enroll (boot_sealed o enroll b z)
| sb_hook o ok z : sealed_by enroll z -> sealed_by enroll (hook_sealed o ok z)
| sb_unlock_policy z : sealed_by enroll z ->
    sealed_by enroll (Sealed (Components7 None (s_authority (z_files z))) (z_policy z) (z_log z))
| sb_unlock_authority z : sealed_by enroll z ->
    sealed_by enroll (Sealed (Components7 (s_policy (z_files z)) None) (z_policy z) (z_log z)).
End Pcr7.
