(** Model of the measurements of Secure Boot, nix/modules/lanzaboote.nix:484-522:
    when the two services run that write the components for PCR 7, and the
    policy that is made from these (systemd-pcrlock-make-policy at each boot,
    499-509; the install hook, 49-54).

    What the services do is systemd's: each writes its component with the records
    of the present boot, the one those of the variables, the other those of the
    certificates used.  Simplified: the log of PCR 7 is the records of the
    variables, the separator, and the records of the certificates; the directory
    of components is always the same one. *)
From Coq Require Import List NArith Bool.
From Verif Require Import Base MText MHook MPolicy.
Import ListNotations.
Open Scope N_scope.

(** The two components, if they exist (lanzaboote.nix:480-481). *)
Record sb_components := Components7 { s_policy : option (list bytes); s_authority : option (list bytes) }.

(** Whether one of the two services runs at a boot, lanzaboote.nix:484-497 and
    510-522: [ConditionSecurity] is only there with automatic enrolment. *)
Definition sb_unit (o : options) (enroll secure : bool) (unit : str) : bool :=
  existsb (eqb_bytes unit) (lock_services o) && (negb (o_measured o && enroll) || secure).

(** The component that a service leaves (lanzaboote.nix:488,493). *)
Definition sb_component (runs ok : bool) (present : list bytes) (old : option (list bytes)) : option (list bytes) :=
  if runs && ok then Some present else old.

(** A boot: whether Secure Boot is enforced, what the firmware records, and
    whether the services (lanzaboote.nix:488,493,499) succeed. *)
Record boot7 := Boot7 {
  b_secure : bool; b_variables : list bytes; b_separator : bytes; b_certificates : list bytes;
  b_policy_ok : bool; b_authority_ok : bool; b_make_ok : bool }.

(** The log of PCR 7 (the header of this file). *)
Definition log7 (b : boot7) : list bytes := b_variables b ++ b_separator b :: b_certificates b.

(** What the command at lanzaboote.nix:80-90 makes the policy from: whether the
    PCR is listed (89), the components in the two directories (84-85), and the
    log of the present boot. *)
Record policy7 := Policy7 { q_chosen : bool; q_static : list str; q_files : sb_components; q_log : list bytes }.

(** [makePolicyCommand], lanzaboote.nix:80-90; the old policy stays if it
    fails. *)
Definition make_policy7 (o : options) (ok : bool) (files : sb_components) (log : list bytes) (old : option policy7)
  : option policy7 :=
  if o_measured o && ok then Some (Policy7 (pcr o 7) (upstream_static o) files log) else old.

(** The components, the policy in the TPM and the log of the present boot
    (lanzaboote.nix:84-89). *)
Record sealed := Sealed { z_files : sb_components; z_policy : option policy7; z_log : list bytes }.

(** A boot with its services, lanzaboote.nix:488-522; the two write their
    components before the policy is made. *)
Definition boot_sealed (o : options) (enroll : bool) (b : boot7) (z : sealed) : sealed :=
  let files := Components7
    (sb_component (sb_unit o enroll (b_secure b) (lit "systemd-pcrlock-secureboot-policy.service")) (b_policy_ok b)
       (b_variables b) (s_policy (z_files z)))
    (sb_component (sb_unit o enroll (b_secure b) (lit "systemd-pcrlock-secureboot-authority.service")) (b_authority_ok b)
       (b_certificates b) (s_authority (z_files z))) in
  Sealed files (make_policy7 o (b_make_ok b) files (log7 b) (z_policy z)) (log7 b).

(** The end of the install hook, lanzaboote.nix:51-54. *)
Definition hook_sealed (o : options) (ok : bool) (z : sealed) : sealed :=
  Sealed (z_files z) (make_policy7 o ok (z_files z) (z_log z) (z_policy z)) (z_log z).
