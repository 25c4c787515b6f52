(** C93: what the TPM policy says about Secure Boot.  The services that record
    the state of Secure Boot only run when it is enforced, if keys are enrolled
    automatically (lanzaboote.nix:484-497). *)
From Coq Require Import List NArith Bool.
From Verif Require Import Base MText MHook MPolicy MSecureLock SPolicy SSecureLock PSecureLock.
Import ListNotations.
Open Scope N_scope.

(** With automatic enrolment a policy that binds PCR 7 never opens the disk in
    a boot without Secure Boot, whatever happened to the machine before. *)
Theorem C93_only_enforced : forall on off sep z q log secure,
  on <> off -> on <> sep -> off <> sep -> sealed_by on off sep true z -> z_policy z = Some q -> binds sep q ->
  boots_as on off sep secure log -> accepts7 sep q log -> secure = true.
Proof. exact accepts_secure. Qed.
Print Assumptions C93_only_enforced.

(** Any boot with Secure Boot binds PCR 7 to just its state, if it is listed
    and the three services succeed. *)
Theorem C93_bound : forall sep o enroll b z,
  o_measured o = true -> pcr o 7 = true -> b_secure b = true \/ enroll = false ->
  b_separator b = sep -> b_policy_ok b = true -> b_authority_ok b = true -> b_make_ok b = true ->
  exists q, z_policy (boot_sealed o enroll b z) = Some q /\ binds sep q /\ forall log, accepts7 sep q log <-> log = log7 b.
Proof. exact boot_binds. Qed.
Print Assumptions C93_bound.

(** With automatic enrolment a boot without Secure Boot in which the policy is
    made anew (the disk was opened with another key) leaves PCR 7 out of it, so
    that it accepts every log. *)
Theorem C93_dropped : forall on off sep o b z,
  on <> off -> on <> sep -> off <> sep -> sealed_by on off sep true z -> recorded on off sep b ->
  b_secure b = false -> o_measured o = true -> b_make_ok b = true ->
  exists q, z_policy (boot_sealed o true b z) = Some q /\ ~ binds sep q /\ forall log, accepts7 sep q log.
Proof. exact insecure_drops. Qed.
Print Assumptions C93_dropped.

(** ** Examples *)

Definition l_options : options :=
  Options (lit "x86_64-linux") (lit "/nix/store/systemd") (lit "/nix/store/loader.conf") None false 3
    (lit "/keys/db.pem") (lit "/keys/db.key") true [4; 7] (lit "/var/lib/pcrlock.d") (lit "/boot") [].
Definition l_on : bytes := lit "SecureBoot=1".
Definition l_off : bytes := lit "SecureBoot=0".
Definition l_sep : bytes := lit "separator".
Definition l_secure : boot7 := Boot7 true [l_on; lit "PK"; lit "KEK"; lit "db"] l_sep [lit "our certificate"] true true true.
Definition l_insecure : boot7 := Boot7 false [l_off; []; []; []] l_sep [] true true true.
Definition l_fresh : sealed := Sealed (Components7 None None) None (log7 l_insecure).

Lemma l_recorded : recorded l_on l_off l_sep l_secure /\ recorded l_on l_off l_sep l_insecure.
Proof. split; (split; [reflexivity|]); eexists; reflexivity. Qed.
Lemma l_start enroll : sealed_by l_on l_off l_sep enroll l_fresh.
Proof. apply sb_fresh. right. exists [[]; []; []], []. reflexivity. Qed.
Lemma l_distinct : l_on <> l_off /\ l_on <> l_sep /\ l_off <> l_sep.
Proof. repeat split; discriminate. Qed.

(** A machine that is provisioned: first without Secure Boot, which leaves PCR 7
    out, then with it. *)
Example C93_ex :
  let z1 := boot_sealed l_options true l_insecure l_fresh in
  let z2 := hook_sealed l_options true z1 in
  let z3 := boot_sealed l_options true l_secure z2 in
  sealed_by l_on l_off l_sep true z3 /\
  (exists q, z_policy z2 = Some q /\ ~ binds l_sep q) /\
  (exists q, z_policy z3 = Some q /\ binds l_sep q /\ boots_as l_on l_off l_sep true (log7 l_secure) /\
     accepts7 l_sep q (log7 l_secure) /\ ~ accepts7 l_sep q (log7 l_insecure)).
Proof.
  cbv zeta. destruct l_recorded as [R1 R2]. destruct l_distinct as (N0 & N1 & N2).
  assert (H1 := sb_boot l_on l_off l_sep true l_options l_insecure l_fresh (l_start true) R2).
  assert (H2 := sb_hook l_on l_off l_sep true l_options true _ H1).
  assert (H3 := sb_boot l_on l_off l_sep true l_options l_secure _ H2 R1).
  split; [exact H3|]. split.
  - destruct (insecure_drops l_on l_off l_sep l_options l_insecure l_fresh N0 N1 N2 (l_start true) R2 eq_refl eq_refl eq_refl)
      as (q & E & NB & _).
    exists q. split; [exact E|exact NB].
  - destruct (boot_binds l_sep l_options true l_secure (hook_sealed l_options true (boot_sealed l_options true l_insecure l_fresh))
      eq_refl eq_refl (or_introl eq_refl) eq_refl eq_refl eq_refl eq_refl) as (q & E & B & A).
    exists q. split; [exact E|]. split; [exact B|]. split; [apply (recorded_log _ _ _ _ R1)|].
    split; [apply A; reflexivity|]. intros X. apply A in X. discriminate X.
Qed.

(** ** What is false *)

(** Without automatic enrolment the condition is not there: with PCR 7 listed,
    a machine that boots without Secure Boot is bound to staying without it, and
    does not open the disk once keys are enrolled by hand. *)
Definition l_manual_claim : Prop := forall on off sep z q log secure,
  on <> off -> on <> sep -> off <> sep -> sealed_by on off sep false z -> z_policy z = Some q -> binds sep q ->
  boots_as on off sep secure log -> accepts7 sep q log -> secure = true.

Theorem C93_manual_refuted : ~ l_manual_claim /\
  exists q, z_policy (boot_sealed l_options false l_insecure l_fresh) = Some q /\ binds l_sep q /\ ~ accepts7 l_sep q (log7 l_secure).
Proof.
  destruct l_recorded as [R1 R2]. destruct l_distinct as (N0 & N1 & N2).
  destruct (boot_binds l_sep l_options false l_insecure l_fresh eq_refl eq_refl (or_intror eq_refl) eq_refl eq_refl eq_refl eq_refl)
    as (q & E & B & A).
  split.
  - intros C. assert (X : false = true).
    { refine (C l_on l_off l_sep _ q (log7 l_insecure) false N0 N1 N2 _ E B (recorded_log _ _ _ _ R2) _).
      - apply sb_boot; [apply l_start | exact R2].
      - apply A. reflexivity. }
    discriminate X.
  - exists q. split; [exact E|]. split; [exact B|]. intros X. apply A in X. discriminate X.
Qed.
Print Assumptions C93_manual_refuted.

(** A bound PCR 7 does not stay bound: a machine that is booted once without
    Secure Boot, and opened with another key, then opens the disk without it. *)
Theorem C93_stays_bound_refuted :
  let z1 := boot_sealed l_options true l_secure l_fresh in
  let z2 := boot_sealed l_options true l_insecure z1 in
  sealed_by l_on l_off l_sep true z2 /\
  (exists q, z_policy z1 = Some q /\ binds l_sep q) /\
  (exists q, z_policy z2 = Some q /\ accepts7 l_sep q (log7 l_insecure)).
Proof.
  cbv zeta. destruct l_recorded as [R1 R2]. destruct l_distinct as (N0 & N1 & N2).
  assert (H1 := sb_boot l_on l_off l_sep true l_options l_secure l_fresh (l_start true) R1).
  split; [apply sb_boot; [exact H1 | exact R2]|]. split.
  - destruct (boot_binds l_sep l_options true l_secure l_fresh eq_refl eq_refl (or_introl eq_refl) eq_refl eq_refl eq_refl eq_refl)
      as (q & E & B & _).
    exists q. split; [exact E | exact B].
  - destruct (insecure_drops l_on l_off l_sep l_options l_insecure _ N0 N1 N2 H1 R2 eq_refl eq_refl eq_refl) as (q & E & _ & A).
    exists q. split; [exact E | apply A].
Qed.
Print Assumptions C93_stays_bound_refuted.
