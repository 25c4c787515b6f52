(** Proofs for C93. *)
From Coq Require Import List NArith Bool.
From Verif Require Import Base MText MHook MPolicy MSecureLock SPolicy SSecureLock PBase.
Import ListNotations.
Open Scope N_scope.

Section Pcr7.
Variables on off sep : bytes.

Lemma separator_there o : pcr o 7 = true ->
  In (lit "400-secureboot-separator.pcrlock.d/300-0x00000000.pcrlock") (upstream_static o).
Proof.
  intros P. unfold upstream_static. rewrite P. apply in_or_app. right. apply in_or_app. right. left. reflexivity.
Qed.

(** What holds of the components, and of what a policy was made from. *)
Definition secure_files (f : sb_components) : Prop := forall l, s_policy f = Some l -> exists r, l = on :: r.
Definition good_policy (q : policy7) : Prop :=
  secure_files (q_files q) /\ (boots_as on off sep true (q_log q) \/ boots_as on off sep false (q_log q)) /\
  (q_chosen q = true -> In (lit "400-secureboot-separator.pcrlock.d/300-0x00000000.pcrlock") (q_static q)).
Definition good (z : sealed) : Prop :=
  secure_files (z_files z) /\ (boots_as on off sep true (z_log z) \/ boots_as on off sep false (z_log z)) /\
  (forall q, z_policy z = Some q -> good_policy q).

Lemma make_good o ok f log old :
  secure_files f -> boots_as on off sep true log \/ boots_as on off sep false log ->
  (forall q, old = Some q -> good_policy q) ->
  forall q, make_policy7 o ok f log old = Some q -> good_policy q.
Proof.
  intros SF BA OL q. unfold make_policy7. destruct (o_measured o && ok); [|apply OL].
  intros E. injection E as <-. split; [exact SF|]. split; [exact BA|]. exact (separator_there o).
Qed.

Lemma recorded_log b : recorded on off sep b -> boots_as on off sep (b_secure b) (log7 b).
Proof.
  intros (S & r & V). exists r, (b_certificates b). unfold log7. rewrite S, V. reflexivity.
Qed.

Lemma insecure_unit o b u : sb_unit o true b u = true -> b = true.
Proof.
  unfold sb_unit, lock_services. destruct (o_measured o); [|discriminate].
  intros E. apply andb_true_iff in E. destruct E as [_ E]. destruct b; [reflexivity|discriminate E].
Qed.

Lemma all_good z : sealed_by on off sep true z -> good z.
Proof.
  induction 1 as [log L|o b z _ (SF & BA & PO) R|o ok z _ (SF & BA & PO)|z _ (SF & BA & PO)|z _ (SF & BA & PO)].
  - split; [intros l E; discriminate E|]. split; [exact L|]. intros q E. discriminate E.
  - assert (BL : boots_as on off sep true (log7 b) \/ boots_as on off sep false (log7 b)).
    { pose proof (recorded_log b R) as X. destruct (b_secure b); [left|right]; exact X. }
    assert (SF' : secure_files (z_files (boot_sealed o true b z))).
    { intros l. cbn [boot_sealed z_files s_policy]. unfold sb_component.
      destruct (sb_unit o true (b_secure b) _) eqn:U; cbn [andb]; [|exact (SF l)].
      destruct (b_policy_ok b); [|exact (SF l)].
      apply insecure_unit in U. destruct R as (_ & r & V). rewrite U in V. intros E. injection E as <-. exists r. exact V. }
    split; [exact SF'|]. split; [exact BL|]. exact (make_good o (b_make_ok b) _ (log7 b) (z_policy z) SF' BL PO).
  - split; [exact SF|]. split; [exact BA|]. exact (make_good o ok _ _ _ SF BA PO).
  - split; [intros l E; discriminate E|]. split; [exact BA|exact PO].
  - split; [intros l E; exact (SF l E)|]. split; [exact BA|exact PO].
Qed.

(** A policy that binds PCR 7 explains only logs with Secure Boot. *)
Lemma binds_secure z q log : on <> sep -> off <> sep ->
  sealed_by on off sep true z -> z_policy z = Some q -> binds sep q -> explained sep q log -> exists r, log = on :: r.
Proof.
  intros N1 N2 H E (CH & v0 & s0 & c0 & V0 & S0 & C0 & L0) (v & s & c & V & S & C & L).
  destruct (all_good z H) as (_ & _ & PO). destruct (PO q E) as (SF & BA & IN). specialize (IN CH).
  destruct V as [V|[V ->]].
  - destruct (SF v V) as (r & ->). exists (r ++ s ++ c). exact L.
  - exfalso. destruct V0 as [V0|[_ ->]]; [rewrite V in V0; discriminate V0|].
    destruct S0 as [[_ ->]|[NI _]]; [|exact (NI IN)].
    cbn [app] in L0. destruct BA as [(vs & cs & B)|(vs & cs & B)]; rewrite L0 in B; injection B as B _; congruence.
Qed.

Lemma accepts_secure z q log secure : on <> off -> on <> sep -> off <> sep ->
  sealed_by on off sep true z -> z_policy z = Some q -> binds sep q ->
  boots_as on off sep secure log -> accepts7 sep q log -> secure = true.
Proof.
  intros N0 N1 N2 H E B (vs & cs & L) A. destruct (binds_secure z q log N1 N2 H E B (A B)) as (r & L').
  destruct secure; [reflexivity|]. rewrite L' in L. injection L as L _. congruence.
Qed.

Lemma measured_unit o enroll secure u : o_measured o = true -> pcr o 7 = true -> secure = true \/ enroll = false ->
  In u [lit "systemd-pcrlock-secureboot-policy.service"; lit "systemd-pcrlock-secureboot-authority.service"] ->
  sb_unit o enroll secure u = true.
Proof.
  intros M P SE IU. unfold sb_unit. apply andb_true_iff. split.
  - apply existsb_exists. exists u. split; [|apply eqb_bytes_spec; reflexivity].
    unfold lock_services. rewrite M, P. cbn [optionals]. apply in_or_app. right. apply in_or_app. right. exact IU.
  - rewrite M. destruct SE as [-> | ->]; [apply orb_true_r|reflexivity].
Qed.

(** A boot in which all succeeds. *)
Lemma boot_binds o enroll b z : o_measured o = true -> pcr o 7 = true -> b_secure b = true \/ enroll = false ->
  b_separator b = sep -> b_policy_ok b = true -> b_authority_ok b = true -> b_make_ok b = true ->
  exists q, z_policy (boot_sealed o enroll b z) = Some q /\ binds sep q /\ forall log, accepts7 sep q log <-> log = log7 b.
Proof.
  intros M P SE SP O1 O2 O3.
  set (q := Policy7 true (upstream_static o) (Components7 (Some (b_variables b)) (Some (b_certificates b))) (log7 b)).
  assert (EX : forall log, explained sep q log <-> log = log7 b).
  { intros log. split.
    - intros (v & s & c & V & S & C & ->). cbn [q q_files s_policy s_authority q_static] in V, S, C.
      destruct V as [V|[V _]]; [|discriminate V]. injection V as <-. destruct C as [C|[C _]]; [|discriminate C]. injection C as <-.
      destruct S as [[_ ->]|[NI _]]; [|destruct (NI (separator_there o P))]. unfold log7. rewrite SP. reflexivity.
    - intros ->. exists (b_variables b), [sep], (b_certificates b). repeat split; try (left; reflexivity).
      + left. split; [exact (separator_there o P)|reflexivity].
      + unfold log7. rewrite SP. reflexivity. }
  exists q. split; [|split].
  - cbn [boot_sealed z_policy]. rewrite !(measured_unit o enroll (b_secure b)) by (auto; cbn; auto).
    unfold make_policy7, sb_component. rewrite M, O1, O2, O3, P. reflexivity.
  - split; [reflexivity|]. apply EX. reflexivity.
  - intros log. rewrite <- EX. split; [|intros X _; exact X]. intros A. apply A. split; [reflexivity|]. apply EX. reflexivity.
Qed.

(** Without Secure Boot PCR 7 gets out of the policy. *)
Lemma insecure_drops o b z : on <> off -> on <> sep -> off <> sep -> sealed_by on off sep true z -> recorded on off sep b ->
  b_secure b = false -> o_measured o = true -> b_make_ok b = true ->
  exists q, z_policy (boot_sealed o true b z) = Some q /\ ~ binds sep q /\ forall log, accepts7 sep q log.
Proof.
  intros N0 N1 N2 H R NS M OK.
  assert (H' : sealed_by on off sep true (boot_sealed o true b z)) by (apply sb_boot; assumption).
  destruct (z_policy (boot_sealed o true b z)) as [q|] eqn:E.
  2:{ cbn [boot_sealed z_policy] in E. unfold make_policy7 in E. rewrite M, OK in E. discriminate E. }
  assert (NB : ~ binds sep q).
  { intros B. pose proof (recorded_log b R) as L. rewrite NS in L.
    assert (Q : q_log q = log7 b).
    { cbn [boot_sealed z_policy] in E. unfold make_policy7 in E. rewrite M, OK in E. injection E as <-. reflexivity. }
    assert (X : false = true).
    { refine (accepts_secure _ q (log7 b) false N0 N1 N2 H' E B L _). intros _. rewrite <- Q. exact (proj2 B). }
    discriminate X. }
  exists q. split; [reflexivity|]. split; [exact NB|]. intros log B. destruct (NB B).
Qed.
End Pcr7.
