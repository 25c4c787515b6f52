(** The numbers that the measuring functions return (C31, C32). *)
From Coq Require Import List NArith Bool Lia ZArith ZifyBool ZifyNat ZifyN.
From Verif Require Import Base PBase MText MCpio MPe MFirmware MStub PMonad SFirmware PFirmware SStub PStub.
Import ListNotations.
Open Scope N_scope.

Lemma successes_app a b : successes (a ++ b) = (successes a + successes b)%nat.
Proof. unfold successes. rewrite filter_app, app_length. reflexivity. Qed.

Lemma sections_count fw image secs kernel initrd : tpm_present fw -> forall l h h' n,
  measure_sections fw image secs kernel initrd l h = (h', Ok n) ->
  exists es, h' = h ++ es /\ n = N.of_nat (successes es).
Proof.
  intros T. induction l as [|u l IH]; intros h h' n H; cbn [measure_sections] in H.
  - apply ret_inv in H as [-> E0]. injection E0 as ->. exists []. rewrite app_nil_r. auto.
  - apply mbind_inv in H as [(h1 & sd & E & H)|[(e & _ & X)|(_ & X)]]; [|discriminate|discriminate].
    assert (h1 = h) as -> by (unfold lift in E; injection E as <- _; reflexivity). clear E.
    apply mbind_inv in H as [(h1 & k & E & H)|[(e & _ & X)|(_ & X)]]; [|discriminate|discriminate].
    assert (exists es, h1 = h ++ es /\ k = N.of_nat (successes es)) as (es1 & -> & ->).
    { set (d := match u with ULinux => Some kernel | UInitrd => Some initrd | _ => sd end) in *. destruct d as [d|].
      - change pcr_kernel_image with 11 in E. apply mbind_inv in E as [(h2 & a & E1 & E3)|[(e & _ & X)|(_ & X)]]; [|discriminate|discriminate].
        destruct (attempt_log_run fw 11 (utf8_encode (unified_name u) ++ [0]) (unified_name u) h T ltac:(discriminate)) as (r1 & R1 & _).
        rewrite R1 in E1. injection E1 as <- <-.
        apply mbind_inv in E3 as [(h2 & b & E2 & E)|[(e & _ & X)|(_ & X)]]; [|discriminate|discriminate].
        match type of E2 with _ ?hh = _ => destruct (attempt_log_run fw 11 d (unified_name u) hh T ltac:(discriminate)) as (r2 & R2 & _) end.
        rewrite R2 in E2. injection E2 as <- <-. apply ret_inv in E as [-> E0]. injection E0 as ->.
        rewrite <- app_assoc. eexists. split; [reflexivity|]. destruct r1, r2; reflexivity.
      - apply ret_inv in E as [-> E0]. injection E0 as ->. exists []. rewrite app_nil_r. auto. }
    apply mbind_inv in H as [(h2 & k2 & E2 & H)|[(e & _ & X)|(_ & X)]]; [|discriminate|discriminate].
    apply IH in E2 as (es2 & -> & ->). apply ret_inv in H as [-> E0]. injection E0 as ->.
    exists (es1 ++ es2). rewrite app_assoc, successes_app. split; [reflexivity | lia].
Qed.

Lemma set_count fw n v d h h' : set_variable fw n v d h = (h', Ok tt) -> exists es, h' = h ++ es /\ successes es = 0%nat.
Proof. rewrite set_variable_run. intros E. injection E as <- _. eexists. split; [reflexivity|]. reflexivity. Qed.

Lemma image_count fw image parsed kernel initrd h h' n : tpm_present fw ->
  measure_image fw image parsed kernel initrd h = (h', Ok n) ->
  exists es, h' = h ++ es /\ n = N.of_nat (successes es).
Proof.
  intros T H. unfold measure_image in H. destruct parsed as [p|]; [|discriminate].
  apply mbind_inv in H as [(h1 & k & E & H)|[(e & _ & X)|(_ & X)]]; [|discriminate|discriminate].
  apply sections_count in E as (es & -> & ->); [|exact T].
  apply mbind_inv in H as [(h2 & [] & E & H)|[(e & _ & X)|(_ & X)]]; [|discriminate|discriminate].
  apply ret_inv in H as [-> H]. injection H as ->.
  destruct (0 <? _).
  - apply set_count in E as (es2 & -> & S). exists (es ++ es2). rewrite app_assoc, successes_app, S. split; [reflexivity | lia].
  - apply ret_inv in E as [-> _]. eauto.
Qed.

Lemma loop_count fw : tpm_present fw -> forall l m c s h h' m' c' s',
  measure_companions_loop fw l m c s h = (h', Ok (m', c', s')) ->
  exists es, h' = h ++ es /\ m' = m + N.of_nat (successes es).
Proof.
  intros T. induction l as [|[t b] l IH]; intros m c s h h' m' c' s' H; cbn [measure_companions_loop] in H.
  - apply ret_inv in H as [-> E0]. injection E0 as -> -> ->. exists []. rewrite app_nil_r. cbn. split; [reflexivity | lia].
  - assert (forall p d (k1 k2 : M (N * N * bool)) , p <> 4294967295 ->
      (forall h h' m' c' s', k1 h = (h', Ok (m', c', s')) -> exists es, h' = h ++ es /\ m' = (m + 1) + N.of_nat (successes es)) ->
      (forall h h' m' c' s', k2 h = (h', Ok (m', c', s')) -> exists es, h' = h ++ es /\ m' = m + N.of_nat (successes es)) ->
      (r <- attempt (tpm_log fw p b d) ;; match r with inl _ => k1 | inr _ => k2 end) h = (h', Ok (m', c', s')) ->
      exists es, h' = h ++ es /\ m' = m + N.of_nat (successes es)) as STEP.
    { intros p d k1 k2 NP K1 K2 E.
      apply mbind_inv in E as [(h2 & a & E1 & E3)|[(e & _ & X)|(_ & X)]]; [|discriminate|discriminate].
      destruct (attempt_log_run fw p b d h T NP) as (r1 & R1 & _). rewrite R1 in E1. injection E1 as <- <-.
      destruct r1 as [e|]; [apply K2 in E3 as (es & -> & ->) | apply K1 in E3 as (es & -> & ->)];
        rewrite <- app_assoc; eexists; (split; [reflexivity|]); rewrite successes_app; cbn [successes filter length]; lia. }
    destruct t; try (eapply IH; exact H);
      (eapply STEP in H; [exact H | discriminate | intros; eapply IH; eassumption | intros; eapply IH; eassumption]).
Qed.

Lemma companions_count fw l h h' n : tpm_present fw -> measure_companion_initrds fw l h = (h', Ok n) ->
  exists es, h' = h ++ es /\ n = N.of_nat (successes es).
Proof.
  intros T H. unfold measure_companion_initrds in H.
  apply mbind_inv in H as [(h1 & [[m c] s] & E & H)|[(e & _ & X)|(_ & X)]]; [|discriminate|discriminate].
  apply loop_count in E as (es & -> & ->); [|exact T].
  apply mbind_inv in H as [(h1 & [] & E & H)|[(e & _ & X)|(_ & X)]]; [|discriminate|discriminate].
  apply mbind_inv in H as [(h2 & [] & E2 & H)|[(e & _ & X)|(_ & X)]]; [|discriminate|discriminate].
  apply ret_inv in H as [-> H]. injection H as ->.
  assert (exists es1, h1 = (h ++ es) ++ es1 /\ successes es1 = 0%nat) as (es1 & -> & S1).
  { destruct (0 <? c); [apply set_count in E; exact E|]. apply ret_inv in E as [-> _]. exists []. rewrite app_nil_r. auto. }
  assert (exists es2, h2 = ((h ++ es) ++ es1) ++ es2 /\ successes es2 = 0%nat) as (es2 & -> & S2).
  { destruct s; [apply set_count in E2; exact E2|]. apply ret_inv in E2 as [-> _]. exists []. rewrite app_nil_r. auto. }
  exists (es ++ es1 ++ es2). rewrite !successes_app, S1, S2. split; [rewrite <- !app_assoc; reflexivity | lia].
Qed.
