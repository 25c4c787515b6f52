(** Proofs about secrets in the initrd (C81). *)
From Coq Require Import List NArith Bool Lia.
From Verif Require Import Base PBase MText PText MGeneration MNames MPe MFs MTool MInstall SCommon SNames SInstall SHistory SRepeat SExact SSecrets.
From Verif Require Import PFs PInstall PImage PFiles PPaths PGen PBoot PGc PSelect PRun PTrace POwned PLoader PEntry PHistory PHistories PRepeat PTwice PExact.
Import ListNotations.
Open Scope N_scope.

Section Secrets.
Variables (M : machine) (e : env) (c : config).
Hypothesis SO : sound M.
Hypothesis FI : fits M e c.

(** The hash in a stub is that of the initrd it was made with. *)
Lemma built_hash g kver kd id image out : PGen.built e c g kver kd id image -> sg_sign (e_signer e) image = Some out ->
  has_section (ma_parse M) out (lit ".initrdh") (ma_sha M id).
Proof.
  intros [KV KD ID (init & kp & ip & stub & INI & KP & IP & ST & IM)] SG.
  unfold lanzaboote_image in IM. destruct (e_parse e stub) as [pe0|] eqn:PE; [|discriminate].
  destruct (stub_offset pe0) as [offs| |] eqn:SOF; cbn [bind] in IM; try discriminate. apply ok_or_some in IM.
  assert (ma_parse M stub = Some pe0) as PE2 by (rewrite <- (fi_parse _ _ _ FI); exact PE).
  pose proof (fun E1 E2 => fi_tools _ _ _ FI stub pe0 _ image out ST PE2 E1 E2 IM SG) as HS.
  specialize (HS eq_refl (fun PS => image_sections_beyond pe0 _ offs PS SOF)). destruct HS as [_ HS].
  rewrite <- (fi_sha _ _ _ FI). unfold image_sections in HS. cbn in HS. eapply HS; eauto 10.
Qed.

(** An entry of [g] that was not there before has the initrd of this run. *)
Variables (key : bytes) (g : generation) (m0 : fs).
Hypothesis KE : sg_key (e_signer e) = Some key.
Hypothesis Gg : ma_gens M g.

Definition now (y : bytes) : Prop :=
  exists id, PGen.initrd_data e (g_spec g) id /\ has_section (ma_parse M) y (lit ".initrdh") (ma_sha M id).
Definition old_or_now (m : fs) : Prop :=
  forall n y b, named M key g n -> lookup m (linux_file M n) = Some (NFile y b) ->
    (exists b', lookup m0 (linux_file M n) = Some (NFile y b')) \/ now y.

Lemma gen_now (U : generation -> Prop) m o : (forall g, U g -> ma_gens M g) -> GA e c U m o -> old_or_now m -> old_or_now (apply o m).
Proof.
  intros UG GO H n y b NM L. pose proof (gen_linux M e c SO FI U m o n UG GO (named_ends _ _ _ _ NM)) as GL. cbv zeta in GL.
  destruct GL as [E|[E|[[E1 E]|(g' & key' & out & kp & ip & Ug & K & NM' & E & _)]]].
  - rewrite E in L. eapply H; eauto.
  - rewrite E in L. destruct (lookup m (linux_file M n)) as [[|y' b']|] eqn:LM; try discriminate. injection L as -> _. eapply H; eauto.
  - congruence.
  - (* the step that put it there *)
    rewrite E in L. injection L as -> _. destruct GO as [PX CH]. rewrite (linux_file_eq M e c FI) in E.
    set (p := d_linux c ++ [n]) in *.
    assert (file_ends (lit ".efi") p) as EP by (exists (d_linux c), n; split; [reflexivity | apply (named_ends _ _ _ _ NM)]).
    assert (forall q, q <> p -> eqb_path q p = false) as NE by (intros q N; apply eqb_path_false; exact N).
    assert (forall g q, gen_file e c g q -> tmp_path q <> p) as NT.
    { intros g1 q GF. apply not_eq_sym, efi_ne_tmp; [exact EP | eapply tmp_ends; eauto]. }
    assert (forall g q, gen_lock c g q -> q <> p) as NL.
    { intros g1 q GL. apply not_eq_sym, efi_ne_lock; [exact EP | eapply gen_lock_ends; eauto]. }
    assert (forall b, lookup m p = Some (NFile y b) -> (exists b', lookup m0 (linux_file M n) = Some (NFile y b')) \/ now y) as OLD.
    { intros b1 L. apply (H n y b1 NM). rewrite (linux_file_eq M e c FI). exact L. }
    rewrite lookup_apply in E.
    destruct CH as [g1 p0 q Ug1 Hp BQ | g1 p0 Ug1 GF | g1 p0 z Ug1 GF | g1 p0 Ug1 GF | g1 label z Ug1 LB LT | p0
                   | g1 p0 Ug1 GL | g1 p0 z Ug1 GL | g1 kver kd id image key1 out1 Ug1 BU K1 SG LT HK HI | ].
    + destruct (eqb_path q p); [discriminate E | eapply OLD; exact E].
    + rewrite NE in E by eauto. eapply OLD; exact E.
    + rewrite NE in E by eauto. eapply OLD; exact E.
    + rewrite NE in E by eauto. eapply OLD; exact E.
    + rewrite LT, NE in E.
      * rewrite NE in E; [eapply OLD; exact E|]. eapply NT. constructor; eauto.
      * rewrite ca_path_shape by (eapply ca_label_slash; eauto). apply nixos_ne_linux.
    + eapply OLD; exact E.
    + rewrite NE in E by eauto. eapply OLD; exact E.
    + rewrite NE in E by eauto. eapply OLD; exact E.
    + rewrite LT in E. destruct (eqb_path (stub_path e c key1 g1) p) eqn:EQ.
      * injection E as ->. right. apply eqb_path_spec in EQ.
        destruct (stub_path_named M e c SO FI key1 g1 (so_names _ SO _ (UG _ Ug1))) as (n' & E1 & NM1).
        assert (n' = n) as -> by (rewrite E1 in EQ; apply app_inj_tail in EQ; tauto).
        destruct (prefix_inj M g g1 key key1 n SO Gg (UG _ Ug1) (fi_key _ _ _ FI _ KE) (fi_key _ _ _ FI _ K1) NM NM1) as [<- _].
        exists id. split; [exact (bu_initrd _ _ _ _ _ _ _ BU) | eapply built_hash; eauto].
      * rewrite NE in E; [eapply OLD; exact E|]. eapply NT. apply gf_stub; eauto.
    + destruct (MFs.below (c_esp c) p); [|eapply OLD; exact E].
      destruct (lookup m p) as [[|z bz]|]; cbn in E; discriminate E.
Qed.

Lemma step_now m o : GR e c m o -> old_or_now m -> old_or_now (apply o m).
Proof.
  intros GO H. destruct GO as [(U & US & GO)|[(m1 & GO)|(roots & IR & (q & ->) & _)]].
  - apply (gen_now U); [|exact GO | exact H]. intros g' H'. apply (fi_gens _ _ _ FI). auto.
  - intros n y b NM L. rewrite (boot_keeps M e c FI m1 m o _ GO) in L by (right; exists n; apply (linux_file_eq M e c FI)). eapply H; eauto.
  - intros n y b NM L. rewrite lookup_apply in L. destruct (eqb_path q (linux_file M n)); [discriminate|]. eapply H; eauto.
Qed.
End Secrets.

Lemma new_entry M e c m os key g n y b script : sound M -> fits M e c -> sg_key (e_signer e) = Some key -> ma_gens M g ->
  point e c m os -> named M key g n -> bs_initrd_secrets (g_spec g) = Some script ->
  lookup (apply_all os m) (linux_file M n) = Some (NFile y b) -> (forall b', lookup m (linux_file M n) <> Some (NFile y b')) ->
  exists id, with_secrets e g id /\ has_section (ma_parse M) y (lit ".initrdh") (ma_sha M id).
Proof.
  intros SO FI KE Gg PT NM SE L NO. apply point_steps in PT.
  assert (old_or_now M e key g m (apply_all os m)) as H.
  { apply (steps_invariant (GR e c) (old_or_now M e key g m)) with (2 := PT).
    - intros m' o. apply step_now; assumption.
    - intros n' y' b' _ L'. left. eauto. }
  destruct (H n y b NM L) as [[b' X]|(id & (p & E1 & E2) & S)]; [destruct (NO b' X)|].
  exists id. split; [|exact S]. rewrite SE in E2. destruct E2 as (d & D1 & D2). exists script, p, d. auto.
Qed.

Lemma new_generation M e c m key g script : sound M -> fits M e c -> history M m ->
  tree_ok m -> no_faults e -> complete_listings e -> all_readable c -> distinct c -> settled M c m ->
  snd (run_install e c m) = Ok tt ->
  always_selected c g -> sg_key (e_signer e) = Some key -> bs_initrd_secrets (g_spec g) = Some script ->
  (forall n, named M key g n -> lookup m (linux_file M n) = None) ->
  exists n y b id, named M key g n /\ lookup (s_fs (fst (run_install e c m))) (linux_file M n) = Some (NFile y b) /\
    with_secrets e g id /\ carries M (s_fs (fst (run_install e c m))) y id.
Proof.
  intros SO FI HI TO NF CL AR DC ST OK AS KE SE NO.
  destruct (exact_after M SO e c m FI HI TO NF CL AR DC ST OK) as (key' & vs & sel & l & KE' & LV & NW & GE & _ & EE & _).
  assert (key' = key) as -> by congruence.
  specialize (AS vs sel LV NW). pose proof AS as IG. rewrite <- GE in AS. apply in_map_iff in AS as ([g' n] & E & I). cbn in E. subst g'.
  destruct (proj1 EE g n I) as (NM & y & b & L & SF & B).
  assert (ma_gens M g) as Gg by (apply (fi_gens _ _ _ FI); exists vs, sel; auto).
  destruct (new_entry M e c m (s_trace (fst (run_install e c m))) key g n y b script SO FI KE Gg) as (id & W & S); auto.
  - apply final_point.
  - rewrite final_fs in L. exact L.
  - intros b' X. rewrite (NO n NM) in X. discriminate.
  - exists n, y, b, id. split; [exact NM|]. split; [exact L|]. split; [exact W|]. split; [exact S|].
    destruct B as [_ (k & hash & p & x & b' & S1 & S2 & EP & LP & SH)]. exists k, p, x, b'.
    split; [exact S1|]. split; [exact EP|]. split; [exact LP|]. rewrite SH. eapply has_section_fun; eassumption.
Qed.
