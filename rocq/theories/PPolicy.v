(** Proofs for C83 and C84. *)
From Coq Require Import List NArith Bool Lia Permutation.
From Verif Require Import Base PBase MText PText MGeneration MNames MPe MCpio MFirmware MStub MFs MTool MInstall MHook MPolicy
  SCommon SNames SFirmware SStub SInstall SHistory SImage SUse SExact SRepeat SPcr SPolicy
  PMonad PFirmware PStub PStubRun PFs PInstall PLoader PHistory PHistories PRepeat PMeasured PExact PUse PSwitch.
Import ListNotations.
Open Scope N_scope.

(** ** Sources *)

Lemma pcr_in o n : pcr o n = true <-> In n (o_pcrs o).
Proof.
  unfold pcr. rewrite existsb_exists. split.
  - intros (x & H & E). apply N.eqb_eq in E. subst x. exact H.
  - intros H. exists n. split; [exact H | apply N.eqb_refl].
Qed.

Lemma sources_of (f : source) (o : options) :
  (exists n l, In n (o_pcrs o) /\ In (n, l) sources /\ In f l) <->
  exists n l, In (n, l) sources /\ In f l /\ pcr o n = true.
Proof.
  split; intros (n & l & H); exists n, l; rewrite pcr_in in *; tauto.
Qed.

Lemma optionals_in b l x : In x (optionals b l) <-> b = true /\ In x l.
Proof. unfold optionals. destruct b; cbn [In]; intuition discriminate. Qed.

Lemma exists_sources (P : N -> list source -> Prop) :
  (exists n l, In (n, l) sources /\ P n l) <-> Exists (fun x => P (fst x) (snd x)) sources.
Proof.
  rewrite Exists_exists. split.
  - intros (n & l & I & H). exists (n, l). auto.
  - intros ([n l] & I & H). exists n, l. auto.
Qed.

Lemma provided_iff o s : o_measured o = true ->
  (provided o s <-> exists n l, In n (o_pcrs o) /\ In (n, l) sources /\ In s l).
Proof.
  intros MO. rewrite sources_of, exists_sources. unfold sources, separator, action.
  repeat (rewrite Exists_cons; cbn [fst snd In]). rewrite Exists_nil.
  destruct s as [f|u|d]; cbn [provided].
  - unfold upstream_static. rewrite !in_app_iff, !optionals_in, !orb_true_iff. cbn [In].
    split.
    + intros [([[[[H|H]|H]|H]|H] & [<-|[]])|[(H & [<-|[]])|(H & [<-|[]])]]; tauto.
    + intuition (try discriminate); try
      match goal with H : SFile _ = SFile _ |- _ => injection H as <- end; tauto.
  - unfold upstream_units, lock_services. rewrite MO. cbn [optionals]. rewrite !in_app_iff, !optionals_in, !orb_true_iff. cbn [In].
    split.
    + intros [_ [([H|H] & [<-|[]])|[([H|H] & [<-|[]])|(H & [<-|[<-|[]]])]]]; tauto.
    + intuition (try discriminate); try
      match goal with H : SUnit _ = SUnit _ |- _ => injection H as <- end; tauto.
  - unfold install_args. cbn [MCli.a_pcrlock]. rewrite MO. cbn [andb]. fold (pcr o 4).
    split.
    + intros [[-> | ->] H]; specialize (H [] []); destruct (pcr o 4); try discriminate; tauto.
    + intros H. assert (pcr o 4 = true /\ (SDir (lit "630-bootloader.pcrlock.d") = SDir d \/ SDir (lit "635-lanzaboote.pcrlock.d") = SDir d)) as [-> D].
      { intuition discriminate. }
      split; [|reflexivity]. destruct D as [D|D]; injection D as <-; auto.
Qed.

Lemma provided_off o s : o_measured o = false -> (forall f, s <> SFile f) -> ~ provided o s.
Proof.
  intros MO NF. destruct s as [f|u|d]; cbn [provided].
  - destruct (NF f eq_refl).
  - intros [H _]. unfold upstream_units in H. rewrite MO in H. destruct H.
  - intros [_ H]. specialize (H [] []). cbn in H. rewrite MO in H. discriminate H.
Qed.

(** ** Admitted logs *)

Lemma newest_some n all sel : newest n all sel -> all <> [] -> sel <> [].
Proof.
  intros (sk & PE & _ & Z & NZ & _) NE ->. destruct (N.eq_dec n 0) as [E|E].
  - rewrite (Z E) in PE. apply Permutation_sym, Permutation_nil in PE. contradiction.
  - specialize (NZ E). destruct all; [contradiction|]. cbn in NZ. lia.
Qed.

Lemma newest_none n sel : newest n [] sel -> sel = [].
Proof. intros (sk & PE & _). apply Permutation_nil in PE. destruct sk; [exact PE | discriminate]. Qed.

Section Admitted.
Variable digest : bytes -> bytes.
Variable allows : bytes -> bytes -> Prop.
Variables act sep : bytes.
Variable M : machine.
Hypothesis SO : sound M.
Variables Sign Lock : bytes -> bytes -> Prop.
Hypothesis DO : digests_ok digest allows Sign Lock.
Variables (o : options) (d : path).
Hypothesis P4 : In 4 (o_pcrs o).

Notation admitted := (admitted allows act sep (upstream_static o)).

Lemma static_action l : from_static (upstream_static o) (lit "350-action-efi-application.pcrlock") act l <-> l = [act].
Proof.
  apply pcr_in in P4. unfold from_static, upstream_static. rewrite P4, !orb_true_r. cbn [optionals app In]. intuition.
Qed.

Lemma static_separator l :
  from_static (upstream_static o) (lit "500-separator.pcrlock.d/300-0x00000000.pcrlock") sep l <-> l = [sep].
Proof.
  apply pcr_in in P4. unfold from_static, upstream_static. rewrite P4, !orb_true_r. cbn [optionals app In]. intuition.
Qed.

Lemma component_variant g : exists n, component d g = (d ++ [lit "635-lanzaboote.pcrlock.d"]) ++ [n ++ lit ".pcrlock"].
Proof.
  unfold component. eexists. rewrite <- app_assoc. cbn [app]. rewrite app_assoc, utf8_encode_app. reflexivity.
Qed.

Variables (e : env) (c : config).
Hypothesis FI : fits M e c.
Hypothesis MB : made_by Sign Lock e.
Hypothesis PL : c_pcrlock c = Some d.
Hypothesis NF : no_faults e.
Hypothesis CL : complete_listings e.
Hypothesis DI : distinct c.
Hypothesis NR : no_reuse M.
Variable m : fs.
Hypothesis MH : SRepeat.measured_history M Sign Lock d m.
Hypothesis OK : snd (run_install e c m) = Ok tt.
Notation m1 := (s_fs (fst (run_install e c m))).

Lemma boot_admitted : separate c -> honest_listings e ->
  (forall x out, sg_sign (e_signer e) x = Some out -> e_lock e out = e_lock e x) ->
  forall p, In p (boot_paths c) ->
  lookup m (bootloader_lock d (lit "current")) = None \/ measured_by (e_lock e) d m p (lit "current") ->
  exists l b, lookup m1 p = Some (NFile l b) /\
    forall g, always_selected c g -> exists key n y b', ma_keys M key /\ named M key g n /\
      lookup m1 (linux_file M n) = Some (NFile y b') /\ bootable M m1 y /\ admitted m1 d [act; sep; digest l; digest y].
Proof.
  intros SP HL LS p HP MN.
  destruct (measured_ensured e c SP d PL HL LS m p HP MN OK) as (l & b & lo & b' & L1 & LK & L2).
  exists l, b. split; [exact L1|]. intros g AS.
  destruct (measured_selected M SO Sign Lock d NR e c m FI MB PL NF CL DI MH OK g AS)
    as (key & n & y & b1 & lo1 & b2 & KK & NM & L3 & BO & L4 & image & SI & LI).
  exists key, n, y, b1. split; [exact KK|]. split; [exact NM|]. split; [exact L3|]. split; [exact BO|].
  exists [act], [sep], [digest l], [digest y]. rewrite static_action, static_separator.
  split; [reflexivity|]. split; [reflexivity|]. destruct DO as [D1 D2], MB as [MB1 MB2]. split; [|split; [|reflexivity]].
  - left. exists (lit "current"), lo, b', (digest l). split; [|split; [apply (D2 l lo); [apply MB2; exact LK | reflexivity] | reflexivity]].
    rewrite <- app_assoc. exact L2.
  - left. destruct (component_variant g) as (v & E). exists v, lo1, b2, (digest y). rewrite <- E. split; [exact L4|].
    split; [|reflexivity]. rewrite (D1 _ _ SI). apply (D2 image lo1); [exact LI | reflexivity].
Qed.

(** Only entries of selected generations. *)
Lemma admitted_only : all_readable c ->
  exists vs sel, links_versions (c_links c) vs /\ newest (c_limit c) vs sel /\
    forall log, admitted m1 d log -> exists g key n y b' before,
      log = [act; sep] ++ before ++ [digest y] /\ from_dir allows m1 (d ++ [lit "630-bootloader.pcrlock.d"]) before /\
      In g (flat_map link_generations sel) /\ ma_keys M key /\ named M key g n /\
      lookup m1 (linux_file M n) = Some (NFile y b') /\ stub_for M g y /\ bootable M m1 y.
Proof.
  intros AR. destruct (measured_state M SO Sign Lock d NR m MH) as (HI & TO & _).
  assert (settled M c m) as ST.
  { intros d' g key n y b PL' SE KK NM L. rewrite PL in PL'. injection PL' as <-.
    assert (lookup m (linux_file M n) <> None) as LN by congruence.
    destruct (measured_always M SO Sign Lock d NR m MH g key n (fi_gens _ _ _ FI g SE) KK NM LN) as (y' & b1 & lo & b2 & _ & L2 & _). congruence. }
  destruct (exact_after M SO e c m FI HI TO NF CL AR DI ST OK) as (key & vs & sel & l & KE & LV & NW & GE & _ & EE & _ & EC).
  specialize (EC d PL). exists vs, sel. split; [exact LV|]. split; [exact NW|].
  assert (ma_keys M key) as KK by (eapply fi_key; [exact FI | exact KE]).
  assert (SRepeat.measured_history M Sign Lock d m1) as MH1 by (eapply mh_run; eauto).
  assert (NE : l <> []).
  { destruct (history_ok M m SO HI) as [CO EO].
    destruct (run_result M SO e c FI m CO EO TO NF CL AR DI ST OK) as (k0 & vs0 & sel0 & l0 & s2 & s3 & R & _).
    assert (vs <> []) as VN.
    { intros ->. pose proof (re_versions _ _ _ _ _ _ _ _ R) as LV0. pose proof (re_newest _ _ _ _ _ _ _ _ R) as NW0.
      inversion LV as [EL|]. rewrite <- EL in LV0. inversion LV0. subst vs0. apply newest_none in NW0. exact (re_some _ _ _ _ _ _ _ _ R NW0). }
    pose proof (newest_some _ _ _ NW VN) as SN. specialize (AR vs sel LV NW). intros ->. cbn [map] in GE.
    destruct sel as [|v sel]; [contradiction|]. inversion AR as [|? ? UR _]; subst. cbn [flat_map] in GE. unfold unreadable in UR. unfold link_generations in GE.
    destruct (l_spec (snd v)); [discriminate GE | apply UR; reflexivity]. }
  intros log (a & s & b & u & SA & SS & FB & FU & ->). rewrite static_action in SA. rewrite static_separator in SS. subst a s.
  destruct FU as [(v & lo & bb & t & LU & AL & ->)|[NO _]].
  - assert (exists g n, In (g, n) l /\ (d ++ [lit "635-lanzaboote.pcrlock.d"]) ++ [v ++ lit ".pcrlock"] = component d g) as (g & n & I & EQ).
    { apply EC; [eexists; exists []; reflexivity | congruence]. }
    destruct (proj1 EE g n I) as (NM & y & b' & L & SF & B).
    assert (In g (flat_map link_generations sel)) as IG by (rewrite <- GE; apply (in_map fst _ _ I)).
    assert (ma_gens M g) as Gg by (apply (fi_gens _ _ _ FI); exists vs, sel; auto).
    assert (lookup m1 (linux_file M n) <> None) as LN by congruence.
    destruct (measured_always M SO Sign Lock d NR _ MH1 g key n Gg KK NM LN) as (y' & b1 & lo' & b2 & L1 & L2 & image & SI & LI).
    assert (y' = y) as -> by congruence. rewrite EQ in LU. assert (lo' = lo) as -> by congruence.
    destruct DO as [D1 D2]. apply (D2 image lo t LI) in AL. subst t. rewrite <- (D1 _ _ SI).
    exists g, key, n, y, b', b. auto 10.
  - exfalso. destruct l as [|[g n] l]; [apply NE; reflexivity|].
    destruct (proj1 EE g n (or_introl eq_refl)) as (NM & y & b' & L & _).
    assert (ma_gens M g) as Gg.
    { apply (fi_gens _ _ _ FI); exists vs, sel. split; [exact LV|]. split; [exact NW|]. rewrite <- GE. left. reflexivity. }
    assert (lookup m1 (linux_file M n) <> None) as LN by congruence.
    destruct (measured_always M SO Sign Lock d NR _ MH1 g key n Gg KK NM LN) as (y' & b1 & lo & b2 & _ & L2 & _).
    destruct (component_variant g) as (v & E). apply (NO v lo b2). rewrite <- E. exact L2.
Qed.
End Admitted.

(** ** The boot stub *)

Lemma present_no_missing fw h : tpm_present fw -> Forall (told fw) h -> ~ In (EvTpm false) h.
Proof. intros TP F I. rewrite Forall_forall in F. destruct (F _ I) as (h0 & E). rewrite (TP h0) in E. discriminate. Qed.

Lemma extended_measured p d s h : In (EvExtend p d s None) h -> measured_into p h <> [].
Proof.
  intros I E. apply in_split in I as (a & b & ->). unfold measured_into in E. rewrite flat_map_app in E. cbn [flat_map] in E.
  rewrite N.eqb_refl in E. apply app_eq_nil in E as [_ E]. discriminate.
Qed.

Lemma stub_starts_own M g y : sound M -> (forall z, ma_good M z -> loads_well (ma_parse M) z) -> stub_for M g y -> usable g ->
  forall image pm parse fw path h r before img entry, in_memory M y image pm -> tpm_present fw ->
    stub_main fw (ma_sha M) pm parse image path [] = (h, r) -> started h before img entry ->
    measured_into 4 before = [] -> starts_own M g parse before img entry.
Proof.
  intros SO GOOD ST US image pm parse fw path h r before img entry IM TP RUN STA ME.
  destruct (entry_sections M SO GOOD g y image pm ST US IM) as (q & kn & inn & kernel & initrd & cmd & PM & MF & E1 & E2 & E3 & E4 & E5 & _).
  destruct MF as (v & _ & KS & IS & _ & _ & CM).
  destruct (started_verified _ _ _ _ _ _ _ _ _ _ _ RUN STA) as (q1 & kn1 & kd & inn1 & id & rest & P1 & _ & _ & H1 & H2 & _ & IL & SI & SV).
  assert (q1 = q) as -> by congruence.
  apply extract_hash_contents in E2, E4. apply extract_string_text in E5.
  exists kernel, kd, initrd, id, cmd, rest.
  split; [exact KS|]. split; [exact (section_contents_unique _ _ _ _ _ H1 E2)|]. split; [exact IL|]. split; [exact SI|].
  split; [exact IS|]. split; [exact (section_contents_unique _ _ _ _ _ H2 E4)|]. split; [exact SV|]. split; [exact CM|].
  destruct (started_cmdline _ _ _ _ _ _ _ _ _ _ _ RUN STA) as (q2 & cmd2 & chosen & a & b & options & P2 & X3 & EB & CC & LS).
  destruct (list_eq_dec N.eq_dec options (text16z cmd)) as [<-|NE]; [exact LS|]. exfalso.
  destruct (started_custom_cmdline _ _ _ _ _ _ _ _ _ _ _ RUN STA q cmd options PM E5 LS NE) as (_ & _ & [X|X]).
  - exact (extended_measured _ _ _ _ X ME).
  - assert (TL : Forall (told fw) h) by (destruct (told_stub_main fw _ _ _ _ _ _ _ _ RUN) as (es & -> & F); exact F).
    apply (present_no_missing fw h TP TL). destruct STA as (st & after & ->). apply in_or_app. left. exact X.
Qed.

Lemma released : forall digest allows act sep hash M Sign Lock o d e c m,
  sound M -> (forall z, ma_good M z -> loads_well (ma_parse M) z) ->
  no_reuse M -> digests_ok digest allows Sign Lock -> In 4 (o_pcrs o) ->
  fits M e c -> made_by Sign Lock e -> c_pcrlock c = Some d ->
  no_faults e -> complete_listings e -> distinct c -> all_readable c ->
  SRepeat.measured_history M Sign Lock d m -> snd (run_install e c m) = Ok tt ->
  let m1 := s_fs (fst (run_install e c m)) in
  exists vs sel, links_versions (c_links c) vs /\ newest (c_limit c) vs sel /\
    forall current l y image pm parse fw path h r before img entry,
      admitted allows act sep (upstream_static o) m1 d current ->
      faithful digest M m1 y -> in_memory M y image pm -> tpm_present fw ->
      stub_main fw (ma_sha M) pm parse image path [] = (h, r) -> started h before img entry ->
      policy allows act sep (upstream_static o) m1 d current (boot_log digest act sep hash l y before) ->
      from_dir allows m1 (d ++ [lit "630-bootloader.pcrlock.d"]) [digest l] /\
      exists g, In g (flat_map link_generations sel) /\ stub_for M g y /\
        (usable g -> starts_own M g parse before img entry).
Proof.
  intros digest allows act sep hash M Sign Lock o d e c m SO GOOD NR DO P4 FI MB PL NF CL DI AR MH OK m1.
  destruct (admitted_only digest allows act sep M SO Sign Lock DO o d P4 e c FI MB PL NF CL DI NR m MH OK AR)
    as (vs & sel & LV & NW & ONLY).
  exists vs, sel. split; [exact LV|]. split; [exact NW|].
  intros current l y image pm parse fw path h r before img entry CU FA IM TP RUN STA AD. specialize (AD CU).
  destruct (ONLY _ AD) as (g & key & n & y' & b' & bl & E & FB & IG & _ & _ & L & SF & _).
  assert (bl = [digest l] /\ digest y' = digest y /\ measured_into 4 before = []) as (-> & DY & ME).
  { unfold boot_log in E. destruct FB as [(n0 & lo & b0 & t & _ & _ & ->)|[_ ->]]; cbn [app] in E.
    - injection E as E1 E2 E3. destruct (measured_into 4 before); [|discriminate E3]. subst t. auto.
    - discriminate E. }
  split; [exact FB|]. exists g. split; [exact IG|]. assert (stub_for M g y) as SY by (exact (FA _ _ _ _ L DY SF)).
  split; [exact SY|]. intros US. eapply stub_starts_own; eauto.
Qed.
