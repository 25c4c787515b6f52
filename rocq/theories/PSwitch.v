(** Proof of C80. *)
From Coq Require Import List NArith Bool Lia.
From Verif Require Import Base PBase MText MGeneration MNames MPe MCpio MFs MFirmware MStub PMonad MInstall SCommon SNames SInstall SHistory SStub SImage SUse SGate
  SFirmware PFirmware PStub PStubRun PHistory PUse PGate PGateUse SSwitch.
Import ListNotations.
Open Scope N_scope.

(** ** What the stub learns about Secure Boot is true *)
Section Told.
Variable fw : firmware.
Definition told (e : event) : Prop :=
  match e with
  | EvGet n v s a => exists h, a = fw_get fw h n v s
  | EvRead t a => exists h, a = fs_read (fw_files fw h) t
  | EvTpm b => exists h, b = fw_tpm fw h
  | _ => True
  end.

Lemma told_tpm_log p d s : emits told (tpm_log fw p d s).
Proof. unfold tpm_log, open_capable_tpm2; emitsM; first [exact Logic.I | eexists; reflexivity]. Qed.
Lemma told_get n v z : emits told (get_variable fw n v z).
Proof. unfold get_variable; emitsM. exists h. reflexivity. Qed.
Lemma told_set n v d : emits told (set_variable fw n v d).
Proof. unfold set_variable; emitsM; first [exact Logic.I | eexists; reflexivity]. Qed.
Hint Resolve told_tpm_log told_get told_set : emits.
Lemma told_measure_sections image secs k i l : emits told (measure_sections fw image secs k i l).
Proof. revert i; induction l as [|u l IH]; intros i; cbn [measure_sections]; emitsM. Qed.
Hint Resolve told_measure_sections : emits.
Lemma told_measure_image image p k i : emits told (measure_image fw image p k i).
Proof. unfold measure_image; emitsM. Qed.
Lemma told_companions_loop l : forall m c s, emits told (measure_companions_loop fw l m c s).
Proof. induction l as [|[t b] l IH]; intros m c s; cbn [measure_companions_loop]; [emitsM|]. destruct t; emitsM. Qed.
Hint Resolve told_measure_image told_companions_loop : emits.
Lemma told_measure_companions l : emits told (measure_companion_initrds fw l).
Proof. unfold measure_companion_initrds; emitsM. Qed.
Lemma told_secure_boot : emits told (get_secure_boot_status fw).
Proof. unfold get_secure_boot_status; emitsM. Qed.
Lemma told_features : emits told (get_loader_features fw).
Proof. unfold get_loader_features; emitsM. Qed.
Hint Resolve told_measure_companions told_secure_boot told_features : emits.
Lemma told_cmdline e : emits told (get_cmdline fw e).
Proof. unfold get_cmdline, get_load_options, measure_boot_loader; emitsM; first [exact Logic.I | eexists; reflexivity]. Qed.
Lemma told_discover {A} (f : efs -> res unit A) : emits told (discover fw f).
Proof. apply emits_discover; first [exact Logic.I | eexists; reflexivity]. Qed.
Hint Resolve told_cmdline told_discover : emits.
Lemma told_companions_block t p : emits told (companions_block fw t p).
Proof. unfold companions_block; emitsM; first [exact Logic.I | eexists; reflexivity]. Qed.
Lemma told_load_from_pe sha image p : emits told (load_from_pe fw sha image p).
Proof. unfold load_from_pe, check_hash; emitsM; first [exact Logic.I | eexists; reflexivity]. Qed.
Lemma told_boot_linux parse k ds : emits told (boot_linux fw parse k ds).
Proof.
  unfold boot_linux, boot_linux_unchecked, load_kernel, start_kernel, initrd_loader_new,
    initrd_loader_uninstall; emitsM; first [exact Logic.I | eexists; reflexivity].
Qed.
Hint Resolve told_companions_block told_load_from_pe told_boot_linux : emits.
Lemma told_ensure n v f : emits told f -> emits told (ensure_efi_variable fw n v f).
Proof. intros Hf. unfold ensure_efi_variable, variable_exists. emitsM. Qed.
Lemma told_export n : emits told (export_efi_variables fw n).
Proof.
  unfold export_efi_variables, disk_get_part_uuid.
  repeat first [ apply told_ensure | progress emitsM ]; first [exact Logic.I | eexists; reflexivity].
Qed.
Hint Resolve told_export : emits.
Lemma told_stub_main sha pm parse image path : emits told (stub_main fw sha pm parse image path).
Proof. unfold stub_main, tpm_available, open_capable_tpm2; emitsM; first [exact Logic.I | eexists; reflexivity]. Qed.
End Told.

(** With Secure Boot the embedded command line is chosen. *)
Lemma enforced_choice fw embedded es c h : enforcing fw -> Forall (told fw) h -> incl es h ->
  cmdline_choice embedded es c -> c = embedded.
Proof.
  intros EN T IN (sb & CH). cbv zeta in CH.
  assert (In (EvGet (lit "SecureBoot") global_vendor 1 sb) es -> ~ (sb = GOk [0] \/ sb = GErr NOT_FOUND)) as NO.
  { intros I. apply IN in I. rewrite Forall_forall in T. destruct (T _ I) as (h0 & E). rewrite (EN h0) in E. rewrite E. intros [X|X]; discriminate X. }
  destruct CH as [(_ & E & _)|[(O & E & _)|[(O & E & _)|(p & O & _ & [(_ & E)|(r & _ & E)])]]]; auto.
  - exfalso. apply NO; [rewrite E; left; reflexivity | exact O].
  - exfalso. apply NO; [rewrite E; left; reflexivity | exact O].
Qed.

Lemma entry_kernel M m g y : sound M -> (forall z, ma_good M z -> loads_well (ma_parse M) z) ->
  stub_for M g y -> usable g -> bootable M m y -> genuine M m g ->
  forall image pm parse fw path, in_memory M y image pm -> reads_esp M fw m -> basics_work fw -> companions_readable fw path ->
    enforcing fw -> startable M g parse -> starts_kernel M g parse (fst (stub_main fw (ma_sha M) pm parse image path [])).
Proof.
  intros SO GOOD ST US B [G1 G2] image pm parse fw path IM RE BW CR EN [SK SC].
  destruct B as [(k & hk & pk & kd & bk & S1 & S2 & EP1 & L1 & H1) (i & hi & pi & id & bi & S3 & S4 & EP2 & L2 & H2)].
  destruct (entry_sections M SO GOOD g y image pm ST US IM) as (q & kn & inn & kernel & initrd & cmd & PM & MF & E1 & E2 & E3 & E4 & E5 & T1 & T2 & T3 & T4).
  rewrite (has_section_fun _ _ _ _ _ S1 T1) in EP1. rewrite (has_section_fun _ _ _ _ _ S2 T2) in H1.
  rewrite (has_section_fun _ _ _ _ _ S3 T3) in EP2. rewrite (has_section_fun _ _ _ _ _ S4 T4) in H2.
  destruct MF as (v & _ & KS & IS & _ & _ & CM).
  assert (kd = kernel) as -> by (exact (G1 kernel pk kd bk KS L1 H1)).
  assert (RK : forall h, fs_read (fw_files fw h) kn = Some kernel) by (intros h; rewrite (proj2 (RE h) _ _ EP1), L1; reflexivity).
  assert (RI : forall h, fs_read (fw_files fw h) inn = Some id) by (intros h; rewrite (proj2 (RE h) _ _ EP2), L2; reflexivity).
  assert (LD : forall h, snd (load_from_pe fw (ma_sha M) image (pm image) h) = Ok (Components kernel id cmd)).
  { intros h. rewrite PM. rewrite (sections_load M q kn inn kernel initrd cmd image fw kernel id E1 E2 E3 E4 E5 (fun h => proj1 (RE h)) RK RI).
    rewrite H2, !eqb_bytes_refl. reflexivity. }
  destruct (SK kernel KS) as (img & entry & IL).
  destruct (stub_starts_loaded fw (ma_sha M) pm parse image path kernel id cmd img entry BW CR (in_memory_within M y image pm IM) LD (SC cmd CM) IL)
    as (h & r & before & RUN & STA).
  rewrite RUN. cbn [fst].
  assert (TL : Forall (told fw) h) by (destruct (told_stub_main fw _ _ _ _ _ _ _ _ RUN) as (es & -> & F); exact F).
  destruct (started_verified _ _ _ _ _ _ _ _ _ _ _ RUN STA) as (q1 & kn1 & kd & inn1 & id1 & rest & P1 & X1 & X2 & _ & _ & RD & _ & _ & SI).
  destruct (started_cmdline _ _ _ _ _ _ _ _ _ _ _ RUN STA) as (q2 & cmd2 & chosen & a & b & options & P2 & X3 & EB & CC & LS).
  assert (q1 = q) as -> by congruence. assert (q2 = q) as -> by congruence.
  apply extract_string_text in E3, E5.
  assert (TU : forall n t1 t2, section_text image (pe_sections q) n t1 -> section_text image (pe_sections q) n t2 -> t1 = t2).
  { intros n t1 t2 (d1 & C1 & D1 & _) (d2 & C2 & D2 & _). rewrite (section_contents_unique _ _ _ _ _ C1 C2) in D1. congruence. }
  rewrite (TU _ _ _ X2 E3) in RD. rewrite (TU _ _ _ X3 E5) in CC.
  assert (IB : incl before h) by (destruct STA as (st & after & ->); intros x Hx; apply in_or_app; left; exact Hx).
  assert (id1 = id) as ->.
  { assert (In (inn, Some id1) (reads_of before)) as I by (rewrite RD; right; left; reflexivity).
    apply in_flat_map in I as (ev & I & J). destruct ev; try contradiction. destruct J as [J|[]]. injection J as -> ->.
    apply IB in I. rewrite Forall_forall in TL. destruct (TL _ I) as (h0 & E). rewrite RI in E. congruence. }
  assert (options = text16z cmd) as ->.
  { eapply enforced_choice; [exact EN | exact TL | | exact CC]. intros x Hx. apply IB. rewrite EB. apply in_or_app. right. apply in_or_app. left. exact Hx. }
  exists kernel, id, cmd, rest, before, img, entry.
  split; [exact KS|]. split.
  { intros NS. destruct (IS NS) as (j & EJ & SJ). exists j. split; [exact EJ|].
    rewrite (G2 j initrd pi id bi EJ SJ L2 H2). exact SJ. }
  auto 10.
Qed.
