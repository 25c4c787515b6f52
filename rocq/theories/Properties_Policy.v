(** C83 and C84: what the TPM policy for measured boot admits.  The parts are
    those of C28, C30, C45, C46 and C75, put together. *)
From Coq Require Import List NArith Bool Lia.
From Verif Require Import Base PBase MText PText MGeneration MNames MPe MCpio MFirmware MStub MFs MTool MInstall MHook MPolicy
  SCommon SNames SFirmware SStub SInstall SHistory SImage SUse SExact SRepeat SPcr SPolicy.
From Verif Require Import PLoader PHistory PPolicy XWorld XMachine
  Properties_Loader Properties_History Properties_Repeat Properties_Image Properties_Gate Properties_Stub Properties_Switch.
Import ListNotations.
Open Scope N_scope.

(** ** C83 *)

(** With measured boot, exactly those sources are there that predict one of the
    configured PCRs. *)
Theorem C83_sources : forall o s, o_measured o = true -> configurable o ->
  (provided o s <-> exists n l, In n (o_pcrs o) /\ In (n, l) sources /\ In s l).
Proof. intros o s MO _. exact (provided_iff o s MO). Qed.
Print Assumptions C83_sources.

(** Without measured boot no service is there and lzbt writes no components. *)
Theorem C83_off : forall o s, o_measured o = false -> (forall f, s <> SFile f) ->
  ~ provided o s /\ (forall u, s = SUnit u -> ~ In u (upstream_units o) /\ ~ In u (lock_services o)).
Proof.
  intros o s MO NF. split; [exact (provided_off o s MO NF)|]. intros u _. unfold upstream_units, lock_services. rewrite MO. split; intros [].
Qed.
Print Assumptions C83_off.

(** After a successful run the policy admits booting each selected generation
    with either copy of the boot loader. *)
Theorem C83_admitted : forall digest allows act sep M Sign Lock o d e c m,
  sound M -> no_reuse M -> digests_ok digest allows Sign Lock -> In 4 (o_pcrs o) ->
  fits M e c -> made_by Sign Lock e -> same_machine (e_lock e) d (boot_paths c) e c ->
  no_faults e -> complete_listings e -> distinct c ->
  SRepeat.measured_history M Sign Lock d m -> snd (run_install e c m) = Ok tt ->
  let m1 := s_fs (fst (run_install e c m)) in
  forall p, In p (boot_paths c) ->
  lookup m (bootloader_lock d (lit "current")) = None \/ measured_by (e_lock e) d m p (lit "current") ->
  exists l b, lookup m1 p = Some (NFile l b) /\
    forall g, always_selected c g -> exists key n y b', ma_keys M key /\ named M key g n /\
      lookup m1 (linux_file M n) = Some (NFile y b') /\ bootable M m1 y /\
      admitted allows act sep (upstream_static o) m1 d [act; sep; digest l; digest y].
Proof.
  intros digest allows act sep M Sign Lock o d e c m SO NR DO P4 FI MB (_ & PL & _ & SP & HL & LS) NF CL DI MH OK m1 p HP MN.
  exact (boot_admitted digest allows act sep M SO Sign Lock DO o d P4 e c FI MB PL NF CL DI NR m MH OK SP HL LS p HP MN).
Qed.
Print Assumptions C83_admitted.

(** And nothing else: what follows the boot loader is the entry of a selected
    generation. *)
Theorem C83_only : forall digest allows act sep M Sign Lock o d e c m,
  sound M -> no_reuse M -> digests_ok digest allows Sign Lock -> In 4 (o_pcrs o) ->
  fits M e c -> made_by Sign Lock e -> c_pcrlock c = Some d ->
  no_faults e -> complete_listings e -> distinct c -> all_readable c ->
  SRepeat.measured_history M Sign Lock d m -> snd (run_install e c m) = Ok tt ->
  let m1 := s_fs (fst (run_install e c m)) in
  exists vs sel, links_versions (c_links c) vs /\ newest (c_limit c) vs sel /\
    forall log, admitted allows act sep (upstream_static o) m1 d log -> exists g key n y b before,
      log = [act; sep] ++ before ++ [digest y] /\ from_dir allows m1 (d ++ [lit "630-bootloader.pcrlock.d"]) before /\
      In g (flat_map link_generations sel) /\ ma_keys M key /\ named M key g n /\
      lookup m1 (linux_file M n) = Some (NFile y b) /\ stub_for M g y /\ bootable M m1 y.
Proof.
  intros digest allows act sep M Sign Lock o d e c m SO NR DO P4 FI MB PL NF CL DI AR MH OK.
  exact (admitted_only digest allows act sep M SO Sign Lock DO o d P4 e c FI MB PL NF CL DI NR m MH OK AR).
Qed.
Print Assumptions C83_only.

(** ** C84 *)

(** Whatever is on the disk and whether Secure Boot is on or not: if a boot stub
    starts a kernel and the policy accepts the log until then (a policy that was
    made in a boot which the components explain), then the stub is the entry of
    a generation that was selected by the last run, the kernel and the initrd
    have the hashes of this generation's, and the command line is this
    generation's. *)
Theorem C84_kernel : forall digest allows act sep hash M Sign Lock o d e c m,
  sound M -> (forall z, ma_good M z -> loads_well (ma_parse M) z) ->
  no_reuse M -> digests_ok digest allows Sign Lock -> In 4 (o_pcrs o) ->
  fits M e c -> made_by Sign Lock e -> c_pcrlock c = Some d ->
  no_faults e -> complete_listings e -> distinct c -> all_readable c ->
  SRepeat.measured_history M Sign Lock d m -> snd (run_install e c m) = Ok tt ->
  let m1 := s_fs (fst (run_install e c m)) in
  exists vs sel, links_versions (c_links c) vs /\ newest (c_limit c) vs sel /\
    forall current l y image pm parse fw path h r before img entry,
      admitted allows act sep (upstream_static o) m1 d current ->
      faithful digest M m1 y -> in_memory M y image pm -> tpm_present fw ->
      stub_main fw (ma_sha M) pm parse image path [] = (h, r) -> started h before img entry ->
      policy allows act sep (upstream_static o) m1 d current (boot_log digest act sep hash l y before) ->
      from_dir allows m1 (d ++ [lit "630-bootloader.pcrlock.d"]) [digest l] /\
      exists g, In g (flat_map link_generations sel) /\ stub_for M g y /\
        (usable g -> starts_own M g parse before img entry).
Proof. exact released. Qed.
Print Assumptions C84_kernel.

(** ** Example *)

(** The example machine with a signing tool that signs only once (then the
    digest is that of the file without its signature): a run for the first
    generation, and one for both and the specialisation. *)
Definition p_e : env := x_careful x_world.
Definition p_sign : bytes -> bytes -> Prop := fun image y => sg_sign (e_signer p_e) image = Some y.
Definition p_lock : bytes -> bytes -> Prop := fun image lo => e_lock p_e image = Some lo.
Definition p_digest (y : bytes) : bytes := x_sha (x_strip x_key y).
Definition p_allows (lo t : bytes) : Prop := lo = lit "lock:" ++ t.
Definition p_action : bytes := x_sha (lit "Calling EFI Application from Boot Option").
Definition p_separator : bytes := x_sha [0; 0; 0; 0].
Definition p_m0 : fs := s_fs (fst (run_install p_e (x_cc (Some x_lockdir)) x_esp)).
Definition p_m1 : fs := s_fs (fst (run_install p_e x_c3 p_m0)).
Definition p_options : options :=
  Options (lit "x86_64-linux") (lit "/nix/store/systemd") (lit "/nix/store/loader.conf") None false 3
    (lit "/keys/db.pem") (lit "/keys/db.key") true [0; 4; 7] (lit "/var/lib/pcrlock.d") (lit "/boot") [].

Lemma p_fits c : fits x_m x_world c -> fits x_m p_e c.
Proof.
  intros []. constructor; auto. intros stub p sections image out S P N B O SG. apply (fi_tools stub p sections image out S P N B O).
  cbn [p_e x_careful e_signer local_signer sg_sign] in SG. destruct (x_once image); [exact SG | discriminate SG].
Qed.
Lemma p_faultless : no_faults p_e.
Proof. intros t. reflexivity. Qed.
Lemma p_complete : complete_listings p_e.
Proof. exact x_complete. Qed.
Lemma p_digests : digests_ok p_digest p_allows p_sign p_lock.
Proof.
  split.
  - intros x y H. unfold p_sign in H. cbn [p_e x_careful e_signer local_signer sg_sign] in H. destruct (x_once x) eqn:O; [|discriminate H]. injection H as <-.
    unfold p_digest. rewrite x_strip_signed. unfold x_once in O. apply negb_true_iff in O. unfold x_strip. rewrite O. reflexivity.
  - intros x lo t H. unfold p_lock in H. cbn in H. injection H as <-. unfold p_allows, p_digest. split; [|intros ->; reflexivity].
    intros E. injection E as E. symmetry. exact E.
Qed.
Lemma p_made : made_by p_sign p_lock p_e.
Proof. split; intros x y H; exact H. Qed.
Lemma p_history : SRepeat.measured_history x_m p_sign p_lock x_lockdir p_m0.
Proof.
  apply (mh_run x_m p_sign p_lock x_lockdir x_esp p_e (x_cc (Some x_lockdir))).
  - apply mh_start; [apply x_tree; reflexivity | apply (history_ok _ _ x_m_sound x_history_esp)|].
    intros g key n _ _ NM. apply (x_no_entries [x_link1; x_link2] x_esp eq_refl g key n NM).
  - apply p_fits, x_cc_fits. right; reflexivity.
  - apply p_made.
  - reflexivity.
  - apply p_faultless.
  - apply p_complete.
  - apply x_cc_distinct.
  - vm_compute. reflexivity.
Qed.
Lemma p_same : same_machine (e_lock p_e) x_lockdir (boot_paths x_c3) p_e x_c3.
Proof.
  destruct (x_same_machine x_files x_good) as (_ & _ & _ & _ & HL & LS).
  split; [reflexivity|]. split; [reflexivity|]. split; [reflexivity|]. split; [intros d [= <-]; split; intros (r & H); discriminate|].
  split; [exact HL | exact LS].
Qed.

Example C83_sources_ex :
  o_measured p_options = true /\ configurable p_options /\
  provided p_options (SUnit (lit "systemd-pcrlock-firmware-code.service")) /\
  ~ provided p_options (SUnit (lit "systemd-pcrlock-firmware-config.service")).
Proof.
  split; [reflexivity|]. split; [intros n [<-|[<-|[<-|[]]]]; cbn; auto 10|].
  split; [split; vm_compute; auto 10|]. intros [_ H]. vm_compute in H. intuition discriminate.
Qed.

Example C83_ex :
  sound x_m /\ no_reuse x_m /\ digests_ok p_digest p_allows p_sign p_lock /\ In 4 (o_pcrs p_options) /\
  fits x_m p_e x_c3 /\ made_by p_sign p_lock p_e /\ same_machine (e_lock p_e) x_lockdir (boot_paths x_c3) p_e x_c3 /\
  no_faults p_e /\ complete_listings p_e /\ distinct x_c3 /\ all_readable x_c3 /\
  SRepeat.measured_history x_m p_sign p_lock x_lockdir p_m0 /\ snd (run_install p_e x_c3 p_m0) = Ok tt /\
  In x_fallback (boot_paths x_c3) /\ measured_by (e_lock p_e) x_lockdir p_m0 x_fallback (lit "current") /\
  always_selected x_c3 x_gen1.
Proof.
  split; [apply x_m_sound|]. split; [apply x_no_reuse|]. split; [apply p_digests|]. split; [cbn; auto|].
  split; [apply p_fits, x_c3_fits|]. split; [apply p_made|]. split; [apply p_same|].
  split; [apply p_faultless|]. split; [apply p_complete|]. split; [apply x_c3_distinct|]. split; [apply x_c3_readable|].
  split; [apply p_history|]. split; [vm_compute; reflexivity|]. split; [left; reflexivity|]. split; [|apply x_c3_selected1].
  exists (x_signed (lit "257.2")), false. eexists. exists false. vm_compute. repeat split; reflexivity.
Qed.

(** The firmware has a TPM, Secure Boot is off, and the options are [passed]. *)
Definition p_fw (passed : option bytes) : firmware :=
  let f := x_hostile (x_efi_files p_m1) in
  Firmware (fun _ => true) (fun _ _ _ => None) (fun h n v size => if eqb_bytes n (lit "SecureBoot") then GOk [0] else GErr (OTHER 2)) (fw_set f)
    (fun _ => None) (fun _ => passed) (fw_device_path f) (fw_image_text f)
    (fw_image_fs f) (fw_files f) (fw_alloc f) (fw_free f) (fw_install f) (fw_uninstall f) (fw_kernel f)
    (fw_vendor f) (fw_revision f) (fw_uefi_text f).
Definition p_run (passed : option bytes) : list event :=
  fst (stub_main (p_fw passed) x_sha x_parse example_parse w_image (Some (lit "\s.efi")) []).
Definition p_before (passed : option bytes) : list event := firstn (length (p_run passed) - 2) (p_run passed).
Definition p_loader : bytes := x_content p_m1 x_fallback.

Lemma p_faithful : faithful p_digest x_m p_m1 w_stub.
Proof.
  intros p y' b g L E ST. apply w_lookup in L.
  assert (forallb (fun pn => match snd pn with
      | NFile x _ => negb (eqb_bytes (p_digest x) (p_digest w_stub)) || eqb_bytes x w_stub | _ => true end) p_m1 = true) as A by (vm_compute; reflexivity).
  rewrite forallb_forall in A. specialize (A _ L). cbn [snd] in A. rewrite E, eqb_bytes_refl in A. cbn [negb orb] in A.
  apply eqb_bytes_spec in A. subst y'. exact ST.
Qed.

Example C84_kernel_ex :
  admitted p_allows p_action p_separator (upstream_static p_options) p_m1 x_lockdir
    [p_action; p_separator; p_digest p_loader; p_digest w_stub] /\
  faithful p_digest x_m p_m1 w_stub /\ in_memory x_m w_stub w_image x_parse /\ tpm_present (p_fw None) /\
  started (p_run None) (p_before None) [0; 114; 110; 101; 0] 2 /\
  boot_log p_digest p_action p_separator x_sha p_loader w_stub (p_before None) =
    [p_action; p_separator; p_digest p_loader; p_digest w_stub].
Proof.
  split; [|split; [apply p_faithful|]; split; [apply w_in_memory|]; split; [intros h; reflexivity|];
    split; [exists (Some (OTHER 7)), [EvFree 1 false]; vm_compute; reflexivity | vm_compute; reflexivity]].
  exists [p_action], [p_separator], [p_digest p_loader], [p_digest w_stub].
  split; [left; split; [vm_compute; auto | reflexivity]|]. split; [left; split; [vm_compute; auto | reflexivity]|].
  split; [|split].
  - left. exists (lit "current"), (lit "lock:" ++ p_digest p_loader), false, (p_digest p_loader). split; [vm_compute; reflexivity | split; reflexivity].
  - left. exists (lit "2"), (lit "lock:" ++ p_digest w_stub), false, (p_digest w_stub). split; [vm_compute; reflexivity | split; reflexivity].
  - reflexivity.
Qed.

(** With another command line the same stub starts the kernel too, but the
    policy does not admit it. *)
Example C84_custom_ex :
  let passed := Some (text16z (lit "init=/bin/sh")) in
  started (p_run passed) (p_before passed) [0; 114; 110; 101; 0] 2 /\
  ~ admitted p_allows p_action p_separator (upstream_static p_options) p_m1 x_lockdir
    (boot_log p_digest p_action p_separator x_sha p_loader w_stub (p_before passed)).
Proof.
  cbv zeta. split; [exists (Some (OTHER 7)), [EvFree 1 false]; vm_compute; reflexivity|].
  destruct C83_ex as (SO & NR & DO & P4 & FI & MB & SM & NF & CL & DI & AR & MH & OK & _).
  destruct (C83_only p_digest p_allows p_action p_separator x_m p_sign p_lock p_options x_lockdir p_e x_c3 p_m0
    SO NR DO P4 FI MB eq_refl NF CL DI AR MH OK) as (vs & sel & _ & _ & ONLY).
  intros AD. destruct (ONLY _ AD) as (g & key & n & y & b & bl & E & FB & _).
  apply (f_equal (@length bytes)) in E. rewrite !app_length in E.
  destruct FB as [(n0 & lo & b0 & t & _ & _ & ->)|[_ ->]]; vm_compute in E; discriminate E.
Qed.
