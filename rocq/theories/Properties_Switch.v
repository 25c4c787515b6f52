(** C80: switching to a configuration boots it.  The parts are those of C27,
    C30, C61, C73, C75 and C79, put together. *)
From Coq Require Import List NArith Bool Lia.
From Verif Require Import Base PBase MText PText MGeneration MNames MPe MCpio MFirmware MStub MFs MTool MInstall MLoaderConf
  SCommon SNames SFirmware SStub SInstall SHistory SImage SUse SGate SSigned SExact SMenu SRepeat SLoaderConf SSwitch.
From Verif Require Import PFs PInstall PHistory PHistories PMenu PSigned PExact PDefault PSwitch XWorld XMachine
  Properties_History Properties_Repeat Properties_Image Properties_Gate Properties_Signed Properties_Default Properties_Stub.
Import ListNotations.
Open Scope N_scope.

(** After a successful run with the key, on a machine with Secure Boot: both
    copies of systemd-boot verify, the default entry is the one of the preferred
    generation with tries left (the newest), it verifies, and its stub starts
    this generation's kernel with this generation's command line and initrd. *)
Theorem C80_switch : forall M key verifies e c m,
  sound M -> (forall z, ma_good M z -> loads_well (ma_parse M) z) -> ma_keys M key ->
  fits M e c -> trusted key verifies e -> sg_key (e_signer e) = Some key -> since_key M key verifies m ->
  tree_ok m -> no_faults e -> complete_listings e -> all_readable c -> distinct c -> settled M c m ->
  snd (run_install e c m) = Ok tt ->
  let m1 := s_fs (fst (run_install e c m)) in
  no_lookalikes M m1 ->
  loaders_signed verifies c m1 /\
  exists vs sel l, links_versions (c_links c) vs /\ newest (c_limit c) vs sel /\
    map fst l = flat_map link_generations sel /\
    (shown_together (map fst l) ->
     forall g n, In (g, n) l -> fresh n -> (forall h n', In (h, n') l -> n' <> n -> fresh n' -> preferred g h) ->
     usable g -> genuine M m1 g ->
       exists y b en, lookup m1 (linux_file M n) = Some (NFile y b) /\ verifies y = true /\
         default_is M m1 (lit "nixos-*") n en /\
         forall image pm parse fw path, in_memory M y image pm -> reads_esp M fw m1 ->
           basics_work fw -> companions_readable fw path -> enforcing fw -> startable M g parse ->
           starts_kernel M g parse (fst (stub_main fw (ma_sha M) pm parse image path []))).
Proof.
  intros M key verifies e c m SO GOOD KK FI TR KE SK TO NF CL AR DC ST OK m1 NL.
  destruct (C73_all_signed M key verifies e c m SO KK FI TR KE SK TO NF CL AR DC ST OK) as (LS & ES & _). fold m1 in LS, ES.
  destruct (C73_entries M key verifies m SO KK SK) as [HI _].
  destruct (exact_after M SO e c m FI HI TO NF CL AR DC ST OK) as (key' & vs & sel & l & KE' & LV & NW & GE & _ & EE & _). fold m1 in EE.
  assert (key' = key) as -> by congruence.
  split; [exact LS|]. exists vs, sel, l. split; [exact LV|]. split; [exact NW|]. split; [exact GE|].
  intros TG g n I F P US GN. destruct (proj1 EE g n I) as (NM & y & b & L & SF & B).
  destruct (default_entry M key l m1 EE TG NL g n I F P) as (en & D). exists y, b, en.
  split; [exact L|]. split; [|split; [exact D|]].
  - destruct (C73_entries M key verifies m1 SO KK) as [_ V].
    + unfold m1. rewrite final_fs. eapply sk_run; [exact SK | exact FI | exact TR | apply final_point].
    + apply (V g n y b); auto. apply (fi_gens _ _ _ FI). exists vs, sel. split; [exact LV|]. split; [exact NW|].
      rewrite <- GE. apply (in_map fst _ _ I).
  - intros image pm parse fw path. apply (entry_kernel M m1 g y SO GOOD SF US B GN).
Qed.
Print Assumptions C80_switch.

(** ** Example *)

(** The second generation of the example, which has a specialisation, is
    installed on an ESP with a foreign boot loader.  The firmware has Secure Boot
    on, hands over an [init=/bin/sh], has no TPM that works, and its variables
    cannot be written. *)
Definition w_m : fs := x_after x_c3 x_esp.
Definition w_name : name := utf8_encode (stub_name x_sha x_key 3 d_gen2).
Definition w_stub : bytes := x_content w_m (linux_file x_m w_name).
Definition w_q : pe := match x_parse w_stub with Some q => q | None => Pe [] 0 false (Some 0) end.
Definition w_size : N := N.of_nat (length w_stub).
Definition w_image : bytes := efi_image w_stub w_size w_size (pe_sections w_q).
Definition w_fw : firmware :=
  let f := x_hostile (x_efi_files w_m) in
  Firmware (fw_tpm f) (fw_extend f) (fun h n v size => if eqb_bytes n (lit "SecureBoot") then GOk [1] else GErr (OTHER 2)) (fw_set f)
    (fw_open_image f) (fun _ => Some (text16z (lit "init=/bin/sh"))) (fw_device_path f) (fw_image_text f)
    (fw_image_fs f) (fw_files f) (fw_alloc f) (fw_free f) (fw_install f) (fw_uninstall f) (fw_kernel f)
    (fw_vendor f) (fw_revision f) (fw_uefi_text f).

Lemma w_since : since_key x_m x_key k_verifies x_esp.
Proof. apply sk_start; [apply x_history_esp|]. intros g n _ NM. exact (x_no_entries [x_link1; x_link2] x_esp eq_refl g x_key n NM). Qed.

Lemma w_usable : usable d_gen2.
Proof.
  split.
  - apply Forall_forall. intros b H. vm_compute in H. repeat (destruct H as [<-|H]; [lia|]). destruct H.
  - intros s (init & D & ->). vm_compute in D. injection D as <-.
    apply Forall_forall. intros c H. vm_compute in H. unfold scalar_value. repeat (destruct H as [<-|H]; [lia|]). destruct H.
Qed.

Lemma w_in_memory : in_memory x_m w_stub w_image x_parse.
Proof.
  exists w_q, w_q, w_size, w_size. split; [vm_compute; reflexivity|]. split.
  - intros s H. vm_compute in H. repeat (destruct H as [<-|H]; [vm_compute; discriminate|]). destruct H.
  - split; [reflexivity|]. split; vm_compute; reflexivity.
Qed.

Lemma w_lookup m p nd : lookup m p = Some nd -> In (p, nd) m.
Proof.
  induction m as [|[q k] m IH]; cbn; [discriminate|]. destruct (eqb_path q p) eqn:E; intros H.
  - apply eqb_path_spec in E as ->. injection H as ->. left. reflexivity.
  - right. apply IH. exact H.
Qed.

Lemma w_genuine : genuine x_m w_m d_gen2.
Proof.
  assert (forall c, forallb (fun pn => match snd pn with
      | NFile x _ => negb (eqb_bytes (x_sha x) (x_sha c)) || eqb_bytes x c | _ => true end) w_m = true ->
    forall p x b, lookup w_m p = Some (NFile x b) -> x_sha x = x_sha c -> x = c) as H.
  { intros c A p x b L E. apply w_lookup in L.
    rewrite forallb_forall in A. specialize (A _ L). cbn [snd] in A. rewrite E, eqb_bytes_refl in A.
    cbn [negb orb] in A. apply eqb_bytes_spec in A. exact A. }
  split.
  - intros kernel p x b K. vm_compute in K. injection K as <-. apply H. vm_compute. reflexivity.
  - intros i initrd p x b I K. vm_compute in I. injection I as <-. vm_compute in K. injection K as <-. apply H. vm_compute. reflexivity.
Qed.

Lemma w_startable : startable x_m d_gen2 example_parse.
Proof.
  split.
  - intros kernel K. vm_compute in K. injection K as <-. eexists _, _. vm_compute. reflexivity.
  - intros cmd (init & D & ->). vm_compute in D. injection D as <-. vm_compute. reflexivity.
Qed.

Example C80_switch_ex :
  sound x_m /\ (forall z, ma_good x_m z -> loads_well (ma_parse x_m) z) /\ ma_keys x_m x_key /\
  fits x_m x_world x_c3 /\ trusted x_key k_verifies x_world /\ sg_key (e_signer x_world) = Some x_key /\
  since_key x_m x_key k_verifies x_esp /\ tree_ok x_esp /\ no_faults x_world /\ complete_listings x_world /\
  all_readable x_c3 /\ distinct x_c3 /\ settled x_m x_c3 x_esp /\ snd (run_install x_world x_c3 x_esp) = Ok tt /\
  no_lookalikes x_m w_m /\ shown_together d_gens /\ fresh w_name /\ usable d_gen2 /\ genuine x_m w_m d_gen2 /\
  lookup w_m (linux_file x_m w_name) = Some (NFile w_stub true) /\
  in_memory x_m w_stub w_image x_parse /\ reads_esp x_m w_fw w_m /\ basics_work w_fw /\
  companions_readable w_fw (Some (lit "\s.efi")) /\ enforcing w_fw /\ startable x_m d_gen2 example_parse /\
  let h := fst (stub_main w_fw x_sha x_parse example_parse w_image (Some (lit "\s.efi")) []) in
  (exists before, started h before [0; 114; 110; 101; 0] 2) /\
  In (EvSetOptions (Some (text16z (lit "init=/nix/store/two/init quiet")))) h.
Proof.
  split; [apply x_m_sound|]. split; [intros z H; exact H|]. split; [reflexivity|]. split; [apply x_c3_fits|].
  split; [apply k_trusted|]. split; [reflexivity|]. split; [apply w_since|].
  split; [apply x_tree; vm_compute; reflexivity|]. split; [apply x_faultless|]. split; [apply x_complete|].
  split; [apply x_c3_readable|]. split; [apply x_c3_distinct|]. split; [apply x_esp_settled|]. split; [vm_compute; reflexivity|].
  split; [apply d_no_lookalikes|]. split; [apply d_together|].
  split; [intros p d E; vm_compute in E; discriminate E|]. split; [apply w_usable|]. split; [apply w_genuine|].
  split; [vm_compute; reflexivity|]. split; [apply w_in_memory|].
  split; [intros h; split; [reflexivity|]; exact (proj2 (x_reads w_m h))|].
  split; [constructor; try reflexivity; intros h o E; injection E as <-; vm_compute; reflexivity|].
  split; [split; [intros h; discriminate|]; split; [intros h H; discriminate | intros p h h' _ H; discriminate]|].
  split; [intros h; reflexivity|]. split; [apply w_startable|]. cbv zeta. split.
  - set (h := fst (stub_main _ _ _ _ _ _ _)). exists (firstn (length h - 2) h), (Some (OTHER 7)), [EvFree 1 false].
    vm_compute. reflexivity.
  - vm_compute. tauto.
Qed.
