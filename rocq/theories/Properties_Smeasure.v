(** C86: PCR 11 is what systemd-measure predicts. *)
From Coq Require Import List NArith Bool Lia.
From Verif Require Import Base PBase MText PText MGeneration MNames MPe MCpio MFirmware MStub MFs MTool MInstall MHook MPolicy
  SCommon SNames SFirmware SStub SInstall SHistory SImage SUse SExact SRepeat SPcr SPolicy SMeasure.
From Verif Require Import PHistory PHistories PSmeasure XWorld XMachine
  Properties_Loader Properties_History Properties_Repeat Properties_Image Properties_Gate Properties_Stub Properties_Default Properties_Switch Properties_Policy.
Import ListNotations.
Open Scope N_scope.

(** ** C86 *)

(** In every history: when the entry of a generation starts a kernel, PCR 11 has
    exactly the measurements that systemd-measure predicts from the generation's
    menu text and command line and from a kernel and an initrd with the hashes
    of the generation's.  Neither the options that the boot loader hands over
    nor companion files play a role. *)
Theorem C86_predicted : forall M m g key n y b image pm fw parse path h r before img entry,
  sound M -> (forall z, ma_good M z -> loads_well (ma_parse M) z) -> history M m ->
  ma_gens M g -> ma_keys M key -> named M key g n -> lookup m (linux_file M n) = Some (NFile y b) ->
  in_memory M y image pm -> (forall q, ma_parse M y = Some q -> own_sections q) -> tpm_works fw ->
  stub_main fw (ma_sha M) pm parse image path [] = (h, r) -> started h before img entry ->
  exists kernel kernel' initrd initrd' cmd text kn inn,
    ma_store M (MNames.components (bs_kernel (g_spec g))) = Some kernel /\ ma_sha M kernel' = ma_sha M kernel /\
    (bs_initrd_secrets (g_spec g) = None ->
       exists i, bs_initrd (g_spec g) = Some i /\ ma_store M (MNames.components i) = Some initrd) /\
    ma_sha M initrd' = ma_sha M initrd /\ command_line g cmd /\ menu_text g text /\
    In (EvRead kn (Some kernel')) before /\ In (EvRead inn (Some initrd')) before /\
    image_load (fun _ => None) (parse kernel') kernel' = Ok (img, entry) /\
    measured_into 11 before = systemd_measure
      [(lit ".linux", kernel'); (lit ".initrd", initrd'); (lit ".osrel", utf8_encode text); (lit ".cmdline", utf8_encode cmd)].
Proof.
  intros M m g key n y b image pm fw parse path h r before img entry SO GOOD HI GE KE NM L.
  apply (boot_predicted M GOOD g y image pm fw parse path h r before img entry).
  destruct (history_ok M m SO HI) as [_ EO]. exact (EO g key n y b GE KE NM L).
Qed.
Print Assumptions C86_predicted.

(** Without secrets in the initrd, and if no file that was read has the hash of
    another one: from the generation alone. *)
Theorem C86_exact : forall M m g key n y b image pm fw parse path h r before img entry,
  sound M -> (forall z, ma_good M z -> loads_well (ma_parse M) z) -> history M m ->
  ma_gens M g -> ma_keys M key -> named M key g n -> lookup m (linux_file M n) = Some (NFile y b) ->
  in_memory M y image pm -> (forall q, ma_parse M y = Some q -> own_sections q) -> tpm_works fw ->
  stub_main fw (ma_sha M) pm parse image path [] = (h, r) -> started h before img entry ->
  bs_initrd_secrets (g_spec g) = None ->
  (forall k p x z, In (EvRead k (Some x)) before -> ma_store M p = Some z -> ma_sha M x = ma_sha M z -> x = z) ->
  exists kernel i initrd cmd text,
    ma_store M (MNames.components (bs_kernel (g_spec g))) = Some kernel /\
    bs_initrd (g_spec g) = Some i /\ ma_store M (MNames.components i) = Some initrd /\
    command_line g cmd /\ menu_text g text /\
    measured_into 11 before = systemd_measure
      [(lit ".linux", kernel); (lit ".initrd", initrd); (lit ".osrel", utf8_encode text); (lit ".cmdline", utf8_encode cmd)].
Proof.
  intros M m g key n y b image pm fw parse path h r before img entry SO GOOD HI GE KE NM L IM OWN TW RUN STA NS NC.
  destruct (C86_predicted M m g key n y b image pm fw parse path h r before img entry SO GOOD HI GE KE NM L IM OWN TW RUN STA)
    as (kernel & kernel' & initrd & initrd' & cmd & text & kn & inn & KS & K & IS & I1 & CL & MT & RK & RI & _ & E).
  destruct (IS NS) as (i & BI & SI). exists kernel, i, initrd, cmd, text.
  rewrite (NC _ _ _ _ RK KS K), (NC _ _ _ _ RI SI I1) in E. repeat (split; [assumption|]). exact E.
Qed.
Print Assumptions C86_exact.

(** Tools that add sections in the sense of C26 to a stub without measured
    sections make entries with just the sections of the installer. *)
Theorem C86_sections : forall parse p l file q,
  bare p -> map (fun s => fst (fst s)) l = stub_sections -> extended parse p l file -> parse file = Some q -> own_sections q.
Proof. exact extended_own. Qed.
Print Assumptions C86_sections.

(** ** Example *)

Lemma s_own : forall q, ma_parse x_m w_stub = Some q -> own_sections q.
Proof.
  assert (own_sections w_q) as O.
  { intros n Hn. unfold canonical_sections in Hn. cbn [In] in Hn. repeat (destruct Hn as [<-|Hn]; [vm_compute; reflexivity|]). destruct Hn. }
  assert (ma_parse x_m w_stub = Some w_q) as E by (vm_compute; reflexivity).
  revert O E. generalize w_q, (ma_parse x_m w_stub). intros q o O -> q' H. injection H as <-. exact O.
Qed.

(** The boot of the second generation in [C84_custom_ex], with a command line
    from the boot loader's editor: PCR 4 tells, PCR 11 does not. *)
Example C86_ex :
  let passed := Some (text16z (lit "init=/bin/sh")) in
  lookup p_m1 (linux_file x_m w_name) = Some (NFile w_stub true) /\ in_memory x_m w_stub w_image x_parse /\
  tpm_works (p_fw passed) /\ started (p_run passed) (p_before passed) [0; 114; 110; 101; 0] 2 /\
  bs_initrd_secrets (g_spec d_gen2) = None /\
  measured_into 11 (p_before passed) = measured_into 11 (p_before None) /\
  measured_into 4 (p_before passed) <> measured_into 4 (p_before None) /\
  firstn 2 (measured_into 11 (p_before passed)) = [lit ".linux" ++ [0]; lit "kernel two"] /\
  skipn 4 (measured_into 11 (p_before passed)) =
    [lit ".cmdline" ++ [0]; lit "init=/nix/store/two/init quiet"; lit ".initrd" ++ [0]; lit "initrd two"].
Proof.
  cbv zeta. split; [vm_compute; reflexivity|]. split; [apply w_in_memory|]. split; [split; intros; unfold tpm_present, p_fw; cbn [fw_tpm fw_extend]; intros; reflexivity|].
  split; [exists (Some (OTHER 7)), [EvFree 1 false]; vm_compute; reflexivity|]. split; [vm_compute; reflexivity|].
  split; [vm_compute; reflexivity|]. split; [|split; vm_compute; reflexivity].
  intros E. apply (f_equal (@length bytes)) in E. vm_compute in E. discriminate E.
Qed.

Example C86_sections_ex : bare i_p /\ own_sections i_q.
Proof.
  split; intros n Hn; unfold canonical_sections in Hn; cbn [In] in Hn; repeat (destruct Hn as [<-|Hn]; [vm_compute; reflexivity|]); destruct Hn.
Qed.
