(** Somebody who can write to the ESP: C92. *)
From Coq Require Import List ZArith NArith Bool Lia ZifyBool ZifyNat ZifyN.
From Verif Require Import Base PBase MText MGeneration MNames MPe MCpio MFirmware MStub MFs MTool MInstall
  SCommon SNames SFirmware SStub SInstall SImage SHistory SUse SCpio SAttack PCpio PStub PStubRun PUse PAttack XWorld XMachine
  Properties_Firmware Properties_Stub Properties_History Properties_Image.
Import ListNotations.
Open Scope N_scope.

(** ** C92 *)

(** Whatever is on the ESP, in the firmware's variables and in the load options:
    if the firmware starts a stub that it accepts, and that starts a kernel, it
    is signed by others, or the kernel is that of one of the machine's
    generations, with the initrd and the command line of the same generation;
    further parts of the initrd only add files below /.extra. *)
Theorem C92_only_generations : forall M, sound M -> (forall z, ma_good M z -> loads_well (ma_parse M) z) ->
  (forall g, ma_gens M g -> usable g) ->
  forall accepts others, unforged M accepts others ->
  forall y image pm fw parse path h' r before img entry,
  accepts y -> in_memory M y image pm -> uefi_names fw ->
  stub_main fw (ma_sha M) pm parse image path [] = (h', r) -> started h' before img entry -> unsubstituted M before ->
  others y \/ exists g, ma_gens M g /\ runs_generation M parse before img entry g.
Proof. exact only_generations. Qed.
Print Assumptions C92_only_generations.

(** ** An attack *)

(** The attacker has the files of the first generation, adds a credential, and
    passes another command line; Secure Boot is on. *)
Definition k_files : efs :=
  let f := x_efi_files x_e1 in
  Efs (fun d => if eqb_bytes d (lit "\s.efi.extra") then Some [Some (Dentry true (lit "root.cred"))] else fs_dir f d)
    (fs_exists f) (fun d => if eqb_bytes d (lit "\s.efi.extra") then Some true else fs_isdir f d)
    (fun p => if existsb (N.eqb 47) p then None else if eqb_bytes p (lit "\s.efi.extra\root.cred") then Some (lit "secret") else fs_read f p).
Definition k_fw : firmware :=
  let f := example_fw (fun n _ => if eqb_bytes n (lit "SecureBoot") then Some [1] else None) (Some (text16z (lit "init=/bin/sh"))) true in
  Firmware (fw_tpm f) (fw_extend f) (fw_get f) (fw_set f) (fw_open_image f) (fw_load_options f) (fw_device_path f) (fw_image_text f)
    (fw_image_fs f) (fun _ => k_files) (fw_alloc f) (fw_free f) (fw_install f) (fw_uninstall f) (fw_kernel f)
    (fw_vendor f) (fw_revision f) (fw_uefi_text f).
Definition k_history : list event := fst (stub_main k_fw x_sha x_parse example_parse x_image1 (Some (lit "\s.efi")) []).
Definition k_before : list event := firstn (length k_history - 6) k_history.

Lemma k_usable g : ma_gens x_m g -> usable g.
Proof.
  intros I. vm_compute in I. repeat (destruct I as [<-|I]; [split;
    [apply Forall_forall; intros b H; vm_compute in H; repeat (destruct H as [<-|H]; [lia|]); destruct H
    |intros s (init & D & ->); vm_compute in D; injection D as <-;
     apply Forall_forall; intros c H; vm_compute in H; unfold scalar_value; repeat (destruct H as [<-|H]; [lia|]); destruct H]|]).
  destruct I.
Qed.

Lemma k_issued : issued x_m x_gen1 x_stub1.
Proof.
  exists x_e1, x_key, x_name1, true. split; [apply x_history_1|]. split; [vm_compute; auto|]. split; [reflexivity|].
  split; [apply x_named1 | vm_compute; reflexivity].
Qed.

Lemma k_names : uefi_names k_fw.
Proof.
  intros h. split.
  - intros dir es e D I. change (fs_dir (fw_files k_fw h) dir) with
      (if eqb_bytes dir (lit "\s.efi.extra") then Some [Some (Dentry true (lit "root.cred"))] else None) in D.
    destruct (eqb_bytes dir _); [|discriminate]. injection D as <-. destruct I as [I|[]]. injection I as <-. vm_compute. intuition discriminate.
  - intros p I. change (fs_read (fw_files k_fw h) p) with
      (if existsb (N.eqb 47) p then None else if eqb_bytes p (lit "\s.efi.extra\root.cred") then Some (lit "secret") else fs_read (x_efi_files x_e1) p).
    assert (existsb (N.eqb 47) p = true) as ->; [|reflexivity]. apply existsb_exists. exists 47. split; [exact I | reflexivity].
Qed.

Lemma k_started : started k_history k_before [0; 114; 110; 101; 0] 2.
Proof. exists None. eexists. vm_compute. reflexivity. Qed.

(** What was read, asked and served. *)
Lemma k_reads : map snd (reads_of k_before) = [Some (lit "kernel one"); Some (lit "initrd one")].
Proof. vm_compute. reflexivity. Qed.
Lemma k_gets : forallb (fun e => match e with EvGet n _ _ (GOk d) => negb (eqb_bytes n (lit "SecureBoot")) || eqb_bytes d [1]
                                            | EvGet n _ _ (GErr _) => negb (eqb_bytes n (lit "SecureBoot")) | _ => true end) k_before = true.
Proof. vm_compute. reflexivity. Qed.
Lemma k_served : forallb (fun e => match e with EvInstall PLoadFile2 d _ => 100 <? N.of_nat (length d) | _ => true end) k_before = true.
Proof. vm_compute. reflexivity. Qed.

Lemma k_unsubstituted : unsubstituted x_m k_before.
Proof.
  intros n x k I (g & G & K) E.
  apply in_reads_of in I as J.
  clear I. assert (x = lit "kernel one" \/ x = lit "initrd one") as X.
  { apply (in_map snd) in J. rewrite k_reads in J. cbn [snd In] in J. destruct J as [J|[J|[]]]; injection J as <-; [left | right]; reflexivity. }
  clear J. assert (k = lit "kernel one" \/ k = lit "initrd one" \/ k = lit "kernel two" \/ k = lit "initrd two") as KK.
  { vm_compute in G. repeat (destruct G as [<-|G]; [destruct K as [K|(p & P & K)];
      [vm_compute in K | vm_compute in P; injection P as <-; vm_compute in K]; injection K as <-; vm_compute; tauto|]). destruct G. }
  destruct X as [->| ->], KK as [->|[->|[->| ->]]]; try reflexivity; vm_compute in E; discriminate.
Qed.

Example C92_ex :
  sound x_m /\ (forall z, ma_good x_m z -> loads_well (ma_parse x_m) z) /\ (forall g, ma_gens x_m g -> usable g) /\
  unforged x_m (fun y => exists g, issued x_m g y) (fun _ => False) /\
  (exists g, issued x_m g x_stub1) /\ in_memory x_m x_stub1 x_image1 x_parse /\ uefi_names k_fw /\
  started k_history k_before [0; 114; 110; 101; 0] 2 /\ unsubstituted x_m k_before /\
  ~ off k_before /\ last_such sets_options k_before (EvSetOptions (Some (text16z (lit "init=/nix/store/one/init quiet")))).
Proof.
  split; [apply x_m_sound|]. split; [intros z H; exact H|]. split; [apply k_usable|]. split; [intros y A; right; exact A|].
  split; [exists x_gen1; apply k_issued|]. split; [apply x_in_memory1|]. split; [apply k_names|]. split; [apply k_started|].
  split; [apply k_unsubstituted|]. split.
  - intros (sb & I & O). pose proof (proj1 (forallb_forall _ _) k_gets _ I) as X. cbv beta iota in X.
    destruct O as [->| ->]; discriminate X.
  - split; [exact Logic.I|]. exists (firstn (length k_before - 1) k_before), []. split; [vm_compute; reflexivity | constructor].
Qed.

(** ** What is not prevented *)

(** Generations that are not installed any more can be started: the attacker
    keeps their files.  Here the ESP is empty. *)
Theorem C92_rollback_refuted : ~ (forall M m g y image pm fw parse path h' r before img entry,
  sound M -> (forall z, ma_good M z -> loads_well (ma_parse M) z) -> (forall g, ma_gens M g -> usable g) ->
  history M m -> issued M g y -> in_memory M y image pm -> uefi_names fw ->
  stub_main fw (ma_sha M) pm parse image path [] = (h', r) -> started h' before img entry -> unsubstituted M before ->
  exists key n b, ma_keys M key /\ named M key g n /\ lookup m (linux_file M n) = Some (NFile y b)).
Proof.
  intros H.
  destruct (H x_m [] x_gen1 x_stub1 x_image1 x_parse k_fw example_parse (Some (lit "\s.efi")) k_history
    (snd (stub_main k_fw x_sha x_parse example_parse x_image1 (Some (lit "\s.efi")) [])) k_before [0; 114; 110; 101; 0] 2)
    as (key & n & b & _ & _ & L).
  - apply x_m_sound.
  - intros z Hz. exact Hz.
  - apply k_usable.
  - apply hi_start; [intros n x; exact Logic.I | intros g key n y b _ _ _ L; discriminate L].
  - apply k_issued.
  - apply x_in_memory1.
  - apply k_names.
  - unfold k_history. apply surjective_pairing.
  - apply k_started.
  - apply k_unsubstituted.
  - discriminate L.
Qed.
Print Assumptions C92_rollback_refuted.

(** The initrd is not only the generation's: the attacker's credential is in
    it, though Secure Boot is on. *)
Theorem C92_nothing_added_refuted : ~ (forall M g y image pm fw parse path h' r before img entry,
  sound M -> (forall z, ma_good M z -> loads_well (ma_parse M) z) -> (forall g, ma_gens M g -> usable g) ->
  issued M g y -> in_memory M y image pm -> uefi_names fw ->
  stub_main fw (ma_sha M) pm parse image path [] = (h', r) -> started h' before img entry -> unsubstituted M before ->
  ~ off before ->
  exists initrd served, last_such serves_initrd before (EvInstall PLoadFile2 served None) /\ store_file M initrd /\ padded4 initrd served).
Proof.
  intros H.
  destruct (H x_m x_gen1 x_stub1 x_image1 x_parse k_fw example_parse (Some (lit "\s.efi")) k_history
    (snd (stub_main k_fw x_sha x_parse example_parse x_image1 (Some (lit "\s.efi")) [])) k_before [0; 114; 110; 101; 0] 2)
    as (initrd & served & LS & SF & PD).
  - apply x_m_sound.
  - intros z Hz. exact Hz.
  - apply k_usable.
  - apply k_issued.
  - apply x_in_memory1.
  - apply k_names.
  - unfold k_history. apply surjective_pairing.
  - apply k_started.
  - apply k_unsubstituted.
  - apply C92_ex.
  - assert (length initrd < 20)%nat as LI.
    { destruct SF as (g & G & K). vm_compute in G. repeat (destruct G as [<-|G]; [destruct K as [K|(p & P & K)];
        [vm_compute in K | vm_compute in P; injection P as <-; vm_compute in K]; injection K as <-; cbn; lia|]). destruct G. }
    assert (100 < length served)%nat as LV.
    { apply last_such_in in LS as I.
      pose proof (proj1 (forallb_forall _ _) k_served _ I) as X. cbv beta iota in X. apply N.ltb_lt in X. lia. }
    destruct PD as (k & K4 & -> & _). rewrite app_length, repeat_length in LV. lia.
Qed.
Print Assumptions C92_nothing_added_refuted.
