(** C60, C61: the boot stub has no effect before its files are verified, and
    then nothing but the essentials can keep it from starting the kernel. *)
From Coq Require Import List NArith Bool Lia ZifyBool ZifyNat ZifyN.
From Verif Require Import Base MText MGeneration MNames MPe MCpio MFirmware MStub MFs MInstall SCommon SNames SFirmware SInstall SImage SHistory
  SStub SUse SGate PStubRun PGate PGateUse Properties_Firmware Properties_Stub XWorld XMachine Properties_History Properties_Image.
Import ListNotations.
Open Scope N_scope.

(** ** C60 *)

(** Before every measurement, variable write, allocation, protocol
    installation or start, both files were read, and their hashes are the ones in
    the 32-byte hash sections of the stub. *)
Theorem C60_effects_verified : forall fw sha pm parse image path h r a e b,
  stub_main fw sha pm parse image path [] = (h, r) -> h = a ++ e :: b -> has_effect e ->
  exists p kn kernel inn initrd cmd, pm image = Some p /\
    vouches sha image (pe_sections p) kn kernel inn initrd cmd /\
    reads_of a = [(kn, Some kernel); (inn, Some initrd)].
Proof. exact effects_verified. Qed.
Print Assumptions C60_effects_verified.

(** The stub returns to the firmware only with verified files: otherwise it
    panics. *)
Theorem C60_unverified_panics : forall fw sha pm parse image path h r,
  stub_main fw sha pm parse image path [] = (h, r) -> r <> Panic ->
  exists p kn kernel inn initrd cmd, pm image = Some p /\
    vouches sha image (pe_sections p) kn kernel inn initrd cmd /\
    reads_of h = [(kn, Some kernel); (inn, Some initrd)].
Proof. exact not_panic_verified. Qed.
Print Assumptions C60_unverified_panics.

(** A stub with a missing or malformed section reads no file and has no
    effect. *)
Theorem C60_damaged : forall fw sha pm parse image path h r,
  (forall p, pm image = Some p -> damaged image (pe_sections p)) ->
  stub_main fw sha pm parse image path [] = (h, r) ->
  r = Panic /\ reads_of h = [] /\ Forall (fun e => ~ has_effect e) h.
Proof. exact damaged_refused. Qed.
Print Assumptions C60_damaged.

(** The example has effects; with a hash section of 33 bytes it has none. *)
Definition x_long_parts : list (str * bytes) :=
  [(lit ".text", [1; 1]); (lit ".cmdline", lit "quiet"); (lit ".initrdh", example_sha [7; 8; 9]);
   (lit ".osrel", lit "ID=x"); (lit ".initrd", lit "\i"); (lit ".linux", lit "\k");
   (lit ".linuxh", example_sha [1; 2; 3; 4; 5; 6] ++ [0])].
Definition x_long_image : bytes := [0; 0] ++ flat_map snd x_long_parts.
Definition x_long_pe : pe := Pe (lay_out 2 x_long_parts) 0 false (Some 0).

Example C60_example :
  (exists a b, fst (example_run None None) = a ++ EvExtend 11 (lit ".linux" ++ [0]) (lit ".linux") None :: b) /\
  snd (example_run None None) <> Panic /\
  damaged x_long_image (pe_sections x_long_pe).
Proof.
  split; [|split].
  - exists (firstn 7 (fst (example_run None None))), (skipn 8 (fst (example_run None None))). vm_compute. reflexivity.
  - vm_compute. discriminate.
  - right. exists (lit ".linuxh"). split; [left; reflexivity|]. intros d ((b & s & a & E & Hn & Hb & L & _) & L32).
    assert (Hs : In s (pe_sections x_long_pe)) by (rewrite E; apply in_or_app; right; left; reflexivity).
    clear E Hb. vm_compute in Hs.
    repeat (destruct Hs as [<-|Hs]; [first [discriminate Hn | cbn in L; lia]|]). destruct Hs.
Qed.

(** ** C61 *)

(** If the sections are in order, the files they name can be read and have
    the recorded hashes, the kernel can be loaded, and the essential firmware
    services work, then the stub starts the kernel: whatever the TPM, the variables,
    the device paths and the load options are. *)
Theorem C61_starts : forall fw sha pm parse image path p kn kernel inn initrd cmd img entry,
  basics_work fw -> companions_readable fw path ->
  pm image = Some p -> within image (pe_sections p) ->
  vouches sha image (pe_sections p) kn kernel inn initrd cmd -> provides fw kn kernel inn initrd ->
  N.of_nat (length cmd) < 2 ^ 30 ->
  image_load (fun _ => None) (parse kernel) kernel = Ok (img, entry) ->
  exists h r before, stub_main fw sha pm parse image path [] = (h, r) /\ started h before img entry.
Proof. exact stub_starts. Qed.
Print Assumptions C61_starts.

(** After a successful run of the installer, the stub of every selected
    generation starts a kernel with the hash of the generation's kernel. *)
Theorem C61_installed : forall M e c m, sound M -> (forall z, ma_good M z -> loads_well (ma_parse M) z) ->
  fits M e c -> history M m -> no_faults e -> snd (run_install e c m) = Ok tt ->
  exists vs sel, links_versions (c_links c) vs /\ newest (c_limit c) vs sel /\
    forall g, In g (flat_map link_generations sel) -> usable g ->
      exists key n y b, ma_keys M key /\ named M key g n /\
        lookup (s_fs (fst (run_install e c m))) (linux_file M n) = Some (NFile y b) /\
        forall image pm parse fw path,
          in_memory M y image pm -> reads_esp M fw (s_fs (fst (run_install e c m))) ->
          basics_work fw -> companions_readable fw path ->
          exists kn inn kernel initrd cmd kd id,
            made_for M g kn inn kernel initrd cmd /\ ma_sha M kd = ma_sha M kernel /\ ma_sha M id = ma_sha M initrd /\
            forall img entry, N.of_nat (length cmd) < 2 ^ 30 ->
              image_load (fun _ => None) (parse kd) kd = Ok (img, entry) ->
              exists h r before, stub_main fw (ma_sha M) pm parse image path [] = (h, r) /\ started h before img entry.
Proof. exact installed_starts. Qed.
Print Assumptions C61_installed.

(** Firmware with a TPM that fails, variables that can be neither read nor
    written, no device path, and odd load options. *)
Definition x_hostile (files : efs) : firmware :=
  Firmware (fun h => Nat.even (length h)) (fun _ _ _ => Some (OTHER 1)) (fun _ _ _ _ => GErr (OTHER 2)) (fun _ _ _ _ => Some (OTHER 3))
    (fun _ => None) (fun _ => Some [1]) (fun _ => inr (OTHER 4)) (fun _ => inr (OTHER 5))
    (fun _ => true) (fun _ => files) (fun _ _ => None) (fun _ _ => false) (fun _ _ => None)
    (fun _ _ => Some (OTHER 6)) (fun _ => Some (OTHER 7)) [] 0 [].

Lemma x_hostile_basics : forall files, basics_work (x_hostile files).
Proof. intros files. constructor; try reflexivity. intros h o E. injection E as <-. reflexivity. Qed.

Lemma x_example_readable : companions_readable (x_hostile example_files) (Some (lit "\s.efi")).
Proof.
  split; [|split].
  - intros h. vm_compute. discriminate.
  - intros h H. vm_compute in H. discriminate.
  - intros p h h' E _. injection E as <-. eexists. split; [vm_compute; reflexivity|].
    intros f b I _ S. vm_compute in I.
    destruct I as [I|[I|[I|[]]]]; injection I as <-.
    + split; [vm_compute; discriminate|]. split; [vm_compute; intuition discriminate|]. eexists. vm_compute. reflexivity.
    + split; [vm_compute; discriminate|]. split; [vm_compute; intuition discriminate|]. eexists. vm_compute. reflexivity.
    + exfalso. cbn [de_name] in S. destruct S as [S|S]; apply (f_equal (@rev N)) in S; rewrite rev_app_distr in S; vm_compute in S; discriminate.
Qed.

Lemma x_example_within : within example_image (pe_sections example_stub_pe).
Proof.
  intros s H. vm_compute in H. repeat (destruct H as [<-|H]; [vm_compute; discriminate|]). destruct H.
Qed.

Lemma x_example_vouches : vouches example_sha example_image (pe_sections example_stub_pe)
  (lit "\k") [1; 2; 3; 4; 5; 6] (lit "\i") [7; 8; 9] (lit "quiet").
Proof.
  split; [|split; [|split; [|split]]];
    first [apply extract_string_text; vm_compute; reflexivity | apply extract_hash_ok; vm_compute; reflexivity].
Qed.

Example C61_example :
  basics_work (x_hostile example_files) /\ companions_readable (x_hostile example_files) (Some (lit "\s.efi")) /\
  within example_image (pe_sections example_stub_pe) /\
  vouches example_sha example_image (pe_sections example_stub_pe)
    (lit "\k") [1; 2; 3; 4; 5; 6] (lit "\i") [7; 8; 9] (lit "quiet") /\
  provides (x_hostile example_files) (lit "\k") [1; 2; 3; 4; 5; 6] (lit "\i") [7; 8; 9] /\
  image_load (fun _ => None) (example_parse [1; 2; 3; 4; 5; 6]) [1; 2; 3; 4; 5; 6] = Ok ([0; 3; 4; 5; 0], 2).
Proof.
  split; [apply x_hostile_basics|]. split; [apply x_example_readable|]. split; [apply x_example_within|].
  split; [apply x_example_vouches|]. split; [|vm_compute; reflexivity]. intros h. vm_compute. auto.
Qed.

(** The ESP of the example after the run, with hostile firmware. *)
Example C61_installed_example :
  in_memory x_m x_stub1 x_image1 x_parse /\ reads_esp x_m (x_hostile (x_efi_files x_e1)) x_e1 /\
  basics_work (x_hostile (x_efi_files x_e1)) /\ companions_readable (x_hostile (x_efi_files x_e1)) (Some (lit "\s.efi")) /\
  snd (stub_main (x_hostile (x_efi_files x_e1)) x_sha x_parse example_parse x_image1 (Some (lit "\s.efi")) []) = Panic /\
  exists before, started (fst (stub_main (x_hostile (x_efi_files x_e1)) x_sha x_parse example_parse x_image1 (Some (lit "\s.efi")) []))
    before [0; 114; 110; 101; 0] 2.
Proof.
  split; [apply x_in_memory1|]. split.
  { intros h. split; [reflexivity|]. exact (proj2 (x_reads x_e1 h)). }
  split; [apply x_hostile_basics|]. split.
  { split; [intros h; discriminate|]. split; [intros h H; discriminate|intros p h h' _ H; discriminate]. }
  split; [vm_compute; reflexivity|].
  set (h := fst (stub_main _ _ _ _ _ _ _)). exists (firstn (length h - 2) h), (Some (OTHER 7)), [EvFree 1 false].
  vm_compute. reflexivity.
Qed.

(** The companion condition is needed: a directory that cannot be listed, or
    one credential that cannot be read, keeps the stub from starting a kernel
    although its files are verified. *)
Definition x_no_list : efs :=
  Efs (fun _ => None) (fun _ => Some true) (fun d => Some (eqb_bytes d (lit "\loader\credentials"))) (fs_read example_files).
Definition x_no_read : efs :=
  Efs (fun _ => Some [Some (Dentry true (lit "a.cred"))]) (fun _ => Some true)
    (fun d => Some (eqb_bytes d (lit "\loader\credentials"))) (fs_read example_files).
Example C61_companions_needed :
  let run files := stub_main (x_hostile files) example_sha (fun _ => Some example_stub_pe) example_parse example_image (Some (lit "\s.efi")) [] in
  Forall (fun files => snd (run files) = Panic /\ Forall (fun e => ~ changes_boot_state e) (fst (run files))) [x_no_list; x_no_read].
Proof.
  cbv zeta. repeat (constructor; [split; [vm_compute; reflexivity|vm_compute; repeat constructor; intros []]|]). constructor.
Qed.
