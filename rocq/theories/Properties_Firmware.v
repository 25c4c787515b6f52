(** C29, C35, C42, C44, C53, C54: Secure Boot status, the initrd protocol,
    firmware variables. *)
From Coq Require Import List NArith Bool Lia.
From Verif Require Import Base MText MPe MCpio MFirmware MStub PMonad SFirmware SStub PFirmware PStub PStubRun.
Import ListNotations.
Open Scope N_scope.

(** ** C29 *)

(** Exactly one byte of the variable SecureBoot of the global vendor is asked
    for; the result is "off" exactly for the answers "the byte 0" and "does not
    exist". *)
Theorem C29_secure_boot_status : forall fw h,
  exists answer off,
    get_secure_boot_status fw h =
      (h ++ [EvGet (lit "SecureBoot") global_vendor 1 answer], Ok (negb off)) /\
    (off = true <-> answer = GOk [0] \/ answer = GErr NOT_FOUND).
Proof. exact secure_boot_spec. Qed.
Print Assumptions C29_secure_boot_status.

(** A firmware for the examples. *)
Definition example_files : efs :=
  Efs (fun d => if eqb_bytes d (lit "\s.efi.extra")
                then Some [Some (Dentry true (lit "a.cred")); Some (Dentry true (lit "b.raw"));
                           Some (Dentry true (lit "c.txt"))]
                else None)
      (fun d => Some (eqb_bytes d (lit "\s.efi.extra")))
      (fun d => Some (eqb_bytes d (lit "\s.efi.extra")))
      (fun f => if eqb_bytes f (lit "\k") then Some [1; 2; 3; 4; 5; 6]
                else if eqb_bytes f (lit "\i") then Some [7; 8; 9]
                else if eqb_bytes f (lit "\s.efi.extra\a.cred") then Some [10; 11]
                else if eqb_bytes f (lit "\s.efi.extra\b.raw") then Some [12]
                else None).
Definition example_guid : bytes := [0; 1; 2; 3; 4; 5; 6; 7; 8; 9; 10; 11; 12; 13; 14; 171].
Definition example_nodes : list dpnode :=
  [Dpnode 2 1 None; Dpnode 4 1 (Some SigMbr); Dpnode 4 2 (Some (SigGuid (rev example_guid)));
   Dpnode 4 1 (Some (SigGuid example_guid)); Dpnode 4 1 (Some (SigGuid (rev example_guid)))].
Definition example_fw (st : vstore) (options : option bytes) (tpm : bool) : firmware :=
  Firmware (fun _ => tpm) (fun _ _ _ => None)
    (fun h n v size =>
       match store_after st h n v with
       | Some d => if N.of_nat (length d) <=? size then GOk d else GErr BUFFER_TOO_SMALL
       | None => GErr NOT_FOUND
       end)
    (fun _ n _ _ => if eqb_bytes n (lit "LoaderFirmwareInfo") then Some (OTHER 9) else None)
    (fun _ => None) (fun _ => options) (fun _ => inl example_nodes) (fun _ => inl [1; 0])
    (fun _ => true) (fun _ => example_files) (fun _ _ => None) (fun _ _ => true) (fun _ _ => None)
    (fun _ _ => None) (fun _ => None) (lit "EDK II") 65536 (lit "2.70").
Definition example_store : vstore := fun n v =>
  if eqb_bytes n (lit "LoaderImageIdentifier") then Some [65; 0; 66; 0] else None.

Example C29_example :
  let fw d := example_fw (fun n _ => if eqb_bytes n (lit "SecureBoot") then d else None) None true in
  snd (get_secure_boot_status (fw None) []) = Ok false /\
  snd (get_secure_boot_status (fw (Some [0])) []) = Ok false /\
  snd (get_secure_boot_status (fw (Some [1])) []) = Ok true /\
  snd (get_secure_boot_status (fw (Some [2])) []) = Ok true /\
  snd (get_secure_boot_status (fw (Some [])) []) = Ok true /\
  snd (get_secure_boot_status (fw (Some [0; 0])) []) = Ok true.
Proof. vm_compute. repeat split. Qed.

(** ** C35 *)
Theorem C35_null_size : forall initrd buffer,
  load_file initrd None buffer = (Some INVALID_PARAMETER, None, buffer).
Proof. exact load_file_null_size. Qed.
Print Assumptions C35_null_size.

Theorem C35_too_small : forall initrd n buffer,
  buffer = None \/ n < N.of_nat (length initrd) ->
  load_file initrd (Some n) buffer = (Some BUFFER_TOO_SMALL, Some (N.of_nat (length initrd)), buffer).
Proof. exact load_file_too_small. Qed.
Print Assumptions C35_too_small.

(** With a buffer of [n] bytes in memory [mem] that is large enough, exactly
    the initrd is written. *)
Theorem C35_success_writes_initrd : forall initrd n mem,
  N.of_nat (length initrd) <= n -> n <= N.of_nat (length mem) ->
  exists mem',
    load_file initrd (Some n) (Some mem) = (None, Some n, Some mem') /\
    same_except_prefix mem mem' initrd.
Proof. exact load_file_success. Qed.
Print Assumptions C35_success_writes_initrd.

(** Linux' protocol: ask for the size, allocate that much, load. *)
Theorem C35_query_then_load : forall initrd n mem,
  exists k,
    load_file initrd (Some n) None = (Some BUFFER_TOO_SMALL, Some k, None) /\
    (N.of_nat (length mem) = k ->
     load_file initrd (Some k) (Some mem) = (None, Some k, Some initrd)).
Proof. exact load_file_query. Qed.
Print Assumptions C35_query_then_load.

(** The last part of C35, "on success the size is set to the number of bytes
    written", is false: the size keeps the caller's value, and is therefore
    right exactly if the buffer had the exact size. *)
Definition C35_size_claim : Prop := forall initrd n mem n' mem',
  load_file initrd (Some n) (Some mem) = (None, n', mem') -> n' = Some (N.of_nat (length initrd)).
Theorem C35_size_on_success_refuted : ~ C35_size_claim.
Proof. intros H. specialize (H [1] 2 [0; 0] _ _ eq_refl). discriminate. Qed.
Print Assumptions C35_size_on_success_refuted.

Theorem C35_size_on_success_iff : forall initrd n mem n' mem',
  load_file initrd (Some n) (Some mem) = (None, n', mem') ->
  n' = Some n /\ (n' = Some (N.of_nat (length initrd)) <-> n = N.of_nat (length initrd)).
Proof.
  intros initrd n mem n' mem' H. cbn [load_file] in H. destruct (n <? len initrd); [discriminate|].
  assert (n' = Some n) as -> by congruence. split; [reflexivity|]. split; intros E; congruence.
Qed.
Print Assumptions C35_size_on_success_iff.

Example C35_example :
  load_file [1; 2; 3] (Some 4) (Some [9; 9; 9; 9; 9]) = (None, Some 4, Some [1; 2; 3; 9; 9]) /\
  load_file [1; 2; 3] (Some 2) (Some [9; 9; 9; 9; 9]) = (Some BUFFER_TOO_SMALL, Some 3, Some [9; 9; 9; 9; 9]) /\
  load_file [1; 2; 3] (Some 3) (Some [9; 9; 9]) = (None, Some 3, Some [1; 2; 3]).
Proof. vm_compute. repeat split. Qed.

(** ** C42 *)

(** In every run of the whole stub, a loader variable is written only directly
    after the firmware reported it missing. *)
Theorem C42_written_only_if_missing : forall fw sha pm parse image path h' r,
  stub_main fw sha pm parse image path [] = (h', r) -> guarded h'.
Proof.
  intros fw sha pm parse image path h' r H.
  destruct (guardedM_stub_main fw sha pm parse image path _ _ _ H) as (es & -> & G). exact G.
Qed.
Print Assumptions C42_written_only_if_missing.

(** With a firmware that answers from a variable store, existing values survive. *)
Theorem C42_existing_values_survive : forall st fw sha pm parse image path h' r n d,
  answers_from st fw -> In n loader_variables -> st n systemd_vendor = Some d ->
  stub_main fw sha pm parse image path [] = (h', r) ->
  store_after st h' n systemd_vendor = Some d.
Proof.
  intros st fw sha pm parse image path h' r n d HA Hn Hd H.
  exact (keeps_stub_main st n d fw sha pm parse image path HA Hn _ _ _ H Hd).
Qed.
Print Assumptions C42_existing_values_survive.

(** Every variable is attempted whatever happens to the others. *)
Theorem C42_all_attempted : forall fw nm h h' r,
  guids_are_bytes fw -> fw_open_image fw h = None -> Forall scalar nm ->
  export_efi_variables fw nm h = (h', r) ->
  r = Ok tt /\ exists es, h' = h ++ es /\
    (forall n, In n loader_variables -> attempted es n) /\
    (exists d r1, utf16 nm d /\ In (EvSet (lit "StubInfo") systemd_vendor 6 d r1) es) /\
    (exists r2, In (EvSet (lit "StubFeatures") systemd_vendor 6 [1; 0; 0; 0; 0; 0; 0; 0] r2) es).
Proof. exact export_attempts. Qed.
Print Assumptions C42_all_attempted.

(** The stub writes no other variables, all volatile and runtime-accessible
    (attributes 2 + 4). *)
Theorem C42_only_these : forall fw sha pm parse image path h' r,
  stub_main fw sha pm parse image path [] = (h', r) -> Forall stub_write h'.
Proof. exact stub_writes. Qed.
Print Assumptions C42_only_these.

(** The bytes of a text stand for no other one. *)
Theorem C42_utf16_unique : forall b s t, utf16 s b -> utf16 t b -> s = t.
Proof. exact utf16_unique. Qed.
Print Assumptions C42_utf16_unique.

Example C42_utf16_ex : Forall scalar [97; 128512] /\ utf16 [97; 128512] [97; 0; 61; 216; 0; 222].
Proof.
  split; [repeat (constructor; [unfold scalar; lia|]); constructor|].
  apply ut_basic; try lia. apply ut_pair; try lia. constructor.
Qed.

Example C42_example :
  answers_from example_store (example_fw example_store None true) /\
  guids_are_bytes (example_fw example_store None true) /\
  let h := fst (export_efi_variables (example_fw example_store None true) (lit "x") []) in
  map (fun n => store_after example_store h n systemd_vendor)
      (loader_variables ++ [lit "StubInfo"; lit "StubFeatures"]) =
    [Some (ascii16 (lit "03020100-0504-0706-0809-0a0b0c0d0eab")); Some [65; 0; 66; 0]; None;
     Some (ascii16 (lit "UEFI 2.70")); Some [120; 0]; Some [1; 0; 0; 0; 0; 0; 0; 0]].
Proof.
  split; [intros h n v size; reflexivity|]. split; [|vm_compute; reflexivity].
  intros h nodes n g H Hin Hg. cbn in H. injection H as <-. cbn in Hin.
  repeat (destruct Hin as [<-|Hin]; [cbn in Hg; try discriminate; injection Hg as <-; repeat constructor; lia|]).
  destruct Hin.
Qed.

(** ** C44 *)

(** Vendor and version are written; major is right, minor is taken modulo
    2^20 instead of 2^16. *)
Theorem C44_text : forall vendor r,
  firmware_info vendor r = vendor ++ [32] ++ version_text (r / 65536) (r mod 1048576).
Proof. exact firmware_info_text. Qed.
Print Assumptions C44_text.

Theorem C44_right_iff : forall vendor r,
  firmware_info vendor r = vendor ++ [32] ++ version_text (r / 65536) (r mod 65536) <->
  (r / 65536) mod 16 = 0.
Proof. exact firmware_info_right_iff. Qed.
Print Assumptions C44_right_iff.

Definition C44_claim : Prop := forall vendor r, r < 2 ^ 32 ->
  firmware_info vendor r = vendor ++ [32] ++ version_text (r / 65536) (r mod 65536).
Theorem C44_refuted : ~ C44_claim.
Proof.
  intros H. specialize (H [] 65536 eq_refl). apply firmware_info_right_iff in H. discriminate.
Qed.
Print Assumptions C44_refuted.

Example C44_example :
  firmware_info (lit "EDK II") (2 * 65536 + 70) = lit "EDK II 2.131142" /\
  lit "EDK II " ++ version_text 2 70 = lit "EDK II 2.70" /\ version_text 1 5 = lit "1.05" /\
  firmware_info (lit "V") (16 * 65536 + 7) = lit "V 16.07".
Proof. vm_compute. repeat split. Qed.

(** ** C53 *)
Theorem C53_loader_features : forall fw h, exists answer r,
  get_loader_features fw h = (h ++ [EvGet (lit "LoaderFeatures") systemd_vendor 8 answer], r) /\
  features_spec answer r.
Proof. exact loader_features_spec. Qed.
Print Assumptions C53_loader_features.

Example C53_example :
  let run d := snd (get_loader_features
    (example_fw (fun n _ => if eqb_bytes n (lit "LoaderFeatures") then d else None) None true) []) in
  run (Some [255; 7; 0; 0; 0; 0; 0; 0]) = Ok 2047 /\
  run (Some [0; 8; 0; 0; 0; 0; 0; 0]) = Err INCOMPATIBLE_VERSION /\
  run (Some [1; 0; 0; 0]) = Err BAD_BUFFER_SIZE /\
  run (Some [1; 0; 0; 0; 0; 0; 0; 0; 0]) = Err BAD_BUFFER_SIZE /\ run None = Ok 0.
Proof. vm_compute. repeat split. Qed.

(** ** C54 *)
Theorem C54_partition_uuid : forall nodes,
  match part_uuid nodes with
  | Ok g => first_gpt nodes g
  | Err e => e = UNSUPPORTED /\ forall n g, In n nodes -> ~ gpt_node n g
  | Panic => False
  end.
Proof. exact part_uuid_first. Qed.
Print Assumptions C54_partition_uuid.

Example C54_example :
  part_uuid example_nodes = Ok example_guid /\ part_uuid (firstn 3 example_nodes) = Err UNSUPPORTED.
Proof. vm_compute. repeat split. Qed.
