(** C68: what the PCR values of a boot say. *)
From Coq Require Import List NArith Bool Lia.
From Verif Require Import Base MText MPe MCpio MFirmware MStub SFirmware SStub SPcr PPcr
  Properties_Firmware Properties_Stub.
Import ListNotations.
Open Scope N_scope.

(** ** C68 *)

(** Two boots with the same PCRs 4, 11, 12 and 13, from arbitrary stub images on
    arbitrary firmware with a working TPM, start the same kernel with the same
    initrd and the same command line. *)
Theorem C68_attested : forall fw fw' sha sha' pm pm' parse image image' path path' h h' r r' before before' img img' entry entry',
  stub_main fw sha pm parse image path [] = (h, r) -> stub_main fw' sha' pm' parse image' path' [] = (h', r') ->
  started h before img entry -> started h' before' img' entry' -> tpm_works fw -> tpm_works fw' ->
  forall H init, (forall p, In p [4; 11; 12; 13] -> same_pcr H init p before before') ->
  exists served options,
    img' = img /\ entry' = entry /\
    last_such serves_initrd before (EvInstall PLoadFile2 served None) /\
    last_such serves_initrd before' (EvInstall PLoadFile2 served None) /\
    last_such sets_options before (EvSetOptions (Some options)) /\
    last_such sets_options before' (EvSetOptions (Some options)).
Proof. exact attested_all. Qed.
Print Assumptions C68_attested.

(** PCR 11 alone: the same kernel, the same verified initrd at the start of what
    is served, and the same sections. *)
Theorem C68_pcr11 : forall fw fw' sha sha' pm pm' parse image image' path path' h h' r r' before before' img img' entry entry',
  stub_main fw sha pm parse image path [] = (h, r) -> stub_main fw' sha' pm' parse image' path' [] = (h', r') ->
  started h before img entry -> started h' before' img' entry' -> tpm_works fw -> tpm_works fw' ->
  forall H init, same_pcr H init 11 before before' ->
  exists p p' kernel initrd dynamic dynamic' served served',
    pm image = Some p /\ pm' image' = Some p' /\
    image_load (fun _ => None) (parse kernel) kernel = Ok (img, entry) /\ img' = img /\ entry' = entry /\
    same_sections image image' p p' kernel initrd /\
    last_such serves_initrd before (EvInstall PLoadFile2 served None) /\ layout4 (initrd :: dynamic) served /\
    last_such serves_initrd before' (EvInstall PLoadFile2 served' None) /\ layout4 (initrd :: dynamic') served'.
Proof. exact attested_11. Qed.
Print Assumptions C68_pcr11.

(** Conversely PCR 11 is determined by the stub image, whatever the firmware,
    the companions and the command line: all boots of an image have the same
    PCR 11, unless the hash in the stub collides on the files read. *)
Theorem C68_predictable : forall fw fw' sha pm parse image path path' h h' r r' before before' img img' entry entry',
  stub_main fw sha pm parse image path [] = (h, r) -> stub_main fw' sha pm parse image path' [] = (h', r') ->
  started h before img entry -> started h' before' img' entry' -> tpm_works fw -> tpm_works fw' ->
  (forall n n' x y, In (EvRead n (Some x)) before -> In (EvRead n' (Some y)) before' -> sha x = sha y -> x = y) ->
  forall H init, pcr_value H init 11 before = pcr_value H init 11 before'.
Proof. exact predictable_value. Qed.
Print Assumptions C68_predictable.

(** A toy hash of four bytes. *)
Definition toy_hash (l : bytes) : bytes :=
  let n := fold_left (fun a x => (a * 65599 + x + 1) mod 4294967296) l 7 in
  [n / 16777216; n / 65536 mod 256; n / 256 mod 256; n mod 256].

(** The example of C28 with and without Secure Boot: different runs with the
    same PCRs; with other load options PCR 4 differs, and nothing else. *)
Example C68_example :
  let h := fst (example_run None (Some [1])) in
  let h' := fst (example_run None None) in
  let h2 := fst (example_run (Some [1; 2; 3; 4]) None) in
  started h (example_before h) [0; 3; 4; 5; 0] 2 /\
  started h' (example_before h') [0; 3; 4; 5; 0] 2 /\
  started h2 (example_before h2) [0; 3; 4; 5; 0] 2 /\
  h <> h' /\
  (forall p, In p [4; 11; 12; 13] -> same_pcr toy_hash (fun _ => [0; 0; 0; 0]) p (example_before h) (example_before h')) /\
  map (fun p => length (measured_into p (example_before h2))) [4; 11; 12; 13] = [1; 8; 1; 1]%nat /\
  filter (fun p => negb (eqb_bytes (pcr_value toy_hash [0; 0; 0; 0] p (example_before h)) (pcr_value toy_hash [0; 0; 0; 0] p (example_before h2))))
    [4; 11; 12; 13] = [4].
Proof.
  cbv zeta.
  split; [eexists None, _; vm_compute; reflexivity|]. split; [eexists None, _; vm_compute; reflexivity|].
  split; [eexists None, _; vm_compute; reflexivity|].
  split. { intros E. apply (f_equal (fun l => length l)) in E. vm_compute in E. discriminate. }
  split. { intros p Hp. split; [apply good_hashb_ok; [reflexivity|]|];
    cbn [In] in Hp; repeat (destruct Hp as [<-|Hp]; [vm_compute; reflexivity|]); destruct Hp. }
  split; vm_compute; reflexivity.
Qed.
