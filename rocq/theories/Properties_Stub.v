(** C28, C30-C34, C41 (freeing), C43, C55: what the boot stub does before and
    after it starts the kernel. *)
From Coq Require Import List NArith Bool Lia Permutation.
From Verif Require Import Base PBase MText MPe SPe MCpio MFirmware MStub PMonad SFirmware SStub PFirmware PStub PMeasureCount PStubRun
  Properties_Firmware.
Import ListNotations.
Open Scope N_scope.

(** A stub image for the examples: sections one after the other from offset 2,
    and a stand-in for SHA-256. *)
Definition example_sha (d : bytes) : bytes := repeat (fold_left (fun a b => (3 * a + b) mod 256) d 1) 32.
Definition example_parts : list (str * bytes) :=
  [(lit ".text", [1; 1]); (lit ".cmdline", lit "quiet"); (lit ".initrdh", example_sha [7; 8; 9]);
   (lit ".osrel", lit "ID=x"); (lit ".initrd", lit "\i"); (lit ".linux", lit "\k");
   (lit ".linuxh", example_sha [1; 2; 3; 4; 5; 6]); (lit ".pcrsig", [5])].
Fixpoint lay_out (at_ : N) (l : list (str * bytes)) : list section :=
  match l with
  | [] => []
  | (n, d) :: l' => Section (Some n) at_ (N.of_nat (length d)) 0 (N.of_nat (length d))
                    :: lay_out (at_ + N.of_nat (length d)) l'
  end.
Definition example_image : bytes := [0; 0] ++ flat_map snd example_parts.
Definition example_stub_pe : pe := Pe (lay_out 2 example_parts) 0 false (Some 0).
Definition example_parse (_ : bytes) : option pe := Some (Pe [Section (Some (lit ".text")) 1 4 2 3] 2 false (Some 0)).
Definition example_run (options : option bytes) (sb : option bytes) : list event * res status unit :=
  stub_main (example_fw (fun n _ => if eqb_bytes n (lit "SecureBoot") then sb else None) options true)
    example_sha (fun _ => Some example_stub_pe) example_parse example_image (Some (lit "\s.efi")) [].

(** ** C28 *)

(** If a kernel image is started, exactly two files were read, their hashes are
    the ones in the stub, the image is the one loaded from the first, and the
    initrd served starts with the second.  The firmware, and with it the file
    system at each read, is arbitrary. *)
Theorem C28_only_verified_boots : forall fw sha pm parse image path h' r before img entry,
  stub_main fw sha pm parse image path [] = (h', r) -> started h' before img entry ->
  exists p kn kernel inn initrd rest,
    pm image = Some p /\
    section_text image (pe_sections p) (lit ".linux") kn /\
    section_text image (pe_sections p) (lit ".initrd") inn /\
    section_contents image (pe_sections p) (lit ".linuxh") (sha kernel) /\
    section_contents image (pe_sections p) (lit ".initrdh") (sha initrd) /\
    reads_of before = [(kn, Some kernel); (inn, Some initrd)] /\
    image_load (fun _ => None) (parse kernel) kernel = Ok (img, entry) /\
    last_such sets_image before (EvSetImage (Some img)) /\
    last_such serves_initrd before (EvInstall PLoadFile2 (initrd ++ rest) None).
Proof. exact started_verified. Qed.
Print Assumptions C28_only_verified_boots.

(** Success is reported only after a kernel was started. *)
Theorem C28_ok_means_started : forall fw sha pm parse image path h' a,
  stub_main fw sha pm parse image path [] = (h', Ok a) ->
  exists before img entry, started h' before img entry.
Proof.
  intros fw sha pm parse image path h' a H.
  destruct (stub_main_run _ _ _ _ _ _ _ _ _ H) as [(es & _ & _ & X)|[B]]; [destruct (X a eq_refl)|].
  destruct B as [k h2 h3 h4 h5 h6 cs c Ho Hl Hm Hmid Hc Hcmd Hb].
  destruct (boot_unchecked_ok _ _ _ _ _ _ _ _ Hb) as (pre & img & entry & st & post & ->).
  exists pre, img, entry, st, post. reflexivity.
Qed.
Print Assumptions C28_ok_means_started.

Definition example_before (h : list event) : list event :=
  firstn (length h - 6) h.
Example C28_example :
  let h := fst (example_run None (Some [1])) in
  snd (example_run None (Some [1])) = Ok tt /\
  h = example_before h ++ EvStart [0; 3; 4; 5; 0] 2 None :: skipn (length h - 5) h.
Proof. vm_compute. split; reflexivity. Qed.

(** A kernel with another hash is not started. *)
Example C28_example_wrong_hash :
  let '(h, r) := stub_main (example_fw (fun _ _ => None) None true) (fun d => example_sha (d ++ [1]))
    (fun _ => Some example_stub_pe) example_parse example_image (Some (lit "\s.efi")) [] in
  r = Panic /\ Forall (fun e => ~ is_start e) h.
Proof. vm_compute. split; [reflexivity|]. repeat constructor; intros []. Qed.

(** ** C30 *)

(** The load options given to the kernel are chosen as described by
    [cmdline_choice] from the embedded command line. *)
Theorem C30_command_line : forall fw sha pm parse image path h' r before img entry,
  stub_main fw sha pm parse image path [] = (h', r) -> started h' before img entry ->
  exists p cmd chosen a b options,
    pm image = Some p /\
    section_text image (pe_sections p) (lit ".cmdline") cmd /\
    before = a ++ chosen ++ b /\
    cmdline_choice (text16z cmd) chosen options /\
    last_such sets_options before (EvSetOptions (Some options)).
Proof. exact started_cmdline. Qed.
Print Assumptions C30_command_line.

(** Another command line than the embedded one: Secure Boot is off, it was
    passed by the boot loader, and it was successfully extended into PCR 4
    before or there is no usable TPM. *)
Theorem C30_custom_is_measured : forall fw sha pm parse image path h' r before img entry,
  stub_main fw sha pm parse image path [] = (h', r) -> started h' before img entry ->
  forall p cmd options,
    pm image = Some p -> section_text image (pe_sections p) (lit ".cmdline") cmd ->
    last_such sets_options before (EvSetOptions (Some options)) -> options <> text16z cmd ->
    (exists sb, In (EvGet (lit "SecureBoot") global_vendor 1 sb) before /\ (sb = GOk [0] \/ sb = GErr NOT_FOUND)) /\
    In (EvLoadOptions (Some options)) before /\
    (In (EvExtend 4 options (lit "Custom user provided kernel cmdline") None) before \/
     In (EvTpm false) before).
Proof. exact started_custom_cmdline. Qed.
Print Assumptions C30_custom_is_measured.

Definition options_of (h : list event) : list (option bytes) :=
  flat_map (fun e => match e with EvSetOptions o => [o] | _ => [] end) h.
Example C30_example :
  options_of (fst (example_run None None)) = [Some (text16z (lit "quiet")); None] /\
  options_of (fst (example_run (Some [1; 2; 3; 4]) None)) = [Some [1; 2; 3; 4]; None] /\
  options_of (fst (example_run (Some [1; 2; 3; 4]) (Some [1]))) = [Some (text16z (lit "quiet")); None] /\
  In (EvExtend 4 [1; 2; 3; 4] (lit "Custom user provided kernel cmdline") None)
    (fst (example_run (Some [1; 2; 3; 4]) None)).
Proof.
  split; [vm_compute; reflexivity|]. split; [vm_compute; reflexivity|]. split; [vm_compute; reflexivity|].
  apply (nth_error_In _ 51). vm_compute. reflexivity.
Qed.

(** ** C31 *)
Theorem C31_pcr11_log : forall fw image p kernel initrd h h' r,
  tpm_present fw ->
  measure_image fw image (Some p) kernel initrd h = (h', r) -> r <> Panic ->
  exists es data, h' = h ++ es /\
    extends_of es = pcr11_log (pe_sections p) data /\
    (forall n, In n canonical_sections -> (0 < occurrences (pe_sections p) n)%nat ->
       measured_data image (pe_sections p) kernel initrd n (data n)).
Proof.
  intros fw image p kernel initrd h h' r T H R.
  destruct (measure_image_run _ _ _ _ _ _ _ _ T H R) as (es & log & sets & data & E & _ & L & D & _).
  eauto 10.
Qed.
Print Assumptions C31_pcr11_log.

(** The number returned is that of the measurements which succeeded. *)
Theorem C31_count : forall fw image parsed kernel initrd h h' n,
  tpm_present fw -> measure_image fw image parsed kernel initrd h = (h', Ok n) ->
  exists es, h' = h ++ es /\ n = N.of_nat (successes es).
Proof. exact image_count. Qed.
Print Assumptions C31_count.

(** The log is the same for every order of the sections in the image. *)
Theorem C31_order_independent : forall fw fw' image p p' kernel initrd h1 h1' h2 h2' r1 r2 es1 es2,
  tpm_present fw -> tpm_present fw' ->
  NoDup (pe_sections p) -> distinct_names (pe_sections p) -> Permutation (pe_sections p) (pe_sections p') ->
  measure_image fw image (Some p) kernel initrd h1 = (h1', r1) -> r1 <> Panic -> h1' = h1 ++ es1 ->
  measure_image fw' image (Some p') kernel initrd h2 = (h2', r2) -> r2 <> Panic -> h2' = h2 ++ es2 ->
  extends_of es1 = extends_of es2.
Proof. exact measure_order_independent. Qed.
Print Assumptions C31_order_independent.

Example C31_example :
  let fw := example_fw (fun _ _ => None) None true in
  let log p := extends_of (fst (measure_image fw example_image (Some p) [1; 2; 3] [4; 5] [])) in
  log example_stub_pe =
    [(11, lit ".linux" ++ [0], lit ".linux"); (11, [1; 2; 3], lit ".linux");
     (11, lit ".osrel" ++ [0], lit ".osrel"); (11, lit "ID=x", lit ".osrel");
     (11, lit ".cmdline" ++ [0], lit ".cmdline"); (11, lit "quiet", lit ".cmdline");
     (11, lit ".initrd" ++ [0], lit ".initrd"); (11, [4; 5], lit ".initrd")] /\
  log (Pe (rev (pe_sections example_stub_pe)) 0 false (Some 0)) = log example_stub_pe.
Proof. vm_compute. split; reflexivity. Qed.

(** ** C32 *)

(** [log] are the measurements, [sets] the variables.  The variable for PCR 12
    is set iff a measurement into PCR 12 succeeded; the one for PCR 13 iff one
    into PCR 13 succeeded, unless setting the former failed. *)
Theorem C32_companions_measured : forall fw l h h' r,
  tpm_present fw ->
  measure_companion_initrds fw l h = (h', r) ->
  exists log (o12 o13 : option (option status)),
    h' = h ++ log ++
         match o12 with None => [] | Some x => [EvSet (lit "StubPcrKernelParameters") systemd_vendor 6 [12; 0; 0; 0] x] end ++
         match o13 with None => [] | Some x => [EvSet (lit "StubPcrInitRDSysExts") systemd_vendor 6 [13; 0; 0; 0] x] end /\
    extends_of log = flat_map companion_log l /\
    Forall (fun e => ~ is_set e) log /\
    (o12 <> None <-> extended_ok log 12) /\
    (o13 <> None <-> extended_ok log 13 /\ forall e, o12 <> Some (Some e)).
Proof.
  intros fw l h h' r T H.
  destruct (measure_companions_run _ _ _ _ _ T H) as (es & log & sets & -> & -> & L & F & _ & _ & o12 & o13 & E & O12 & O13).
  exists log, o12, o13. split; [rewrite <- E; reflexivity|]. split.
  - rewrite extends_app in L. rewrite <- L. rewrite E. destruct o12, o13; cbn; rewrite app_nil_r; reflexivity.
  - split; [|split; [tauto|exact O13]]. eapply Forall_impl; [|exact F]. intros [] X Y; cbn in X, Y; tauto.
Qed.
Print Assumptions C32_companions_measured.

Example C32_example :
  let fw := example_fw (fun _ _ => None) None true in
  let l := [Companion SystemExtension [1]; Companion Credentials [2]; Companion GlobalCredentials [3]] in
  extends_of (fst (measure_companion_initrds fw l [])) =
    [(13, [1], lit "System extension initrd"); (12, [2], lit "Credentials initrd");
     (12, [3], lit "Global credentials initrd")].
Proof. vm_compute. reflexivity. Qed.

(** The number returned is that of the measurements which succeeded. *)
Theorem C32_count : forall fw l h h' n,
  tpm_present fw -> measure_companion_initrds fw l h = (h', Ok n) ->
  exists es, h' = h ++ es /\ n = N.of_nat (successes es).
Proof. exact companions_count. Qed.
Print Assumptions C32_count.

Example C31_count_ex :
  let fw := example_fw (fun _ _ => None) None true in
  snd (measure_image fw example_image (Some example_stub_pe) [1; 2; 3] [4; 5] []) = Ok 8 /\
  snd (measure_companion_initrds fw [Companion Credentials [1]; Companion PcrPublicKey [2]; Companion SystemExtension [3]] []) = Ok 2.
Proof. vm_compute. split; reflexivity. Qed.

(** ** C33 *)
Theorem C33_measured_before_start : forall fw sha pm parse image path h' r before img entry,
  stub_main fw sha pm parse image path [] = (h', r) -> started h' before img entry ->
  tpm_works fw -> exists p cs initrd kernel served,
    pm image = Some p /\
    image_load (fun _ => None) (parse kernel) kernel = Ok (img, entry) /\
    last_such serves_initrd before (EvInstall PLoadFile2 served None) /\
    layout4 (initrd :: map co_cpio cs) served /\
    In (EvExtend 11 kernel (lit ".linux") None) before /\
    In (EvExtend 11 initrd (lit ".initrd") None) before /\
    (forall n, In n canonical_sections -> (0 < occurrences (pe_sections p) n)%nat ->
       exists d, measured_data image (pe_sections p) kernel initrd n d /\
         In (EvExtend 11 (n ++ [0]) n None) before /\ In (EvExtend 11 d n None) before) /\
    (forall c, In c cs ->
       exists s, In (EvExtend (match co_type c with SystemExtension => 13 | _ => 12 end) (co_cpio c) s None) before).
Proof. exact started_measured. Qed.
Print Assumptions C33_measured_before_start.

Example C33_example :
  tpm_works (example_fw (fun _ _ => None) None true) /\
  map (fun x => (fst (fst x), snd x)) (extends_of (fst (example_run None None))) =
    [(11, lit ".linux"); (11, lit ".linux"); (11, lit ".osrel"); (11, lit ".osrel");
     (11, lit ".cmdline"); (11, lit ".cmdline"); (11, lit ".initrd"); (11, lit ".initrd");
     (12, lit "Credentials initrd"); (13, lit "System extension initrd")].
Proof. split; [split; [intros h|intros h p d]; reflexivity|]. vm_compute. reflexivity. Qed.

(** ** C34 *)
Theorem C34_initrd_layout : forall fw sha pm parse image path h' r before img entry,
  stub_main fw sha pm parse image path [] = (h', r) -> started h' before img entry ->
  exists p cs initrd,
    pm image = Some p /\ section_contents image (pe_sections p) (lit ".initrdh") (sha initrd) /\
    exists served, last_such serves_initrd before (EvInstall PLoadFile2 served None) /\
      layout4 (initrd :: map co_cpio cs) served /\ Forall measured_kind cs.
Proof. exact started_initrd. Qed.
Print Assumptions C34_initrd_layout.

(** The assembly itself, for arbitrary pieces; every piece starts at a multiple
    of 4. *)
Theorem C34_assembly : forall initrd ds, layout4 (initrd :: ds) (assemble_initrd initrd ds).
Proof. exact assemble_layout. Qed.
Print Assumptions C34_assembly.

Theorem C34_pieces_aligned : forall before d after x,
  layout4 (before ++ d :: after) x ->
  exists a z rest, x = a ++ d ++ z ++ rest /\ layout4 before a /\ layout4 after rest /\
    (exists q, length a = 4 * q)%nat /\ (length z < 4)%nat /\ Forall (eq 0) z.
Proof. exact layout4_split. Qed.
Print Assumptions C34_pieces_aligned.

Example C34_example :
  assemble_initrd [1; 2; 3; 4; 5] [[6]; []; [7; 8; 9; 10]] =
    [1; 2; 3; 4; 5; 0; 0; 0; 6; 0; 0; 0; 7; 8; 9; 10].
Proof. vm_compute. reflexivity. Qed.

(** ** C41 (second half) *)

(** Exactly one allocation precedes the start of the kernel; after it returns
    the same number of pages, the least that hold the image, is freed. *)
Theorem C41_freed : forall fw sha pm parse image path h' r before img entry,
  stub_main fw sha pm parse image path [] = (h', r) -> started h' before img entry ->
  N.of_nat (length img) < 2 ^ 64 ->
  exists st n freed after,
    h' = before ++ EvStart img entry st :: EvFree n freed :: after /\
    least_pages (N.of_nat (length img)) n /\
    last_such allocates before (EvAlloc n None) /\
    length (filter (fun e => match e with EvAlloc _ _ => true | _ => false end) before) = 1%nat /\
    Forall (fun e => ~ is_start e) after.
Proof. exact started_freed. Qed.
Print Assumptions C41_freed.

(** ** C43 *)

(** All writes of the three variables in any run have these values. *)
Theorem C43_values : forall fw sha pm parse image path h' r,
  stub_main fw sha pm parse image path [] = (h', r) -> Forall pcr_variable_value h'.
Proof. exact stub_pcr_values. Qed.
Print Assumptions C43_values.

(** Only the first is the decimal number as UTF-16 text. *)
Theorem C43_kernel_image : ascii16 (dec 11) = [49; 0; 49; 0].
Proof. reflexivity. Qed.
Print Assumptions C43_kernel_image.

Definition C43_claim : Prop := forall fw sha pm parse image path h' r n v a d x pcr,
  stub_main fw sha pm parse image path [] = (h', r) -> In (EvSet n v a d x) h' ->
  In (n, pcr) [(lit "StubPcrKernelImage", 11); (lit "StubPcrKernelParameters", 12); (lit "StubPcrInitRDSysExts", 13)] ->
  d = ascii16 (dec pcr).
Lemma existsb_set : forall n v a d h,
  existsb (fun e => match e with
                    | EvSet n' v' a' d' None => eqb_bytes n n' && eqb_bytes v v' && (a =? a') && eqb_bytes d d'
                    | _ => false end) h = true ->
  In (EvSet n v a d None) h.
Proof.
  intros n v a d h H. apply existsb_exists in H. destruct H as (e & He & B). destruct e as [| | |n' v' a' d' [|]| | | | | | | | | | | | | | ]; try discriminate B.
  rewrite !andb_true_iff in B. destruct B as (((B1 & B2) & B3) & B4).
  apply eqb_bytes_spec in B1, B2, B4. apply N.eqb_eq in B3. subst. exact He.
Qed.
Theorem C43_refuted : ~ C43_claim.
Proof.
  intros H.
  assert (X : [12; 0; 0; 0] = ascii16 (dec 12)); [|discriminate X].
  apply (H (example_fw (fun n _ => if eqb_bytes n (lit "SecureBoot") then None else None) None true) example_sha
    (fun _ => Some example_stub_pe) example_parse example_image (Some (lit "\s.efi"))
    (fst (example_run None None)) (snd (example_run None None))
    (lit "StubPcrKernelParameters") systemd_vendor 6 [12; 0; 0; 0] None 12).
  - unfold example_run. apply surjective_pairing.
  - apply existsb_set. vm_compute. reflexivity.
  - right; left; reflexivity.
Qed.
Print Assumptions C43_refuted.

(** ** C55 *)

(** If the stub returns after starting a kernel, it returns the kernel's status
    and has freed the memory, restored the loaded image protocol and removed
    both protocols installed for the initrd. *)
Theorem C55_restored : forall fw sha pm parse image path h' r before img entry,
  stub_main fw sha pm parse image path [] = (h', r) -> started h' before img entry ->
  r = Panic \/
  exists st n, r = match st with None => Ok tt | Some e => Err e end /\
    h' = before ++ [EvStart img entry st; EvFree n true; EvSetImage None; EvSetOptions None;
                    EvUninstall PDevicePath None; EvUninstall PLoadFile2 None].
Proof. exact started_restored. Qed.
Print Assumptions C55_restored.

Example C55_example :
  let h := fst (example_run None (Some [1])) in
  skipn (length h - 6) h =
    [EvStart [0; 3; 4; 5; 0] 2 None; EvFree 1 true; EvSetImage None; EvSetOptions None;
     EvUninstall PDevicePath None; EvUninstall PLoadFile2 None].
Proof. vm_compute. reflexivity. Qed.
