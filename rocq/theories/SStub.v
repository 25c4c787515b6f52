(** Specifications of C28, C30-C34, C41 (freeing), C43, C55: what a run of the
    boot stub may do, as statements about the history of its firmware calls
    ([MFirmware.event]). *)
From Coq Require Import List NArith Bool.
From Verif Require Import Base MText MPe MCpio MFirmware SFirmware.
Import ListNotations.
Open Scope N_scope.

(** [d] is the contents of the first section called [n] of the PE image
    [image] in memory: the raw bytes, zero-extended to the virtual size. *)
Definition section_contents (image : bytes) (secs : list section) (n : str) (d : bytes) : Prop :=
  exists before s after,
    secs = before ++ s :: after /\ s_name s = Some n /\
    (forall s', In s' before -> s_name s' <> Some n) /\
    N.of_nat (length d) = s_vsize s /\
    (forall i, i < s_vsize s -> i < s_rawsize s ->
       nth_error d (N.to_nat i) = nth_error image (N.to_nat (s_vaddr s + i)) /\
       s_vaddr s + i < N.of_nat (length image)) /\
    (forall i, i < s_vsize s -> s_rawsize s <= i -> nth_error d (N.to_nat i) = Some 0).

(** Text in 16-bit code units with a final NUL, as bytes. *)
Fixpoint text16z (s : str) : bytes :=
  match s with [] => [0; 0] | c :: s' => c mod 256 :: c / 256 :: text16z s' end.

(** [l] followed by the least number of zero bytes that make the length a
    multiple of 4. *)
Definition padded4 (l p : bytes) : Prop :=
  exists k, (k < 4)%nat /\ p = l ++ repeat 0 k /\ (exists q, length p = 4 * q)%nat.

(** The pieces, each padded, one after the other. *)
Inductive layout4 : list bytes -> bytes -> Prop :=
| layout4_nil : layout4 [] []
| layout4_cons d p ds rest : padded4 d p -> layout4 ds rest -> layout4 (d :: ds) (p ++ rest).

(** The start of the kernel in a history, with what comes before. *)
Definition started (h : list event) (before : list event) (image : bytes) (entry : N) : Prop :=
  exists r after, h = before ++ EvStart image entry r :: after.

(** The last options / initrd / image installed before. *)
Definition last_such (P : event -> Prop) (h : list event) (e : event) : Prop :=
  P e /\ exists a b, h = a ++ e :: b /\ Forall (fun x => ~ P x) b.
Definition sets_options (e : event) : Prop := match e with EvSetOptions _ => True | _ => False end.
Definition sets_image (e : event) : Prop := match e with EvSetImage _ => True | _ => False end.
Definition serves_initrd (e : event) : Prop :=
  match e with EvInstall PLoadFile2 _ _ => True | _ => False end.
Definition reads_file (e : event) : Prop := match e with EvRead _ _ => True | _ => False end.

(** The TPM log: PCR, data and description of the successful or failed
    extend operations, in order. *)
Definition extends_of (h : list event) : list (N * bytes * str) :=
  flat_map (fun e => match e with EvExtend p d s _ => [(p, d, s)] | _ => [] end) h.

(** The sections measured, in UKI canonical order. *)
Definition canonical_sections : list str :=
  [lit ".linux"; lit ".osrel"; lit ".cmdline"; lit ".initrd"; lit ".ucode"; lit ".splash"; lit ".dtb";
   lit ".hwids"; lit ".uname"; lit ".sbat"; lit ".pcrpkey"].

Definition str_dec : forall a b : str, {a = b} + {a <> b} := list_eq_dec N.eq_dec.

(** How many sections have this name. *)
Definition occurrences (secs : list section) (n : str) : nat :=
  length (filter (fun s => match s_name s with Some m => if str_dec m n then true else false | None => false end) secs).

(** The data measured for a section. *)
Definition measured_data (image : bytes) (secs : list section) (kernel initrd : bytes) (n : str) (d : bytes) : Prop :=
  if str_dec n (lit ".linux") then d = kernel
  else if str_dec n (lit ".initrd") then d = initrd
  else section_contents image secs n d.

(** The PCR 11 log for sections with data [data]. *)
Definition pcr11_log (secs : list section) (data : str -> bytes) : list (N * bytes * str) :=
  flat_map (fun n => concat (repeat [(11, n ++ [0], n); (11, data n, n)] (occurrences secs n)))
    canonical_sections.

(** The log entry for a companion archive. *)
Definition companion_log (c : companion) : list (N * bytes * str) :=
  match co_type c with
  | Credentials => [(12, co_cpio c, lit "Credentials initrd")]
  | GlobalCredentials => [(12, co_cpio c, lit "Global credentials initrd")]
  | SystemExtension => [(13, co_cpio c, lit "System extension initrd")]
  | _ => []
  end.

(** A TPM that is there at every call, and one that in addition never fails. *)
Definition tpm_present (fw : firmware) : Prop := forall h, fw_tpm fw h = true.
Definition tpm_works (fw : firmware) : Prop :=
  tpm_present fw /\ forall h p d, fw_extend fw h p d = None.

(** A successful measurement into PCR [p]. *)
Definition extended_ok (es : list event) (p : N) : Prop :=
  exists d s, In (EvExtend p d s None) es.

(** How many measurements succeeded. *)
Definition successes (es : list event) : nat :=
  length (filter (fun e => match e with EvExtend _ _ _ None => true | _ => false end) es).

(** C30: the command line [c] chosen, with the calls [es] made to choose it. *)
Definition cmdline_choice (embedded : bytes) (es : list event) (c : bytes) : Prop :=
  exists sb, let off := sb = GOk [0] \/ sb = GErr NOT_FOUND in
  let get := EvGet (lit "SecureBoot") global_vendor 1 sb in
  (* Secure Boot *)
  (~ off /\ c = embedded /\ es = [get]) \/
  (* no load options *)
  (off /\ c = embedded /\ ((exists e, es = [get; EvOpenImage (Some e)]) \/
                           es = [get; EvOpenImage None; EvLoadOptions None])) \/
  (* the load options are the embedded command line *)
  (off /\ c = embedded /\ es = [get; EvOpenImage None; EvLoadOptions (Some embedded)]) \/
  (* other load options *)
  (exists passed, off /\ passed <> embedded /\
     ((c = passed /\ es = [get; EvOpenImage None; EvLoadOptions (Some passed); EvTpm false]) \/
      (exists r, c = match r with None => passed | Some _ => embedded end /\
         es = [get; EvOpenImage None; EvLoadOptions (Some passed); EvTpm true;
               EvExtend 4 passed (lit "Custom user provided kernel cmdline") r]))).

(** [t] is the text stored (in UTF-8) in the first section called [n]; it is
    representable in 16-bit code units without NUL. *)
Definition section_text (image : bytes) (secs : list section) (n t : str) : Prop :=
  exists d, section_contents image secs n d /\ utf8_decode d = Some t /\
    Forall (fun c => 0 < c < 65536) t.

(** The file reads in a history. *)
Definition reads_of (h : list event) : list (str * option bytes) :=
  flat_map (fun e => match e with EvRead n r => [(n, r)] | _ => [] end) h.

(** The events are a preparation: no kernel start, no allocation, nothing
    installed, the loaded image unchanged. *)
Definition changes_boot_state (e : event) : Prop :=
  match e with
  | EvStart _ _ _ | EvAlloc _ _ | EvFree _ _ | EvInstall _ _ _ | EvUninstall _ _ | EvSetImage _
  | EvSetOptions _ => True
  | _ => False
  end.

Definition allocates (e : event) : Prop := match e with EvAlloc _ _ => True | _ => False end.

(** The kinds of companions that are measured into PCR 12 or 13. *)
Definition measured_kind (c : companion) : Prop :=
  co_type c = Credentials \/ co_type c = GlobalCredentials \/ co_type c = SystemExtension.

(** Sections with the same name are the same. *)
Definition distinct_names (secs : list section) : Prop :=
  forall s1 s2, In s1 secs -> In s2 secs -> s_name s1 <> None -> s_name s1 = s_name s2 -> s1 = s2.

(** C43: the values of the PCR variables that are written. *)
Definition pcr_variable_value (e : event) : Prop :=
  match e with
  | EvSet n _ _ d _ =>
      (n = lit "StubPcrKernelImage" -> d = [49; 0; 49; 0]) /\
      (n = lit "StubPcrKernelParameters" -> d = [12; 0; 0; 0]) /\
      (n = lit "StubPcrInitRDSysExts" -> d = [13; 0; 0; 0])
  | _ => True
  end.

(** C42: all variables that are written. *)
Definition stub_write (e : event) : Prop :=
  match e with
  | EvSet n v a _ _ => v = systemd_vendor /\ a = 6 /\
      In n (loader_variables ++ [lit "StubInfo"; lit "StubFeatures"; lit "StubPcrKernelImage";
                                 lit "StubPcrKernelParameters"; lit "StubPcrInitRDSysExts"])
  | _ => True
  end.
