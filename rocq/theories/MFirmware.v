(** The boot stub's view of the firmware, and models of
    rust/uefi/linux-bootloader/src/{tpm,efivars,unified_sections,measure,linux_loader}.rs.

    The stub is a sequence of firmware calls.  A run is modelled with its
    complete history of calls ([list event], oldest first); the firmware is a
    record of functions that choose each answer from the history so far, so it
    may answer differently at every call.  Logging is not modelled. *)
From Coq Require Import List NArith Bool.
From Verif Require Import Base MText MCpio MPe.
Import ListNotations.
Open Scope N_scope.

(** Answer of [runtime::get_variable] (efivars.rs:74,133; common.rs:55). *)
Inductive gres := GOk (data : bytes) | GErr (e : status).

(** [PartitionSignature] (efivars.rs:30); the GUID is in memory order, 16 bytes. *)
Inductive signature := SigNone | SigMbr | SigGuid (g : bytes).

(** A device path node (efivars.rs:22-30): device type and sub type, and the
    signature if [HardDrive::try_from] accepts it. *)
Record dpnode := Dpnode { dp_type : N; dp_subtype : N; dp_hd : option signature }.

(** The two protocols installed for Linux (linux_loader.rs:137-149). *)
Inductive protocol := PDevicePath | PLoadFile2.

(** One firmware call with its answer.
    - [EvTpm]: open_capable_tpm2, tpm.rs:9-29
    - [EvExtend]: hash_log_extend_event, tpm.rs:54
    - [EvGet], [EvSet]: get_variable / set_variable, efivars.rs:74,156
    - [EvOpenImage]: open_protocol_exclusive::<LoadedImage>, efivars.rs:166, common.rs:44, uefi_helpers.rs:54
    - [EvLoadOptions]: load_options_as_bytes, common.rs:46
    - [EvDevicePath], [EvImageText]: efivars.rs:20,178,193-208
    - [EvFs]: get_image_file_system, thin.rs:57, main.rs:89
    - [EvRead]: FileSystem::read of kernel and initrd, thin.rs:62-67
    - [EvDiscover]: the file system accesses of one discovery function, main.rs:97-121
    - [EvAlloc], [EvFree]: pe_loader.rs:107,209
    - [EvInstall], [EvUninstall]: linux_loader.rs:137-149,165-177
    - [EvSetImage], [EvSetOptions]: set_image / set_load_options, pe_loader.rs:191-198,214-221
      ([None]: the stub's own image / the original options)
    - [EvStart]: the call of the kernel's entry point, pe_loader.rs:202. *)
Inductive event :=
| EvTpm (ok : bool)
| EvExtend (pcr : N) (data : bytes) (description : str) (r : option status)
| EvGet (name vendor : str) (size : N) (r : gres)
| EvSet (name vendor : str) (attributes : N) (data : bytes) (r : option status)
| EvOpenImage (r : option status)
| EvLoadOptions (r : option bytes)
| EvDevicePath (r : list dpnode + status)
| EvImageText (r : bytes + status)
| EvFs (ok : bool)
| EvRead (path : str) (r : option bytes)
| EvDiscover
| EvAlloc (pages : N) (r : option status)
| EvFree (pages : N) (ok : bool)
| EvInstall (p : protocol) (data : bytes) (r : option status)
| EvUninstall (p : protocol) (r : option status)
| EvSetImage (image : option bytes)
| EvSetOptions (options : option bytes)
| EvStart (image : bytes) (entry : N) (r : option status).

(** The firmware: how each call of the list above is answered. *)
Record firmware := Firmware {
  fw_tpm : list event -> bool;
  fw_extend : list event -> N -> bytes -> option status;
  fw_get : list event -> str -> str -> N -> gres;
  fw_set : list event -> str -> str -> bytes -> option status;
  fw_open_image : list event -> option status;
  fw_load_options : list event -> option bytes;
  fw_device_path : list event -> list dpnode + status;
  fw_image_text : list event -> bytes + status;
  fw_image_fs : list event -> bool;
  fw_files : list event -> efs;
  fw_alloc : list event -> N -> option status;
  fw_free : list event -> N -> bool;
  fw_install : list event -> protocol -> option status;
  fw_uninstall : list event -> protocol -> option status;
  fw_kernel : list event -> option status;
  fw_vendor : str;               (* system::firmware_vendor, efivars.rs:220 *)
  fw_revision : N;               (* system::firmware_revision, efivars.rs:221-222 *)
  fw_uefi_text : str }.          (* the text of system::uefi_revision, efivars.rs:236 *)

(** ** Sequencing *)

(** A piece of stub code: extends the history and returns a [uefi::Result] or
    panics (the shape of every function below, e.g. measure.rs:39-43). *)
Definition M (A : Type) := list event -> list event * res status A.

(** Rust's [Ok(a)], [?], [Err(e)] and panics (e.g. efivars.rs:156,159,36;
    thin.rs:58). *)
Definition ret {A} (a : A) : M A := fun h => (h, Ok a).
Definition fail {A} (e : status) : M A := fun h => (h, Err e).
Definition panic {A} : M A := fun h => (h, Panic).
Definition mbind {A B} (m : M A) (k : A -> M B) : M B := fun h =>
  match m h with
  | (h', Ok a) => k a h'
  | (h', Err e) => (h', Err e)
  | (h', Panic) => (h', Panic)
  end.
Notation "x <- m ;; k" := (mbind m (fun x => k)) (at level 61, m at next level, right associativity).

(** Running a fallible call and inspecting the result ([if let Ok], [is_ok],
    [.ok()], e.g. main.rs:109, measure.rs:81, efivars.rs:186). *)
Definition attempt {A} (m : M A) : M (A + status) := fun h =>
  match m h with
  | (h', Ok a) => (h', Ok (inl a))
  | (h', Err e) => (h', Ok (inr e))
  | (h', Panic) => (h', Panic)
  end.

(** [expect] / [unwrap] (thin.rs:58, main.rs:49,52). *)
Definition expect {A} (m : M A) : M A :=
  r <- attempt m ;; match r with inl a => ret a | inr _ => panic end.

(** [?] on the answer of a call that returns data (efivars.rs:20,198). *)
Definition answer {A} (r : A + status) : M A :=
  match r with inl a => ret a | inr e => fail e end.

(** A computation without firmware calls (e.g. efivars.rs:22-36). *)
Definition lift {A} (r : res status A) : M A := fun h => (h, r).

(** One firmware call (all of the calls listed at [event], e.g. efivars.rs:20). *)
Definition call {A} (q : list event -> A) (ev : A -> event) : M A := fun h =>
  (h ++ [ev (q h)], Ok (q h)).

(** A call that only reports an error or not ([?], e.g. efivars.rs:156). *)
Definition check (r : option status) : M unit :=
  match r with None => ret tt | Some e => fail e end.

(** ** UTF-16 *)

(** [str::encode_utf16] (tpm.rs:47, efivars.rs:180). *)
Definition utf16_char (c : N) : list N :=
  if c <? 65536 then [c]
  else [55296 + (c - 65536) / 1024; 56320 + (c - 65536) mod 1024].
(** [.encode_utf16().flat_map(|c| c.to_le_bytes())] (efivars.rs:180-181). *)
Definition le16 (l : list N) : bytes := flat_map (fun c => [c mod 256; c / 256]) l.
Definition utf16_bytes (s : str) : bytes := le16 (flat_map utf16_char s).

(** ** tpm.rs *)

(** [open_capable_tpm2], tpm.rs:9-29, as one call that works or not. *)
Definition open_capable_tpm2 (fw : firmware) : M bool := call (fw_tpm fw) EvTpm.

(** [tpm_available], tpm.rs:31-33. *)
Definition tpm_available (fw : firmware) : M bool := open_capable_tpm2 fw.

(** [tpm_log_event_ascii], tpm.rs:37-58. *)
Definition tpm_log (fw : firmware) (pcr : N) (data : bytes) (description : str) : M unit :=
  if pcr =? cu32_max then fail UNSUPPORTED
  else
    ok <- open_capable_tpm2 fw ;;
    if ok : bool then
      r <- call (fun h => fw_extend fw h pcr data) (EvExtend pcr data description) ;;
      check r
    else ret tt.

(** ** efivars.rs *)

(** [BOOT_LOADER_VENDOR_UUID], efivars.rs:43-44. *)
Definition loader_vendor : str := lit "4a67b082-0a4c-41cf-b6c7-440b29bb8c4f".

(** [BOOTSERVICE_ACCESS | RUNTIME_ACCESS] (efivars.rs:168-169): 2 and 4. *)
Definition default_attributes : N := N.lor 2 4.

(** [runtime::get_variable] and [runtime::set_variable] (efivars.rs:74,156). *)
Definition get_variable (fw : firmware) (name vendor : str) (size : N) : M gres :=
  call (fun h => fw_get fw h name vendor size) (EvGet name vendor size).
Definition set_variable (fw : firmware) (name vendor : str) (data : bytes) : M unit :=
  r <- call (fun h => fw_set fw h name vendor data) (EvSet name vendor default_attributes data) ;;
  check r.

(** [DeviceType::MEDIA] and [DeviceSubType::MEDIA_HARD_DRIVE] (efivars.rs:23-24). *)
Definition is_hard_drive (n : dpnode) : bool := (dp_type n =? 4) && (dp_subtype n =? 1).

(** The loop of [disk_get_part_uuid], efivars.rs:22-36. *)
Fixpoint part_uuid (nodes : list dpnode) : res status bytes :=
  match nodes with
  | [] => Err UNSUPPORTED
  | n :: ns =>
      if negb (is_hard_drive n) then part_uuid ns
      else match dp_hd n with
           | Some (SigGuid g) => Ok g
           | _ => part_uuid ns
           end
  end.

(** [disk_get_part_uuid], efivars.rs:19-37; the answer includes
    [loaded_image.device()] (efivars.rs:178). *)
Definition disk_get_part_uuid (fw : firmware) : M bytes :=
  r <- call (fw_device_path fw) EvDevicePath ;;
  nodes <- answer r ;;
  lift (part_uuid nodes).

(** [Guid]'s [Display] (efivars.rs:179), a library function: the first three
    fields are little-endian, lower-case hexadecimal. *)
Definition hex2 (b : N) : str := [hex_digit (b / 16); hex_digit (b mod 16)].
Definition guid_text (g : bytes) : str :=
  let h i := hex2 (nth i g 0) in
  h 3%nat ++ h 2%nat ++ h 1%nat ++ h 0%nat ++ lit "-" ++ h 5%nat ++ h 4%nat ++ lit "-" ++
  h 7%nat ++ h 6%nat ++ lit "-" ++ h 8%nat ++ h 9%nat ++ lit "-" ++
  h 10%nat ++ h 11%nat ++ h 12%nat ++ h 13%nat ++ h 14%nat ++ h 15%nat.

(** [EfiLoaderFeatures], efivars.rs:46-63: the bits with a name. *)
Definition loader_feature_bits : list N := [0; 1; 2; 3; 4; 5; 6; 7; 8; 9; 10].
(** [from_bits] (efivars.rs:93): fails if another bit is set. *)
Definition features_mask : N := fold_right (fun b a => N.lor (2 ^ b) a) 0 loader_feature_bits.
(** [u64::from_le_bytes] (efivars.rs:93). *)
Definition from_le (l : bytes) : N := fold_right (fun b a => b + 256 * a) 0 l.

(** [get_loader_features], efivars.rs:71-95. *)
Definition get_loader_features (fw : firmware) : M N :=
  r <- get_variable fw (lit "LoaderFeatures") loader_vendor 8 ;;
  match r with
  | GOk data =>
      if negb (len data =? 8) then fail BAD_BUFFER_SIZE
      else let v := from_le data in
           if N.land v features_mask =? v then ret v else fail INCOMPATIBLE_VERSION
  | GErr BUFFER_TOO_SMALL => fail BAD_BUFFER_SIZE
  | GErr _ => ret 0
  end.

(** [variable_exists], efivars.rs:131-141. *)
Definition variable_exists (fw : firmware) (name vendor : str) : M bool :=
  r <- get_variable fw name vendor 1 ;;
  match r with
  | GOk _ => ret true
  | GErr BUFFER_TOO_SMALL => ret true
  | GErr NOT_FOUND => ret false
  | GErr e => fail e
  end.

(** [ensure_efi_variable], efivars.rs:145-160. *)
Definition ensure_efi_variable (fw : firmware) (name vendor : str) (fallback : M bytes) : M unit :=
  e <- attempt (variable_exists fw name vendor) ;;
  match e with
  | inl true => ret tt
  | _ => v <- fallback ;; set_variable fw name vendor v
  end.

(** [{:02}] of a number (efivars.rs:219). *)
Definition dec2 (n : N) : str := if n <? 10 then lit "0" ++ dec n else dec n.

(** The text of [LoaderFirmwareInfo], efivars.rs:218-223. *)
Definition firmware_info (vendor : str) (revision : N) : str :=
  vendor ++ lit " " ++ dec (N.shiftr revision 16) ++ lit "." ++ dec2 (N.land revision 0xFFFFF).

(** [EfiStubFeatures], efivars.rs:97-112: the bits; only the first is reported
    (line 164). *)
Definition report_boot_partition : N := N.shiftl 1 0.
Definition pick_up_credentials : N := N.shiftl 1 1.
Definition pick_up_sysexts : N := N.shiftl 1 2.
Definition three_pcrs : N := N.shiftl 1 3.
Definition random_seed : N := N.shiftl 1 4.

(** [u64::to_le_bytes] (efivars.rs:262). *)
Definition le64 (n : N) : bytes :=
  map (fun i => N.shiftr n (8 * i) mod 256) [0; 1; 2; 3; 4; 5; 6; 7].

(** [export_efi_variables], efivars.rs:163-267. *)
Definition export_efi_variables (fw : firmware) (stub_name : str) : M unit :=
  o <- call (fw_open_image fw) EvOpenImage ;;
  _ <- check o ;;
  _ <- attempt (ensure_efi_variable fw (lit "LoaderDevicePartUUID") loader_vendor
         (g <- disk_get_part_uuid fw ;; ret (utf16_bytes (guid_text g)))) ;;
  _ <- attempt (ensure_efi_variable fw (lit "LoaderImageIdentifier") loader_vendor
         (r <- call (fw_image_text fw) EvImageText ;; answer r)) ;;
  _ <- attempt (ensure_efi_variable fw (lit "LoaderFirmwareInfo") loader_vendor
         (ret (utf16_bytes (firmware_info (fw_vendor fw) (fw_revision fw))))) ;;
  _ <- attempt (ensure_efi_variable fw (lit "LoaderFirmwareType") loader_vendor
         (ret (utf16_bytes (lit "UEFI " ++ fw_uefi_text fw)))) ;;
  _ <- attempt (set_variable fw (lit "StubInfo") loader_vendor (utf16_bytes stub_name)) ;;
  _ <- attempt (set_variable fw (lit "StubFeatures") loader_vendor (le64 report_boot_partition)) ;;
  ret tt.

(** ** unified_sections.rs *)

(** [enum UnifiedSection], unified_sections.rs:9-25. *)
Inductive unified :=
| ULinux | UOsRel | UCmdLine | UInitrd | UUcode | USplash | UDtb | UDtbAuto | UHwids | UUname
| USbat | UPcrSig | UPcrPkey.

(** The discriminants, unified_sections.rs:12-24. *)
Definition unified_index (u : unified) : N :=
  match u with
  | ULinux => 0 | UOsRel => 1 | UCmdLine => 2 | UInitrd => 3 | UUcode => 4 | USplash => 5
  | UDtb => 6 | UDtbAuto => 7 | UHwids => 8 | UUname => 9 | USbat => 10 | UPcrSig => 11
  | UPcrPkey => 12
  end.

(** [UnifiedSection::name], unified_sections.rs:66-82. *)
Definition unified_name (u : unified) : str :=
  match u with
  | ULinux => lit ".linux" | UOsRel => lit ".osrel" | UCmdLine => lit ".cmdline"
  | UInitrd => lit ".initrd" | UUcode => lit ".ucode" | USplash => lit ".splash"
  | UDtb => lit ".dtb" | UDtbAuto => lit ".dtbauto" | UHwids => lit ".hwids"
  | UUname => lit ".uname" | USbat => lit ".sbat" | UPcrSig => lit ".pcrsig"
  | UPcrPkey => lit ".pcrpkey"
  end.

(** [TryFrom<&str>], unified_sections.rs:27-47. *)
Definition unified_of (n : str) : option unified :=
  if eqb_bytes n (lit ".linux") then Some ULinux
  else if eqb_bytes n (lit ".osrel") then Some UOsRel
  else if eqb_bytes n (lit ".cmdline") then Some UCmdLine
  else if eqb_bytes n (lit ".initrd") then Some UInitrd
  else if eqb_bytes n (lit ".ucode") then Some UUcode
  else if eqb_bytes n (lit ".splash") then Some USplash
  else if eqb_bytes n (lit ".dtb") then Some UDtb
  else if eqb_bytes n (lit ".dtbauto") then Some UDtbAuto
  else if eqb_bytes n (lit ".hwids") then Some UHwids
  else if eqb_bytes n (lit ".uname") then Some UUname
  else if eqb_bytes n (lit ".sbat") then Some USbat
  else if eqb_bytes n (lit ".pcrsig") then Some UPcrSig
  else if eqb_bytes n (lit ".pcrpkey") then Some UPcrPkey
  else None.

(** [should_be_measured], unified_sections.rs:51-63. *)
Definition should_be_measured (u : unified) : bool :=
  match u with UPcrSig | UDtbAuto => false | _ => true end.

(** ** measure.rs *)

(** measure.rs:16-32. *)
Definition pcr_boot_loader : N := 4.
Definition pcr_kernel_image : N := 11.
Definition pcr_kernel_config : N := 12.
Definition pcr_sysexts : N := 13.

(** [measure_boot_loader], measure.rs:35-37. *)
Definition measure_boot_loader (fw : firmware) (data : bytes) (description : str) : M unit :=
  tpm_log fw pcr_boot_loader data description.

(** measure.rs:48-55: the unified sections to measure, in table order. *)
Definition sections_to_measure (names : list str) : list unified :=
  flat_map (fun n => match unified_of n with
                     | Some u => if should_be_measured u then [u] else []
                     | None => []
                     end) names.

(** [sort] (measure.rs:56). *)
Fixpoint insert_unified (u : unified) (l : list unified) : list unified :=
  match l with
  | [] => [u]
  | v :: l' => if unified_index v <? unified_index u then v :: insert_unified u l' else u :: l
  end.
Definition sort_unified (l : list unified) : list unified := fold_right insert_unified [] l.

(** The loop of [measure_image], measure.rs:58-91, returning the number of
    successful measurements. *)
Fixpoint measure_sections (fw : firmware) (data : bytes) (secs : list section)
  (kernel initrd : bytes) (l : list unified) : M N :=
  match l with
  | [] => ret 0
  | u :: l' =>
      section_d <- lift (section_data data secs (unified_name u)) ;;
      let d := match u with
               | ULinux => Some kernel
               | UInitrd => Some initrd
               | _ => section_d
               end in
      n <- match d with
           | None => ret 0
           | Some d =>
               a <- attempt (tpm_log fw pcr_kernel_image (utf8_encode (unified_name u) ++ [0]) (unified_name u)) ;;
               b <- attempt (tpm_log fw pcr_kernel_image d (unified_name u)) ;;
               ret ((match a with inl _ => 1 | inr _ => 0 end) + (match b with inl _ => 1 | inr _ => 0 end))
           end ;;
      m <- measure_sections fw data secs kernel initrd l' ;;
      ret (n + m)
  end.

(** [measure_image], measure.rs:39-112.  [image] is the memory of the running
    stub, [parsed] what goblin makes of it. *)
Definition measure_image (fw : firmware) (image : bytes) (parsed : option pe)
  (kernel initrd : bytes) : M N :=
  match parsed with
  | None => fail INVALID_PARAMETER
  | Some p =>
      n <- measure_sections fw image (pe_sections p) kernel initrd
             (sort_unified (sections_to_measure (section_names (pe_sections p)))) ;;
      _ <- (if 0 <? n
            then set_variable fw (lit "StubPcrKernelImage") loader_vendor (utf16_bytes (dec pcr_kernel_image))
            else ret tt) ;;
      ret n
  end.

(** [u32::to_le_bytes] (measure.rs:173,182). *)
Definition le32 (n : N) : bytes :=
  [n mod 256; n / 256 mod 256; n / 65536 mod 256; n / 16777216 mod 256].

(** The loop of [measure_companion_initrds], measure.rs:124-166: measurements,
    credentials measured, system extension measured. *)
Fixpoint measure_companions_loop (fw : firmware) (l : list companion) (m c : N) (s : bool)
  : M (N * N * bool) :=
  match l with
  | [] => ret (m, c, s)
  | Companion t b :: l' =>
      match t with
      | PcrSignature | PcrPublicKey => measure_companions_loop fw l' m c s
      | Credentials =>
          r <- attempt (tpm_log fw pcr_kernel_config b (lit "Credentials initrd")) ;;
          match r with
          | inl _ => measure_companions_loop fw l' (m + 1) (c + 1) s
          | inr _ => measure_companions_loop fw l' m c s
          end
      | GlobalCredentials =>
          r <- attempt (tpm_log fw pcr_kernel_config b (lit "Global credentials initrd")) ;;
          match r with
          | inl _ => measure_companions_loop fw l' (m + 1) (c + 1) s
          | inr _ => measure_companions_loop fw l' m c s
          end
      | SystemExtension =>
          r <- attempt (tpm_log fw pcr_sysexts b (lit "System extension initrd")) ;;
          match r with
          | inl _ => measure_companions_loop fw l' (m + 1) c true
          | inr _ => measure_companions_loop fw l' m c s
          end
      end
  end.

(** [measure_companion_initrds], measure.rs:119-187. *)
Definition measure_companion_initrds (fw : firmware) (l : list companion) : M N :=
  r <- measure_companions_loop fw l 0 0 false ;;
  let '(m, c, s) := r in
  _ <- (if 0 <? c
        then set_variable fw (lit "StubPcrKernelParameters") loader_vendor (le32 pcr_kernel_config)
        else ret tt) ;;
  _ <- (if s : bool
        then set_variable fw (lit "StubPcrInitRDSysExts") loader_vendor (le32 pcr_sysexts)
        else ret tt) ;;
  ret m.

(** ** linux_loader.rs *)

(** [DEVICE_PATH_PROTOCOL], linux_loader.rs:41-44. *)
Definition device_path_protocol : bytes :=
  [0x04; 0x03; 0x14; 0x00; 0x27; 0xe4; 0x68; 0x55; 0xfc; 0x68; 0x3d; 0x4f; 0xac; 0x74; 0xca; 0x55;
   0x52; 0x31; 0xcc; 0x68; 0x7f; 0xff; 0x04; 0x00].

(** [load_file], linux_loader.rs:66-87, seen by the caller: status, the size
    variable afterwards, and the memory at [buffer] afterwards.  [size] is
    [None] for a null pointer; [buffer] is [None] if null and otherwise the
    memory from that address on. *)
Definition load_file (initrd : bytes) (size : option N) (buffer : option bytes)
  : option status * option N * option bytes :=
  match size with
  | None => (Some INVALID_PARAMETER, None, buffer)
  | Some n =>
      match buffer with
      | None => (Some BUFFER_TOO_SMALL, Some (len initrd), None)
      | Some mem =>
          if n <? len initrd then (Some BUFFER_TOO_SMALL, Some (len initrd), Some mem)
          else (None, Some n, Some (initrd ++ skipn (length initrd) mem))
      end
  end.

(** [raw_load_file], linux_loader.rs:89-105: the function the kernel calls.
    The requested path and the boot policy are passed on and ignored; a null
    pointer becomes [None]. *)
Definition raw_load_file (initrd : bytes) (file_path : option bytes) (boot_policy : bool)
  (size : option N) (buffer : option bytes) : option status * option N * option bytes :=
  load_file initrd size buffer.
