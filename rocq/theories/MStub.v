(** Model of rust/uefi/stub/src/{main,common,thin}.rs and of the parts of
    rust/uefi/linux-bootloader/src/{pe_loader,linux_loader}.rs that call the
    firmware: everything the boot stub does between being started and starting
    Linux. *)
From Coq Require Import List NArith Bool.
From Verif Require Import Base MText MCpio MPe MFirmware.
Import ListNotations.
Open Scope N_scope.

(** ** common.rs *)

(** [get_load_options], common.rs:43-47. *)
Definition get_load_options (fw : firmware) : M (option bytes) :=
  o <- call (fw_open_image fw) EvOpenImage ;;
  match o with
  | Some _ => ret None
  | None => call (fw_load_options fw) EvLoadOptions
  end.

(** [get_secure_boot_status], common.rs:52-79. *)
Definition get_secure_boot_status (fw : firmware) : M bool :=
  r <- get_variable fw (lit "SecureBoot") (lit "8be4df61-93ca-11d2-aa0d-00e098032b8c") 1 ;;
  ret match r with
      | GOk [v] => negb (v =? 0)
      | GOk _ => true
      | GErr NOT_FOUND => false
      | GErr _ => true
      end.

(** [get_cmdline], common.rs:20-37.  [embedded] is [as_bytes] of the embedded
    command line. *)
Definition get_cmdline (fw : firmware) (embedded : bytes) : M bytes :=
  sb <- get_secure_boot_status fw ;;
  if sb : bool then ret embedded
  else
    o <- get_load_options fw ;;
    match o with
    | None => ret embedded
    | Some passed =>
        if eqb_bytes passed embedded then ret passed
        else
          r <- attempt (measure_boot_loader fw passed (lit "Custom user provided kernel cmdline")) ;;
          match r with
          | inl _ => ret passed
          | inr _ => ret embedded
          end
    end.

(** ** pe_loader.rs and linux_loader.rs: the firmware calls *)

(** [Image::load], pe_loader.rs:88-164, with the allocation as a firmware call.
    Without sections ([section_ends] fails or parsing fails) nothing is
    allocated. *)
Definition load_kernel (fw : firmware) (parse : bytes -> option pe) (file : bytes) : M (bytes * N) :=
  match parse file with
  | None => lift (image_load (fun _ => None) None file)
  | Some p =>
      match section_ends (pe_sections p) with
      | None => lift (image_load (fun _ => None) (Some p) file)
      | Some ends =>
          r <- call (fun h => fw_alloc fw h (bytes_to_pages (image_length ends)))
                 (EvAlloc (bytes_to_pages (image_length ends))) ;;
          lift (image_load (fun _ => r) (Some p) file)
      end
  end.

(** [Image::start], pe_loader.rs:178-225.  A kernel that never returns is a run
    whose history ends at [EvStart]. *)
Definition start_kernel (fw : firmware) (image : bytes) (entry : N) (load_options : bytes)
  : M (option status) :=
  o <- call (fw_open_image fw) EvOpenImage ;;
  _ <- match o with None => ret tt | Some _ => panic end ;;
  _ <- call (fun _ => tt) (fun _ => EvSetImage (Some image)) ;;
  _ <- (if two32 <=? len load_options then panic else ret tt) ;;
  _ <- call (fun _ => tt) (fun _ => EvSetOptions (Some load_options)) ;;
  s <- call (fw_kernel fw) (EvStart image entry) ;;
  f <- call (fun h => fw_free fw h (bytes_to_pages (len image))) (EvFree (bytes_to_pages (len image))) ;;
  _ <- (if f : bool then ret tt else panic) ;;
  _ <- call (fun _ => tt) (fun _ => EvSetImage None) ;;
  _ <- call (fun _ => tt) (fun _ => EvSetOptions None) ;;
  ret s.

(** [InitrdLoader::new], linux_loader.rs:123-157: the device path and the
    initrd are both offered on the stub's own handle. *)
Definition initrd_loader_new (fw : firmware) (initrd : bytes) : M unit :=
  a <- call (fun h => fw_install fw h PDevicePath) (EvInstall PDevicePath device_path_protocol) ;;
  _ <- check a ;;
  b <- call (fun h => fw_install fw h PLoadFile2) (EvInstall PLoadFile2 initrd) ;;
  check b.

(** [InitrdLoader::uninstall], linux_loader.rs:159-183, and the drop after it
    (lines 186-191): if a step fails, [registered] is still set and the drop's
    assertion panics. *)
Definition initrd_loader_uninstall (fw : firmware) : M unit :=
  expect (a <- call (fun h => fw_uninstall fw h PDevicePath) (EvUninstall PDevicePath) ;;
          _ <- check a ;;
          b <- call (fun h => fw_uninstall fw h PLoadFile2) (EvUninstall PLoadFile2) ;;
          check b).

(** [boot_linux_unchecked], common.rs:85-99. *)
Definition boot_linux_unchecked (fw : firmware) (parse : bytes -> option pe)
  (kernel cmdline initrd : bytes) : M unit :=
  k <- expect (load_kernel fw parse kernel) ;;
  _ <- initrd_loader_new fw initrd ;;
  s <- start_kernel fw (fst k) (snd k) cmdline ;;
  _ <- initrd_loader_uninstall fw ;;
  check s.

(** ** thin.rs *)

(** [CString16::try_from(&str)] (thin.rs:28), a library function: every
    character must fit into 16 bits and not be NUL. *)
Definition cstr16 (s : str) : option str :=
  if forallb (fun c => (0 <? c) && (c <? 65536)) s then Some s else None.

(** [CStr16::as_bytes] (common.rs:27,36): little-endian with the final NUL. *)
Definition cstr16_bytes (s : str) : bytes := le16 (s ++ [0]).

(** [extract_string], thin.rs:24-30. *)
Definition extract_string (image : bytes) (secs : list section) (n : str) : res status str :=
  bind (section_data image secs n) (fun d =>
    match d with
    | None => Err INVALID_PARAMETER
    | Some d =>
        match utf8_decode d with
        | None => Err INVALID_PARAMETER
        | Some s => ok_or (cstr16 s) INVALID_PARAMETER
        end
    end).

(** [extract_hash], thin.rs:33-41. *)
Definition extract_hash (image : bytes) (secs : list section) (n : str) : res status bytes :=
  bind (section_data image secs n) (fun d =>
    match d with
    | Some d => if len d =? 32 then Ok d else Err INVALID_PARAMETER
    | None => Err INVALID_PARAMETER
    end).

(** [check_hash], thin.rs:88-95. *)
Definition check_hash (sha256 : bytes -> bytes) (data expected : bytes) : M unit :=
  if eqb_bytes (sha256 data) expected then ret tt else fail SECURITY_VIOLATION.

(** [struct UkiComponents], thin.rs:12-21. *)
Record components := Components { k_kernel : bytes; k_initrd : bytes; k_cmdline : str }.

(** [load_from_pe], thin.rs:44-82. *)
Definition load_from_pe (fw : firmware) (sha256 : bytes -> bytes) (image : bytes) (parsed : option pe)
  : M components :=
  match parsed with
  | None => fail INVALID_PARAMETER
  | Some p =>
      let secs := pe_sections p in
      kernel_filename <- lift (extract_string image secs (lit ".linux")) ;;
      kernel_hash <- lift (extract_hash image secs (lit ".linuxh")) ;;
      initrd_filename <- lift (extract_string image secs (lit ".initrd")) ;;
      initrd_hash <- lift (extract_hash image secs (lit ".initrdh")) ;;
      cmdline <- lift (extract_string image secs (lit ".cmdline")) ;;
      f <- call (fw_image_fs fw) EvFs ;;
      _ <- (if f : bool then ret tt else panic) ;;
      kernel <- call (fun h => fs_read (fw_files fw h) kernel_filename) (EvRead kernel_filename) ;;
      kernel_data <- match kernel with Some d => ret d | None => panic end ;;
      initrd <- call (fun h => fs_read (fw_files fw h) initrd_filename) (EvRead initrd_filename) ;;
      initrd_data <- match initrd with Some d => ret d | None => panic end ;;
      _ <- get_secure_boot_status fw ;;
      _ <- check_hash sha256 kernel_data kernel_hash ;;
      _ <- check_hash sha256 initrd_data initrd_hash ;;
      ret (Components kernel_data initrd_data cmdline)
  end.

(** [v.resize(v.len().next_multiple_of(4), 0)] (thin.rs:112,119). *)
Definition pad_to_4 (l : bytes) : bytes := l ++ repeat 0 (N.to_nat ((4 - len l mod 4) mod 4)).

(** The loop over the dynamic initrds, thin.rs:113-120. *)
Definition assemble_initrd (initrd : bytes) (dynamic : list bytes) : bytes :=
  fold_left (fun acc d => pad_to_4 (acc ++ d)) dynamic (pad_to_4 initrd).

(** [boot_linux], thin.rs:97-123. *)
Definition boot_linux (fw : firmware) (parse : bytes -> option pe) (k : components) (dynamic : list bytes)
  : M unit :=
  cmdline <- get_cmdline fw (cstr16_bytes (k_cmdline k)) ;;
  boot_linux_unchecked fw parse (k_kernel k) cmdline (assemble_initrd (k_initrd k) dynamic).

(** ** main.rs *)

(** One discovery function run against the file system (main.rs:97-121). *)
Definition discover {A} (fw : firmware) (f : efs -> res unit A) : M A := fun h =>
  (h ++ [EvDiscover],
   match f (fw_files fw h) with
   | Ok a => Ok a
   | Err _ => Err LOAD_ERROR
   | Panic => Panic
   end).

(** The companion block, main.rs:84-145: the companion initrds found and
    measured. *)
Definition companions_block (fw : firmware) (is_tpm_available : bool) (image_path : option str)
  : M (list companion) :=
  f <- call (fw_image_fs fw) EvFs ;;
  if f : bool then
    dropin <- match image_path with
              | Some p =>
                  r <- attempt (discover fw (fun fs => dropin_directory fs (Some p))) ;;
                  ret match r with inl d => d | inr _ => None end
              | None => ret None
              end ;;
    cs <- attempt (discover fw (fun fs => discover_credentials fs dropin)) ;;
    let credentials := match cs with inl l => l | inr _ => [] end in
    extensions <- match dropin with
                  | None => ret []
                  | Some d =>
                      r <- attempt (discover fw (fun fs => discover_system_extensions fs d)) ;;
                      ret match r with inl l => l | inr _ => [] end
                  end ;;
    let companions := credentials ++ extensions in
    _ <- (if is_tpm_available
          then _ <- attempt (measure_companion_initrds fw companions) ;; ret tt
          else ret tt) ;;
    ret companions
  else ret [].

(** [STUB_NAME], main.rs:24: "lanzastub " and the crate version (1.1.0 at this
    commit, rust/uefi/Cargo.toml). *)
Definition stub_name_text : str := lit "lanzastub 1.1.0".

(** [main], main.rs:42-148, returning the status.  [image] is the memory of the
    running stub, [image_path] the text of its device path, [parse_memory] and
    [parse] goblin's parsers (with and without reading certificates). *)
Definition stub_main (fw : firmware) (sha256 : bytes -> bytes) (parse_memory parse : bytes -> option pe)
  (image : bytes) (image_path : option str) : M unit :=
  is_tpm_available <- tpm_available fw ;;
  o <- call (fw_open_image fw) EvOpenImage ;;
  _ <- match o with None => ret tt | Some _ => panic end ;;
  k <- expect (load_from_pe fw sha256 image (parse_memory image)) ;;
  _ <- (if is_tpm_available : bool
        then _ <- attempt (measure_image fw image (parse_memory image) (k_kernel k) (k_initrd k)) ;; ret tt
        else ret tt) ;;
  _ <- attempt (get_loader_features fw) ;;
  _ <- attempt (export_efi_variables fw stub_name_text) ;;
  companions <- companions_block fw is_tpm_available image_path ;;
  boot_linux fw parse k (map co_cpio companions).
