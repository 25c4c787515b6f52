(** Model of rust/tool/systemd/src/install.rs (the installer), with
    rust/tool/shared/src/gc.rs, rust/tool/systemd/src/esp.rs, pcrlock.rs and
    the signers of rust/tool/shared/src/signature.

    The installer is a function on a state that contains the file systems and
    the list of changes made so far.  Everything it depends on besides that
    state is a parameter of type [env]: file contents outside the ESP, external
    tools, the hash function, directory listing orders and I/O errors.

    Not modelled: logging, temporary directories (contents are passed on
    directly), clap's argument parsing. *)
From Coq Require Import List NArith Bool.
From Verif Require Import Base MText MOsRelease MGeneration MVersion MNames MPe MFs MTool.
Import ListNotations.
Open Scope N_scope.

(** ** Inputs *)

(** [enum Architecture], rust/tool/shared/src/architecture.rs:8-11. *)
Inductive arch := X86 | AArch64.

(** [Architecture::from_nixos_system], architecture.rs:28-34. *)
Definition from_nixos_system (s : str) : option arch :=
  if eqb_bytes s (lit "x86_64-linux") then Some X86
  else if eqb_bytes s (lit "aarch64-linux") then Some AArch64
  else None.

(** [efi_fallback_filename], architecture.rs:14-23. *)
Definition efi_fallback_filename (a : arch) : name :=
  match a with X86 => lit "BOOTX64.EFI" | AArch64 => lit "BOOTAA64.EFI" end.

(** [systemd_filename], rust/tool/systemd/src/architecture.rs:11-13. *)
Definition systemd_filename (a : arch) : name :=
  match a with X86 => lit "systemd-bootx64.efi" | AArch64 => lit "systemd-bootaa64.efi" end.

(** A generation link: its file name as text, the date of the link and the
    bootspec it leads to, [None] if missing or malformed
    (rust/tool/shared/src/generation.rs:78-87,183-208). *)
Record link := Link { l_name : option str; l_time : option date; l_spec : option bootspec }.

(** The arguments of [InstallerBuilder::new], install.rs:40-64; sources are
    path texts, the ESP and the pcrlock directory are paths. *)
Record config := Config {
  c_arch : arch; c_esp : path; c_stub : bytes; c_systemd : bytes; c_conf : bytes;
  c_limit : N; c_tries : N; c_pcrlock : option path; c_links : list link }.

(** [trait Signer], rust/tool/shared/src/signature/mod.rs:30-62:
    [get_public_key], [sign_and_copy] (the bytes it produces) and
    [verify_path] (argument [None]: no such file). *)
Record signer := Signer {
  sg_key : option bytes; sg_sign : bytes -> option bytes; sg_verify : option bytes -> bool }.

(** [EmptyKeyPair], signature/empty.rs:16-51. *)
Definition empty_signer : signer := Signer (Some (lit "unsigned")) Some (fun _ => true).

(** [LocalKeyPair], signature/local.rs:39-112, from the content of the public
    key file and what [sbsign] and [sbverify] do. *)
Definition local_signer (key : option bytes) (sbsign : bytes -> option bytes)
    (sbverify : bytes -> bool) : signer :=
  Signer key sbsign (fun f => match f with Some b => sbverify b | None => false end).

(** An I/O error of a std::fs call or of an external tool; an interrupted
    write may leave any content behind ([?] throughout install.rs). *)
Inductive fault := NoFault | Fault (left_behind : option bytes).

(** What a run depends on besides arguments and file systems: files elsewhere
    (install.rs:266-272, utils.rs:73), SHA-256 (utils.rs:74), goblin
    (pe.rs:249), objcopy (pe.rs:144), the initrd secrets appender (pe.rs:73),
    the signer (install.rs:99), systemd-pcrlock (pcrlock.rs:52), the regex
    class [\d] (install.rs:344), orders of [read_dir] (install.rs:382) and
    [WalkDir] (gc.rs:55), and I/O errors.  The last three may depend on how
    far the run is. *)
Record env := Env {
  e_store : path -> option bytes;
  e_sha : bytes -> bytes;
  e_parse : bytes -> option pe;
  e_objcopy : bytes -> list add_section -> option bytes;
  e_secrets : bytes -> bytes -> option bytes;
  e_signer : signer;
  e_lock : bytes -> option bytes;
  e_digit : N -> bool;
  e_list : nat -> list name -> list name;
  e_walk : nat -> list path -> list path;
  e_fault : nat -> fault }.

(** ** State and outcome *)

(** File systems, changes made so far, the fields [gc_roots] and [broken_gens]
    (install.rs:93-94) and the number of fallible steps so far. *)
Record st := St {
  s_fs : fs; s_trace : list op; s_roots : list path; s_broken : list N; s_tick : nat }.

(** Code of the installer ([Result<A>], install.rs:109). *)
Definition I (A : Type) := st -> st * res unit A.

(** [Ok(a)] (install.rs:173). *)
Definition iret {A} (a : A) : I A := fun s => (s, Ok a).
(** [Err(..)] (install.rs:201). *)
Definition ifail {A} : I A := fun s => (s, Err tt).
(** A panic (install.rs:280). *)
Definition ipanic {A} : I A := fun s => (s, Panic).
(** [?] and [;] (install.rs:134). *)
Definition ibind {A B} (m : I A) (k : A -> I B) : I B :=
  fun s => match m s with
           | (s', Ok a) => k a s'
           | (s', Err e) => (s', Err e)
           | (s', Panic) => (s', Panic)
           end.
Notation "'let*' x := m 'in' k" := (ibind m (fun x => k))
  (at level 200, x binder, m at level 100, k at level 200).
(** A pure result (install.rs:388). *)
Definition ilift {A} (r : res unit A) : I A := fun s => (s, r).
(** [if let Ok(..) = m] (install.rs:352) and [.ok()] (install.rs:669). *)
Definition iattempt {A} (m : I A) : I (option A) :=
  fun s => match m s with
           | (s', Ok a) => (s', Ok (Some a))
           | (s', Err _) => (s', Ok None)
           | (s', Panic) => (s', Panic)
           end.
(** Reading the state (install.rs:382, any std::fs query). *)
Definition iget {A} (f : st -> A) : I A := fun s => (s, Ok (f s)).
(** One change of the file systems (any std::fs update, e.g. install.rs:652). *)
Definition iemit (o : op) : I unit :=
  fun s => (St (apply o (s_fs s)) (s_trace s ++ [o]) (s_roots s) (s_broken s) (s_tick s), Ok tt).
(** [Roots::extend], gc.rs:26-28. *)
Definition iroots (l : list path) : I unit :=
  fun s => (St (s_fs s) (s_trace s) (l ++ s_roots s) (s_broken s) (s_tick s), Ok tt).
(** [self.broken_gens.insert], install.rs:192. *)
Definition ibroken (v : N) : I unit :=
  fun s => (St (s_fs s) (s_trace s) (s_roots s) (v :: s_broken s) (s_tick s), Ok tt).
(** [for x in l] (install.rs:206). *)
Fixpoint ifor {A} (l : list A) (f : A -> I unit) : I unit :=
  match l with
  | [] => iret tt
  | x :: l' => let* _ := f x in ifor l' f
  end.

Section Code.
Variable e : env.

(** ** std::fs *)

(** A fallible step: whether the environment makes it fail (any [?],
    e.g. install.rs:134). *)
Definition ifault : I fault :=
  fun s => (St (s_fs s) (s_trace s) (s_roots s) (s_broken s) (S (s_tick s)), Ok (e_fault e (s_tick s))).
(** Fail if the environment says so (any [?], e.g. install.rs:134). *)
Definition iguard : I unit :=
  let* f := ifault in match f with NoFault => iret tt | Fault _ => ifail end.

(** [Path::exists] (install.rs:363,404,597,681): errors count as "no". *)
Definition iexists (p : path) : I bool :=
  let* f := ifault in
  match f with
  | NoFault => iget (fun s => present (s_fs s) p)
  | Fault _ => iret false
  end.

(** [Path::is_dir] (gc.rs:69): errors count as "no". *)
Definition iis_dir (p : path) : I bool :=
  let* f := ifault in
  match f with
  | NoFault => iget (fun s => is_dir (s_fs s) p)
  | Fault _ => iret false
  end.

(** [fs::read] of a file on the ESP (install.rs:395, version.rs:32,
    utils.rs:74). *)
Definition iread (p : path) : I bytes :=
  let* _ := iguard in
  let* n := iget (fun s => lookup (s_fs s) p) in
  match n with Some (NFile c _) => iret c | _ => ifail end.

(** [fs::read] of a file elsewhere (install.rs:266, utils.rs:74), given its
    content if it is readable. *)
Definition isource (c : option bytes) : I bytes :=
  let* _ := iguard in ilift (ok_or c tt).

(** [File::create] (install.rs:643); also the start of [fs::copy]
    (empty.rs:22) and of the external tools' output. *)
Definition icreate (p : path) : I unit :=
  let* _ := iguard in
  let* ok := iget (fun s => is_dir (s_fs s) (parent p) && negb (is_dir (s_fs s) p)) in
  if ok then iemit (OCreate p) else ifail.

(** Writing a whole file (install.rs:645).  An error may leave any content. *)
Definition iwrite (p : path) (c : bytes) : I unit :=
  let* f := ifault in
  match f with
  | NoFault => iemit (OWrite p c)
  | Fault (Some c') => let* _ := iemit (OWrite p c') in ifail
  | Fault None => ifail
  end.

(** [sync_all] (install.rs:648-650). *)
Definition isync (p : path) : I unit := let* _ := iguard in iemit (OSync p).

(** [fs::rename] of a file (install.rs:502,585,652). *)
Definition irename (a b : path) : I unit :=
  let* _ := iguard in
  let* ok := iget (fun s => match lookup (s_fs s) a with
                            | Some (NFile _ _) => is_dir (s_fs s) (parent b) && negb (is_dir (s_fs s) b)
                            | _ => false
                            end) in
  if ok then iemit (ORename a b) else ifail.

(** [fs::create_dir_all] (install.rs:669), from the top; ends early at the
    first failure. *)
Fixpoint imkdirs (done rest : path) : I unit :=
  match rest with
  | [] => iret tt
  | n :: rest' =>
      let p := done ++ [n] in
      let* d := iget (fun s => is_dir (s_fs s) p) in
      if d then imkdirs p rest'
      else
        let* _ := iguard in
        let* ok := iget (fun s => is_dir (s_fs s) done && negb (present (s_fs s) p)) in
        if ok then let* _ := iemit (OMkdir p) in imkdirs p rest' else ifail
  end.

(** [ensure_parent_dir], install.rs:667-671. *)
Definition ensure_parent_dir (p : path) : I unit :=
  let* _ := iattempt (imkdirs [] (parent p)) in iret tt.

(** [set_permission_bits], install.rs:657-664. *)
Definition set_permission_bits (p : path) : I unit :=
  let* _ := iguard in
  let* _ := iguard in
  let* ok := iget (fun s => present (s_fs s) p) in
  if ok then iemit (OChmod p) else ifail.

(** [Path::with_extension(".tmp")] on a file name (install.rs:580,639): what
    follows the last dot is replaced, and two dots result.  A name whose only
    dot comes first counts as having no extension. *)
Fixpoint file_stem (n : name) : name :=
  match n with
  | [] => []
  | c :: n' => if existsb (N.eqb 46) n' then c :: file_stem n'
               else if c =? 46 then [] else c :: n'
  end.
(** As cited above. *)
Definition tmp_name (n : name) : name :=
  match file_stem n with [] => n ++ lit "..tmp" | s => s ++ lit "..tmp" end.
(** As cited above, on a path. *)
Definition tmp_path (p : path) : path :=
  match rev p with
  | [] => []
  | n :: r => rev r ++ [tmp_name n]
  end.

(** ** Copying files *)

(** [atomic_copy], install.rs:638-654. *)
Definition atomic_copy (from : option bytes) (to : path) : I unit :=
  let tmp := tmp_path to in
  let* c := isource from in
  let* _ := icreate tmp in
  let* _ := iwrite tmp c in
  let* _ := isync tmp in
  irename tmp to.

(** [force_install], install.rs:610-617. *)
Definition force_install (from : option bytes) (to : path) : I unit :=
  let* _ := ensure_parent_dir to in
  let* _ := atomic_copy from to in
  set_permission_bits to.

(** [install], install.rs:596-601. *)
Definition install_file (from : option bytes) (to : path) : I unit :=
  let* ex := iexists to in
  let* differs :=
    (if ex then
       let* a := isource from in
       let* b := iread to in
       iret (negb (eqb_bytes (e_sha e a) (e_sha e b)))
     else iret true) in
  if differs then force_install from to else iret tt.

(** [Signer::sign_and_copy] with output file [to]: signature/local.rs:48-73,
    signature/empty.rs:21-30.  The signing tool may fail leaving anything. *)
Definition sign_and_copy (from : option bytes) (to : path) : I unit :=
  let* c := isource from in
  match sg_sign (e_signer e) c with
  | None => ifail
  | Some out => let* _ := icreate to in iwrite to out
  end.

(** [install_signed], install.rs:578-589. *)
Definition install_signed (from : option bytes) (to : path) : I unit :=
  let tmp := tmp_path to in
  let* _ := ensure_parent_dir tmp in
  let* _ := sign_and_copy from tmp in
  irename tmp to.

(** [lock_pe], pcrlock.rs:48-65: systemd-pcrlock creates missing parents and
    the component file. *)
Definition lock_pe (binary : option bytes) (component : path) : I unit :=
  let* c := isource binary in
  match e_lock e c with
  | None => ifail
  | Some out =>
      let* _ := ensure_parent_dir component in
      let* _ := icreate component in
      iwrite component out
  end.

(** ** Garbage collection *)

(** [fs::remove_dir_all] (gc.rs:71): children before parents.  The order among
    the entries is the reverse of a walk. *)
Definition remove_dir_all (p : path) : I unit :=
  let* s := iget (fun s => s) in
  ifor (rev (e_walk e (s_tick s) (filter (below p) (fs_paths (s_fs s)))))
    (fun q => let* _ := iguard in iemit (ORemove q)).

(** [Roots::collect_garbage_with_filter], gc.rs:46-80.  The walk lists the tree
    as it is at the start; entries that are gone when their turn comes are
    skipped by the failing removal (gc.rs:74-75). *)
Definition collect_garbage_with_filter (dir : path) (predicate : path -> bool) : I unit :=
  let* s := iget (fun s => s) in
  ifor (e_walk e (s_tick s) (filter (below dir) (fs_paths (s_fs s))))
    (fun p =>
       if existsb (eqb_path p) (s_roots s) then iret tt              (* 57 *)
       else if negb (predicate p) then iret tt                       (* 58-61 *)
       else
         let* d := iis_dir p in
         if d then remove_dir_all p                                  (* 69-72 *)
         else                                                        (* 73-76 *)
           let* f := ifault in
           let* here := iget (fun s => match lookup (s_fs s) p with
                                       | Some (NFile _ _) => true
                                       | _ => false
                                       end) in
           match f with
           | NoFault => if here then iemit (ORemove p) else iret tt
           | Fault _ => iret tt
           end).

(** ** The installer *)

Variable c : config.

(** [SystemdEspPaths::new], esp.rs:23-44. *)
Definition d_efi : path := c_esp c ++ [lit "EFI"].
Definition d_nixos : path := d_efi ++ [lit "nixos"].        (** esp.rs:26 *)
Definition d_linux : path := d_efi ++ [lit "Linux"].        (** esp.rs:27 *)
Definition d_systemd : path := d_efi ++ [lit "systemd"].    (** esp.rs:28 *)
Definition d_boot : path := d_efi ++ [lit "BOOT"].          (** esp.rs:29 *)
Definition d_loader : path := c_esp c ++ [lit "loader"].    (** esp.rs:30 *)
Definition p_conf : path := d_loader ++ [lit "loader.conf"].                   (** esp.rs:31 *)
Definition p_fallback : path := d_boot ++ [efi_fallback_filename (c_arch c)].  (** esp.rs:39 *)
Definition p_systemd : path := d_systemd ++ [systemd_filename (c_arch c)].     (** esp.rs:41 *)

(** [PcrlockPaths::new] and the measurement paths, pcrlock.rs:14-38. *)
Definition d_lock_lanzaboote (d : path) : path := d ++ [lit "635-lanzaboote.pcrlock.d"].
Definition d_lock_bootloader (d : path) : path := d ++ [lit "630-bootloader.pcrlock.d"]. (** pcrlock.rs:19 *)
Definition p_lock_bootloader (d : path) (n : str) : path :=                     (** pcrlock.rs:28-30 *)
  d_lock_bootloader d ++ [n ++ lit ".pcrlock"].
Definition p_lock_generation (d : path) (tag : str) : path :=                   (** pcrlock.rs:33-35 *)
  path_join (d_lock_lanzaboote d) (utf8_encode (tag ++ lit ".pcrlock")).

(** The initial GC roots, install.rs:67-74, esp.rs:54-68, pcrlock.rs:41-43. *)
Definition initial_roots : list path :=
  [ c_esp c; d_efi; d_nixos; d_linux; d_boot; p_fallback; d_systemd; p_systemd; d_loader; p_conf ]
  ++ match c_pcrlock c with Some d => [d; d_lock_lanzaboote d] | None => [] end.

(** [get_public_key] of the signer (install.rs:546). *)
Definition get_public_key : I bytes := isource (sg_key (e_signer e)).

(** [read_installed_generation], install.rs:379-411, for the expression built
    from [prefix]. *)
Definition read_installed_generation (prefix : str) : I (path * path * path) :=
  let* _ := iguard in
  let* s := iget (fun s => s) in
  if negb (is_dir (s_fs s) d_linux) then ifail else
  match find (fun n => match utf8_decode n with
                       | Some t => stub_regex (e_digit e) prefix t
                       | None => false
                       end)
             (e_list e (s_tick s) (fs_names (s_fs s) d_linux)) with
  | None => ifail
  | Some n =>
      let stub_target := d_linux ++ [n] in
      let* stub := iread stub_target in
      let* k := ilift (read_section_data (e_parse e) stub (lit ".linux")) in
      let* k := ilift (ok_or k tt) in
      let* kernel_path := ilift (resolve_efi_path (c_esp c) k) in
      let* i := ilift (read_section_data (e_parse e) stub (lit ".initrd")) in
      let* i := ilift (ok_or i tt) in
      let* initrd_path := ilift (resolve_efi_path (c_esp c) i) in
      let* kx := iexists kernel_path in
      if negb kx then ifail else
      let* ix := iexists initrd_path in
      if negb ix then ifail else
      iret (stub_target, kernel_path, initrd_path)
  end.

(** [register_installed_generation], install.rs:336-371.  Simplification:
    building the expression (install.rs:347) does not fail. *)
Definition register_installed_generation (g : generation) : I bool :=
  let* key := get_public_key in
  let* found := iattempt (read_installed_generation (stub_prefix (e_sha e) key g)) in
  match found with
  | None => iret false
  | Some (stub_target, kernel_path, initrd_path) =>
      let* _ := iroots [stub_target; kernel_path; initrd_path] in
      match c_pcrlock c with
      | None => iret true
      | Some d =>
          let m := p_lock_generation d (version_tag g) in
          let* ex := iexists m in
          if ex then let* _ := iroots [m] in iret true else iret false
      end
  end.

(** [install_nixos_ca], install.rs:417-427. *)
Definition install_nixos_ca (from : option bytes) (label : str) : I path :=
  let* d := isource from in
  let to := path_join d_nixos
              (utf8_encode (label ++ lit "-" ++ base32 (e_sha e d) ++ lit ".efi")) in
  let* _ := iroots [to] in
  let* _ := install_file from to in
  iret to.

(** The kernel version: the last dash-separated part of the name of the
    directory containing the kernel, install.rs:245-254. *)
Definition kernel_version (kernel : bytes) : option str :=
  match rev (components kernel) with
  | _ :: d :: _ =>
      if eqb_bytes d (lit "..") then None
      else match utf8_decode d with
           | Some s => Some (last (split_on 45 s) [])
           | None => None
           end
  | _ => None
  end.

(** [assemble_kernel_cmdline], install.rs:619-627. *)
Definition assemble_kernel_cmdline (init : bytes) (params : list str) : res unit (list str) :=
  match utf8_decode init with
  | None => Panic
  | Some s => Ok ((lit "init=" ++ s) :: params)
  end.

(** The initrd to install, install.rs:264-285, as its content if readable:
    with a secrets script, what the script makes of the initrd. *)
Definition initrd_location (b : bootspec) : I (option bytes) :=
  match bs_initrd_secrets b with
  | Some script =>
      match bs_initrd b with
      | None => ifail
      | Some p =>
          let* d := isource (e_store e (components p)) in
          let* _ := iguard in                                        (* write_secure_file *)
          let* d' := isource (e_secrets e script d) in
          iret (Some d')
      end
  | None =>
      match bs_initrd b with
      | None => ipanic
      | Some p => iret (e_store e (components p))
      end
  end.

(** [install_generation], install.rs:232-330. *)
Definition install_generation (g : generation) : I unit :=
  let* done := register_installed_generation g in
  if done then iret tt else
  let* _ := iguard in                                                (* TempDir::new *)
  let b := g_spec g in
  let* kver := ilift (ok_or (kernel_version (bs_kernel b)) tt) in
  let kernel := e_store e (components (bs_kernel b)) in
  let* kernel_target := install_nixos_ca kernel (lit "kernel-" ++ kver) in
  let* initrd := initrd_location b in
  let* initrd_target := install_nixos_ca initrd (lit "initrd-" ++ kver) in
  let os_release := utf8_encode (os_release_display (os_release_of_generation g)) in
  let* cmdline := ilift (assemble_kernel_cmdline (bs_init b) (bs_params b)) in
  let* kpath := ilift (ok_or (esp_relative_uefi_path (c_esp c) kernel_target) tt) in
  let* ipath := ilift (ok_or (esp_relative_uefi_path (c_esp c) initrd_target) tt) in
  let* kd := isource kernel in
  let* id := isource initrd in
  let* stub := isource (e_store e (components (c_stub c))) in
  let* _ := iguard in                                                (* objcopy *)
  let* image := ilift (lanzaboote_image (e_parse e) (e_objcopy e) stub
                         (StubParameters cmdline os_release kpath (e_sha e kd) ipath (e_sha e id))) in
  let* _ := match c_pcrlock c with
            | Some d =>
                let m := p_lock_generation d (version_tag g) in
                let* _ := lock_pe (Some image) m in
                iroots [m]
            | None => iret tt
            end in
  let* key := get_public_key in
  let stub_target := path_join d_linux (utf8_encode (stub_name (e_sha e) key (c_tries c) g)) in
  let* _ := iroots [stub_target] in
  install_signed (Some image) stub_target.

(** [newer_systemd_boot], install.rs:679-697. *)
Definition newer_systemd_boot (from : option bytes) (to : path) : I bool :=
  let* ex := iexists to in
  if negb ex then iret true else
  let* f := isource from in
  let* from_version := ilift (systemd_boot_version (e_parse e) f) in
  let* to_version := iattempt (let* t := iread to in
                               ilift (systemd_boot_version (e_parse e) t)) in
  match to_version with
  | None => iret true
  | Some v => iret (version_gtb from_version v)
  end.

(** [verify_path] of the signer (install.rs:455-456): signature/local.rs:90-112
    (an error is one of running sbverify), signature/empty.rs:48-50. *)
Definition verify_path (p : path) : I bool :=
  let* _ := iguard in
  iget (fun s => sg_verify (e_signer e)
                   (match lookup (s_fs s) p with Some (NFile d _) => Some d | _ => None end)).

(** The shipped systemd-boot, install.rs:438-441. *)
Definition shipped_systemd_boot : option bytes :=
  e_store e (components (c_systemd c ++ lit "/lib/systemd/boot/efi/" ++ systemd_filename (c_arch c))).

(** [install_systemd_boot], install.rs:437-519. *)
Definition install_systemd_boot : I unit :=
  let from := shipped_systemd_boot in
  let* newer1 := newer_systemd_boot from p_fallback in
  let* newer := (if newer1 then iret true else newer_systemd_boot from p_systemd) in
  let* signed1 := verify_path p_fallback in
  let* signed := (if signed1 then verify_path p_systemd else iret false) in
  let* measured := match c_pcrlock c with
                   | Some d => iexists (p_lock_bootloader d (lit "current"))
                   | None => iret true
                   end in
  let* _ :=
    (if newer || negb signed || negb measured then
       let* _ := match c_pcrlock c with
                 | Some d => lock_pe from (p_lock_bootloader d (lit "next"))
                 | None => iret tt
                 end in
       let* _ := ifor [p_fallback; p_systemd] (install_signed from) in
       match c_pcrlock c with
       | Some d => irename (p_lock_bootloader d (lit "next")) (p_lock_bootloader d (lit "current"))
       | None => iret tt
       end
     else iret tt) in
  install_file (e_store e (components (c_conf c))) p_conf.

(** [Generation::from_link] with the bookkeeping of install.rs:181-195. *)
Definition generation_from_link (vl : N * link) : I (option generation) :=
  let '(v, l) := vl in
  let* f := ifault in
  match f, l_spec l with
  | NoFault, Some b => iret (Some (parse_boot_json v (l_time l) b))
  | _, _ => let* _ := ibroken v in iret None
  end.

(** The readable generations among the links, install.rs:178-197. *)
Fixpoint generations_from_links (ls : list (N * link)) : I (list generation) :=
  match ls with
  | [] => iret []
  | vl :: ls' =>
      let* o := generation_from_link vl in
      let* gs := generations_from_links ls' in
      iret (match o with Some g => g :: gs | None => gs end)
  end.

(** [install_generations_from_links], install.rs:177-225. *)
Definition install_generations_from_links (ls : list (N * link)) : I unit :=
  let* gs := generations_from_links ls in
  match gs with
  | [] => ifail                                                      (* 199-204 *)
  | _ =>
      let* _ := ifor gs (fun g =>
        let* _ := install_generation g in
        ifor (g_specs g) install_generation) in
      let* _ := iguard in                                            (* File::open *)
      let* d := iget (fun s => is_dir (s_fs s) (c_esp c)) in
      if negb d then ifail else
      let* _ := iguard in
      iemit (OSyncAll (c_esp c))
  end.

(** [GenerationLink::from_path] on every link, install.rs:112-116; the result
    pairs each link with its version. *)
Fixpoint parse_links (ls : list link) : option (list (N * link)) :=
  match ls with
  | [] => Some []
  | l :: ls' =>
      match link_version (l_name l), parse_links ls' with
      | Some v, Some r => Some ((v, l) :: r)
      | _, _ => None
      end
  end.

(** [links.sort_by_key(|l| l.version)], install.rs:119: a stable sort. *)
Fixpoint insert_link (x : N * link) (ls : list (N * link)) : list (N * link) :=
  match ls with
  | [] => [x]
  | y :: ls' => if fst x <=? fst y then x :: ls else y :: insert_link x ls'
  end.
(** As cited above. *)
Definition sort_links (ls : list (N * link)) : list (N * link) := fold_right insert_link [] ls.

(** The configuration limit, install.rs:121-133. *)
Definition limit_links (n : N) (ls : list (N * link)) : list (N * link) :=
  if 0 <? n then rev (firstn (N.to_nat n) (rev ls)) else ls.

(** The filter of the collection in EFI/Linux, install.rs:149-153. *)
Definition linux_filter (p : path) : bool :=
  match rev p with
  | n :: _ => match utf8_decode n with
              | Some t => starts_with (lit "nixos-") t
              | None => false
              end
  | [] => false
  end.

(** The garbage collection of [install], install.rs:138-172. *)
Definition collect_all : I unit :=
  let* broken := iget s_broken in
  match broken with
  | [] =>
      let* _ := collect_garbage_with_filter d_nixos (fun _ => true) in
      let* _ := collect_garbage_with_filter d_linux linux_filter in
      match c_pcrlock c with
      | Some d => collect_garbage_with_filter (d_lock_lanzaboote d) (fun _ => true)
      | None => iret tt
      end
  | _ => iret tt
  end.

(** [Installer::install], install.rs:109-174. *)
Definition install : I unit :=
  let* ls := ilift (ok_or (parse_links (c_links c)) tt) in
  let ls := limit_links (c_limit c) (sort_links ls) in
  let* _ := install_generations_from_links ls in
  let* _ := install_systemd_boot in
  collect_all.

(** The state [InstallerBuilder::build] starts from (install.rs:66-90), on a
    given file system. *)
Definition start (m : fs) : st := St m [] initial_roots [] 0.

(** A whole run (install.rs:109). *)
Definition run_install (m : fs) : st * res unit unit := install (start m).
End Code.

(** ** Command line *)

(** The choice of the signer, rust/tool/systemd/src/cli.rs:122-132: [true] is
    [EmptyKeyPair].  The arguments are the outcomes of [std::fs::exists]
    ([None]: error). *)
Definition use_empty_key_pair (allow_unsigned : bool) (public_exists private_exists : option bool) : bool :=
  allow_unsigned
  && match public_exists with None => true | Some b => negb b end
  && match private_exists with None => true | Some b => negb b end.
