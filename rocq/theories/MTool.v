(** Model of rust/tool/shared/src/pe.rs (assembling stub images, reading
    sections) and of the version lookup of
    rust/tool/systemd/src/version.rs:31-57.

    Not modelled: goblin's PE parser and [objcopy]; they are parameters. *)
From Coq Require Import List NArith Bool.
From Verif Require Import Base MText MOsRelease MVersion MPe.
Import ListNotations.
Open Scope N_scope.

(** [.find(|s| s.name().unwrap() == section_name)], pe.rs:251-254: panics on a
    name that cannot be decoded, met before the section. *)
Fixpoint find_section (l : list section) (n : str) : res unit (option section) :=
  match l with
  | [] => Ok None
  | s :: l' =>
      match s_name s with
      | None => Panic
      | Some m => if eqb_bytes m n then Ok (Some s) else find_section l' n
      end
  end.

(** [read_section_data], pe.rs:248-261; [Ok None] is [None]. *)
Definition read_section_data (parse : bytes -> option pe) (file : bytes) (n : str)
  : res unit (option bytes) :=
  match parse file with
  | None => Ok None                                                   (* 249 *)
  | Some p =>
      bind (find_section (pe_sections p) n) (fun o =>
        match o with
        | None => Ok None
        | Some s =>
            if s_vsize s <=? s_rawsize s then                         (* 257 *)
              match slice file (s_rawptr s) (s_rawptr s + s_vsize s) with
              | Some d => Ok (Some d)
              | None => Panic                                         (* 259 *)
              end
            else Panic
        end)
  end.

(** [stub_offset] and [image_base], pe.rs:210-232, on the parsed stub.  The u32
    sum wraps as in a release build. *)
Definition stub_offset (p : pe) : res unit N :=
  match pe_image_base p with
  | None => Panic                                                     (* 229 *)
  | Some base =>
      match rev (pe_sections p) with
      | [] => Panic                                                   (* 222 *)
      | s :: _ => Ok ((s_vsize s + s_vaddr s) mod two32 + base)
      end
  end.

(** [struct StubParameters], pe.rs:13-27, with the hashes of the two store
    paths already taken (pe.rs:107,111). *)
Record stub_parameters := StubParameters {
  sp_cmdline : list str; sp_osrel : bytes;
  sp_kernel_path : str; sp_kernel_hash : bytes;
  sp_initrd_path : str; sp_initrd_hash : bytes }.

(** An argument pair for objcopy: name, content and address ([Section],
    pe.rs:158-180). *)
Definition add_section := (str * bytes * N)%type.

(** Length of a file as a u64 ([file_size], pe.rs:234-243). *)
Definition file_size (b : bytes) : N := N.of_nat (length b).

(** The sections of [lanzaboote_image], pe.rs:101-129, for a stub whose
    sections end at [offs]. *)
Definition image_sections (sp : stub_parameters) (offs : N) : list add_section :=
  let osrel := sp_osrel sp in
  let cmdline := utf8_encode (join (lit " ") (sp_cmdline sp)) in
  let initrd_path := utf8_encode (sp_initrd_path sp) in
  let kernel_path := utf8_encode (sp_kernel_path sp) in
  let initrd_hash := sp_initrd_hash sp in
  let kernel_hash := sp_kernel_hash sp in
  let cmdline_offs := offs + file_size osrel in
  let initrd_path_offs := cmdline_offs + file_size cmdline in
  let kernel_path_offs := initrd_path_offs + file_size initrd_path in
  let initrd_hash_offs := kernel_path_offs + file_size kernel_path in
  let kernel_hash_offs := initrd_hash_offs + file_size initrd_hash in
  [ (lit ".osrel", osrel, offs);
    (lit ".cmdline", cmdline, cmdline_offs);
    (lit ".initrd", initrd_path, initrd_path_offs);
    (lit ".linux", kernel_path, kernel_path_offs);
    (lit ".initrdh", initrd_hash, initrd_hash_offs);
    (lit ".linuxh", kernel_hash, kernel_hash_offs) ].

(** [lanzaboote_image], pe.rs:89-132, and [wrap_in_pe], pe.rs:137-156.
    Simplification: the temporary files between the tool and objcopy are
    their contents. *)
Definition lanzaboote_image (parse : bytes -> option pe)
    (objcopy : bytes -> list add_section -> option bytes) (stub : bytes)
    (sp : stub_parameters) : res unit bytes :=
  match parse stub with
  | None => Err tt
  | Some p => bind (stub_offset p) (fun offs =>
                ok_or (objcopy stub (image_sections sp offs)) tt)
  end.

(** The text of the [.osrel] section of systemd-boot, version.rs:38-47: it
    must end with its only NUL byte, which is dropped, or with a newline;
    panics on an empty section. *)
Definition osrel_text (d : bytes) : res unit str :=
  match rev d with
  | [] => Panic
  | c :: r =>
      if c =? 0 then
        if existsb (N.eqb 0) r then Err tt
        else ok_or (utf8_decode (rev r)) tt
      else if c =? 10 then ok_or (utf8_decode d) tt
      else Err tt
  end.

(** [SystemdVersion::from_systemd_boot_binary], version.rs:31-57, on the
    content of the file. *)
Definition systemd_boot_version (parse : bytes -> option pe) (file : bytes) : res unit version :=
  bind (read_section_data parse file (lit ".osrel")) (fun o =>
  bind (ok_or o tt) (fun d =>
  bind (osrel_text d) (fun t =>
  bind (ok_or (om_get (lit "VERSION") (os_release_parse t)) tt) (fun v =>
  ok_or (version_parse v) tt)))).
