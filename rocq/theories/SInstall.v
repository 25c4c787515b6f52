(** Specification vocabulary for the installer properties. *)
From Coq Require Import List NArith Bool Permutation Sorted.
From Verif Require Import Base MText MVersion MGeneration MNames MFs MTool MInstall SNames.
Import ListNotations.
Open Scope N_scope.

(** ** Trees *)

(** [a] is [p] or an ancestor of it. *)
Definition at_or_above (a p : path) : Prop := exists r, p = a ++ r.

(** Every entry's parent is a directory (the topmost names have the root as
    their parent). *)
Definition tree_ok (m : fs) : Prop :=
  forall p n, lookup m (p ++ [n]) <> None -> p <> [] -> lookup m p = Some NDir.

(** ** Environment *)

(** No I/O errors. *)
Definition no_faults (e : env) : Prop := forall t, e_fault e t = NoFault.

(** Directory listings contain every entry, in any order. *)
Definition complete_listings (e : env) : Prop :=
  (forall t l, Permutation (e_list e t l) l) /\ (forall t l, Permutation (e_walk e t l) l).

(** Directory listings may be incomplete but invent nothing. *)
Definition honest_listings (e : env) : Prop :=
  (forall t l, incl (e_list e t l) l) /\ (forall t l, incl (e_walk e t l) l).

(** ** C05: garbage collection *)

(** [p] is to be deleted by a collection in [dir]: it is below [dir], and it or
    an ancestor inside the tree is unreferenced and meets the filter. *)
Definition garbage (m : fs) (roots : list path) (dir : path) (pred : path -> bool) (p : path) : Prop :=
  lookup m p <> None /\
  exists q, lookup m q <> None /\ at_or_above dir q /\ at_or_above q p /\ ~ In q roots /\ pred q = true.

(** ** C01: selection of links *)

(** The versions the links' names give, in the order of the links. *)
Definition links_versions (ls : list link) (vs : list (N * link)) : Prop :=
  Forall2 (fun l vl => snd vl = l /\ link_version (l_name l) = Some (fst vl)) ls vs.

(** [sel] is what a limit of [n] leaves of [all]: in ascending order, the right
    number, and nothing left out is newer. *)
Definition newest (n : N) (all sel : list (N * link)) : Prop :=
  exists skipped,
    Permutation all (skipped ++ sel) /\
    StronglySorted (fun a b => fst a <= fst b) sel /\
    (n = 0 -> skipped = []) /\
    (n <> 0 -> N.of_nat (length sel) = N.min n (N.of_nat (length all))) /\
    Forall (fun a => Forall (fun b => fst a <= fst b) sel) skipped.

(** The generations a link stands for: its own and its specialisations; none
    if its bootspec is unreadable. *)
Definition link_generations (vl : N * link) : list generation :=
  match l_spec (snd vl) with
  | Some b => let g := parse_boot_json (fst vl) (l_time (snd vl)) b in g :: g_specs g
  | None => []
  end.

(** ** States *)

(** A run that has not changed anything. *)
Definition untouched (m : fs) (s : st) : Prop := s_fs s = m /\ s_trace s = [].

(** ** The order of a run *)

(** The rest of a run: the sync, the boot loader, the collection. *)
Definition finish (e : env) (c : config) : I unit :=
  let* _ := (let* _ := iguard e in
             let* d := iget (fun s => is_dir (s_fs s) (c_esp c)) in
             if negb d then ifail else
             let* _ := iguard e in
             iemit (OSyncAll (c_esp c))) in
  let* _ := install_systemd_boot e c in
  collect_all e c.

(** ** Points of a run *)

(** Same content, whether synced or not. *)
Definition node_like (a b : option node) : Prop :=
  match a, b with
  | None, None => True
  | Some NDir, Some NDir => True
  | Some (NFile x _), Some (NFile y _) => x = y
  | _, _ => False
  end.

(** The changes [os] are what a run has made at some point; killing it there
    leaves [apply_all os m]. *)
Definition point (e : env) (c : config) (m : fs) (os : list op) : Prop :=
  exists rest, s_trace (fst (run_install e c m)) = os ++ rest.

(** The generations a run is to install: those of the selected links. *)
Definition selected (c : config) (g : generation) : Prop :=
  exists vs sel, links_versions (c_links c) vs /\ newest (c_limit c) vs sel /\ In g (flat_map link_generations sel).

Definition unreadable (vl : N * link) : Prop := l_spec (snd vl) = None.

(** ** C06: what the installer owns *)

Definition in_esp (c : config) (p : path) : path := c_esp c ++ p.

(** The boot loader's files and [loader.conf]. *)
Definition boot_paths (c : config) : list path :=
  match c_arch c with
  | X86 => [ in_esp c [lit "EFI"; lit "BOOT"; lit "BOOTX64.EFI"];
             in_esp c [lit "EFI"; lit "systemd"; lit "systemd-bootx64.efi"] ]
  | AArch64 => [ in_esp c [lit "EFI"; lit "BOOT"; lit "BOOTAA64.EFI"];
                 in_esp c [lit "EFI"; lit "systemd"; lit "systemd-bootaa64.efi"] ]
  end.
Definition conf_path (c : config) : path := in_esp c [lit "loader"; lit "loader.conf"].
Definition temporary_paths (c : config) : list path :=
  in_esp c [lit "loader"; lit "loader..tmp"] ::
  match c_arch c with
  | X86 => [ in_esp c [lit "EFI"; lit "BOOT"; lit "BOOTX64..tmp"];
             in_esp c [lit "EFI"; lit "systemd"; lit "systemd-bootx64..tmp"] ]
  | AArch64 => [ in_esp c [lit "EFI"; lit "BOOT"; lit "BOOTAA64..tmp"];
                 in_esp c [lit "EFI"; lit "systemd"; lit "systemd-bootaa64..tmp"] ]
  end.

(** Paths a run may write to or remove. *)
Inductive owned (c : config) : path -> Prop :=
| own_nixos n r : owned c (in_esp c ([lit "EFI"; lit "nixos"] ++ n :: r))
| own_linux a y r : owned c (in_esp c ([lit "EFI"; lit "Linux"] ++ a ++ (lit "nixos-" ++ y) :: r))
| own_boot p : In p (boot_paths c) -> owned c p
| own_conf : owned c (conf_path c)
| own_temporary p : In p (temporary_paths c) -> owned c p
| own_generation_lock d n r : c_pcrlock c = Some d -> owned c (d ++ lit "635-lanzaboote.pcrlock.d" :: n :: r)
| own_bootloader_lock d n r : c_pcrlock c = Some d -> owned c (d ++ lit "630-bootloader.pcrlock.d" :: n :: r).

(** ** C12, C48: entries *)

(** A name of the generation's entry: the documented stem, any boot counter,
    and [.efi].  (A specialisation name with a slash leads to a path.) *)
Definition is_entry (e : env) (c : config) (g : generation) (p : path) : Prop :=
  exists key cnt,
    sg_key (e_signer e) = Some key /\ counter (e_digit e) cnt /\
    let n := utf8_encode (stub_prefix (e_sha e) key g ++ cnt ++ lit ".efi") in
    (p = in_esp c [lit "EFI"; lit "Linux"; n] \/ p = in_esp c ([lit "EFI"; lit "Linux"] ++ components n)).

(** There is a file under the generation's name. *)
Definition has_entry (e : env) (c : config) (m : fs) (g : generation) : Prop :=
  exists p x b, is_entry e c g p /\ lookup m p = Some (NFile x b).

(** Executables: the boot loader's files and everything named [.efi] in
    EFI/Linux. *)
Definition executable (c : config) (p : path) : Prop :=
  In p (boot_paths c) \/ exists d n, p = in_esp c ([lit "EFI"; lit "Linux"] ++ d ++ [n ++ lit ".efi"]).

(** The shipped systemd-boot. *)
Definition shipped_path (c : config) : bytes :=
  c_systemd c ++ match c_arch c with
                 | X86 => lit "/lib/systemd/boot/efi/systemd-bootx64.efi"
                 | AArch64 => lit "/lib/systemd/boot/efi/systemd-bootaa64.efi"
                 end.

(** What may be signed: the shipped boot loader, and the shipped stub with
    sections added. *)
Definition to_be_signed (e : env) (c : config) (p : path) (x : bytes) : Prop :=
  if existsb (eqb_path p) (boot_paths c)
  then e_store e (components (shipped_path c)) = Some x
  else exists stub sections, e_store e (components (c_stub c)) = Some stub /\ e_objcopy e stub sections = Some x.

(** The pcrlock directory and the ESP are apart. *)
Definition separate (c : config) : Prop :=
  forall d, c_pcrlock c = Some d -> ~ at_or_above (c_esp c) d /\ ~ at_or_above d (c_esp c).

(** ** C18-C20: the boot loader *)

(** The version of an installed file; an error if there is none. *)
Definition boot_version (e : env) (m : fs) (p : path) : res unit version :=
  match lookup m p with
  | Some (NFile y _) => systemd_boot_version (e_parse e) y
  | _ => Err tt
  end.

(** The installed file is missing, has no readable version or an older one
    than the shipped binary. *)
Definition out_of_date (e : env) (shipped : option bytes) (m : fs) (p : path) : Prop :=
  present m p = false \/
  exists x v, shipped = Some x /\ systemd_boot_version (e_parse e) x = Ok v /\
    (boot_version e m p = Err tt \/ exists w, boot_version e m p = Ok w /\ version_gtb v w = true).

(** The signature of the installed file is accepted. *)
Definition verified (e : env) (m : fs) (p : path) : Prop :=
  sg_verify (e_signer e) (match lookup m p with Some (NFile y _) => Some y | _ => None end) = true.

(** The conditions under which both files are to be replaced. *)
Definition boot_needed (e : env) (c : config) (m : fs) : Prop :=
  (exists p, In p (boot_paths c) /\
     (out_of_date e (e_store e (components (shipped_path c))) m p \/ ~ verified e m p)) \/
  exists d, c_pcrlock c = Some d /\ lookup m (d ++ [lit "630-bootloader.pcrlock.d"; lit "current.pcrlock"]) = None.

(** The change puts something at [p] or removes it. *)
Definition writes (o : op) (p : path) : Prop :=
  match o with
  | OMkdir q | OCreate q | OWrite q _ | ORemove q => q = p
  | ORename a b => a = p \/ b = p
  | _ => False
  end.

(** ** C45: measurements of the boot loader *)

Definition bootloader_lock (d : path) (n : str) : path :=
  d ++ [lit "630-bootloader.pcrlock.d"; n ++ lit ".pcrlock"].

(** The component [n] is a measurement of the file at [p]. *)
Definition measured_by (lock : bytes -> option bytes) (d : path) (m : fs) (p : path) (n : str) : Prop :=
  exists y b lo b', lookup m p = Some (NFile y b) /\ lock y = Some lo /\
    lookup m (bootloader_lock d n) = Some (NFile lo b').

Definition covered (lock : bytes -> option bytes) (d : path) (m : fs) (p : path) : Prop :=
  measured_by lock d m p (lit "current") \/ measured_by lock d m p (lit "next").

(** Runs on the same machine: [lock] is what systemd-pcrlock computes, [d] the
    pcrlock directory, [ps] the boot loader's files; signing does not change
    the measurement. *)
Definition same_machine (lock : bytes -> option bytes) (d : path) (ps : list path) (e : env) (c : config) : Prop :=
  e_lock e = lock /\ c_pcrlock c = Some d /\ boot_paths c = ps /\ separate c /\ honest_listings e /\
  forall x out, sg_sign (e_signer e) x = Some out -> lock out = lock x.

(** A state reached from [m] by runs that were completed or stopped before
    replacing one of the boot loader's files. *)
Inductive between_updates (lock : bytes -> option bytes) (d : path) (ps : list path) (m : fs) : fs -> Prop :=
| bu_start : between_updates lock d ps m m
| bu_completed m1 e c : between_updates lock d ps m m1 -> same_machine lock d ps e c ->
    snd (run_install e c m1) = Ok tt -> between_updates lock d ps m (s_fs (fst (run_install e c m1)))
| bu_stopped m1 e c os : between_updates lock d ps m m1 -> same_machine lock d ps e c ->
    point e c m1 os ->
    (forall o p, In o os -> In p (bootloader_lock d (lit "current") :: ps) -> ~ writes o p) ->
    between_updates lock d ps m (apply_all os m1).

(** ** C20, C50: files that stop the tool *)

(** Reading section [n] of the file makes the tool panic: the file parses, but a
    section name before it cannot be decoded, or the section claims more data
    than it or the file has. *)
Definition section_panics (parse : bytes -> option MPe.pe) (file : bytes) (n : str) : Prop :=
  exists p pre s post,
    parse file = Some p /\ MPe.pe_sections p = pre ++ s :: post /\
    Forall (fun t => exists m, MPe.s_name t = Some m /\ m <> n) pre /\
    (MPe.s_name s = None \/
     (MPe.s_name s = Some n /\
      (MPe.s_rawsize s < MPe.s_vsize s \/ N.of_nat (length file) < MPe.s_rawptr s + MPe.s_vsize s))).

(** The file parses and its section [n] is empty. *)
Definition section_empty (parse : bytes -> option MPe.pe) (file : bytes) (n : str) : Prop :=
  exists p pre s post,
    parse file = Some p /\ MPe.pe_sections p = pre ++ s :: post /\
    Forall (fun t => exists m, MPe.s_name t = Some m /\ m <> n) pre /\
    MPe.s_name s = Some n /\ MPe.s_vsize s = 0 /\ MPe.s_rawptr s <= N.of_nat (length file).

(** The file parses and its section [n] holds [d]: the first section of that
    name, and [d] is the part of the file its header points at. *)
Definition has_section (parse : bytes -> option MPe.pe) (file : bytes) (n : str) (d : bytes) : Prop :=
  exists p pre s post before after,
    parse file = Some p /\ MPe.pe_sections p = pre ++ s :: post /\
    Forall (fun t => exists m, MPe.s_name t = Some m /\ m <> n) pre /\ MPe.s_name s = Some n /\
    MPe.s_vsize s <= MPe.s_rawsize s /\
    file = before ++ d ++ after /\ N.of_nat (length before) = MPe.s_rawptr s /\ N.of_nat (length d) = MPe.s_vsize s.

(** A file name under which the generation's entry is recognised. *)
Definition recognised (e : env) (key : bytes) (g : generation) (n : name) : Prop :=
  exists cnt, counter (e_digit e) cnt /\ utf8_decode n = Some (stub_prefix (e_sha e) key g ++ cnt ++ lit ".efi").

(** An accepted entry: it names a kernel and an initrd that are there. *)
Definition intact (e : env) (c : config) (m : fs) (key : bytes) (g : generation) : Prop :=
  exists n stub b k i kp ip,
    recognised e key g n /\ lookup m (in_esp c [lit "EFI"; lit "Linux"; n]) = Some (NFile stub b) /\
    has_section (e_parse e) stub (lit ".linux") k /\ resolve_efi_path (c_esp c) k = Ok kp /\ present m kp = true /\
    has_section (e_parse e) stub (lit ".initrd") i /\ resolve_efi_path (c_esp c) i = Ok ip /\ present m ip = true.
