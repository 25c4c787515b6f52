(** Model of the temporary files and command lines between the installer and
    the programs it runs: rust/tool/shared/src/utils.rs,
    rust/tool/shared/src/pe.rs:30-180, the commands of
    rust/tool/shared/src/signature/local.rs and rust/tool/systemd/src/pcrlock.rs,
    and what rust/tool/systemd/src/install.rs:240-325 does with them.

    [MTool] and [MInstall] pass contents on directly; here contents go through
    files with names, and programs get argument lists.  Paths are texts.

    Not modelled: logging, and the work on the ESP that install.rs does in
    between (see [MInstall]). *)
From Coq Require Import List NArith Bool.
From Verif Require Import Base MText MPe MTool.
Import ListNotations.
Open Scope N_scope.

(** A file: permission bits and content (utils.rs:34-42). *)
Record tfile := TFile { t_mode : N; t_content : bytes }.

(** The files programs can see, by path; the first entry of a path counts
    (utils.rs:45-55). *)
Definition tfs := list (bytes * tfile).

(** What is at a path ([fs::read], utils.rs:74). *)
Fixpoint tget (m : tfs) (p : bytes) : option tfile :=
  match m with
  | [] => None
  | (q, f) :: m' => if eqb_bytes q p then Some f else tget m' p
  end.

(** Its content (utils.rs:74). *)
Definition tread (m : tfs) (p : bytes) : option bytes :=
  match tget m p with Some f => Some (t_content f) | None => None end.

(** A file created or replaced (utils.rs:48-50). *)
Definition tput (p : bytes) (f : tfile) (m : tfs) : tfs := (p, f) :: m.

(** [Path::join] of a directory and a file name (utils.rs:46, pe.rs:125);
    temporary directories have no trailing slash. *)
Definition tjoin (d n : bytes) : bytes := d ++ lit "/" ++ n.

(** What the directory [d] contains (dropping a [TempDir], utils.rs:25-26,32). *)
Definition tunder (d p : bytes) : bool := starts_with (d ++ lit "/") p.

(** What can be seen from outside: a directory made, a file created with
    permission bits or cut to length zero, a file written, a program run with
    arguments, a directory removed (utils.rs:34-55, pe.rs:73,144,
    install.rs:240). *)
Inductive tev :=
| TDir (d : bytes) (mode : N)
| TCreate (p : bytes) (mode : N)
| TTruncate (p : bytes)
| TWrite (p : bytes) (content : bytes)
| TRun (program : bytes) (args : list bytes)
| TRemove (d : bytes).

(** What this code depends on: random names (utils.rs:61-68), the umask,
    programs ([None]: it could not be run; else the files it leaves and whether
    its status is success), SHA-256 (utils.rs:74), goblin (pe.rs:212) and I/O
    errors; an interrupted write may leave any content. *)
Record tenv := TEnv {
  te_name : nat -> bytes;
  te_umask : N;
  te_run : bytes -> list bytes -> tfs -> option (tfs * bool);
  te_sha : bytes -> bytes;
  te_parse : bytes -> option pe;
  te_fault : nat -> option (option bytes) }.

(** Files, what happened so far, random names taken and fallible steps made
    (utils.rs:45-55). *)
Record tst := TSt { ts_files : tfs; ts_log : list tev; ts_rand : nat; ts_tick : nat }.

(** Code returning [Result<A>] (utils.rs:34). *)
Definition T (A : Type) := tst -> tst * res unit A.

(** [Ok(a)] (utils.rs:54). *)
Definition tret {A} (a : A) : T A := fun s => (s, Ok a).
(** [Err(..)] (pe.rs:149). *)
Definition tfail {A} : T A := fun s => (s, Err tt).
(** A pure result (pe.rs:110). *)
Definition tlift {A} (r : res unit A) : T A := fun s => (s, r).
(** [?] and [;] (utils.rs:47). *)
Definition tbind {A B} (m : T A) (k : A -> T B) : T B :=
  fun s => match m s with
           | (s', Ok a) => k a s'
           | (s', Err e) => (s', Err e)
           | (s', Panic) => (s', Panic)
           end.
Notation "'let%' x := m 'in' k" := (tbind m (fun x => k))
  (at level 200, x binder, m at level 100, k at level 200).
(** The files as they are (utils.rs:74). *)
Definition tfiles : T tfs := fun s => (s, Ok (ts_files s)).
(** A change, recorded (utils.rs:47-50). *)
Definition tchange (e : tev) (f : tfs -> tfs) : T unit :=
  fun s => (TSt (f (ts_files s)) (ts_log s ++ [e]) (ts_rand s) (ts_tick s), Ok tt).

Section Code.
Variable e : tenv.

(** A fallible step (any [?], e.g. pe.rs:98). *)
Definition tfault : T (option (option bytes)) :=
  fun s => (TSt (ts_files s) (ts_log s) (ts_rand s) (S (ts_tick s)), Ok (te_fault e (ts_tick s))).
(** Fail if the environment says so (any [?], e.g. pe.rs:98). *)
Definition tguard : T unit :=
  let% f := tfault in match f with None => tret tt | Some _ => tfail end.

(** [tmpname], utils.rs:61-68. *)
Definition tmpname : T bytes :=
  fun s => (TSt (ts_files s) (ts_log s) (S (ts_rand s)) (ts_tick s), Ok (te_name e (ts_rand s))).

(** [create_secure_file], utils.rs:34-42: an existing file is cut to length
    zero and keeps its mode; a new one gets mode 0600 less the umask. *)
Definition create_secure_file (p : bytes) : T unit :=
  let% _ := tguard in
  let% m := tfiles in
  match tget m p with
  | Some f => tchange (TTruncate p) (tput p (TFile (t_mode f) []))
  | None => let mode := N.ldiff 384 (te_umask e) in
            tchange (TCreate p mode) (tput p (TFile mode []))
  end.

(** [write_all] to an open file (utils.rs:49-52). *)
Definition twrite_all (p : bytes) (c : bytes) : T unit :=
  let put c m := match tget m p with Some f => tput p (TFile (t_mode f) c) m | None => m end in
  let% f := tfault in
  match f with
  | None => tchange (TWrite p c) (put c)
  | Some (Some c') => let% _ := tchange (TWrite p c') (put c') in tfail
  | Some None => tfail
  end.

(** [write_secure_file], utils.rs:45-55, for the directory [d]. *)
Definition write_secure_file (d : bytes) (c : bytes) : T bytes :=
  let% n := tmpname in
  let p := tjoin d n in
  let% _ := create_secure_file p in
  let% _ := twrite_all p c in
  tret p.

(** [fs::read] (install.rs:267, pe.rs:211). *)
Definition tread_file (p : bytes) : T bytes :=
  let% _ := tguard in
  let% m := tfiles in
  tlift (ok_or (tread m p) tt).

(** [file_hash], utils.rs:73-77. *)
Definition file_hash (p : bytes) : T bytes :=
  let% c := tread_file p in tret (te_sha e c).

(** [file_size], pe.rs:234-243. *)
Definition tfile_size (p : bytes) : T N :=
  let% c := tread_file p in tret (file_size c).

(** [Command::new(program).args(args).status()?] (pe.rs:73-76,144-147) or
    [.output()?] (local.rs:59-62,109-112): whether the status is success. *)
Definition command (program : bytes) (args : list bytes) : T bool :=
  let% _ := tguard in
  let% m := tfiles in
  match te_run e program args m with
  | None => let% _ := tchange (TRun program args) (fun m => m) in tfail
  | Some (m', ok) => let% _ := tchange (TRun program args) (fun _ => m') in tret ok
  end.

(** ** Assembling an image *)

(** Hexadecimal digits of a number, as [{:x}] prints them (pe.rs:177). *)
Fixpoint hex_aux (fuel : nat) (n : N) (acc : str) : str :=
  match fuel with
  | O => acc
  | S f =>
      let acc' := hex_digit (n mod 16) :: acc in
      if n <? 16 then acc' else hex_aux f (n / 16) acc'
  end.
(** [{:#x}] (pe.rs:177). *)
Definition hex_prefixed (n : N) : str := lit "0x" ++ hex_aux (S (N.size_nat n)) n [].

(** [struct Section], pe.rs:158-162. *)
Record tsection := TSection { x_name : str; x_file : bytes; x_offset : N }.

(** [Section::to_objcopy], pe.rs:167-180. *)
Definition to_objcopy (s : tsection) : list bytes :=
  [ lit "--add-section"; utf8_encode (x_name s ++ lit "=") ++ x_file s;
    lit "--change-section-vma"; utf8_encode (x_name s ++ lit "=" ++ hex_prefixed (x_offset s)) ].

(** [wrap_in_pe], pe.rs:137-156. *)
Definition wrap_in_pe (stub : bytes) (sections : list tsection) (output : bytes) : T unit :=
  let args := flat_map to_objcopy sections ++ [stub; output] in
  let% ok := command (lit "objcopy") args in
  if ok then tret tt else tfail.

(** [struct StubParameters], pe.rs:15-28, as [new], [with_cmdline] and
    [with_os_release_contents] make it (pe.rs:31-62; the two paths at the ESP
    are [esp_relative_uefi_path] of [MNames]). *)
Record file_parameters := FileParameters {
  fp_stub : bytes; fp_kernel : bytes; fp_initrd : bytes;
  fp_cmdline : list str; fp_osrel : bytes; fp_kernel_path : str; fp_initrd_path : str }.

(** [lanzaboote_image], pe.rs:89-132. *)
Definition tlanzaboote_image (d : bytes) (sp : file_parameters) : T bytes :=
  let% cmdline_file := write_secure_file d (utf8_encode (join (lit " ") (fp_cmdline sp))) in
  let% kernel_path_file := write_secure_file d (utf8_encode (fp_kernel_path sp)) in
  let% kernel_hash := file_hash (fp_kernel sp) in
  let% kernel_hash_file := write_secure_file d kernel_hash in
  let% initrd_path_file := write_secure_file d (utf8_encode (fp_initrd_path sp)) in
  let% initrd_hash := file_hash (fp_initrd sp) in
  let% initrd_hash_file := write_secure_file d initrd_hash in
  let% os_release := write_secure_file d (fp_osrel sp) in
  let% stub := tread_file (fp_stub sp) in
  let% p := tlift (ok_or (te_parse e stub) tt) in
  let% os_release_offs := tlift (stub_offset p) in
  let% n := tfile_size os_release in
  let cmdline_offs := os_release_offs + n in
  let% n := tfile_size cmdline_file in
  let initrd_path_offs := cmdline_offs + n in
  let% n := tfile_size initrd_path_file in
  let kernel_path_offs := initrd_path_offs + n in
  let% n := tfile_size kernel_path_file in
  let initrd_hash_offs := kernel_path_offs + n in
  let% n := tfile_size initrd_hash_file in
  let kernel_hash_offs := initrd_hash_offs + n in
  let sections :=
    [ TSection (lit ".osrel") os_release os_release_offs;
      TSection (lit ".cmdline") cmdline_file cmdline_offs;
      TSection (lit ".initrd") initrd_path_file initrd_path_offs;
      TSection (lit ".linux") kernel_path_file kernel_path_offs;
      TSection (lit ".initrdh") initrd_hash_file initrd_hash_offs;
      TSection (lit ".linuxh") kernel_hash_file kernel_hash_offs ] in
  let% n := tmpname in
  let image_path := tjoin d n in
  let% _ := wrap_in_pe (fp_stub sp) sections image_path in
  tret image_path.

(** [append_initrd_secrets], pe.rs:68-86. *)
Definition append_initrd_secrets (script initrd : bytes) : T unit :=
  let% ok := command script [initrd] in
  if ok then tret tt else tfail.

(** The choice of the initrd, install.rs:264-285, for a bootspec that has
    one. *)
Definition tinitrd_location (d : bytes) (script : option bytes) (initrd : bytes) : T bytes :=
  match script with
  | Some script =>
      let% c := tread_file initrd in
      let% p := write_secure_file d c in
      let% _ := append_initrd_secrets script p in
      tret p
  | None => tret initrd
  end.

(** ** Signing and measuring *)

(** [LocalKeyPair::sign_and_copy], local.rs:48-73. *)
Definition tsign_and_copy (private public from to : bytes) : T unit :=
  let% ok := command (lit "sbsign")
               [lit "--key"; private; lit "--cert"; public; from; lit "--output"; to] in
  if ok then tret tt else tfail.

(** [LocalKeyPair::verify_path], local.rs:102-122. *)
Definition tverify_path (public p : bytes) : T bool :=
  command (lit "sbverify") [lit "--cert"; public; p].

(** [lock_pe], pcrlock.rs:48-65. *)
Definition tlock_pe (binary component : bytes) : T unit :=
  let% ok := command (lit "systemd-pcrlock") [lit "lock-pe"; binary; lit "--pcrlock"; component] in
  if ok then tret tt else tfail.

(** The measurement of an image, if there is a pcrlock directory,
    install.rs:313-319: [component] is the file's path. *)
Definition tmeasure (component : option bytes) (image : bytes) : T unit :=
  match component with Some c => tlock_pe image c | None => tret tt end.

(** ** The temporary directory *)

(** [TempDir::new] (install.rs:240; [tempfile] makes it with mode 0700 less the
    umask), the code [body] that uses it, and its removal when the variable
    goes out of scope, on every outcome including a panic (utils.rs:25-26,32). *)
Definition with_tempdir {A} (d : bytes) (body : T A) : T A :=
  let% _ := tguard in
  let% _ := tchange (TDir d (N.ldiff 448 (te_umask e))) (fun m => m) in
  fun s =>
    let '(s1, r) := body s in
    (TSt (filter (fun x => negb (tunder d (fst x))) (ts_files s1))
         (ts_log s1 ++ [TRemove d]) (ts_rand s1) (ts_tick s1), r).

(** [LocalKeyPair::sign_store_path], local.rs:75-81, in the directory [d]. *)
Definition tsign_store_path (private public d store_path : bytes) : T bytes :=
  with_tempdir d
    (let to := tjoin d (lit "signed.efi") in
     let% _ := tsign_and_copy private public store_path to in
     tread_file to).

(** [LocalKeyPair::build_and_sign_stub], local.rs:83-91. *)
Definition tbuild_and_sign_stub (private public d : bytes) (sp : file_parameters) : T bytes :=
  with_tempdir d
    (let% image := tlanzaboote_image d sp in
     let to := tjoin d (lit "signed-stub.efi") in
     let% _ := tsign_and_copy private public image to in
     tread_file to).

(** [LocalKeyPair::verify], local.rs:93-100. *)
Definition tverify (public d binary : bytes) : T bool :=
  with_tempdir d
    (let% p := write_secure_file d binary in
     tverify_path public p).

(** The part of [install_generation] that uses temporary files,
    install.rs:240-325: the initrd is copied and extended, [esp] stands for the
    work on the ESP given the initrd's location (it yields the two paths at the
    ESP and must not touch the directory), then the image is assembled,
    measured if asked for, and signed to [to]. *)
Definition tbuild (d : bytes) (script : option bytes) (initrd : bytes)
    (esp : bytes -> T (str * str)) (stub kernel : bytes) (cmdline : list str) (osrel : bytes)
    (measure : bytes -> T unit) (sign : bytes -> T unit) : T unit :=
  with_tempdir d
    (let% initrd_location := tinitrd_location d script initrd in
     let% paths := esp initrd_location in
     let% image := tlanzaboote_image d
                     (FileParameters stub kernel initrd_location cmdline osrel (fst paths) (snd paths)) in
     let% _ := measure image in
     sign image).
End Code.
