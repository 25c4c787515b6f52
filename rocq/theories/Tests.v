(** The tests of the repository (all functions marked [#[test]]) repeated against the model.
    They are no part of any proof; they check that the model does what the code
    is known to do.  The tests use systemd's stub for all executables; here it
    is the toy executable of XWorld.v. *)
From Coq Require Import List NArith ZArith Bool.
From Verif Require Import Base MText MOsRelease MVersion MGeneration MNames MCpio MPe MFs MTool MInstall XWorld.
Import ListNotations.
Open Scope N_scope.

(** ** rust/tool/shared/src/pe.rs:266-282 *)
Example convert_to_valid_uefi_path_relative_to_esp :
  esp_relative_uefi_path (components (lit "esp")) (components (lit "esp/lanzaboote/is/great.txt")) =
    Some (lit "\lanzaboote\is\great.txt").
Proof. reflexivity. Qed.
Example convert_to_valid_uefi_path :
  uefi_path (components (lit "lanzaboote/is/great.txt")) = Some (lit "lanzaboote\is\great.txt").
Proof. reflexivity. Qed.

(** ** rust/tool/shared/src/generation.rs:229-234 *)
Example parse_link_version_correctly : link_version (Some (lit "system-2-link")) = Some 2.
Proof. reflexivity. Qed.

(** ** rust/tool/shared/src/os_release.rs:243-281 *)
Definition nl : str := [10].
Definition dq : str := [34].
Example parses_correctly_from_str :
  let m := os_release_parse (lit "ID=systemd-boot" ++ nl ++ lit "VERSION=" ++ dq ++ lit "252.1" ++ dq ++ nl) in
  om_get (lit "ID") m = Some (lit "systemd-boot") /\ om_get (lit "VERSION") m = Some (lit "252.1").
Proof. split; reflexivity. Qed.

Example escaping_works :
  let line s := repeat 32 12 ++ s ++ nl in
  let m := os_release_parse (nl ++
    line (lit "NO_QUOTES=systemd-boot") ++
    line (lit "DOUBLE_QUOTES=" ++ dq ++ lit "systemd-boot" ++ dq) ++
    line (lit "SINGLE_QUOTES='systemd-boot'") ++
    line (lit "UNESCAPED_DOLLAR=$1.2") ++
    line (lit "ESCAPED_DOLLAR=\$1.2") ++
    line (lit "UNESCAPED_BACKTICK=`1.2") ++
    line (lit "ESCAPED_BACKTICK=\`1.2") ++
    line (lit "UNESCAPED_QUOTE=" ++ dq ++ dq ++ lit "1.2" ++ dq) ++
    line (lit "ESCAPED_QUOTE=\" ++ dq ++ lit "1.2") ++ repeat 32 8) in
  map (fun k => om_get k m)
    [lit "NO_QUOTES"; lit "DOUBLE_QUOTES"; lit "SINGLE_QUOTES"; lit "UNESCAPED_DOLLAR"; lit "ESCAPED_DOLLAR";
     lit "UNESCAPED_BACKTICK"; lit "ESCAPED_BACKTICK"; lit "UNESCAPED_QUOTE"; lit "ESCAPED_QUOTE"] =
  [Some (lit "systemd-boot"); Some (lit "systemd-boot"); Some (lit "systemd-boot"); Some (lit "$1.2"); Some (lit "$1.2");
   Some (lit "`1.2"); Some (lit "`1.2"); Some (lit "1.2" ++ dq); Some (dq ++ lit "1.2")].
Proof. vm_compute. reflexivity. Qed.

(** ** rust/tool/shared/src/gc.rs:94-196 *)
Definition root : path := [lit "tmp"; lit "root"].
Definition empty_file : node := NFile [] false.
Definition collect (files : list (path * node)) (roots : list path) (pred : path -> bool) : list path :=
  map fst (s_fs (fst (collect_garbage_with_filter x_world root pred
    (St (([lit "tmp"], NDir) :: (root, NDir) :: files) [] roots [] 0)))).

Example keep_used_file :
  collect [(root ++ [lit "root_file"], empty_file)] [root; root ++ [lit "root_file"]] (fun _ => true) =
    [[lit "tmp"]; root; root ++ [lit "root_file"]].
Proof. vm_compute. reflexivity. Qed.
Example delete_unused_file :
  collect [(root ++ [lit "unused_file"], empty_file)] [root] (fun _ => true) = [[lit "tmp"]; root].
Proof. vm_compute. reflexivity. Qed.
Example delete_empty_unused_directory :
  collect [(root ++ [lit "unused_directory"], NDir)] [root] (fun _ => true) = [[lit "tmp"]; root].
Proof. vm_compute. reflexivity. Qed.
Example delete_unused_directory_with_unused_file_inside :
  collect [(root ++ [lit "unused_directory"], NDir);
           (root ++ [lit "unused_directory"; lit "unused_file_in_directory"], empty_file)] [root] (fun _ => true) =
    [[lit "tmp"]; root].
Proof. vm_compute. reflexivity. Qed.
Example keep_used_directory_with_used_and_unused_file :
  let d := root ++ [lit "used_directory"] in
  collect [(d, NDir); (d ++ [lit "used_file_in_directory"], empty_file); (d ++ [lit "unused_file_in_directory"], empty_file)]
    [root; d; d ++ [lit "used_file_in_directory"]] (fun _ => true) =
    [[lit "tmp"]; root; d; d ++ [lit "used_file_in_directory"]].
Proof. vm_compute. reflexivity. Qed.
Example only_delete_filtered_unused_files :
  collect [(root ++ [lit "unused_file"], empty_file); (root ++ [lit "prefix_unused_file"], empty_file)] [root]
    (fun p => match rev p with n :: _ => match utf8_decode n with Some t => starts_with (lit "prefix_") t | None => false end | [] => false end) =
    [[lit "tmp"]; root; root ++ [lit "unused_file"]].
Proof. vm_compute. reflexivity. Qed.

(** ** rust/tool/systemd/src/version.rs:104-126 *)
Example parse_version_correctly :
  map (fun s => version_parse s) [lit "253"; lit "252.4"; lit "251.11"; lit "251-rc7"] =
    [Some (Version 253 0 0); Some (Version 252 4 0); Some (Version 251 11 0); Some (Version 251 (-1) 7)].
Proof. reflexivity. Qed.
Example compare_version_correctly :
  let gt a b := match version_parse a, version_parse b with Some v, Some w => Some (version_gtb v w) | _, _ => None end in
  [gt (lit "253") (lit "252"); gt (lit "253") (lit "252.4"); gt (lit "251-rc5") (lit "251-rc4"); gt (lit "251") (lit "251-rc9");
   gt (lit "251.8") (lit "251.8")] = [Some true; Some true; Some true; Some true; Some false].
Proof. reflexivity. Qed.
Example fail_to_parse_version :
  map (fun s => version_parse s) [[]; lit "213;k;13"; lit "-1.3.123"] = [None; None; None].
Proof. reflexivity. Qed.

(** ** rust/uefi/pio/tests/read_write.rs:38-93 *)
Example alignment :
  let c := fst (cthen (pack_one cpio_new (lit "test.txt") (repeat 170 10) [] 0) (fun c => pack_trailer c)) in
  snd (pack_one cpio_new (lit "test.txt") (repeat 170 10) [] 0) <> Panic /\
  (N.of_nat (length (c_buffer c))) mod 4 = 0 /\ c_buffer c <> [].
Proof. vm_compute. repeat split; discriminate. Qed.
Example write_read_prefix :
  let '(c, r) := pack_prefix cpio_new (lit "a/b/c/d/e/f") 384 in
  r = Ok tt /\ firstn 6 (c_buffer c) = lit "070701" /\
  (* the first name is at offset 110 *) firstn 3 (skipn 110 (c_buffer c)) = lit "/a" ++ [0].
Proof. vm_compute. repeat split. Qed.

(** ** rust/tool/systemd/tests/integration *)

(** common.rs:49-156: the toplevel, its bootspec with one specialisation, and
    the generation links (modified at the epoch). *)
Definition store_dir (toplevel : str) : str := toplevel ++ lit "/eeeeeeeeeeeeeeeeeeeeeeeeeeeeeeee-6.1.1".
Definition t_files : list (str * bytes) :=
  [ (lit "/nix/store/lzbt/stub.efi", x_stub);
    (lit "/nix/store/systemd/lib/systemd/boot/efi/systemd-bootx64.efi", x_boot (lit "257.2"));
    (lit "/nix/store/loader.conf", lit "timeout 0\nconsole-mode 1\n") ] ++
  flat_map (fun t => [(store_dir t ++ lit "/kernel", x_stub); (store_dir t ++ lit "/initrd", x_stub)])
    [lit "/tmp/t/toplevel-1"; lit "/tmp/t/toplevel-2"; lit "/tmp/t/toplevel-3"].
Definition t_spec (toplevel : str) (v : N) (sort_key : str) (specs : list (str * bootspec)) : bootspec :=
  Bootspec (lit "init-v" ++ dec v) (Some (store_dir toplevel ++ lit "/initrd")) None (store_dir toplevel ++ lit "/kernel")
    [lit "amd_iommu=on"; lit "loglevel=4"] (lit "LanzaOS") toplevel (Some sort_key) specs.
Definition t_link (toplevel : str) (v : N) : link :=
  Link (Some (lit "system-" ++ dec v ++ lit "-link")) (Some (Date 1970 1 1))
    (Some (t_spec toplevel v (lit "lanzaboote")
             [(lit "rescue", t_spec toplevel v (lit "lanzaboote2") [])])).
Definition top1 : str := lit "/tmp/t/toplevel-1".
Definition top2 : str := lit "/tmp/t/toplevel-2".
Definition top3 : str := lit "/tmp/t/toplevel-3".

Definition t_esp : fs := [([lit "boot"], NDir)].
Definition t_run (limit : N) (links : list link) (m : fs) : st * res unit unit :=
  run_install (x_env t_files x_good) (x_config limit 0 None links) m.
Definition after (limit : N) (links : list link) (m : fs) : fs := s_fs (fst (t_run limit links m)).
Definition success (limit : N) (links : list link) (m : fs) : bool :=
  match snd (t_run limit links m) with Ok _ => true | _ => false end.
Definition boot (l : list str) : path := lit "boot" :: l.
Definition count_files (m : fs) (d : path) : nat :=
  length (filter (fun e => eqb_path (parent (fst e)) d) m).
Definition t_generation (toplevel : str) (v : N) : generation :=
  parse_boot_json v None (t_spec toplevel v (lit "lanzaboote") []).
(** common.rs:256-276 *)
Definition image_path (v : N) (toplevel : str) : path :=
  boot [lit "EFI"; lit "Linux"; stub_name x_sha x_key 0 (t_generation toplevel v)].
Definition verify_signature (m : fs) (p : path) : option bool :=
  match lookup m p with Some (NFile c _) => Some (sg_verify (x_signer x_key) (Some c)) | _ => None end.
Definition remove_signature (p : path) (m : fs) : fs :=
  match lookup m p with Some (NFile c s) => fs_insert p (NFile (x_strip x_key c) s) m | _ => m end.
Definition exists_in (m : fs) (p : path) : bool := match lookup m p with Some _ => true | None => false end.
Definition loaders : list path :=
  [boot [lit "EFI"; lit "systemd"; lit "systemd-bootx64.efi"]; boot [lit "EFI"; lit "BOOT"; lit "BOOTX64.EFI"]].

Definition node_content (n : node) : option bytes := match n with NFile c _ => Some c | NDir => None end.

(** install.rs:12-36 *)
Example do_not_install_duplicates :
  let ls := [t_link top1 1; t_link top1 2] in
  let m := after 0 ls t_esp in
  success 0 ls t_esp = true /\
  count_files m (boot [lit "EFI"; lit "Linux"]) = 4%nat /\ count_files m (boot [lit "EFI"; lit "nixos"]) = 2%nat.
Proof. vm_compute. repeat split. Qed.

(** install.rs:38-66 *)
Example do_not_overwrite_images :
  let ls := [t_link top1 1; t_link top1 2] in
  let m := after 0 ls t_esp in
  let m' := remove_signature (image_path 1 top1) m in
  let m2 := after 0 ls m' in
  success 0 ls t_esp = true /\ success 0 ls m' = true /\
  map (fun m => (verify_signature m (image_path 1 top1), verify_signature m (image_path 2 top1))) [m; m'; m2] =
    [(Some true, Some true); (Some false, Some true); (Some false, Some true)].
Proof. vm_compute. repeat split. Qed.

(** install.rs:68-94 *)
Example detect_generation_number_reuse :
  let m := after 0 [t_link top1 1] t_esp in
  let m' := after 0 [t_link top2 1] m in
  success 0 [t_link top1 1] t_esp = true /\ success 0 [t_link top2 1] m = true /\
  map (fun m => (exists_in m (image_path 1 top1), exists_in m (image_path 1 top2))) [m; m'] =
    [(true, false); (false, true)].
Proof. vm_compute. repeat split. Qed.

(** install.rs:96-123 *)
Example content_addressing_works :
  let m := after 1 [t_link top1 1] t_esp in
  success 1 [t_link top1 1] t_esp = true /\
  option_map node_content (lookup m (boot [lit "EFI"; lit "nixos"; lit "kernel-6.1.1-" ++ base32 (x_sha x_stub) ++ lit ".efi"])) =
    Some (Some x_stub).
Proof. vm_compute. repeat split. Qed.

(** gc.rs:9-46 *)
Example keep_only_configured_number_of_generations :
  let ls := [t_link top1 1; t_link top2 2; t_link top3 3] in
  let m := after 0 ls t_esp in
  let m' := after 2 ls m in
  success 0 ls t_esp = true /\ success 2 ls m = true /\
  map (fun m => (count_files m (boot [lit "EFI"; lit "Linux"]), count_files m (boot [lit "EFI"; lit "nixos"]))) [m; m'] =
    [(6, 2); (4, 2)]%nat.
Proof. vm_compute. repeat split. Qed.

(** gc.rs:48-86 *)
Example delete_garbage_kernel :
  let ls := [t_link top1 1; t_link top2 2; t_link top3 3] in
  let m := fs_insert (boot [lit "EFI"; lit "nixos"; lit "kernel-garbage.efi"]) (NFile (lit "garbage") false) (after 0 ls t_esp) in
  let m' := after 2 ls m in
  success 2 ls m = true /\
  (count_files m' (boot [lit "EFI"; lit "Linux"]), count_files m' (boot [lit "EFI"; lit "nixos"])) = (4, 2)%nat.
Proof. vm_compute. repeat split. Qed.

(** gc.rs:88-124 *)
Example keep_unrelated_files_on_esp :
  let ls := [t_link top1 1; t_link top2 2; t_link top3 3] in
  let unrelated := [(boot [lit "loader"; lit "loader.conf"], empty_file); (boot [lit "EFI"; lit "Linux"; lit "ubuntu.efi"], empty_file);
                    (boot [lit "EFI"; lit "windows"], NDir); (boot [lit "dell"], NDir)] in
  let m := fold_right (fun e m => fs_insert (fst e) (snd e) m) (after 0 ls t_esp) unrelated in
  success 2 ls m = true /\ forallb (fun e => exists_in (after 2 ls m) (fst e)) unrelated = true.
Proof. vm_compute. repeat split. Qed.

(** os_release.rs:9-35 *)
Example generate_expected_os_release :
  let m := after 0 [t_link top1 1] t_esp in
  match lookup m (image_path 1 top1) with
  | Some (NFile c _) =>
      match x_parse c with
      | Some p => section_data c (pe_sections p) (lit ".osrel") =
          Ok (Some (lit "ID=lanzaboote" ++ nl ++ lit "PRETTY_NAME=LanzaOS (Generation 1, 1970-01-01)" ++ nl ++
                    lit "VERSION_ID=Generation 1, 1970-01-01" ++ nl))
      | None => False
      end
  | _ => False
  end.
Proof. vm_compute. reflexivity. Qed.

(** systemd_boot.rs:11-46: not written again.  No operation of the second run
    concerns them. *)
Definition concerns_path (o : op) (p : path) : bool :=
  match o with
  | OMkdir q | OCreate q | OWrite q _ | OSync q | OChmod q | ORemove q => eqb_path p q
  | ORename a b => eqb_path p a || eqb_path p b
  | OSyncAll _ => false
  end.
Example keep_systemd_boot_binaries :
  let m := after 0 [t_link top1 1] t_esp in
  let second := t_run 0 [t_link top1 1] m in
  forallb (exists_in m) loaders = true /\ snd second = Ok tt /\
  forallb (fun o => negb (existsb (concerns_path o) loaders)) (s_trace (fst second)) = true.
Proof. vm_compute. repeat split. Qed.

(** systemd_boot.rs:48-85 *)
Example overwrite_malformed_systemd_boot_binaries :
  let m := fold_right (fun p m => fs_insert p empty_file m) (after 0 [t_link top1 1] t_esp) loaders in
  let m' := after 0 [t_link top1 1] m in
  success 0 [t_link top1 1] m = true /\
  map (fun p => option_map node_content (lookup m' p)) loaders <> map (fun p => option_map node_content (lookup m p)) loaders /\
  map (verify_signature m') loaders = [Some true; Some true].
Proof. vm_compute. repeat split. discriminate. Qed.

(** systemd_boot.rs:87-113 *)
Example overwrite_unsigned_systemd_boot_binaries :
  let m := fold_right remove_signature (after 0 [t_link top1 1] t_esp) loaders in
  let m' := after 0 [t_link top1 1] m in
  success 0 [t_link top1 1] m = true /\
  map (verify_signature m) loaders = [Some false; Some false] /\
  map (verify_signature m') loaders = [Some true; Some true].
Proof. vm_compute. repeat split. Qed.
