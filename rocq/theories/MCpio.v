(** Model of rust/uefi/pio/src/writer.rs (the CPIO "newc" packer) and of
    rust/uefi/linux-bootloader/src/cpio.rs and companions.rs.

    [usize] is 64 bits wide.  Allocation never fails.  The [Cursor]
    (rust/uefi/pio/src/cursor.rs) appends to a vector, so writing is list
    concatenation. *)
From Coq Require Import List NArith Bool.
From Verif Require Import Base MText MOsRelease.
Import ListNotations.
Open Scope N_scope.

(** Length of a slice as a number ([len()], writer.rs:186). *)
Definition len {A} (l : list A) : N := N.of_nat (length l).

(** [u32::MAX] and [usize::MAX] (writer.rs:186,199). *)
Definition cu32_max : N := 4294967295.
Definition usize_max : N := 18446744073709551615.

(** [enum CPIOError], rust/uefi/pio/src/errors.rs:4-18 (the variants in use). *)
Inductive cpio_error := TooLargeFileSize | MaximumInodesReached | MaximumArchiveReached.

(** [struct Entry], writer.rs:18-31. *)
Record entry := Entry {
  e_name : bytes; e_ino : N; e_mode : N; e_uid : N; e_gid : N; e_nlink : N; e_mtime : N;
  e_file_size : N; e_dev_major : N; e_dev_minor : N; e_rdev_major : N; e_rdev_minor : N }.

(** [STATIC_HEADER_LEN], writer.rs:33-35. *)
Definition static_header_len : N := 6 + 8 * 13.

(** [compute_pad4], writer.rs:39-47: the padding itself. *)
Definition pad4 (n : N) : bytes :=
  let overhang := n mod 4 in
  if overhang =? 0 then [] else repeat 0 (N.to_nat (4 - overhang)).

(** [align::<4>], writer.rs:50-59. *)
Definition align4 (v : N) : N :=
  if usize_max - 3 <? v then usize_max else ((v + 3) / 4) * 4.

(** [write_cpio_header], writer.rs:67-101: the bytes written and the size
    returned.  [None] is the panic of [expect] at 85 (the assertion at 96 is
    covered by C37). *)
Definition cpio_header (e : entry) : option (bytes * N) :=
  if cu32_max <? len (e_name e) + 1 then None
  else
    let words := flat_map hex8
      [e_ino e; e_mode e; e_uid e; e_gid e; e_nlink e; e_mtime e; e_file_size e;
       e_dev_major e; e_dev_minor e; e_rdev_major e; e_rdev_minor e;
       len (e_name e) + 1; 0] in
    let size := static_header_len + len (e_name e) + 1 in
    let pad := pad4 size in
    Some (lit "070701" ++ words ++ e_name e ++ [0] ++ pad, size + len pad).

(** [write_cpio_contents], writer.rs:103-119. *)
Definition cpio_contents (header_size : N) (contents : bytes) : bytes * N :=
  let pad := pad4 (len contents) in
  (contents ++ pad, header_size + len contents + len pad).

(** [struct Cpio], writer.rs:136-140. *)
Record cpio := Cpio { c_buffer : bytes; c_inode : N }.

(** [Cpio::new], writer.rs:161-167. *)
Definition cpio_new : cpio := Cpio [] 0.

(** [pack_one], writer.rs:176-273: the new archive and the outcome. *)
Definition pack_one (c : cpio) (fname contents prefix : bytes) (mode : N) : cpio * res cpio_error N :=
  if cu32_max <? len contents then (c, Err TooLargeFileSize)                    (* 186-190 *)
  else if c_inode c =? cu32_max then (c, Err MaximumInodesReached)              (* 193-195 *)
  else
    let l0 := static_header_len + 1 in
    if usize_max - len prefix <? l0 then (c, Err MaximumArchiveReached)         (* 199-201 *)
    else let l1 := l0 + len prefix in
    if usize_max - len fname <? l1 then (c, Err MaximumArchiveReached)          (* 205-207 *)
    else let l2 := l1 + len fname in
    if cu32_max <=? len prefix + len fname then (c, Err MaximumArchiveReached)  (* 212-214 *)
    else let l3 := align4 l2 in
    if l3 =? usize_max then (c, Err MaximumArchiveReached)                      (* 218-220 *)
    else let a := align4 (len contents) in
    if a =? usize_max then (c, Err MaximumArchiveReached)                       (* 224-226 *)
    else if usize_max - a <? l3 then (c, Err MaximumArchiveReached)             (* 228-230 *)
    else let l4 := l3 + a in
    if usize_max - l4 <? len (c_buffer c) then (c, Err MaximumArchiveReached)   (* 234-236 *)
    else
      let name := match prefix with [] => fname | _ => prefix ++ [47] ++ fname end in
      let e := Entry name (c_inode c + 1) (N.lor mode 0x8000) 0 0 1 0 (len contents) 0 0 0 0 in
      match cpio_header e with
      | None => (c, Panic)
      | Some (h, hs) =>
          let '(d, written) := cpio_contents hs contents in
          (Cpio (c_buffer c ++ h ++ d) (c_inode c + 1), Ok written)
      end.

(** [pack_dir], writer.rs:274-316. *)
Definition pack_dir (c : cpio) (path : bytes) (mode : N) : cpio * res cpio_error unit :=
  if c_inode c =? cu32_max then (c, Err MaximumInodesReached)
  else if usize_max - len path <? static_header_len then (c, Err MaximumArchiveReached)
  else
    let l := align4 (static_header_len + len path) in
    if (len (c_buffer c) =? usize_max) || (usize_max - l <? len (c_buffer c))
    then (c, Err MaximumArchiveReached)
    else
      let e := Entry path (c_inode c + 1) (N.lor mode 0x4000) 0 0 1 0 0 0 0 0 0 in
      match cpio_header e with
      | None => (c, Panic)
      | Some (h, _) => (Cpio (c_buffer c ++ h) (c_inode c + 1), Ok tt)
      end.

(** The loop of [pack_prefix] and its last step, writer.rs:335-340. *)
Fixpoint pack_prefix_loop (c : cpio) (ancestor : bytes) (parts : list bytes) (mode : N)
  : cpio * res cpio_error unit :=
  match parts with
  | [] => (c, Ok tt)
  | [last] => pack_dir c (ancestor ++ [47] ++ last) mode
  | p :: ps =>
      let a := ancestor ++ [47] ++ p in
      match pack_dir c a 0x16D with          (* 0o555 *)
      | (c', Ok _) => pack_prefix_loop c' a ps mode
      | (c', Err e) => (c', Err e)
      | (c', Panic) => (c', Panic)
      end
  end.

(** [pack_prefix], writer.rs:318-341. *)
Definition pack_prefix (c : cpio) (path : bytes) (mode : N) : cpio * res cpio_error unit :=
  pack_prefix_loop c [] (split_on 47 path) mode.

(** [pack_trailer], writer.rs:343-345. *)
Definition pack_trailer (c : cpio) : cpio * res cpio_error N :=
  pack_one c (lit "TRAILER!!!") [] [] 0.

(** ** rust/uefi/linux-bootloader/src/cpio.rs *)

(** Sequencing of the fallible steps on one archive ([?], cpio.rs:25-27). *)
Definition cthen {A B} (r : cpio * res cpio_error A) (k : cpio -> cpio * res cpio_error B)
  : cpio * res cpio_error B :=
  match r with
  | (c, Ok _) => k c
  | (c, Err e) => (c, Err e)
  | (c, Panic) => (c, Panic)
  end.

(** The archive a sequence of steps returns ([Ok(cpio)], cpio.rs:29,70). *)
Definition finish {A} (r : cpio * res cpio_error A) : res cpio_error bytes :=
  match r with
  | (c, Ok _) => Ok (c_buffer c)
  | (_, Err e) => Err e
  | (_, Panic) => Panic
  end.

(** [pack_cpio_literal], cpio.rs:14-30. *)
Definition pack_cpio_literal (contents filename prefix : bytes) (dir_mode access_mode : N)
  : res cpio_error bytes :=
  finish (cthen (pack_prefix cpio_new prefix dir_mode) (fun c =>
          cthen (pack_one c filename contents prefix access_mode) (fun c =>
          pack_trailer c))).

(** [sort] of the paths (cpio.rs:55): lexicographic by character. *)
Fixpoint insert_sorted (x : str) (l : list str) : list str :=
  match l with
  | [] => [x]
  | y :: l' => if str_ltb y x then y :: insert_sorted x l' else x :: l
  end.
Definition sort_paths (l : list str) : list str := fold_right insert_sorted [] l.

(** [file.components().last()] (cpio.rs:59-63): the text after the last
    backslash. *)
Definition last_component (p : str) : str := last (split_on 92 p) [].

(** The loop of [pack_cpio], cpio.rs:58-67.  [read] is [fs.read]; failure
    panics ([expect]). *)
Fixpoint pack_files (read : str -> option bytes) (c : cpio) (files : list str)
  (prefix : bytes) (access_mode : N) : cpio * res cpio_error unit :=
  match files with
  | [] => (c, Ok tt)
  | f :: fs =>
      match read f with
      | None => (c, Panic)
      | Some contents =>
          cthen (pack_one c (utf8_encode (last_component f)) contents prefix access_mode)
            (fun c => pack_files read c fs prefix access_mode)
      end
  end.

(** [pack_cpio], cpio.rs:45-71. *)
Definition pack_cpio (read : str -> option bytes) (files : list str) (prefix : bytes)
  (dir_mode access_mode : N) : res cpio_error bytes :=
  finish (cthen (pack_prefix cpio_new prefix dir_mode) (fun c =>
          cthen (pack_files read c (sort_paths files) prefix access_mode) (fun c =>
          pack_trailer c))).

(** ** rust/uefi/linux-bootloader/src/companions.rs *)

(** A directory entry: is it a regular file, and its name (companions.rs:23-24). *)
Record dentry := Dentry { de_regular : bool; de_name : str }.

(** The file system as seen by discovery.  [fs_dir] is [read_dir] (companions.rs:21),
    [None] meaning it fails, and an entry [None] that iterating fails there;
    [fs_exists] is [try_exists] (95), [fs_isdir] [metadata] (96-99,55-60) and
    [fs_read] [read] (cpio.rs:65).  Simplification: the file system does not
    change during one discovery call. *)
Record efs := Efs {
  fs_dir : str -> option (list (option dentry));
  fs_exists : str -> option bool;
  fs_isdir : str -> option bool;
  fs_read : str -> option bytes }.

(** [str::ends_with] (companions.rs:25). *)
Definition ends_with (suffix s : str) : bool := starts_with (rev suffix) (rev s).

(** The loop of [find_files], companions.rs:21-32. *)
Fixpoint find_loop (dir : str) (suffix : str) (l : list (option dentry)) : res unit (list str) :=
  match l with
  | [] => Ok []
  | None :: _ => Err tt
  | Some e :: l' =>
      bind (find_loop dir suffix l') (fun r =>
        Ok (if de_regular e && forallb (fun c => c <? 128) (de_name e) && ends_with suffix (de_name e)
            then (dir ++ [92] ++ de_name e) :: r else r))
  end.

(** [find_files], companions.rs:14-35.  [read_dir(..).unwrap()] panics. *)
Definition find_files (fs : efs) (dir suffix : str) : res unit (list str) :=
  match fs_dir fs dir with
  | None => Panic
  | Some l => find_loop dir suffix l
  end.

(** [enum CompanionInitrdType], companions.rs:66-72. *)
Inductive companion_type :=
| Credentials | GlobalCredentials | SystemExtension | PcrSignature | PcrPublicKey.

(** [struct CompanionInitrd], companions.rs:76-79. *)
Record companion := Companion { co_type : companion_type; co_cpio : bytes }.

(** [map_err(|_err| ..)?] on a packing step (companions.rs:113,126,150). *)
Definition loaderr {A} (r : res cpio_error A) : res unit A :=
  match r with Ok a => Ok a | Err _ => Err tt | Panic => Panic end.

(** One "if there are any files, pack them" block, companions.rs:101-115,
    121-128 and 144-152. *)
Definition companion_of (fs : efs) (dir suffix : str) (t : companion_type)
  (prefix : bytes) (dir_mode access_mode : N) : res unit (list companion) :=
  bind (find_files fs dir suffix) (fun files =>
    match files with
    | [] => Ok []
    | _ => bind (loaderr (pack_cpio (fs_read fs) files prefix dir_mode access_mode))
             (fun b => Ok [Companion t b])
    end).

(** [discover_credentials], companions.rs:88-133. *)
Definition discover_credentials (fs : efs) (dropin : option str) : res unit (list companion) :=
  let global_dir := lit "\loader\credentials" in
  bind (match fs_exists fs global_dir with
        | None => Panic                                                   (* 94 *)
        | Some false => Ok []
        | Some true =>
            match fs_isdir fs global_dir with
            | None => Err tt                                              (* 95-98 *)
            | Some false => Ok []
            | Some true =>
                companion_of fs global_dir (lit ".cred") GlobalCredentials
                  (lit ".extra/global_credentials") 0x140 0x100           (* 0o500 0o400 *)
            end
        end) (fun global =>
  bind (match dropin with
        | None => Ok []
        | Some d => companion_of fs d (lit ".cred") Credentials (lit ".extra/credentials") 0x140 0x100
        end) (fun local => Ok (global ++ local))).

(** [discover_system_extensions], companions.rs:139-155. *)
Definition discover_system_extensions (fs : efs) (dropin : str) : res unit (list companion) :=
  companion_of fs dropin (lit ".raw") SystemExtension (lit ".extra/sysext") 0x16D 0x124. (* 0o555 0o444 *)

(** [get_default_dropin_directory], companions.rs:39-64; the argument is the
    text of the loaded image's device path ([None] if it has none). *)
Definition dropin_directory (fs : efs) (image_path : option str) : res unit (option str) :=
  match image_path with
  | None => Err tt
  | Some p =>
      let d := p ++ lit ".extra" in
      match fs_isdir fs d with
      | Some true => Ok (Some d)
      | _ => Ok None
      end
  end.
