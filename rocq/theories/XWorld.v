(** A small world for examples and counterexamples: a toy executable format
    with tools for it, a toy hash and signature, and a few store files.  None of
    this is part of the model; it instantiates the model's parameters. *)
From Coq Require Import List NArith Bool.
From Verif Require Import Base MText MGeneration MNames MPe MFs MTool MInstall.
Import ListNotations.
Open Scope N_scope.

(** A toy executable: "MZ", then blocks of name length, name, two bytes of
    content length, content.  The section's addresses are file offsets. *)
Definition x_block (n d : bytes) : bytes :=
  let k := N.of_nat (length d) in
  N.of_nat (length n) :: n ++ [k / 256; k mod 256] ++ d.

Fixpoint x_sections (fuel : nat) (off : N) (b : bytes) : list section :=
  match fuel, b with
  | S f, n :: b1 =>
      let b2 := skipn (N.to_nat n) b1 in
      match b2 with
      | hi :: lo :: d =>
          let k := 256 * hi + lo in
          let start := off + 1 + n + 2 in
          Section (Some (firstn (N.to_nat n) b1)) start k start k
            :: x_sections f (start + k) (skipn (N.to_nat k) d)
      | _ => []
      end
  | _, _ => []
  end.

Definition x_parse (b : bytes) : option pe :=
  match b with
  | m :: z :: r => if (m =? 77) && (z =? 90) then Some (Pe (x_sections (length r) 2 r) 0 false (Some 0)) else None
  | _ => None
  end.

(** Sections that do not fit the format are refused. *)
Definition x_objcopy (b : bytes) (l : list add_section) : option bytes :=
  if forallb (fun s => N.of_nat (length (snd (fst s))) <? 65536) l then
    Some (b ++ concat (map (fun s => x_block (fst (fst s)) (snd (fst s))) l))
  else None.

(** A signature is a last block that depends on the key. *)
Definition x_sig (key : bytes) : bytes := x_block (lit ".sig") key.
Definition x_strip (key b : bytes) : bytes :=
  let n := (length b - length (x_sig key))%nat in
  if eqb_bytes (skipn n b) (x_sig key) then firstn n b else b.
Definition x_signer (key : bytes) : signer :=
  local_signer (Some key) (fun b => Some (b ++ x_sig key))
    (fun b => eqb_bytes (skipn (length b - length (x_sig key)) b) (x_sig key)).

(** A toy hash with 32 bytes of output. *)
Fixpoint x_digits (n : nat) (v : N) : bytes :=
  match n with O => [] | S n' => v mod 256 :: x_digits n' (v / 256) end.
Definition x_sha (b : bytes) : bytes :=
  x_digits 32 (fold_left (fun a c => (a * 257 + c + 1) mod 2 ^ 64) b 0).

Definition x_key : bytes := lit "KEY".
Definition x_stub : bytes := [77; 90] ++ x_block (lit ".text") [1; 2; 3].
(** systemd-boot of a given version. *)
Definition x_boot (v : str) : bytes :=
  [77; 90] ++ x_block (lit ".osrel") (lit "VERSION=" ++ v ++ [10]).

(** Store files by path text. *)
Definition x_store (files : list (str * bytes)) (p : path) : option bytes :=
  match find (fun f => eqb_path (components (fst f)) p) files with
  | Some f => Some (snd f)
  | None => None
  end.

Definition x_files : list (str * bytes) :=
  [ (lit "/nix/store/lzbt/stub.efi", x_stub);
    (lit "/nix/store/systemd/lib/systemd/boot/efi/systemd-bootx64.efi", x_boot (lit "257.2"));
    (lit "/nix/store/loader.conf", lit "timeout 5");
    (lit "/nix/store/aaa-linux-6.1/bzImage", lit "kernel one");
    (lit "/nix/store/bbb-initrd/initrd", lit "initrd one");
    (lit "/nix/store/ccc-linux-6.6/bzImage", lit "kernel two");
    (lit "/nix/store/ddd-initrd/initrd", lit "initrd two") ].

(** The environment with given store files and I/O errors. *)
Definition x_env (files : list (str * bytes)) (fault : nat -> fault) : env :=
  Env (x_store files) x_sha x_parse x_objcopy (fun _ d => Some d) (x_signer x_key)
      (fun b => Some (lit "lock:" ++ x_sha (x_strip x_key b)))
      (fun c => (48 <=? c) && (c <=? 57)) (fun _ l => l) (fun _ l => l) fault.
Definition x_good : nat -> fault := fun _ => NoFault.
Definition x_world : env := x_env x_files x_good.
(** The step number [n] fails. *)
Definition x_fail_at (n : nat) (c : option bytes) : nat -> fault :=
  fun t => if Nat.eqb t n then Fault c else NoFault.

(** Bootspecs. *)
Definition x_spec (kernel initrd toplevel : str) (specs : list (str * bootspec)) : bootspec :=
  Bootspec (toplevel ++ lit "/init") (Some initrd) None kernel [lit "quiet"] (lit "NixOS") toplevel None specs.
Definition x_one : bootspec :=
  x_spec (lit "/nix/store/aaa-linux-6.1/bzImage") (lit "/nix/store/bbb-initrd/initrd") (lit "/nix/store/one") [].
Definition x_two : bootspec :=
  x_spec (lit "/nix/store/ccc-linux-6.6/bzImage") (lit "/nix/store/ddd-initrd/initrd") (lit "/nix/store/two")
    [(lit "debug", x_spec (lit "/nix/store/ccc-linux-6.6/bzImage") (lit "/nix/store/ddd-initrd/initrd") (lit "/nix/store/two-debug") [])].

Definition x_link (n : str) (b : option bootspec) : link := Link (Some n) (Some (Date 2024 5 6)) b.
Definition x_link1 : link := x_link (lit "system-1-link") (Some x_one).
Definition x_link2 : link := x_link (lit "system-2-link") (Some x_two).

Definition x_config (limit tries : N) (pcrlock : option path) (links : list link) : config :=
  Config X86 [lit "boot"] (lit "/nix/store/lzbt/stub.efi") (lit "/nix/store/systemd") (lit "/nix/store/loader.conf")
    limit tries pcrlock links.

(** An ESP with a foreign boot loader and nothing else. *)
Definition x_esp : fs :=
  [ ([lit "boot"], NDir); ([lit "boot"; lit "EFI"], NDir);
    ([lit "boot"; lit "EFI"; lit "Linux"], NDir);
    ([lit "boot"; lit "EFI"; lit "Linux"; lit "arch.efi"], NFile (lit "arch") true);
    ([lit "boot"; lit "EFI"; lit "Linux"; lit "nixos-old.efi"], NFile (lit "old") true) ].
