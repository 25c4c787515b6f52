(** Panics of the installer: C56. *)
From Coq Require Import List NArith Bool.
From Verif Require Import Base MText MGeneration MNames MPe MFs MTool MInstall SNames SInstall SHistory SPanic PFs PInstall PPanic.
From Verif Require Import XWorld XMachine PHistories Properties_History.
Import ListNotations.
Open Scope N_scope.

(** C56: whatever the inputs, the files and the I/O errors, a run panics only
    for one of the causes of [panic_cause]. *)
Theorem C56_panics : forall e c, digit_class (e_digit e) -> forall m,
  snd (run_install e c m) = Panic -> panic_cause e c (s_fs (fst (run_install e c m))).
Proof. exact run_panic. Qed.
Print Assumptions C56_panics.

(** On an ESP with a history, entries are no cause, and the boot loader files
    only if they were unusable before or signing makes them so. *)
Theorem C56_history : forall M e c m, sound M -> fits M e c -> history M m -> snd (run_install e c m) = Panic ->
  no_initrd c \/ bad_init c \/ bare_stub e c \/ bad_shipped e c \/ bad_signed e c \/ bad_loader e c m.
Proof. exact history_panic. Qed.
Print Assumptions C56_history.

(** ** The causes do occur *)

Definition p_link (init : bytes) (initrd : option bytes) : link :=
  x_link (lit "system-1-link")
    (Some (Bootspec init initrd None (lit "/nix/store/aaa-linux-6.1/bzImage") [] (lit "NixOS") (lit "/nix/store/one") None [])).
Definition p_config (init : bytes) (initrd : option bytes) : config := x_config 0 0 None [p_link init initrd].
Definition p_init : bytes := lit "/nix/store/one/init".
Definition p_initrd : option bytes := Some (lit "/nix/store/bbb-initrd/initrd").
Definition p_files (n : str) (x : bytes) : env := x_env ((n, x) :: x_files) x_good.
Definition p_stub_name : str := lit "/nix/store/lzbt/stub.efi".
Definition p_boot_name : str := lit "/nix/store/systemd/lib/systemd/boot/efi/systemd-bootx64.efi".
Definition p_empty_osrel : bytes := [77; 90] ++ x_block (lit ".osrel") [].

(** An executable without an optional header. *)
Definition p_coff (b : bytes) : option pe :=
  match x_parse b with Some p => Some (Pe (pe_sections p) 0 false None) | None => None end.
Definition p_headerless : env :=
  Env (x_store x_files) x_sha p_coff x_objcopy (fun _ d => Some d) (x_signer x_key) (fun _ => None)
      (fun c => (48 <=? c) && (c <=? 57)) (fun _ l => l) (fun _ l => l) x_good.

Definition p_set (m : fs) (r : path) (x : bytes) : fs := (lit "boot" :: r, NFile x true) :: m.
Definition p_name : name := utf8_encode (stub_name x_sha x_key 0 (parse_boot_json 1 (Some (Date 2024 5 6))
  (Bootspec p_init p_initrd None (lit "/nix/store/aaa-linux-6.1/bzImage") [] (lit "NixOS") (lit "/nix/store/one") None []))).

Example C56_causes :
  (* with nothing wrong, the run succeeds *)
  snd (run_install x_world (p_config p_init p_initrd) x_esp) = Ok tt /\
  (* no initrd *)
  snd (run_install x_world (p_config p_init None) x_esp) = Panic /\
  (* init not UTF-8 *)
  snd (run_install x_world (p_config [255] p_initrd) x_esp) = Panic /\
  (* a stub without sections, a stub without an optional header *)
  snd (run_install (p_files p_stub_name [77; 90]) (p_config p_init p_initrd) x_esp) = Panic /\
  snd (run_install p_headerless (p_config p_init p_initrd) x_esp) = Panic /\
  (* the shipped boot loader has an empty .osrel, and one is installed *)
  snd (run_install (p_files p_boot_name p_empty_osrel) (p_config p_init p_initrd) (x_after x_c1 x_esp)) = Panic /\
  (* an entry with an empty .linux *)
  snd (run_install x_world (p_config p_init p_initrd)
         (p_set x_esp [lit "EFI"; lit "Linux"; p_name] ([77; 90] ++ x_block (lit ".linux") []))) = Panic /\
  (* a truncated boot loader on the ESP *)
  snd (run_install x_world (p_config p_init p_initrd)
         (p_set x_esp [lit "EFI"; lit "BOOT"; lit "BOOTX64.EFI"] (firstn 20 (x_boot (lit "257.2"))))) = Panic.
Proof. vm_compute. repeat split. Qed.

(** Panics are not confined to the start of a run: all hypotheses hold and
    nothing fails, but a bootspec without an initrd makes the run panic after
    it has changed the ESP. *)
Definition p_m : machine := x_machine [p_link p_init None].
Theorem C56_never_refuted : exists M e c m,
  sound M /\ fits M e c /\ history M m /\ no_faults e /\ no_initrd c /\
  snd (run_install e c m) = Panic /\ s_trace (fst (run_install e c m)) <> [].
Proof.
  exists p_m, x_world, (p_config p_init None), x_esp.
  split; [apply x_sound; vm_compute; reflexivity|].
  split; [apply x_fit; [apply incl_refl | discriminate | discriminate]|].
  split; [apply x_start; vm_compute; reflexivity|]. split; [intros t; reflexivity|]. split.
  { eexists. split.
    - exists [(1, p_link p_init None)], [(1, p_link p_init None)]. split; [repeat constructor|]. split.
      + exists []. split; [apply Permutation.Permutation_refl|]. split; [repeat constructor|]. split; [reflexivity|]. split; [intros X; contradiction X; reflexivity | constructor].
      + left. reflexivity.
    - split; reflexivity. }
  split; [vm_compute; reflexivity | vm_compute; discriminate].
Qed.
Print Assumptions C56_never_refuted.

Example C56_history_ex :
  sound x_m /\ fits x_m x_world x_c12 /\ history x_m (p_set x_e1 [lit "EFI"; lit "BOOT"; lit "BOOTX64.EFI"] (firstn 20 (x_boot (lit "257.2")))) /\
  snd (run_install x_world x_c12 (p_set x_e1 [lit "EFI"; lit "BOOT"; lit "BOOTX64.EFI"] (firstn 20 (x_boot (lit "257.2"))))) = Panic.
Proof.
  split; [apply x_m_sound|]. split; [apply x_fits_12|]. split; [|vm_compute; reflexivity].
  apply (hi_other _ x_e1); [apply x_history_1|]. intros p [(n & ->)|(n & ->)]; reflexivity.
Qed.
