(** C65, C66: Linux finds the initrd, and what a stub that returns leaves
    behind. *)
From Coq Require Import List NArith Bool Lia.
From Verif Require Import Base MText MPe MCpio MFirmware MStub SFirmware SStub SLinux PLinux
  Properties_Firmware Properties_Stub.
Import ListNotations.
Open Scope N_scope.

(** ** C65 *)

(** When the kernel is started, its initrd device path is offered, and the
    LoadFile2 protocol offered with it loads the verified initrd and the
    companions. *)
Theorem C65_linux_finds_initrd : forall fw sha pm parse image path h' r before img entry,
  stub_main fw sha pm parse image path [] = (h', r) -> started h' before img entry ->
  exists p dp initrd cs served,
    offers before PDevicePath dp /\ linux_initrd_path dp /\
    offers before PLoadFile2 served /\ linux_loads (raw_load_file served) served /\
    pm image = Some p /\ section_contents image (pe_sections p) (lit ".initrdh") (sha initrd) /\
    layout4 (initrd :: map co_cpio cs) served /\ Forall measured_kind cs.
Proof. exact linux_finds. Qed.
Print Assumptions C65_linux_finds_initrd.

(** The path and the policy the kernel passes do not matter. *)
Theorem C65_any_request : forall initrd p p' b b' size buffer,
  raw_load_file initrd p b size buffer = raw_load_file initrd p' b' size buffer.
Proof. reflexivity. Qed.
Print Assumptions C65_any_request.

(** The hypotheses hold for the example of C28, and the initrd is loaded in
    two calls. *)
Example C65_example :
  let h := fst (example_run None (Some [1])) in
  started h (example_before h) [0; 3; 4; 5; 0] 2 /\
  raw_load_file [7; 8; 9] None false (Some 0) None = (Some BUFFER_TOO_SMALL, Some 3, None) /\
  raw_load_file [7; 8; 9] None false (Some 3) (Some [0; 0; 0]) = (None, Some 3, Some [7; 8; 9]).
Proof.
  cbv zeta. split; [|split; reflexivity]. eexists None, _. vm_compute. reflexivity.
Qed.

(** Another path is not Linux' initrd path: here the GUID in text order. *)
Lemma device_path_det : forall p ns, device_path p ns -> forall ns', device_path p ns' -> ns = ns'.
Proof.
  induction 1 as [|t s lo hi d rest ns T L _ IH]; intros ns' H; inversion H; subst; try congruence; try contradiction.
  assert (length d0 = length d) as Ed by lia.
  assert (d0 = d /\ rest0 = rest) as [-> ->].
  { match goal with X : d0 ++ rest0 = d ++ rest |- _ => rename X into Q end. clear - Q Ed. revert d Ed Q.
    induction d0 as [|x d0 IH]; intros [|y d] Ed Q; try discriminate; [auto|].
    injection Q as -> Q. injection Ed as Ed. destruct (IH d Ed Q) as [-> ->]. auto. }
  f_equal. auto.
Qed.
Example C65_other_path :
  ~ linux_initrd_path ([4; 3; 20; 0] ++ [0x55; 0x68; 0xe4; 0x27; 0x68; 0xfc; 0x4f; 0x3d; 0xac; 0x74; 0xca; 0x55;
                                         0x52; 0x31; 0xcc; 0x68] ++ [0x7f; 0xff; 4; 0]).
Proof.
  intros (g & P & G).
  assert (Q : device_path ([4; 3; 20; 0] ++ [0x55; 0x68; 0xe4; 0x27; 0x68; 0xfc; 0x4f; 0x3d; 0xac; 0x74; 0xca; 0x55;
                                         0x52; 0x31; 0xcc; 0x68] ++ [0x7f; 0xff; 4; 0])
                          [(4, 3, [0x55; 0x68; 0xe4; 0x27; 0x68; 0xfc; 0x4f; 0x3d; 0xac; 0x74; 0xca; 0x55;
                                         0x52; 0x31; 0xcc; 0x68])]).
  { apply dp_more; [discriminate|reflexivity|constructor]. }
  pose proof (device_path_det _ _ P _ Q) as E. injection E as ->.
  destruct G as (g1 & g2 & g3 & E & L1 & _ & _ & _ & N1 & _).
  destruct g1 as [|a [|b [|c [|d [|]]]]]; try discriminate. injection E as <- <- <- <- _. discriminate N1.
Qed.

(** ** C66 *)

(** A stub that returns has started a kernel and undone everything, or one of
    the two protocols could not be installed. *)
Theorem C66_returns : forall fw sha pm parse image path h r,
  stub_main fw sha pm parse image path [] = (h, r) -> r <> Panic ->
  (leaves_nothing h /\ exists before img entry, started h before img entry) \/
  (exists a n e dp, r = Err e /\ Forall (fun x => ~ changes_boot_state x) a /\
     (h = a ++ [EvAlloc n None; EvInstall PDevicePath dp (Some e)] \/
      exists i, h = a ++ [EvAlloc n None; EvInstall PDevicePath dp None; EvInstall PLoadFile2 i (Some e)])).
Proof. exact stub_returns. Qed.
Print Assumptions C66_returns.

(** In the second case the kernel's memory stays allocated, and the device path
    may stay installed. *)
Definition C66_claim : Prop := forall fw sha pm parse image path h r,
  stub_main fw sha pm parse image path [] = (h, r) -> r <> Panic -> leaves_nothing h.
Definition no_load_file (fw : firmware) : firmware :=
  Firmware (fw_tpm fw) (fw_extend fw) (fw_get fw) (fw_set fw) (fw_open_image fw) (fw_load_options fw)
    (fw_device_path fw) (fw_image_text fw) (fw_image_fs fw) (fw_files fw) (fw_alloc fw) (fw_free fw)
    (fun _ p => match p with PLoadFile2 => Some (OTHER 9) | PDevicePath => None end)
    (fw_uninstall fw) (fw_kernel fw) (fw_vendor fw) (fw_revision fw) (fw_uefi_text fw).
Definition example_refused : list event * res status unit :=
  stub_main (no_load_file (example_fw (fun _ _ => None) None true)) example_sha
    (fun _ => Some example_stub_pe) example_parse example_image (Some (lit "\s.efi")) [].
Theorem C66_leftover_refuted : ~ C66_claim.
Proof.
  intros H.
  destruct (H (no_load_file (example_fw (fun _ _ => None) None true)) example_sha
    (fun _ => Some example_stub_pe) example_parse example_image (Some (lit "\s.efi"))
    (fst example_refused) (snd example_refused)) as [A _].
  - unfold example_refused. apply surjective_pairing.
  - vm_compute. discriminate.
  - vm_compute in A. discriminate A.
Qed.
Print Assumptions C66_leftover_refuted.

(** The device path is left as well. *)
Example C66_example :
  snd example_refused = Err (OTHER 9) /\ offers (fst example_refused) PDevicePath device_path_protocol /\
  snd (example_run None (Some [1])) = Ok tt.
Proof.
  split; [vm_compute; reflexivity|]. split; [|vm_compute; reflexivity].
  split; [reflexivity|]. eexists (firstn (length (fst example_refused) - 2) (fst example_refused)), _.
  split; [vm_compute; reflexivity|]. repeat (constructor; [cbn; discriminate|]). constructor.
Qed.
