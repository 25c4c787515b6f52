(** C87: the EFI application of fwupd is signed. *)
From Coq Require Import List NArith Bool Lia.
From Verif Require Import Base PBase MText MFwupd SCommon SShell SFwupd PFwupd.
Import ListNotations.
Open Scope N_scope.

(** ** C87 *)

(** If the service succeeds, then the package has one application, and fwupd
    finds it signed with the machine's key; *)
Theorem C87_signed_partial : forall o sign m m', fwupd_proper o m -> fwupd_efi sign o m = (m', 0) ->
  exists n x y, (forall k, efi_app o m k <-> k = n) /\ found m (efi_dir o ++ n) = Some (FFile x) /\
    sign (f_private o) (f_public o) x = Some y /\ found m' (signed_app n) = Some (FFile y).
Proof. intros o sign m m' FP. exact (fwupd_signed o sign m FP m'). Qed.
Print Assumptions C87_signed_partial.

(** and if the package has one application and sbsign can sign it, the service
    succeeds. *)
Theorem C87_ready_partial : forall o sign m n x y, fwupd_proper o m ->
  (forall k, efi_app o m k <-> k = n) -> found m (efi_dir o ++ n) = Some (FFile x) -> sign (f_private o) (f_public o) x = Some y ->
  snd (fwupd_efi sign o m) = 0.
Proof. intros o sign m n x y FP. exact (fwupd_ready o sign m FP n x y). Qed.
Print Assumptions C87_ready_partial.

(** If it fails, nothing is signed. *)
Theorem C87_fails : forall o sign m, fwupd_proper o m -> snd (fwupd_efi sign o m) <> 0 ->
  forall n, app_name n -> found (fst (fwupd_efi sign o m)) (signed_app n) = None.
Proof. intros o sign m FP. exact (fwupd_fails o sign m FP). Qed.
Print Assumptions C87_fails.

(** ** Example *)

Definition u_o : fwupd_options :=
  FwupdOptions (lit "/nix/store/abc-fwupd-efi-1.6") (lit "/nix/store/def-sbsigntool/bin/sbsign") (lit "/var/lib/my keys/db.key") (lit "/var/lib/my keys/db.pem").
Definition u_sign (k c x : bytes) : option bytes := Some (lit "signed:" ++ k ++ lit ":" ++ x).
Definition u_x64 : bytes := lit "/nix/store/abc-fwupd-efi-1.6/libexec/fwupd/efi/fwupdx64.efi".
Definition u_m : files := [(u_x64, FFile (lit "app")); (u_x64 ++ lit ".sha256", FFile (lit "sum"))].
Definition u_two : files := (lit "/nix/store/abc-fwupd-efi-1.6/libexec/fwupd/efi/fwupdia32.efi", FFile (lit "app32")) :: u_m.

Lemma u_plain s : (match s with [] => false | c :: _ => negb (c =? 45) end) &&
  forallb (fun c => alphanumeric c || existsb (N.eqb c) (lit "._+-/=")) s = true -> plain s.
Proof.
  intros H. apply andb_prop in H as [H1 H2]. rewrite forallb_forall in H2. split; [intros ->; discriminate|]. split.
  - intros c I. specialize (H2 c I). apply orb_prop in H2 as [A|A]; [left; exact A|]. right.
    apply existsb_exists in A as (k & K & E). apply N.eqb_eq in E as ->. exact K.
  - intros r ->. discriminate H1.
Qed.

Lemma u_quote (s : bytes) : forallb (fun c => negb (c =? 39)) s = true -> ~ In 39 s.
Proof. intros H I. rewrite forallb_forall in H. specialize (H 39 I). discriminate. Qed.

Lemma u_proper m : NoDup (map fst m) -> forallb (fun x => negb (starts_with (lit "/run/fwupd-efi/") (fst x)) && match snd x with FFile _ => true | _ => false end) m = true ->
  fwupd_proper u_o m.
Proof.
  intros ND H. rewrite forallb_forall in H.
  assert (forall p k, found m p = Some k -> exists x, k = FFile x /\ starts_with (lit "/run/fwupd-efi/") p = false) as F.
  { intros p k. clear ND. induction m as [|[q v] m IH]; cbn [found]; [discriminate|]. destruct (eqb_bytes q p) eqn:E.
    - intros X. injection X as ->. apply eqb_bytes_spec in E as ->. specialize (H _ (or_introl eq_refl)). cbn in H.
      apply andb_prop in H as [H1 H2]. destruct k as [x|]; [|discriminate]. exists x. split; [reflexivity|]. apply negb_true_iff. exact H1.
    - apply IH. intros x I. apply H. right. exact I. }
  constructor; try (apply u_plain; vm_compute; reflexivity); try (apply u_quote; vm_compute; reflexivity).
  - eexists. reflexivity.
  - exact ND.
  - intros r. destruct (found m (lit "/run/fwupd-efi/" ++ r)) as [k|] eqn:E; [|reflexivity]. destruct (F _ _ E) as (x & _ & X). discriminate X.
  - intros n [_ A]. destruct (found m (efi_dir u_o ++ n)) as [k|] eqn:E; [|congruence]. destruct (F _ _ E) as (x & -> & _). eauto.
Qed.

Lemma u_proper_m : fwupd_proper u_o u_m.
Proof. apply u_proper; [|vm_compute; reflexivity]. repeat constructor; vm_compute; intuition discriminate. Qed.
Lemma u_proper_two : fwupd_proper u_o u_two.
Proof. apply u_proper; [|vm_compute; reflexivity]. repeat constructor; vm_compute; intuition discriminate. Qed.

(** With two applications the service fails, and neither is signed: sbsign takes
    one image. *)
Theorem C87_several_refuted : exists o sign m n1 n2,
  fwupd_proper o m /\ n1 <> n2 /\ efi_app o m n1 /\ efi_app o m n2 /\ (forall k c x, sign k c x <> None) /\
  snd (fwupd_efi sign o m) = 1 /\
  found (fst (fwupd_efi sign o m)) (signed_app n1) = None /\ found (fst (fwupd_efi sign o m)) (signed_app n2) = None.
Proof.
  exists u_o, u_sign, u_two, (lit "fwupdx64.efi"), (lit "fwupdia32.efi"). split; [exact u_proper_two|]. split; [discriminate|].
  split; [split; [exists (lit "x64"); split; [reflexivity | cbn; intuition discriminate] | vm_compute; discriminate]|].
  split; [split; [exists (lit "ia32"); split; [reflexivity | cbn; intuition discriminate] | vm_compute; discriminate]|].
  split; [discriminate|]. vm_compute. repeat split.
Qed.
Print Assumptions C87_several_refuted.

(** With a quote in the path of the keys, as the hook allows (C72), the service
    fails as well. *)
Definition u_quoted : fwupd_options :=
  FwupdOptions (f_package u_o) (f_sbsign u_o) (lit "/var/lib/it's/db.key") (lit "/var/lib/it's/db.pem").
Theorem C87_quote_refuted : exists o sign m n,
  plain (f_package o) /\ plain (f_sbsign o) /\ (forall k, efi_app o m k <-> k = n) /\ (forall k c x, sign k c x <> None) /\
  snd (fwupd_efi sign o m) <> 0 /\ found (fst (fwupd_efi sign o m)) (signed_app n) = None.
Proof.
  exists u_quoted, u_sign, u_m, (lit "fwupdx64.efi").
  split; [apply (fp_package _ _ u_proper_m)|]. split; [apply (fp_sbsign _ _ u_proper_m)|]. split.
  - intros k. change (efi_app u_quoted u_m k) with (efi_app u_o u_m k). rewrite <- (in_names u_o u_m u_proper_m). vm_compute. intuition congruence.
  - split; [discriminate|]. split; [vm_compute; discriminate | vm_compute; reflexivity].
Qed.
Print Assumptions C87_quote_refuted.

(** One application, and a blank in the keys' path. *)
Example C87_ex : fwupd_proper u_o u_m /\ (forall k, efi_app u_o u_m k <-> k = lit "fwupdx64.efi") /\ snd (fwupd_efi u_sign u_o u_m) = 0 /\
  found (fst (fwupd_efi u_sign u_o u_m)) (lit "/run/fwupd-efi/fwupdx64.efi.signed") = Some (FFile (lit "signed:/var/lib/my keys/db.key:app")).
Proof.
  split; [exact u_proper_m|]. split; [|split; vm_compute; reflexivity].
  intros k. rewrite <- (in_names u_o u_m u_proper_m). vm_compute. intuition congruence.
Qed.
