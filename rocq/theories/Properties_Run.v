(** C02, C03, C06, C12, C48: what a run changes, and when. *)
From Coq Require Import List NArith Bool Lia.
From Verif Require Import Base MText MGeneration MNames SNames MFs MTool MInstall SInstall POwned XWorld.
Import ListNotations.
Open Scope N_scope.

(** C02: if no selected link has a readable bootspec, the run fails and has
    changed nothing, whatever I/O errors occur. *)
Theorem C02_nothing_usable : forall e c m vs,
  links_versions (c_links c) vs ->
  (forall sel, newest (c_limit c) vs sel -> Forall unreadable sel) ->
  snd (run_install e c m) = Err tt /\ untouched m (fst (run_install e c m)).
Proof. exact none_readable. Qed.
Print Assumptions C02_nothing_usable.

(** Two links, both unreadable; also, with a limit of 1, an older readable link
    does not help. *)
Example C02_nothing_usable_ex :
  let bad := x_link (lit "system-2-link") None in
  let c1 := x_config 0 0 None [bad; x_link (lit "system-5-link") None] in
  let c2 := x_config 1 0 None [x_link1; bad] in
  (links_versions (c_links c1) [(2, bad); (5, x_link (lit "system-5-link") None)] /\
   forall sel, newest 0 [(2, bad); (5, x_link (lit "system-5-link") None)] sel -> Forall unreadable sel) /\
  snd (run_install x_world c2 x_esp) = Err tt /\ s_trace (fst (run_install x_world c2 x_esp)) = [].
Proof.
  cbv zeta. split; [split|].
  - repeat constructor.
  - intros sel (sk & P & _ & Z & _). rewrite (Z eq_refl) in P. apply Forall_forall. intros x Hx.
    apply Permutation.Permutation_sym in P. apply (Permutation.Permutation_in x) in P; [|exact Hx].
    destruct P as [<- |[<- |[]]]; reflexivity.
  - vm_compute. split; reflexivity.
Qed.

(** C03: with an unreadable selected link nothing is removed. *)
Theorem C03_broken_no_deletion : forall e c m vs p,
  links_versions (c_links c) vs ->
  (forall sel, newest (c_limit c) vs sel -> Exists unreadable sel) ->
  ~ In (ORemove p) (s_trace (fst (run_install e c m))).
Proof. exact broken_keeps. Qed.
Print Assumptions C03_broken_no_deletion.

(** With the broken link the old entry stays although the run succeeds; without
    it the entry is collected. *)
Example C03_broken_no_deletion_ex :
  let bad := x_link (lit "system-2-link") None in
  let c1 := x_config 0 0 None [x_link1; bad] in
  let old := [lit "boot"; lit "EFI"; lit "Linux"; lit "nixos-old.efi"] in
  links_versions (c_links c1) [(1, x_link1); (2, bad)] /\
  (forall sel, newest 0 [(1, x_link1); (2, bad)] sel -> Exists unreadable sel) /\
  snd (run_install x_world c1 x_esp) = Ok tt /\
  lookup (s_fs (fst (run_install x_world c1 x_esp))) old = Some (NFile (lit "old") true) /\
  lookup (s_fs (fst (run_install x_world (x_config 0 0 None [x_link1; x_link2]) x_esp))) old = None.
Proof.
  cbv zeta. split; [repeat constructor|]. split.
  - intros sel (sk & P & _ & Z & _). rewrite (Z eq_refl) in P. apply Exists_exists.
    exists (2, x_link (lit "system-2-link") None). split; [|reflexivity].
    apply (Permutation.Permutation_in _ P). right; left; reflexivity.
  - vm_compute. repeat split; reflexivity.
Qed.

(** C06: at every point of every run, whatever is not at one of the installer's
    own paths ([owned]) is as it was before the run, except for directories
    created above such a path where there was nothing. *)
Theorem C06_foreign : forall e c m os p,
  honest_listings e -> point e c m os -> ~ owned c p ->
  node_like (lookup (apply_all os m) p) (lookup m p) \/
  (lookup m p = None /\ lookup (apply_all os m) p = Some NDir /\ exists q, owned c q /\ at_or_above p q).
Proof. exact foreign_untouched. Qed.
Print Assumptions C06_foreign.

(** The state at the end of a run is its last point, and the trace is what
    turned the initial state into it. *)
Theorem C06_points : forall e c m,
  point e c m (s_trace (fst (run_install e c m))) /\
  s_fs (fst (run_install e c m)) = apply_all (s_trace (fst (run_install e c m))) m.
Proof. exact run_points. Qed.
Print Assumptions C06_points.

Example C06_foreign_ex :
  honest_listings x_world /\
  let c := x_config 0 0 None [x_link1; x_link2] in
  ~ owned c [lit "boot"; lit "EFI"; lit "Linux"; lit "arch.efi"] /\
  owned c [lit "boot"; lit "EFI"; lit "Linux"; lit "nixos-old.efi"] /\
  (20 < length (s_trace (fst (run_install x_world c x_esp))))%nat.
Proof.
  split; [split; intros t l x H; exact H|]. cbv zeta. split; [|split].
  - remember [lit "boot"; lit "EFI"; lit "Linux"; lit "arch.efi"] as q eqn:E. intros H.
    destruct H as [n r|a y r|p H| |p H|d n r PL|d n r PL]; try discriminate.
    + destruct a as [|a0 a].
      * apply (f_equal (fun p => nth 3 p [])) in E. discriminate.
      * apply (f_equal (@length _)) in E. cbn in E. rewrite app_length in E. cbn in E. lia.
    + destruct H as [H|[H|[]]]; subst; discriminate.
    + destruct H as [H|[H|[H|[]]]]; subst; discriminate.
  - exact (own_linux (x_config 0 0 None [x_link1; x_link2]) [] (lit "old.efi") []).
  - vm_compute. lia.
Qed.

(** C12: before anything is removed, the ESP has been synced, and before that
    every generation of the selected links was in place and no selected link
    unreadable. *)
Theorem C12_deletion_late : forall e c m os p,
  digit_class (e_digit e) -> point e c m (os ++ [ORemove p]) ->
  exists before after vs sel,
    os = before ++ OSyncAll (c_esp c) :: after /\
    links_versions (c_links c) vs /\ newest (c_limit c) vs sel /\
    (forall vl, In vl sel -> ~ unreadable vl) /\
    (forall g, In g (flat_map link_generations sel) -> has_entry e c (apply_all before m) g).
Proof. exact removal_late. Qed.
Print Assumptions C12_deletion_late.

(** There is a removal in the example run. *)
Example C12_deletion_late_ex :
  digit_class (e_digit x_world) /\
  let c := x_config 0 0 None [x_link1; x_link2] in
  exists os, point x_world c x_esp (os ++ [ORemove [lit "boot"; lit "EFI"; lit "Linux"; lit "nixos-old.efi"]]).
Proof.
  split.
  - intros ch _. cbn. rewrite andb_true_iff, !N.leb_le. reflexivity.
  - cbv zeta. set (t := s_trace (fst (run_install x_world (x_config 0 0 None [x_link1; x_link2]) x_esp))).
    assert (last t (OChmod []) = ORemove [lit "boot"; lit "EFI"; lit "Linux"; lit "nixos-old.efi"]) as L by (vm_compute; reflexivity).
    assert (t <> []) as N by (vm_compute; discriminate).
    exists (removelast t), []. rewrite app_nil_r, <- L. exact (app_removelast_last _ N).
Qed.

(** C48: what is at the place of an executable, at any point of a run, was
    there before, or it is the output of the signer for the shipped systemd-boot
    resp. for an image made from the shipped stub. *)
Theorem C48_signed : forall e c m os p y b,
  point e c m os -> executable c p -> lookup (apply_all os m) p = Some (NFile y b) ->
  (exists b', lookup m p = Some (NFile y b')) \/
  exists x, to_be_signed e c p x /\ sg_sign (e_signer e) x = Some y.
Proof. exact all_signed. Qed.
Print Assumptions C48_signed.

(** With a key pair the signer is the signing tool. *)
Theorem C48_local : forall key sbsign sbverify, sg_sign (local_signer key sbsign sbverify) = sbsign.
Proof. reflexivity. Qed.
Print Assumptions C48_local.

Example C48_signed_ex :
  let c := x_config 0 0 None [x_link1] in
  let p := [lit "boot"; lit "EFI"; lit "BOOT"; lit "BOOTX64.EFI"] in
  executable c p /\
  lookup (s_fs (fst (run_install x_world c x_esp))) p =
    Some (NFile (x_boot (lit "257.2") ++ x_block (lit ".sig") (lit "KEY")) false).
Proof. split; [left; left; reflexivity | vm_compute; reflexivity]. Qed.
