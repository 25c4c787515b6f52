(** C18-C20, C45: the boot loader's own files. *)
From Coq Require Import List NArith ZArith Bool Lia.
From Verif Require Import Base MText MVersion MGeneration MNames SNames MPe MFs MTool MInstall SInstall PLoader XWorld.
Import ListNotations.
Open Scope N_scope.

(** ** Example settings *)

Definition x_shipping (v : str) (fault : nat -> fault) : env :=
  x_env (map (fun f => if eqb_bytes (fst f) (lit "/nix/store/systemd/lib/systemd/boot/efi/systemd-bootx64.efi")
                       then (fst f, x_boot v) else f) x_files) fault.
Definition x_fallback : path := [lit "boot"; lit "EFI"; lit "BOOT"; lit "BOOTX64.EFI"].
Definition x_systemd : path := [lit "boot"; lit "EFI"; lit "systemd"; lit "systemd-bootx64.efi"].
(** The ESP with given boot loader files. *)
Definition x_loaders (f s : option bytes) : fs :=
  x_esp ++ match f with
           | Some y => [([lit "boot"; lit "EFI"; lit "BOOT"], NDir); (x_fallback, NFile y true)]
           | None => []
           end
        ++ match s with
           | Some y => [([lit "boot"; lit "EFI"; lit "systemd"], NDir); (x_systemd, NFile y true)]
           | None => []
           end.
Definition x_signed (v : str) : bytes := x_boot v ++ x_sig x_key.
Definition x_c : config := x_config 0 0 None [x_link1].
Definition x_lockdir : path := [lit "var"; lit "lib"; lit "pcrlock.d"].
Definition x_cp : config := x_config 0 0 (Some x_lockdir) [x_link1].

Lemma x_separate : separate x_c.
Proof. intros d [=]. Qed.
Lemma x_separate_p : separate x_cp.
Proof. intros d [= <-]. split; intros (r & H); discriminate. Qed.
Lemma x_no_faults files : no_faults (x_env files x_good).
Proof. intros n. reflexivity. Qed.
Lemma x_honest files f : honest_listings (x_env files f).
Proof. split; intros t l x H; exact H. Qed.

(** ** C18 *)

(** When a replacement is called for, a successful run without I/O errors leaves
    the signed shipped binary in both places. *)
Theorem C18_replaced : forall e c, separate c -> forall m,
  no_faults e -> honest_listings e -> boot_needed e c m -> snd (run_install e c m) = Ok tt ->
  exists x out,
    e_store e (components (shipped_path c)) = Some x /\ sg_sign (e_signer e) x = Some out /\
    forall p, In p (boot_paths c) -> exists b, lookup (s_fs (fst (run_install e c m))) p = Some (NFile out b).
Proof. exact boot_replaced. Qed.
Print Assumptions C18_replaced.

(** Otherwise no step of the run writes, renames or removes either file. *)
Theorem C18_kept : forall e c, separate c -> forall m os p,
  no_faults e -> honest_listings e -> ~ boot_needed e c m -> point e c m os -> In p (boot_paths c) ->
  (forall o, In o os -> ~ writes o p) /\ node_like (lookup (apply_all os m) p) (lookup m p).
Proof. exact boot_kept. Qed.
Print Assumptions C18_kept.

(** One older file is enough to have both replaced, also by the same version. *)
Example C18_replaced_ex :
  let m := x_loaders (Some (x_signed (lit "257.2"))) (Some (x_signed (lit "257.1"))) in
  boot_needed x_world x_c m /\ snd (run_install x_world x_c m) = Ok tt /\
  lookup (s_fs (fst (run_install x_world x_c m))) x_systemd = Some (NFile (x_signed (lit "257.2")) false) /\
  lookup (s_fs (fst (run_install x_world x_c m))) x_fallback = Some (NFile (x_signed (lit "257.2")) false).
Proof.
  cbv zeta. split; [|vm_compute; repeat split; reflexivity].
  left. exists x_systemd. split; [right; left; reflexivity|]. left. right.
  exists (x_boot (lit "257.2")), (Version 257 2%Z 0). repeat split; try reflexivity. right. exists (Version 257 1%Z 0). split; reflexivity.
Qed.

(** Current files with valid signatures stay, although the run writes. *)
Example C18_kept_ex :
  let m := x_loaders (Some (x_signed (lit "257.2"))) (Some (x_signed (lit "258"))) in
  ~ boot_needed x_world x_c m /\ snd (run_install x_world x_c m) = Ok tt /\
  (3 < length (s_trace (fst (run_install x_world x_c m))))%nat /\
  lookup (s_fs (fst (run_install x_world x_c m))) x_systemd = Some (NFile (x_signed (lit "258")) true).
Proof.
  cbv zeta. split; [|split; [vm_compute; reflexivity | split; [vm_compute; lia | vm_compute; reflexivity]]].
  intros [(p & [<- |[<- |[]]] & [[H|(x & v & E & V & [H|(w & H & G)])]|H])|(d & [=] & _)].
  - vm_compute in H. discriminate.
  - vm_compute in H. discriminate.
  - vm_compute in E. injection E as <-. vm_compute in V. injection V as <-. vm_compute in H. injection H as <-. vm_compute in G. discriminate.
  - apply H. vm_compute. reflexivity.
  - vm_compute in H. discriminate.
  - vm_compute in H. discriminate.
  - vm_compute in E. injection E as <-. vm_compute in V. injection V as <-. vm_compute in H. injection H as <-. vm_compute in G. discriminate.
  - apply H. vm_compute. reflexivity.
Qed.

(** ** C19 *)

(** What holds: a run without I/O errors that touches a file which is not older
    than the shipped one has a reason in the other file, a signature that is not
    accepted, or the lack of a measurement.  Missing for C19: the two files are
    replaced together, so a newer file is lost when the other one needs
    replacing. *)
Theorem C19_downgrade_partial : forall e c, separate c -> forall m os o p v w x,
  no_faults e -> honest_listings e -> point e c m os -> In o os -> writes o p -> In p (boot_paths c) ->
  e_store e (components (shipped_path c)) = Some x -> systemd_boot_version (e_parse e) x = Ok v ->
  boot_version e m p = Ok w -> version_gtb v w = false ->
  (exists q, In q (boot_paths c) /\ q <> p /\ out_of_date e (Some x) m q) \/
  (exists q, In q (boot_paths c) /\ ~ verified e m q) \/
  (exists d, c_pcrlock c = Some d /\ lookup m (d ++ [lit "630-bootloader.pcrlock.d"; lit "current.pcrlock"]) = None).
Proof. exact boot_downgrade. Qed.
Print Assumptions C19_downgrade_partial.

Example C19_downgrade_partial_ex :
  let m := x_loaders (Some (x_signed (lit "258"))) None in
  exists os o, point x_world x_c m os /\ In o os /\ writes o x_fallback /\
    boot_version x_world m x_fallback = Ok (Version 258 0%Z 0) /\ version_gtb (Version 257 2%Z 0) (Version 258 0%Z 0) = false /\
    out_of_date x_world (Some (x_boot (lit "257.2"))) m x_systemd.
Proof.
  cbv zeta. set (m := x_loaders (Some (x_signed (lit "258"))) None).
  exists (s_trace (fst (run_install x_world x_c m))),
    (ORename [lit "boot"; lit "EFI"; lit "BOOT"; lit "BOOTX64..tmp"] x_fallback).
  split; [exists []; symmetry; apply app_nil_r|]. split; [vm_compute; tauto|]. split; [right; reflexivity|].
  split; [vm_compute; reflexivity|]. split; [vm_compute; reflexivity|]. left. vm_compute. reflexivity.
Qed.

(** A newer, properly signed fallback loader is replaced by the older shipped
    one when the other file is missing. *)
Theorem C19_never_downgraded_refuted :
  exists e c m p v w,
    no_faults e /\ separate c /\ In p (boot_paths c) /\ snd (run_install e c m) = Ok tt /\
    boot_version e m p = Ok w /\ verified e m p /\
    boot_version e (s_fs (fst (run_install e c m))) p = Ok v /\ version_gtb w v = true.
Proof.
  exists x_world, x_c, (x_loaders (Some (x_signed (lit "258"))) None), x_fallback, (Version 257 2%Z 0), (Version 258 0%Z 0).
  split; [apply x_no_faults|]. split; [exact x_separate|]. split; [left; reflexivity|].
  vm_compute. repeat split; reflexivity.
Qed.
Print Assumptions C19_never_downgraded_refuted.

(** ** C20 *)

(** What holds: unless a file makes the tool panic, the check of it succeeds and
    asks for a replacement exactly if it is missing, has no readable version or
    an older one. *)
Theorem C20_malformed_partial : forall e c p s x v,
  no_faults e -> In p (boot_paths c) ->
  e_store e (components (shipped_path c)) = Some x -> systemd_boot_version (e_parse e) x = Ok v ->
  (forall y b, lookup (s_fs s) p = Some (NFile y b) ->
     ~ section_panics (e_parse e) y (lit ".osrel") /\ ~ section_empty (e_parse e) y (lit ".osrel")) ->
  exists s' b, newer_systemd_boot e (Some x) p s = (s', Ok b) /\ s_fs s' = s_fs s /\
    (b = true <-> out_of_date e (Some x) (s_fs s) p).
Proof. exact newer_total. Qed.
Print Assumptions C20_malformed_partial.

(** The excluded files do make it panic. *)
Theorem C20_panics : forall e c p s x v y b,
  no_faults e -> In p (boot_paths c) ->
  e_store e (components (shipped_path c)) = Some x -> systemd_boot_version (e_parse e) x = Ok v ->
  lookup (s_fs s) p = Some (NFile y b) ->
  section_panics (e_parse e) y (lit ".osrel") \/ section_empty (e_parse e) y (lit ".osrel") ->
  snd (newer_systemd_boot e (Some x) p s) = Panic.
Proof. exact newer_panics. Qed.
Print Assumptions C20_panics.

Definition x_empty_osrel : bytes := [77; 90] ++ x_block (lit ".osrel") [].

(** Garbage is replaced; a file cut off inside its .osrel section and one with
    an empty one stop the tool. *)
Example C20_malformed_partial_ex :
  (let m := x_loaders (Some (lit "garbage")) (Some [77; 90]) in
   snd (run_install x_world x_c m) = Ok tt /\
   lookup (s_fs (fst (run_install x_world x_c m))) x_fallback = Some (NFile (x_signed (lit "257.2")) false)) /\
  ~ section_panics x_parse (lit "garbage") (lit ".osrel") /\ ~ section_empty x_parse (lit "garbage") (lit ".osrel") /\
  section_empty x_parse x_empty_osrel (lit ".osrel") /\
  section_panics x_parse (firstn 20 (x_boot (lit "257.2"))) (lit ".osrel") /\
  snd (run_install x_world x_c (x_loaders (Some (firstn 20 (x_boot (lit "257.2")))) None)) = Panic.
Proof.
  split; [vm_compute; split; reflexivity|].
  split; [intros (p & pre & s & post & E & _); discriminate|].
  split; [intros (p & pre & s & post & E & _); discriminate|].
  split.
  - exists (Pe [Section (Some (lit ".osrel")) 11 0 11 0] 0 false (Some 0)), [], (Section (Some (lit ".osrel")) 11 0 11 0), [].
    split; [vm_compute; reflexivity|]. split; [reflexivity|]. split; [constructor|]. split; [reflexivity|].
    split; [reflexivity|]. vm_compute. discriminate.
  - split; [|vm_compute; reflexivity].
    eexists. exists []. eexists. exists [].
    split; [vm_compute; reflexivity|]. split; [reflexivity|]. split; [constructor|]. right. split; [reflexivity|].
    right. vm_compute. reflexivity.
Qed.

(** The run is aborted by the bytes at the destination alone: with no file there
    it succeeds. *)
Theorem C20_not_fatal_refuted :
  exists e c m p y b x v,
    no_faults e /\ separate c /\ e_store e (components (shipped_path c)) = Some x /\
    systemd_boot_version (e_parse e) x = Ok v /\
    In p (boot_paths c) /\ lookup m p = Some (NFile y b) /\
    snd (run_install e c m) = Panic /\ snd (run_install e c (fs_remove p m)) = Ok tt.
Proof.
  exists x_world, x_c, (x_loaders (Some x_empty_osrel) None), x_fallback, x_empty_osrel, true, (x_boot (lit "257.2")), (Version 257 2%Z 0).
  split; [apply x_no_faults|]. split; [exact x_separate|].
  split; [vm_compute; reflexivity|]. split; [vm_compute; reflexivity|]. split; [left; reflexivity|].
  vm_compute. repeat split; reflexivity.
Qed.
Print Assumptions C20_not_fatal_refuted.

(** ** C45 *)

(** What holds: from a state in which the file is measured by the current
    component, after any history of runs that were completed or stopped before
    replacing a file, at every point of the next run the file is covered.
    Missing: a run after one that was stopped between the first replacement and
    the renaming of the measurement. *)
Theorem C45_covered_partial : forall lock d ps m m1 e c os p,
  In p ps -> measured_by lock d m p (lit "current") -> between_updates lock d ps m m1 ->
  same_machine lock d ps e c -> point e c m1 os ->
  covered lock d (apply_all os m1) p.
Proof. exact covered_history. Qed.
Print Assumptions C45_covered_partial.

Lemma x_strip_signed x : x_strip x_key (x ++ x_sig x_key) = x.
Proof.
  unfold x_strip. rewrite app_length, PeanoNat.Nat.add_sub, skipn_app, skipn_all, PeanoNat.Nat.sub_diag. cbn [skipn app].
  rewrite PBase.eqb_bytes_refl, firstn_app, firstn_all, PeanoNat.Nat.sub_diag. apply app_nil_r.
Qed.

Definition x_lock : bytes -> option bytes := fun b => Some (lit "lock:" ++ x_sha (x_strip x_key b)).

(** The measurement of a signed file is that of the file; files that themselves
    end in a signature are not shipped. *)
Definition x_once (x : bytes) : bool :=
  negb (eqb_bytes (skipn (length x - length (x_sig x_key)) x) (x_sig x_key)).
Definition x_careful (e : env) : env :=
  Env (e_store e) (e_sha e) (e_parse e) (e_objcopy e) (e_secrets e)
      (local_signer (Some x_key) (fun b => if x_once b then Some (b ++ x_sig x_key) else None)
         (fun b => eqb_bytes (skipn (length b - length (x_sig x_key)) b) (x_sig x_key)))
      (e_lock e) (e_digit e) (e_list e) (e_walk e) (e_fault e).

Lemma x_same_machine files f : same_machine x_lock x_lockdir [x_fallback; x_systemd] (x_careful (x_env files f)) x_cp.
Proof.
  split; [reflexivity|]. split; [reflexivity|]. split; [reflexivity|]. split; [exact x_separate_p|]. split; [apply (x_honest files f)|].
  intros x out. cbn [e_signer x_careful local_signer sg_sign]. destruct (x_once x) eqn:O; [|discriminate]. intros [= <-].
  unfold x_lock. rewrite x_strip_signed. unfold x_once in O. apply negb_true_iff in O.
  unfold x_strip. rewrite O. reflexivity.
Qed.

Definition x_env2 : env := x_careful (x_shipping (lit "258") x_good).
Definition x_measured : fs := s_fs (fst (run_install (x_careful x_world) x_cp x_esp)).

(** A completed installation, then an update killed after the fallback loader
    has been replaced. *)
Example C45_covered_partial_ex :
  measured_by x_lock x_lockdir x_measured x_fallback (lit "current") /\
  between_updates x_lock x_lockdir [x_fallback; x_systemd] x_measured x_measured /\
  same_machine x_lock x_lockdir [x_fallback; x_systemd] x_env2 x_cp /\
  (let os := firstn 6 (s_trace (fst (run_install x_env2 x_cp x_measured))) in
   point x_env2 x_cp x_measured os /\
   lookup (apply_all os x_measured) x_fallback = Some (NFile (x_signed (lit "258")) false) /\
   lookup (apply_all os x_measured) x_systemd = Some (NFile (x_signed (lit "257.2")) true)).
Proof.
  split; [|split; [apply bu_start|split; [apply x_same_machine|]]].
  - exists (x_signed (lit "257.2")), false. eexists. exists false. vm_compute. repeat split; reflexivity.
  - cbv zeta. split; [exists (skipn 6 (s_trace (fst (run_install x_env2 x_cp x_measured)))); symmetry; apply firstn_skipn|].
    vm_compute. split; reflexivity.
Qed.

(** After a run killed there, the next run truncates the only measurement of the
    new fallback loader before making it again. *)
Theorem C45_always_covered_refuted :
  exists lock d ps m e c os1 os2 p,
    same_machine lock d ps e c /\ no_faults e /\ In p ps /\
    measured_by lock d m p (lit "current") /\
    point e c m os1 /\ covered lock d (apply_all os1 m) p /\
    point e c (apply_all os1 m) os2 /\ ~ covered lock d (apply_all os2 (apply_all os1 m)) p.
Proof.
  set (t1 := s_trace (fst (run_install x_env2 x_cp x_measured))).
  set (m1 := apply_all (firstn 6 t1) x_measured).
  set (t2 := s_trace (fst (run_install x_env2 x_cp m1))).
  exists x_lock, x_lockdir, [x_fallback; x_systemd], x_measured, x_env2, x_cp, (firstn 6 t1), (firstn 2 t2), x_fallback.
  split; [apply x_same_machine|]. split; [intros n; reflexivity|]. split; [left; reflexivity|].
  split; [exact (proj1 C45_covered_partial_ex)|].
  split; [exists (skipn 6 t1); symmetry; apply firstn_skipn|].
  split; [right; exists (x_signed (lit "258")), false; eexists; exists false; vm_compute; repeat split; reflexivity|].
  split; [exists (skipn 2 t2); symmetry; apply firstn_skipn|].
  intros [H|H]; destruct H as (y & b & lo & b' & L & K & C); vm_compute in L; injection L as <- <-;
    vm_compute in K; injection K as <-; vm_compute in C; discriminate.
Qed.
Print Assumptions C45_always_covered_refuted.
