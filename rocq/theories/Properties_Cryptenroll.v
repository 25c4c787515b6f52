(** C85: what the service auto-cryptenroll binds the encrypted disk to. *)
From Coq Require Import List NArith Bool Lia.
From Verif Require Import Base PBase MText PText MGeneration MNames MPe MCpio MFirmware MStub MFs MTool MInstall MCli MHook MPolicy MCryptenroll
  SCommon SNames SFirmware SStub SInstall SHistory SImage SUse SExact SCli SHook SRepeat SPcr SPolicy SCryptenroll.
From Verif Require Import PFs PLoader PHistory PCli PHook PPolicy PCryptenroll XWorld XMachine
  Properties_Loader Properties_History Properties_Repeat Properties_Image Properties_Cli Properties_Gate Properties_Stub Properties_Switch Properties_Policy.
Import ListNotations.
Open Scope N_scope.

(** ** C85 *)

(** Once the marker is there, which keeps the service from running again, the
    slot is bound to a policy, and stays so. *)
Theorem C85_marker : forall t0 t,
  lookup (k_fs t0) marker = None -> lives t0 t -> lookup (k_fs t) marker <> None ->
  k_slot t = Pcrlock /\ k_policy t <> None.
Proof. exact lives_bound. Qed.
Print Assumptions C85_marker.

(** If the service succeeds and so did lzbt, then the TPM opens the disk when a
    selected generation is booted with a boot loader that lzbt installed. *)
Theorem C85_opens_partial : forall digest allows act sep M Sign Lock u o ok t ts,
  sound M -> no_reuse M -> digests_ok digest allows Sign Lock -> measuring M Sign Lock u o ->
  SRepeat.measured_history M Sign Lock (lock_dir o) (k_fs t) -> lzbt_succeeds u o (k_fs t) ->
  auto_cryptenroll u o ok t = (ts, true) ->
  let m1 := installed u o (k_fs t) in
  exists a c, wanted o (u_links u 0) (o_esp o) a /\ asked_config (u_world u 0) a c /\
    forall p, In p (boot_paths c) -> loader_measured u o (k_fs t) p ->
    exists l b, lookup m1 p = Some (NFile l b) /\
    forall g, always_selected c g -> exists key n y b', ma_keys M key /\ named M key g n /\
      lookup m1 (linux_file M n) = Some (NFile y b') /\ bootable M m1 y /\
      opens allows act sep o (last ts t) [act; sep; digest l; digest y].
Proof.
  intros digest allows act sep M Sign Lock u o ok t ts SO NR DO ME MH LS S. cbv zeta.
  apply (hook_opens digest allows act sep M SO NR Sign Lock DO u o ME (k_fs t) MH LS).
  - apply service_done in S as (_ & _ & _ & ->). reflexivity.
  - apply service_done in S as (_ & Z & _ & ->). exists (k_log t).
    destruct (hook_policy_fs u o t) as (_ & _ & _ & P). rewrite Z, (me_measured _ _ _ _ _ ME) in P. exact P.
Qed.
Print Assumptions C85_opens_partial.

(** After the service the slot is bound and the components are those that lzbt
    left. *)
Theorem C85_ready : forall u o ok t ts,
  auto_cryptenroll u o ok t = (ts, true) -> o_measured o = true -> o_extra o = [] ->
  (forall r, marker <> lock_dir o ++ r) -> (forall m, same_components o (fst (u_policy u m)) m) ->
  let t1 := last ts t in
  k_slot t1 = Pcrlock /\ k_policy t1 = Some (installed u o (k_fs t), k_log t) /\
  lookup (k_fs t1) marker <> None /\ same_components o (k_fs t1) (installed u o (k_fs t)).
Proof. exact service_components. Qed.
Print Assumptions C85_ready.

(** From the next boot on that these components explain, the TPM opens the disk
    for nothing but the entries of the selected generations, with their kernel,
    initrd and command line. *)
Theorem C85_only_partial : forall digest allows act sep hash M Sign Lock u o m u' t log,
  sound M -> no_reuse M -> digests_ok digest allows Sign Lock -> measuring M Sign Lock u o ->
  SRepeat.measured_history M Sign Lock (lock_dir o) m -> lzbt_succeeds u o m ->
  (forall z, ma_good M z -> loads_well (ma_parse M) z) ->
  let m1 := installed u o m in
  same_components o (k_fs t) m1 ->
  admitted allows act sep (upstream_static o) m1 (lock_dir o) log -> snd (u_policy u' (k_fs t)) = 0 ->
  exists a c vs sel, wanted o (u_links u 0) (o_esp o) a /\ asked_config (u_world u 0) a c /\
    links_versions (c_links c) vs /\ newest (c_limit c) vs sel /\
    forall l y image pm parse fw path h r before img entry,
      faithful digest M m1 y -> in_memory M y image pm -> tpm_present fw ->
      stub_main fw (ma_sha M) pm parse image path [] = (h, r) -> started h before img entry ->
      opens allows act sep o (boot u' o log t) (boot_log digest act sep hash l y before) ->
      from_dir allows m1 (lock_dir o ++ [lit "630-bootloader.pcrlock.d"]) [digest l] /\
      exists g, In g (flat_map link_generations sel) /\ stub_for M g y /\
        (usable g -> starts_own M g parse before img entry).
Proof.
  intros digest allows act sep hash M Sign Lock u o m u' t log SO NR DO ME MH LS LW m1 SC AD Z.
  exact (boot_opens_only digest allows act sep hash M SO NR Sign Lock DO u o ME m MH LS u' t log LW SC AD Z).
Qed.
Print Assumptions C85_only_partial.

(** ** Example *)

Definition q_world : world :=
  let w := y_world y_stub true in
  World (MCli.w_stub w) (w_exists w) (w_read w) (w_link w)
    (fun key cert b => if x_once b then w_sbsign w key cert b else None) (w_sbverify w) (w_env w).
(** The same with an ESP that cannot be written to. *)
Definition q_bad : world :=
  World (MCli.w_stub q_world) (w_exists q_world) (w_read q_world) (w_link q_world) (w_sbsign q_world) (w_sbverify q_world)
    (fun s => let e := y_env s in
       Env (e_store e) (e_sha e) (e_parse e) (e_objcopy e) (e_secrets e) (e_signer e) (e_lock e) (e_digit e)
         (e_list e) (e_walk e) (fun _ => Fault None)).
Definition q_u (bad : bool) : surroundings :=
  Surroundings (fun _ => if bad then q_bad else q_world)
    (fun _ => [lit "/nix/var/nix/profiles/system-1-link"; lit "/nix/var/nix/profiles/system-2-link"]) (fun m => (m, 0)).
Definition q_o : options :=
  Options (lit "x86_64-linux") (lit "/nix/store/systemd") (lit "/nix/store/loader.conf") None false 3
    (lit "/etc/db.pem") (lit "/etc/db.key") true [4; 7] (lit "/var/pcrlock.d") (lit "boot") [].
(** Before, the machine was booted by other software, with a longer log. *)
Definition q_log : list bytes := [p_action; p_separator; x_sha (lit "shim"); x_sha (lit "grub"); x_sha (lit "linux")].
Definition q_t : machine_state := Kept p_m0 None Static q_log.
Definition q_done : machine_state := last (fst (auto_cryptenroll (q_u false) q_o true q_t)) q_t.

Lemma q_config c : asked_config q_world (install_args q_o (u_links (q_u false) 0) (o_esp q_o)) c -> c = x_c3.
Proof.
  intros (AR & ST & ES & SD & CO & LI & _ & TR & _ & PL & _ & LK).
  destruct c as [ar es st sd co li tr pl lk]. cbn [c_arch c_esp c_stub c_systemd c_conf c_limit c_tries c_pcrlock c_links] in *.
  assert (ar = X86) as -> by (destruct AR as [[_ E]|[E _]]; [exact E | discriminate]).
  assert (li = 0) as -> by (apply LI; reflexivity). assert (tr = 3) as -> by (apply TR; reflexivity).
  assert (pl = Some x_lockdir) as -> by (apply (PL (lit "/var/pcrlock.d")); reflexivity). injection ST as <-.
  cbn in ES, SD, CO. subst. cbn [install_args a_generations q_u u_links] in LK.
  inversion LK as [|? l1 ? r1 E7 LK1]; subst. inversion LK1 as [|? l2 ? r2 E8 LK2]; subst. inversion LK2; subst. reflexivity.
Qed.

Lemma q_measuring : measuring x_m p_sign p_lock (q_u false) q_o.
Proof.
  constructor; [reflexivity | left; reflexivity | reflexivity |].
  intros a sg c W AS AC. apply wanted_eq in W as ->. apply q_config in AC as ->. cbv zeta.
  destruct AS as (pub & priv & E1 & E2 & A). cbn [install_args a_public_key a_private_key q_o o_public_key o_private_key] in E1, E2.
  injection E1 as <-. injection E2 as <-. cbv zeta in A. destruct A as [_ A].
  destruct A as (KEY & SG & _); [intros [X _]; discriminate X|].
  assert (forall x y, sg_sign sg x = Some y -> sg_sign (e_signer p_e) x = Some y) as SI.
  { intros x y H. destruct (SG x) as [E _]. rewrite E in H. exact H. }
  split; [|split; [|split; [|split; [|split; [|split]]]]].
  - pose proof (p_fits x_c3 x_c3_fits) as [F1 F2 F3 F4 F5 F6 F7 F8 F9 F10]. constructor; try assumption.
    + cbn. intros key E. rewrite KEY in E. injection E as <-. reflexivity.
    + intros stub p sections image out H1 H2 H3 H4 H5 H6. apply (F10 stub p sections image out H1 H2 H3 H4 H5). apply SI. exact H6.
  - split; [exact SI | intros x y H; exact H].
  - destruct p_same as (_ & S2 & S3 & S4 & S5 & S6).
    split; [reflexivity|]. split; [exact S2|]. split; [exact S3|]. split; [exact S4|]. split; [exact S5|].
    intros x y H. exact (S6 x y (SI x y H)).
  - intros n. reflexivity.
  - exact x_complete.
  - apply x_c3_distinct.
  - apply x_c3_readable.
Qed.

Lemma q_succeeds : lzbt_succeeds (q_u false) q_o p_m0.
Proof. intros a W. apply wanted_eq in W as ->. vm_compute. reflexivity. Qed.

Lemma q_installed : installed (q_u false) q_o p_m0 = p_m1.
Proof. vm_compute. reflexivity. Qed.

Lemma q_service : auto_cryptenroll (q_u false) q_o true q_t = (fst (auto_cryptenroll (q_u false) q_o true q_t), true).
Proof.
  assert (snd (auto_cryptenroll (q_u false) q_o true q_t) = true) as H by (vm_compute; reflexivity).
  destruct (auto_cryptenroll (q_u false) q_o true q_t) as [l b]. cbn [fst snd] in *. rewrite H. reflexivity.
Qed.

Lemma q_loader : loader_measured (q_u false) q_o p_m0 x_fallback.
Proof.
  intros a sg _ _. right. exists (x_signed (lit "257.2")), false. eexists. exists false. vm_compute. repeat split; reflexivity.
Qed.

Example C85_opens_ex :
  measuring x_m p_sign p_lock (q_u false) q_o /\
  SRepeat.measured_history x_m p_sign p_lock (lock_dir q_o) p_m0 /\ lzbt_succeeds (q_u false) q_o p_m0 /\
  snd (auto_cryptenroll (q_u false) q_o true q_t) = true /\ loader_measured (q_u false) q_o p_m0 x_fallback /\
  opens p_allows p_action p_separator q_o q_done [p_action; p_separator; p_digest p_loader; p_digest w_stub].
Proof.
  split; [apply q_measuring|]. split; [apply p_history|]. split; [apply q_succeeds|]. split; [vm_compute; reflexivity|].
  split; [apply q_loader|]. split; [vm_compute; reflexivity|]. exists p_m1, q_log. split; [vm_compute; reflexivity|]. intros _.
  change (upstream_static q_o) with (upstream_static p_options). apply C84_kernel_ex.
Qed.

(** Booting the second generation then; a command line from the boot loader's
    editor does not open the disk any more. *)
Definition q_boot : list bytes := [p_action; p_separator; p_digest p_loader; p_digest w_stub].
Example C85_only_ex :
  admitted p_allows p_action p_separator (upstream_static q_o) (installed (q_u false) q_o p_m0) (lock_dir q_o) q_boot /\
  opens p_allows p_action p_separator q_o (boot (q_u false) q_o q_boot q_done) q_boot /\
  ~ opens p_allows p_action p_separator q_o (boot (q_u false) q_o q_boot q_done)
      (boot_log p_digest p_action p_separator x_sha p_loader w_stub (p_before (Some (text16z (lit "init=/bin/sh"))))) /\
  same_components q_o (k_fs q_done) (installed (q_u false) q_o p_m0).
Proof.
  destruct C84_kernel_ex as (AD & _). rewrite q_installed. change (upstream_static q_o) with (upstream_static p_options).
  assert (same_components q_o (k_fs q_done) p_m1) as SC.
  { pose proof (C85_ready (q_u false) q_o true q_t _ q_service eq_refl eq_refl) as R.
    destruct R as (_ & _ & _ & R); [intros r; discriminate | intros m r _; reflexivity|]. rewrite <- q_installed. exact R. }
  split; [exact AD|]. split; [|split].
  - split; [vm_compute; reflexivity|]. exists (k_fs q_done), q_boot. split; [reflexivity|]. intros H. exact H.
  - revert SC. generalize q_done. intros k SC (_ & m & cur & P & A). cbn [boot q_o o_measured q_u u_policy k_policy N.eqb] in P. injection P as <- <-.
    apply C84_custom_ex. eapply (admitted_same p_allows p_action p_separator q_o (upstream_static p_options)); [exact SC|].
    apply A. eapply admitted_same; [|exact AD]. intros r Hr. symmetry. apply SC. exact Hr.
  - exact SC.
Qed.

(** ** Refutations *)

(** That the disk opens for the selected generations only as soon as the service
    has succeeded is false, also if lzbt succeeded: until the next boot that the
    components explain, PCR 4 may not be part of the policy. *)
Theorem C85_at_once_refuted : exists digest allows act sep M Sign Lock u o ok t,
  sound M /\ no_reuse M /\ digests_ok digest allows Sign Lock /\ measuring M Sign Lock u o /\
  SRepeat.measured_history M Sign Lock (lock_dir o) (k_fs t) /\ lzbt_succeeds u o (k_fs t) /\
  snd (auto_cryptenroll u o ok t) = true /\
  forall log, opens allows act sep o (last (fst (auto_cryptenroll u o ok t)) t) log.
Proof.
  exists p_digest, p_allows, p_action, p_separator, x_m, p_sign, p_lock, (q_u false), q_o, true, q_t.
  split; [apply x_m_sound|]. split; [apply x_no_reuse|]. split; [apply p_digests|]. split; [apply q_measuring|].
  split; [apply p_history|]. split; [apply q_succeeds|]. split; [vm_compute; reflexivity|].
  intros log. split; [vm_compute; reflexivity|]. exists p_m1, q_log. split; [vm_compute; reflexivity|]. intros AD. exfalso.
  destruct C83_ex as (SO & NR & DO & P4 & FI & MB & SM & NF & CL & DI & AR & MH & OK & _).
  destruct (C83_only p_digest p_allows p_action p_separator x_m p_sign p_lock p_options x_lockdir p_e x_c3 p_m0
    SO NR DO P4 FI MB eq_refl NF CL DI AR MH OK) as (vs & sel & _ & _ & ONLY).
  destruct (ONLY _ AD) as (g & key & n & y & b & bl & E & FB & _).
  apply (f_equal (@length bytes)) in E. rewrite !app_length in E.
  destruct FB as [(n0 & lo & b0 & t & _ & _ & ->)|[_ ->]]; vm_compute in E; discriminate E.
Qed.
Print Assumptions C85_at_once_refuted.

(** That lzbt succeeded if the service did is false: here lzbt fails and leaves
    no components.  Then the disk opens whatever is booted, also after the next
    boot, and the service does not run again. *)
Theorem C85_unprotected_refuted : exists u u' o ok t,
  (forall a, wanted o (u_links u 0) (o_esp o) a -> snd (lzbt (u_world u 0) a (k_fs t)) <> 0) /\
  snd (auto_cryptenroll u o ok t) = true /\
  let t1 := last (fst (auto_cryptenroll u o ok t)) t in
  forall allows act sep l y,
    let t2 := boot u' o [act; sep; l; y] t1 in
    snd (u_policy u' (k_fs t1)) = 0 /\ (forall log, opens allows act sep o t2 log) /\
    forall u2 o2 ok2, auto_cryptenroll u2 o2 ok2 t2 = ([], false).
Proof.
  exists (q_u true), (q_u true), q_o, true, (Kept x_esp None Static q_log).
  split; [intros a W; apply wanted_eq in W as ->; vm_compute; discriminate|]. split; [vm_compute; reflexivity|].
  cbv zeta. set (t1 := last _ _). intros allows act sep l y. split; [reflexivity|]. split.
  - intros log. split; [reflexivity|]. exists (k_fs t1), [act; sep; l; y]. split; [reflexivity|].
    intros (a & s & b & v & A & S & B & V & E). exfalso.
    assert (forall n r, lookup (k_fs t1) ((lock_dir q_o ++ [n]) ++ [r]) = None) as NO.
    { intros n r. destruct (lookup (k_fs t1) ((lock_dir q_o ++ [n]) ++ [r])) eqn:L; [|reflexivity]. exfalso. apply w_lookup in L.
      assert (forallb (fun pn => match fst pn with _ :: x :: _ => negb (eqb_bytes x (lit "pcrlock.d")) | _ => true end) (k_fs t1) = true) as F by (vm_compute; reflexivity).
      rewrite forallb_forall in F. specialize (F _ L). cbn in F. discriminate F. }
    assert (b = [] /\ v = []) as [-> ->].
    { split; [destruct B as [(n & lo & b0 & t & L & _)|[_ X]] | destruct V as [(n & lo & b0 & t & L & _)|[_ X]]]; try exact X; rewrite NO in L; discriminate L. }
    destruct A as [[_ ->]|[_ ->]], S as [[_ ->]|[_ ->]]; discriminate E.
  - intros u2 o2 ok2. unfold auto_cryptenroll. replace (present (k_fs _) marker) with true; [reflexivity|]. vm_compute. reflexivity.
Qed.
Print Assumptions C85_unprotected_refuted.
