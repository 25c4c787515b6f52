(** The NixOS module's install hook: C71. *)
From Coq Require Import List NArith Bool Lia.
From Verif Require Import Base PBase MText MGeneration MNames MPe MFs MTool MInstall MCli MHook SNames SInstall SHistory SCli SHook PFs PInstall PHistories PCli PHook.
From Verif Require Import XWorld XMachine Properties_History Properties_Cli.
Import ListNotations.
Open Scope N_scope.

(** ** C71 *)

(** The hook runs lzbt on the ESP and then on every extra mount point, with the
    command line the options ask for, whatever came of the ones before.  It ends
    like the last of them, or, with measured boot, like systemd-pcrlock. *)
Theorem C71_runs : forall u o m0,
  (forall i esp, mount_point o i esp -> exists m a, installation u o m0 i esp m a) /\
  let n := length (o_extra o) in
  exists esp m a, installation u o m0 n esp m a /\
    (o_measured o = false -> hook u o m0 = (fst (fst (lzbt (u_world u n) a m)), snd (lzbt (u_world u n) a m))) /\
    (o_measured o = true -> hook u o m0 = u_policy u (fst (fst (lzbt (u_world u n) a m)))).
Proof. intros u o m0. split; [apply every_mount_point | apply hook_runs]. Qed.
Print Assumptions C71_runs.

(** Each mount point keeps the guarantees that hold for it alone: whenever the
    hook is stopped, its ESP is in a state of a history. *)
Theorem C71_history : forall M u o k m0 m,
  sound M -> serves u o k M -> history M m0 -> meanwhile u o m0 m -> history M m.
Proof. intros M u o k m0 m SO SV. exact (hook_history M SO u o k m0 SV m). Qed.
Print Assumptions C71_history.

(** If the installation on a mount point succeeds, then the newest generations
    boot from it, also while and after the others are served, even if these
    fail. *)
Theorem C71_boots : forall M u o k m0 esp m a,
  sound M -> serves u o k M -> history M m0 -> installation u o m0 k esp m a ->
  (forall sg, asked_signer (u_world u k) a sg -> no_faults (w_env (u_world u k) sg)) ->
  snd (lzbt (u_world u k) a m) = 0 ->
  exists c vs sel, asked_config (u_world u k) a c /\ links_versions (c_links c) vs /\ newest (c_limit c) vs sel /\
    forall m1 g, m1 = fst (fst (lzbt (u_world u k) a m)) \/ later u o m0 k m1 ->
      In g (flat_map link_generations sel) -> boots M m1 g.
Proof. intros M u o k m0 esp m a SO SV. exact (hook_boots M SO u o k m0 SV esp m a). Qed.
Print Assumptions C71_boots.

(** With one mount point and no measured boot, the hook's success means that the
    newest generations boot. *)
Theorem C71_single : forall M u o m0,
  sound M -> serves u o 0 M -> history M m0 -> o_extra o = [] -> o_measured o = false ->
  (forall a sg, wanted o (u_links u 0) (o_esp o) a -> asked_signer (u_world u 0) a sg -> no_faults (w_env (u_world u 0) sg)) ->
  snd (hook u o m0) = 0 ->
  exists a c vs sel, wanted o (u_links u 0) (o_esp o) a /\ asked_config (u_world u 0) a c /\
    links_versions (c_links c) vs /\ newest (c_limit c) vs sel /\
    forall g, In g (flat_map link_generations sel) -> boots M (fst (hook u o m0)) g.
Proof.
  intros M u o m0 SO SV HI NX NM NF EX. destruct (hook_runs u o m0) as (esp & m & a & IN & H & _).
  rewrite NX in IN, H. specialize (H NM). cbn [length] in *.
  assert (esp = o_esp o) as -> by (destruct IN as ([[_ E]|(j & E & _)] & _); [exact E | discriminate]).
  assert (wanted o (u_links u 0) (o_esp o) a) as W by apply IN.
  destruct (hook_boots M SO u o 0 m0 SV (o_esp o) m a HI IN) as (c & vs & sel & AC & LV & NW & B).
  - intros sg. apply NF. exact W.
  - rewrite H in EX. exact EX.
  - exists a, c, vs, sel. split; [exact W|]. split; [exact AC|]. split; [exact LV|]. split; [exact NW|].
    intros g. apply B. right. right. reflexivity.
Qed.
Print Assumptions C71_single.

(** ** The example: two mount points *)

Definition z_options (extra : list bytes) (measured : bool) : options :=
  Options (lit "x86_64-linux") (lit "/nix/store/systemd") (lit "/nix/store/loader.conf") (Some 5) false 0
    (lit "/etc/db.pem") (lit "/etc/db.key") measured [7] (lit "/var/lib/pcrlock.d") (lit "boot") extra.
Definition z_links : list bytes := [lit "/nix/var/nix/profiles/system-1-link"; lit "/nix/var/nix/profiles/system-2-link"].
(** A world in which every change fails: a read-only ESP. *)
Definition z_bad : world :=
  let w := y_world y_stub true in
  World (w_stub w) (w_exists w) (w_read w) (w_link w) (w_sbsign w) (w_sbverify w)
    (fun s => let e := y_env s in
       Env (e_store e) (e_sha e) (e_parse e) (e_objcopy e) (e_secrets e) (e_signer e) (e_lock e) (e_digit e)
         (e_list e) (e_walk e) (fun _ => Fault None)).
Definition z_around (bad : nat -> bool) (policy : N) : surroundings :=
  Surroundings (fun i => if bad i then z_bad else y_world y_stub true) (fun _ => z_links) (fun m => (m, policy)).

(** One mount point fails, and so does the hook if it is the last one only. *)
Example C71_runs_ex :
  snd (hook (z_around (fun _ => false) 0) (z_options [lit "boot2"] false) x_esp) = 0 /\
  snd (hook (z_around (fun i => Nat.eqb i 1) 0) (z_options [lit "boot2"] false) x_esp) = 1 /\
  snd (hook (z_around (fun i => Nat.eqb i 0) 0) (z_options [lit "boot2"] false) x_esp) = 0 /\
  snd (hook (z_around (fun _ => false) 0) (z_options [] false) x_esp) = 0 /\
  snd (hook (z_around (fun _ => true) 0) (z_options [] false) x_esp) = 1 /\
  snd (hook (z_around (fun _ => true) 0) (z_options [] true) x_esp) = 0 /\
  snd (hook (z_around (fun _ => false) 3) (z_options [] true) x_esp) = 3.
Proof. vm_compute. repeat split. Qed.

Lemma z_config bad i esp pol o c : o = z_options [lit "boot2"] false \/ o = z_options [] false ->
  asked_config (u_world (z_around bad pol) i) (install_args o z_links esp) c ->
  c = Config X86 (components esp) (lit "/nix/store/lzbt/stub.efi") (lit "/nix/store/systemd") (lit "/nix/store/loader.conf")
        5 0 None [x_link1; x_link2].
Proof.
  intros O (AR & ST & ES & SD & CO & LI & _ & TR & _ & _ & PL & LK).
  assert (a_system (install_args o z_links esp) = lit "x86_64-linux" /\ a_systemd (install_args o z_links esp) = lit "/nix/store/systemd" /\
    a_conf (install_args o z_links esp) = lit "/nix/store/loader.conf" /\ a_limit (install_args o z_links esp) = Some 5 /\
    a_tries (install_args o z_links esp) = Some 0 /\ a_pcrlock (install_args o z_links esp) = None) as (E1 & E2 & E3 & E4 & E5 & E6)
    by (destruct O as [-> | ->]; cbn; auto 10).
  rewrite E1 in AR. rewrite E2 in SD. rewrite E3 in CO. rewrite E4 in LI. rewrite E5 in TR. rewrite E6 in PL.
  cbn [install_args a_esp a_generations] in *.
  assert (forall q, w_link (u_world (z_around bad pol) i) q = y_link q) as WL by (intros q; cbn; destruct (bad i); reflexivity).
  assert (w_stub (u_world (z_around bad pol) i) = y_stub) as WS by (cbn; destruct (bad i); reflexivity). rewrite WS in ST.
  destruct c as [ar es st sd co li tr pl lk]. cbn [c_arch c_esp c_stub c_systemd c_conf c_limit c_tries c_pcrlock c_links] in *.
  assert (ar = X86) as -> by (destruct AR as [[_ E]|[E _]]; [exact E | discriminate]).
  assert (li = 5) as -> by (apply LI; reflexivity). assert (tr = 0) as -> by (apply TR; reflexivity).
  assert (pl = None) as -> by (apply PL; reflexivity). injection ST as <-. subst.
  unfold z_links in LK. inversion LK as [|? l1 ? r1 E7 LK1]; subst. inversion LK1 as [|? l2 ? r2 E8 LK2]; subst. inversion LK2; subst.
  rewrite !WL. reflexivity.
Qed.

Lemma z_serves bad pol o : o = z_options [lit "boot2"] false \/ o = z_options [] false -> bad 0%nat = false ->
  serves (z_around bad pol) o 0 x_m.
Proof.
  intros O B0. split; [|reflexivity]. intros i esp a sg c MP W AS AC. apply wanted_eq in W as ->.
  cbn [z_around u_links] in AS, AC. pose proof AC as AC'. apply z_config in AC; [|exact O]. split; intros NE.
  - subst i. assert (esp = lit "boot") as -> by (destruct MP as [[_ ->]|(j & E & _)]; [destruct O as [-> | ->]; reflexivity | discriminate]).
    cbn [z_around u_world] in *. rewrite B0 in *.
    change (components (lit "boot")) with [lit "boot"] in AC. fold (x_config 5 0 None [x_link1; x_link2]) in AC. subst c.
    destruct AS as (pub & priv & E1 & E2 & A). cbn [install_args a_public_key a_private_key] in E1, E2.
    assert (o_public_key o = lit "/etc/db.pem" /\ o_private_key o = lit "/etc/db.key" /\ o_allow_unsigned o = false) as (K1 & K2 & K3)
      by (destruct O as [-> | ->]; auto).
    rewrite K1 in E1. rewrite K2 in E2. injection E1 as <-. injection E2 as <-. cbv zeta in A. destruct A as [_ A].
    destruct A as (KEY & SG & _); [intros [X _]; cbn in X; rewrite K3 in X; discriminate X|].
    pose proof (x_m_fits x_good 5 0 [x_link1; x_link2] (incl_refl _)) as [F1 F2 F3 F4 F5 F6 F7 F8 F9 F10].
    constructor; try assumption.
    + cbn. intros key E. rewrite KEY in E. injection E as <-. reflexivity.
    + intros stub p sections image out H1 H2 H3 H4 H5 H6. apply (F10 stub p sections image out H1 H2 H3 H4 H5).
      cbn [w_env y_world y_env e_signer] in H6. destruct (SG image) as [SI _]. rewrite SI in H6. exact H6.
  - assert (esp = lit "boot2") as ->.
    { destruct MP as [[X _]|(j & E & N)]; [contradiction|]. destruct O as [-> | ->]; cbn in N.
      - destruct j as [|j]; cbn in N; [injection N as <-; reflexivity | destruct j; discriminate].
      - destruct j; discriminate. }
    subst c. cbn [c_esp c_pcrlock]. split; [|split; [|discriminate]].
    + cbn [z_around u_world]. destruct (bad i); apply (fi_listings _ _ _ (x_m_fits x_good 5 0 [x_link1; x_link2] (incl_refl _))).
    + split; intros [r E]; discriminate.
Qed.

(** The second mount point fails; the generations still boot from the first. *)
Example C71_boots_ex :
  let u := z_around (fun i => Nat.eqb i 1) 0 in let o := z_options [lit "boot2"] false in
  sound x_m /\ serves u o 0 x_m /\ history x_m x_esp /\
  exists a, installation u o x_esp 0 (lit "boot") x_esp a /\
  (forall sg, asked_signer (u_world u 0) a sg -> no_faults (w_env (u_world u 0) sg)) /\
  snd (lzbt (u_world u 0) a x_esp) = 0 /\ snd (hook u o x_esp) = 1.
Proof.
  cbv zeta. split; [apply x_m_sound|]. split; [apply z_serves; auto|]. split; [apply x_history_esp|].
  exists (install_args (z_options [lit "boot2"] false) z_links (lit "boot")).
  split; [split; [left; auto | split; [apply be_first | apply wanted_args]]|].
  split; [intros sg _ t; reflexivity|]. vm_compute. auto.
Qed.

Example C71_single_ex :
  let u := z_around (fun _ => false) 0 in let o := z_options [] false in
  sound x_m /\ serves u o 0 x_m /\ history x_m x_esp /\ o_extra o = [] /\ o_measured o = false /\
  (forall a sg, wanted o (u_links u 0) (o_esp o) a -> asked_signer (u_world u 0) a sg -> no_faults (w_env (u_world u 0) sg)) /\
  snd (hook u o x_esp) = 0.
Proof.
  cbv zeta. split; [apply x_m_sound|]. split; [apply z_serves; auto|]. split; [apply x_history_esp|].
  split; [reflexivity|]. split; [reflexivity|]. split; [intros a sg _ _ t; reflexivity | vm_compute; reflexivity].
Qed.

(** ** The hook's success is not that of its installations *)

(** The hook succeeds although the installation on the ESP fails, if a later one
    succeeds: nothing is installed on the ESP itself. *)
Theorem C71_masked_refuted :
  ~ (forall u o m0, o_measured o = false -> snd (hook u o m0) = 0 ->
       forall i esp m a, installation u o m0 i esp m a -> snd (lzbt (u_world u i) a m) = 0) /\
  exists u o m0, o_measured o = false /\ snd (hook u o m0) = 0 /\
    forall p, at_or_above (components (o_esp o)) p -> lookup (fst (hook u o m0)) p = lookup m0 p.
Proof.
  set (u := z_around (fun i => Nat.eqb i 0) 0). set (o := z_options [lit "boot2"] false). split.
  - intros H. specialize (H u o x_esp eq_refl ltac:(vm_compute; reflexivity) 0%nat (lit "boot") x_esp (install_args o z_links (lit "boot"))).
    assert (installation u o x_esp 0 (lit "boot") x_esp (install_args o z_links (lit "boot"))) as IN
      by (split; [left; auto | split; [apply be_first | apply wanted_args]]).
    specialize (H IN). vm_compute in H. discriminate.
  - exists u, o, x_esp. split; [reflexivity|]. split; [vm_compute; reflexivity|]. intros p A.
    set (l := firstn (length (fst (hook u o x_esp)) - 5) (fst (hook u o x_esp))).
    assert (fst (hook u o x_esp) = l ++ x_esp) as -> by (vm_compute; reflexivity).
    assert (forallb (fun e => negb (below [lit "boot"] (fst e))) l = true) as F by (vm_compute; reflexivity).
    destruct A as [r ->]. change (components (o_esp o)) with [lit "boot"]. clearbody l. induction l as [|[q n] l IH]; [reflexivity|].
    cbn [forallb fst] in F. apply andb_prop in F as [F1 F2]. change (lookup (((q, n) :: l) ++ x_esp) ([lit "boot"] ++ r)) with
      (if eqb_path q ([lit "boot"] ++ r) then Some n else lookup (l ++ x_esp) ([lit "boot"] ++ r)).
    destruct (eqb_path q ([lit "boot"] ++ r)) eqn:E; [|apply IH; exact F2].
    apply eqb_path_spec in E as ->. apply negb_true_iff in F1. exfalso.
    assert (below [lit "boot"] ([lit "boot"] ++ r) = true) as X by (apply below_spec; exists r; reflexivity). congruence.
Qed.
Print Assumptions C71_masked_refuted.

(** With measured boot, the hook succeeds although no installation did, if
    systemd-pcrlock succeeds. *)
Theorem C71_measured_refuted :
  ~ (forall u o m0, o_extra o = [] -> snd (hook u o m0) = 0 ->
       forall i esp m a, installation u o m0 i esp m a -> snd (lzbt (u_world u i) a m) = 0).
Proof.
  intros H. set (u := z_around (fun _ => true) 0). set (o := z_options [] true).
  specialize (H u o x_esp eq_refl ltac:(vm_compute; reflexivity) 0%nat (lit "boot") x_esp (install_args o z_links (lit "boot"))).
  assert (installation u o x_esp 0 (lit "boot") x_esp (install_args o z_links (lit "boot"))) as IN
    by (split; [left; auto | split; [apply be_first | apply wanted_args]]).
  specialize (H IN). vm_compute in H. discriminate.
Qed.
Print Assumptions C71_measured_refuted.
