(** The command line and loader.conf: C57, C58. *)
From Coq Require Import List NArith Bool.
From Verif Require Import Base PBase MText MGeneration MNames MPe MFs MTool MInstall MCli SNames SInstall SHistory SCli PFs PInstall PHistories PCli PConf.
From Verif Require Import XWorld XMachine Properties_History.
Import ListNotations.
Open Scope N_scope.

(** ** C57: the command *)

(** C57: a command that can start runs the installation that its arguments ask
    for, with the signer they ask for; the exit status tells how it ended. *)
Theorem C57_runs : forall w a m, starts w a ->
  exists sg c, asked_signer w a sg /\ asked_config w a c /\
    lzbt w a m = (s_fs (fst (run_install (w_env w sg) c m)), s_trace (fst (run_install (w_env w sg) c m)),
                  match snd (run_install (w_env w sg) c m) with Ok _ => 0 | Err _ => 1 | Panic => 101 end).
Proof. exact cli_runs. Qed.
Print Assumptions C57_runs.

(** One that cannot start changes nothing and does not claim success. *)
Theorem C57_refuses : forall w a m, ~ starts w a ->
  exists n, lzbt w a m = (m, [], n) /\ n <> 0 /\ (n = 101 -> a_public_key a = None \/ a_private_key a = None).
Proof. exact cli_refuses. Qed.
Print Assumptions C57_refuses.

(** The exit status is zero only if the whole installation asked for went
    well. *)
Theorem C57_exit : forall w a m,
  snd (lzbt w a m) = 0 <->
  exists sg c, asked_signer w a sg /\ asked_config w a c /\
    lzbt w a m = (s_fs (fst (run_install (w_env w sg) c m)), s_trace (fst (run_install (w_env w sg) c m)), 0) /\
    snd (run_install (w_env w sg) c m) = Ok tt.
Proof. exact cli_exit. Qed.
Print Assumptions C57_exit.

(** Thus it means that every generation of the newest links boots. *)
Theorem C57_exit_boots : forall M w a m,
  sound M -> history M m ->
  (forall sg c, asked_signer w a sg -> asked_config w a c -> fits M (w_env w sg) c /\ no_faults (w_env w sg)) ->
  snd (lzbt w a m) = 0 ->
  exists sg c vs sel, asked_signer w a sg /\ asked_config w a c /\
    links_versions (map (w_link w) (a_generations a)) vs /\ newest (c_limit c) vs sel /\
    forall g, In g (flat_map link_generations sel) -> boots M (fst (fst (lzbt w a m))) g.
Proof.
  intros M w a m SO HI FI EX. apply cli_exit in EX as (sg & c & AS & AC & E & OK).
  destruct (FI sg c AS AC) as [F NF]. destruct (C07_bootable M _ c m SO F HI NF OK) as (vs & sel & LV & NW & B).
  exists sg, c, vs, sel. split; [exact AS|]. split; [exact AC|].
  assert (c_links c = map (w_link w) (a_generations a)) as CL.
  { destruct AC as (_ & _ & _ & _ & _ & _ & _ & _ & _ & _ & _ & F2). revert F2.
    generalize (c_links c), (a_generations a). induction 1 as [|p l ps ls EL F2 IH]; cbn; [reflexivity | rewrite <- IH, <- EL; reflexivity]. }
  rewrite <- CL. rewrite E. cbn [fst]. auto.
Qed.
Print Assumptions C57_exit_boots.

(** The example: a command line for the example world. *)
Definition y_link (p : bytes) : link := if eqb_bytes p (lit "/nix/var/nix/profiles/system-1-link") then x_link1 else x_link2.
Definition y_env (s : signer) : env :=
  Env (x_store x_files) x_sha x_parse x_objcopy (fun _ d => Some d) s
      (fun b => Some (lit "lock:" ++ x_sha (x_strip x_key b)))
      (fun c => (48 <=? c) && (c <=? 57)) (fun _ l => l) (fun _ l => l) x_good.
Definition y_world (stub : option bytes) (keys : bool) : world :=
  World stub (fun _ => Some keys) (fun p => if eqb_bytes p (lit "/etc/db.pem") && keys then Some x_key else None) y_link
    (fun key cert b => if eqb_bytes key (lit "/etc/db.key") && eqb_bytes cert (lit "/etc/db.pem") && keys then Some (b ++ x_sig x_key) else None)
    (fun cert b => eqb_bytes (skipn (length b - length (x_sig x_key)) b) (x_sig x_key)) y_env.
Definition y_stub : option bytes := Some (lit "/nix/store/lzbt/stub.efi").
Definition y_args (system : str) (unsigned : bool) (pub priv : option bytes) : args :=
  Args system (lit "/nix/store/systemd") (lit "/nix/store/loader.conf") unsigned pub priv (Some 5) None None (lit "boot")
    [lit "/nix/var/nix/profiles/system-1-link"; lit "/nix/var/nix/profiles/system-2-link"].
Definition y_pub : option bytes := Some (lit "/etc/db.pem").
Definition y_priv : option bytes := Some (lit "/etc/db.key").

Example C57_ex :
  (* a signed and an unsigned installation *)
  starts (y_world y_stub true) (y_args (lit "x86_64-linux") false y_pub y_priv) /\
  snd (lzbt (y_world y_stub true) (y_args (lit "x86_64-linux") false y_pub y_priv) x_esp) = 0 /\
  snd (lzbt (y_world y_stub false) (y_args (lit "x86_64-linux") true y_pub y_priv) x_esp) = 0 /\
  (* keys needed but not there *)
  snd (lzbt (y_world y_stub false) (y_args (lit "x86_64-linux") false y_pub y_priv) x_esp) = 1 /\
  (* no stub, an unknown system *)
  lzbt (y_world None true) (y_args (lit "x86_64-linux") false y_pub y_priv) x_esp = (x_esp, [], 1) /\
  lzbt (y_world y_stub true) (y_args (lit "riscv64-linux") false y_pub y_priv) x_esp = (x_esp, [], 1).
Proof.
  split; [|vm_compute; repeat split].
  split; [discriminate|]. split; [discriminate|]. split; [discriminate|]. left. reflexivity.
Qed.

(** The hypotheses of [C57_exit_boots] hold there. *)
Lemma y_config c : asked_config (y_world y_stub true) (y_args (lit "x86_64-linux") false y_pub y_priv) c ->
  c = x_config 5 0 None [x_link1; x_link2].
Proof.
  intros (AR & ST & ES & SD & CO & LI & _ & _ & TR & _ & PL & LK). cbn [y_world y_args a_limit a_tries a_pcrlock a_system w_stub a_esp a_systemd a_conf a_generations w_link] in *.
  destruct c as [ar es st sd co li tr pl lk]. cbn [c_arch c_esp c_stub c_systemd c_conf c_limit c_tries c_pcrlock c_links] in *.
  assert (ar = X86) as -> by (destruct AR as [[_ E]|[E _]]; [exact E | discriminate]).
  assert (li = 5) as -> by (apply LI; reflexivity). assert (tr = 0) as -> by (apply TR; reflexivity).
  assert (pl = None) as -> by (apply PL; reflexivity). injection ST as <-. subst.
  inversion LK as [|? l1 ? r1 E1 LK1]; subst. inversion LK1 as [|? l2 ? r2 E2 LK2]; subst. inversion LK2; subst. reflexivity.
Qed.

Lemma y_fits sg c :
  asked_signer (y_world y_stub true) (y_args (lit "x86_64-linux") false y_pub y_priv) sg ->
  asked_config (y_world y_stub true) (y_args (lit "x86_64-linux") false y_pub y_priv) c ->
  fits x_m (w_env (y_world y_stub true) sg) c /\ no_faults (w_env (y_world y_stub true) sg).
Proof.
  intros (pub & priv & E1 & E2 & A) AC. apply y_config in AC as ->. split; [|intros t; reflexivity].
  cbn in E1, E2. injection E1 as <-. injection E2 as <-. cbv zeta in A. destruct A as [_ A].
  destruct A as (KEY & SG & _); [intros [X _]; discriminate X|].
  pose proof (x_m_fits x_good 5 0 [x_link1; x_link2] (incl_refl _)) as [F1 F2 F3 F4 F5 F6 F7 F8 F9 F10].
  constructor; try assumption.
  - cbn. intros key E. rewrite KEY in E. injection E as <-. reflexivity.
  - intros stub p sections image out H1 H2 H3 H4 H5 H6. apply (F10 stub p sections image out H1 H2 H3 H4 H5).
    cbn [w_env y_world y_env e_signer] in H6. destruct (SG image) as [SI _]. rewrite SI in H6. exact H6.
Qed.

Example C57_exit_boots_ex :
  sound x_m /\ history x_m x_esp /\
  (forall sg c, asked_signer (y_world y_stub true) (y_args (lit "x86_64-linux") false y_pub y_priv) sg ->
     asked_config (y_world y_stub true) (y_args (lit "x86_64-linux") false y_pub y_priv) c ->
     fits x_m (w_env (y_world y_stub true) sg) c /\ no_faults (w_env (y_world y_stub true) sg)) /\
  snd (lzbt (y_world y_stub true) (y_args (lit "x86_64-linux") false y_pub y_priv) x_esp) = 0.
Proof. split; [apply x_m_sound|]. split; [apply x_history_esp|]. split; [apply y_fits | vm_compute; reflexivity]. Qed.

(** The key arguments are optional on the command line, but not in fact: an
    unsigned installation without them panics. *)
Theorem C57_keys_refuted : exists w a m,
  w_stub w <> None /\ a_allow_unsigned a = true /\ a_public_key a = None /\ a_private_key a = None /\
  snd (lzbt (w) (Args (a_system a) (a_systemd a) (a_conf a) true (Some []) (Some []) (a_limit a) (a_tries a) (a_pcrlock a) (a_esp a) (a_generations a)) m) = 0 /\
  lzbt w a m = (m, [], 101).
Proof.
  exists (y_world y_stub false), (y_args (lit "x86_64-linux") true None None), x_esp.
  split; [discriminate|]. vm_compute. repeat split.
Qed.
Print Assumptions C57_keys_refuted.

(** ** C58: loader.conf *)

(** C58: whenever a run is stopped, loader.conf is as it was, or is the given
    file, completely and on the disk. *)
Theorem C58_always : forall e c, separate c -> honest_listings e -> forall m os,
  point e c m os -> conf_state e c m (apply_all os m).
Proof. exact conf_always. Qed.
Print Assumptions C58_always.

(** After a successful run it has the hash of the given file. *)
Theorem C58_installed : forall e c, separate c -> honest_listings e -> forall m,
  snd (run_install e c m) = Ok tt ->
  exists x y b, e_store e (components (c_conf c)) = Some x /\
    lookup (s_fs (fst (run_install e c m))) (conf_path c) = Some (NFile y b) /\ e_sha e y = e_sha e x.
Proof. exact conf_installed. Qed.
Print Assumptions C58_installed.

(** So it is the given file, if the one that was there before does not happen to
    have its hash. *)
Theorem C58_content : forall e c, separate c -> honest_listings e -> forall m x,
  e_store e (components (c_conf c)) = Some x ->
  (forall y b, lookup m (conf_path c) = Some (NFile y b) -> e_sha e y = e_sha e x -> y = x) ->
  snd (run_install e c m) = Ok tt ->
  exists b, lookup (s_fs (fst (run_install e c m))) (conf_path c) = Some (NFile x b).
Proof.
  intros e c SP HL m x ST NC OK. destruct (conf_installed e c SP HL m OK) as (x' & y & b & ST' & L & E).
  assert (x' = x) as -> by congruence. exists b. rewrite L.
  destruct (conf_always e c SP HL m _ (final_point e c m)) as [NL|(z & SZ & LZ)]; rewrite <- final_fs in *.
  - rewrite L in NL. destruct (lookup m (conf_path c)) as [[|y' b']|] eqn:L'; cbn in NL; try contradiction. subst y'.
    rewrite (NC y b' eq_refl E). reflexivity.
  - rewrite L in LZ. injection LZ as <- ->. assert (y = x) as -> by congruence. reflexivity.
Qed.
Print Assumptions C58_content.

Definition z_old : fs := (conf_path x_c1, NFile (lit "timeout 1") true) :: ([lit "boot"; lit "loader"], NDir) :: x_esp.
Example C58_ex :
  separate x_c1 /\ honest_listings x_world /\ snd (run_install x_world x_c1 z_old) = Ok tt /\
  lookup z_old (conf_path x_c1) = Some (NFile (lit "timeout 1") true) /\
  e_store x_world (components (c_conf x_c1)) = Some (lit "timeout 5") /\
  e_sha x_world (lit "timeout 1") <> e_sha x_world (lit "timeout 5") /\
  lookup (x_after x_c1 z_old) (conf_path x_c1) = Some (NFile (lit "timeout 5") true) /\
  (* a run that cannot write it keeps the old one *)
  let e := x_env x_files (x_fail_at 51 (Some (lit "tim"))) in
  let m := s_fs (fst (run_install e x_c1 z_old)) in
  snd (run_install e x_c1 z_old) = Err tt /\ lookup m (conf_path x_c1) = Some (NFile (lit "timeout 1") true) /\
  lookup m (tmp_path (conf_path x_c1)) = Some (NFile (lit "tim") false).
Proof.
  split; [intros d X; discriminate X|]. split; [split; intros; apply incl_refl|].
  vm_compute. repeat split. discriminate.
Qed.
