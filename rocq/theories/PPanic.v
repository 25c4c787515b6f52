(** Where the installer can panic (C56). *)
From Coq Require Import List NArith Bool Lia.
From Verif Require Import Base PBase MText MGeneration MNames MPe MFs PFs MTool MInstall PInstall SNames SInstall SPanic
  PFiles PPaths PGen PBoot POwned PGc PRun PSelect PLoader PEntry SHistory PHistory PHistories.
Import ListNotations.
Open Scope N_scope.

(** Panics of [m] happen in states with [C]. *)
Definition po {A} (m : I A) (C : fs -> Prop) : Prop :=
  forall s, snd (m s) = Panic -> C (s_fs (fst (m s))).

Lemma po_sat {A} (m : I A) (C : fs -> Prop) :
  (forall s, sat (fun _ _ => True) m s (fun r s' => r = Panic -> C (s_fs s'))) -> po m C.
Proof. intros H s. apply (H s). Qed.

Lemma po_bind {A B} (m : I A) (k : A -> I B) C : po m C -> (forall a, po (k a) C) -> po (ibind m k) C.
Proof.
  intros H1 H2 s. specialize (H1 s). unfold ibind. destruct (m s) as [s' [a|u|]]; cbn [fst snd] in *; [apply H2 | discriminate | auto].
Qed.

(** Knowing what the value is. *)
Lemma po_bind_val {A B} (m : I A) (k : A -> I B) (V : A -> Prop) C :
  po m C -> (forall s a, snd (m s) = Ok a -> V a) -> (forall a, V a -> po (k a) C) -> po (ibind m k) C.
Proof.
  intros H1 H2 H3 s. specialize (H1 s). specialize (H2 s). unfold ibind.
  destruct (m s) as [s' [a|u|]]; cbn [fst snd] in *; [apply H3, H2; reflexivity | discriminate | auto].
Qed.

Lemma po_ret {A} (a : A) C : po (iret a) C.
Proof. intros s H; discriminate. Qed.
Lemma po_fail {A} C : po (@ifail A) C.
Proof. intros s H; discriminate. Qed.
Lemma po_get {A} (f : st -> A) C : po (iget f) C.
Proof. intros s H; discriminate. Qed.
Lemma po_emit o C : po (iemit o) C.
Proof. intros s H; discriminate. Qed.
Lemma po_roots l C : po (iroots l) C.
Proof. intros s H; discriminate. Qed.
Lemma po_broken l C : po (ibroken l) C.
Proof. intros s H; discriminate. Qed.
Lemma po_lift {A} (r : res unit A) (C : fs -> Prop) : (r = Panic -> forall m, C m) -> po (ilift r) C.
Proof. intros H s E. apply H. exact E. Qed.
Lemma po_attempt {A} (m : I A) C : po m C -> po (iattempt m) C.
Proof. intros H s. specialize (H s). unfold iattempt. destruct (m s) as [s' [a|u|]]; cbn [fst snd] in *; [discriminate | discriminate | auto]. Qed.
Lemma po_for {A} (l : list A) f C : (forall x, In x l -> po (f x) C) -> po (ifor l f) C.
Proof.
  induction l as [|x l IH]; intros H; cbn [ifor]; [apply po_ret|].
  apply po_bind; [apply H; left; reflexivity|]. intros _. apply IH. intros y Hy. apply H. right; exact Hy.
Qed.

Section Env.
Variable e : env.
Variable C : fs -> Prop.

Lemma po_fault : po (ifault e) C.
Proof. intros s H; discriminate. Qed.
Lemma po_guard : po (iguard e) C.
Proof. apply po_bind; [apply po_fault|]. intros []; [apply po_ret | apply po_fail]. Qed.
Lemma po_ok_or {A} (o : option A) : po (ilift (ok_or o tt)) C.
Proof. apply po_lift. intros X. destruct (ok_or_panic _ _ X). Qed.
Lemma po_source x : po (isource e x) C.
Proof. apply po_bind; [apply po_guard|]. intros _. apply po_ok_or. Qed.
Lemma po_exists p : po (iexists e p) C.
Proof. apply po_bind; [apply po_fault|]. intros []; [apply po_get | apply po_ret]. Qed.
Lemma po_is_dir p : po (iis_dir e p) C.
Proof. apply po_bind; [apply po_fault|]. intros []; [apply po_get | apply po_ret]. Qed.
Lemma po_read p : po (iread e p) C.
Proof. apply po_bind; [apply po_guard|]. intros _. apply po_bind; [apply po_get|]. intros [[]|]; [apply po_fail | apply po_ret | apply po_fail]. Qed.
Lemma po_create p : po (icreate e p) C.
Proof. apply po_bind; [apply po_guard|]. intros _. apply po_bind; [apply po_get|]. intros []; [apply po_emit | apply po_fail]. Qed.
Lemma po_write p x : po (iwrite e p x) C.
Proof.
  apply po_bind; [apply po_fault|]. intros [|[y|]]; [apply po_emit | | apply po_fail].
  apply po_bind; [apply po_emit|]. intros _. apply po_fail.
Qed.
Lemma po_sync p : po (isync e p) C.
Proof. apply po_bind; [apply po_guard|]. intros _. apply po_emit. Qed.
Lemma po_rename a b : po (irename e a b) C.
Proof. apply po_bind; [apply po_guard|]. intros _. apply po_bind; [apply po_get|]. intros []; [apply po_emit | apply po_fail]. Qed.
Lemma po_mkdirs rest : forall done, po (imkdirs e done rest) C.
Proof.
  induction rest as [|n rest IH]; intros done; cbn [imkdirs]; [apply po_ret|].
  apply po_bind; [apply po_get|]. intros []; [apply IH|]. apply po_bind; [apply po_guard|]. intros _.
  apply po_bind; [apply po_get|]. intros []; [|apply po_fail]. apply po_bind; [apply po_emit|]. intros _. apply IH.
Qed.
Lemma po_ensure p : po (ensure_parent_dir e p) C.
Proof. apply po_bind; [apply po_attempt, po_mkdirs|]. intros _. apply po_ret. Qed.
Lemma po_chmod p : po (set_permission_bits e p) C.
Proof.
  apply po_bind; [apply po_guard|]. intros _. apply po_bind; [apply po_guard|]. intros _.
  apply po_bind; [apply po_get|]. intros []; [apply po_emit | apply po_fail].
Qed.
Lemma po_install_file x p : po (install_file e x p) C.
Proof.
  apply po_bind; [apply po_exists|]. intros ex. apply po_bind.
  - destruct ex; [|apply po_ret]. apply po_bind; [apply po_source|]. intros a. apply po_bind; [apply po_read|]. intros b. apply po_ret.
  - intros []; [|apply po_ret]. apply po_bind; [apply po_ensure|]. intros _. apply po_bind; [|intros _; apply po_chmod].
    apply po_bind; [apply po_source|]. intros y. apply po_bind; [apply po_create|]. intros _.
    apply po_bind; [apply po_write|]. intros _. apply po_bind; [apply po_sync|]. intros _. apply po_rename.
Qed.
Lemma po_install_signed x p : po (install_signed e x p) C.
Proof.
  apply po_bind; [apply po_ensure|]. intros _. apply po_bind; [|intros _; apply po_rename].
  apply po_bind; [apply po_source|]. intros y. destruct (sg_sign _ _); [|apply po_fail].
  apply po_bind; [apply po_create|]. intros _. apply po_write.
Qed.
Lemma po_lock_pe x p : po (lock_pe e x p) C.
Proof.
  apply po_bind; [apply po_source|]. intros y. destruct (e_lock _ _); [|apply po_fail].
  apply po_bind; [apply po_ensure|]. intros _. apply po_bind; [apply po_create|]. intros _. apply po_write.
Qed.
Lemma po_remove_dir p : po (remove_dir_all e p) C.
Proof.
  apply po_bind; [apply po_get|]. intros s. apply po_for. intros q _. apply po_bind; [apply po_guard|]. intros _. apply po_emit.
Qed.
Lemma po_gc d f : po (collect_garbage_with_filter e d f) C.
Proof.
  apply po_bind; [apply po_get|]. intros s. apply po_for. intros q _.
  destruct (existsb _ _); [apply po_ret|]. destruct (negb _); [apply po_ret|].
  apply po_bind; [apply po_is_dir|]. intros []; [apply po_remove_dir|].
  apply po_bind; [apply po_fault|]. intros f0. apply po_bind; [apply po_get|]. intros here.
  destruct f0; [destruct here; [apply po_emit | apply po_ret] | apply po_ret].
Qed.
End Env.

Lemma source_val e x s a : snd (isource e x s) = Ok a -> x = Some a.
Proof.
  unfold isource, iguard, ibind, ifault. destruct (e_fault e (s_tick s)); cbn; [|discriminate].
  destruct x; cbn; congruence.
Qed.

Section Run.
Variable e : env.
Variable c : config.
Hypothesis HL : honest_listings e.
Hypothesis DC : digit_class (e_digit e).

Let K := panic_cause e c.

Lemma po_register g : selected c g -> po (register_installed_generation e c g) K.
Proof.
  intros SG. apply po_sat. intros s. apply sat_register; try discriminate.
  intros s' t key (F & _) KY (n & y & b & FD & L & sec & IN & P) _.
  unfold K, panic_cause. right; right; right; right; left. exists g, key, n, y, b, sec.
  apply find_some in FD as [_ FD]. rewrite (regex_recognised e DC) in FD. rewrite linux_in_esp in L. rewrite F.
  repeat (split; [assumption|]). destruct P as [P|(k & P & R)].
  - left. apply read_panic. exact P.
  - right. apply resolve_panic in R as ->. apply read_empty. exact P.
Qed.

Lemma po_image stub sp : e_store e (components (c_stub c)) = Some stub ->
  po (ilift (lanzaboote_image (e_parse e) (e_objcopy e) stub sp)) K.
Proof.
  intros ST. apply po_lift. intros X m. right; right; left. unfold lanzaboote_image in X.
  destruct (e_parse e stub) as [p|] eqn:P; [|discriminate]. exists stub, p. split; [exact ST|]. split; [exact P|].
  unfold stub_offset in X. destruct (pe_image_base p) as [base|]; [|right; reflexivity]. left. destruct (rev (pe_sections p)) eqn:R.
  - apply (f_equal (@rev _)) in R. rewrite rev_involutive in R. exact R.
  - cbn [bind] in X. destruct (ok_or_panic _ _ X).
Qed.

Lemma po_ca x l : po (install_nixos_ca e c x l) K.
Proof.
  apply po_bind; [apply po_source|]. intros d. apply po_bind; [apply po_roots|]. intros _.
  apply po_bind; [apply po_install_file|]. intros _. apply po_ret.
Qed.

Lemma po_generation g : selected c g -> po (install_generation e c g) K.
Proof.
  intros SG. apply po_bind; [apply po_register; exact SG|]. intros []; [apply po_ret|].
  apply po_bind; [apply po_guard|]. intros _. apply po_bind; [apply po_ok_or|]. intros kver.
  apply po_bind; [apply po_ca|]. intros kt. apply po_bind.
  { unfold initrd_location. destruct (bs_initrd_secrets (g_spec g)) as [sc|] eqn:E1, (bs_initrd (g_spec g)) as [p|] eqn:E2.
    - apply po_bind; [apply po_source|]. intros d. apply po_bind; [apply po_guard|]. intros _.
      apply po_bind; [apply po_source|]. intros d'. apply po_ret.
    - apply po_fail.
    - apply po_ret.
    - intros s _. left. exists g. auto. }
  intros ird. apply po_bind; [apply po_ca|]. intros it. apply po_bind.
  { apply po_lift. intros X m. right; left. exists g. split; [exact SG|]. unfold assemble_kernel_cmdline in X.
    destruct (utf8_decode _); [discriminate | reflexivity]. }
  intros cl. apply po_bind; [apply po_ok_or|]. intros kp. apply po_bind; [apply po_ok_or|]. intros ip.
  apply po_bind; [apply po_source|]. intros kd. apply po_bind; [apply po_source|]. intros id.
  eapply po_bind_val; [apply po_source | apply source_val |]. intros stub ST.
  apply po_bind; [apply po_guard|]. intros _. apply po_bind; [apply po_image; exact ST|]. intros image.
  apply po_bind.
  { destruct (c_pcrlock c); [|apply po_ret]. apply po_bind; [apply po_lock_pe|]. intros _. apply po_roots. }
  intros _. apply po_bind; [apply po_source|]. intros key. apply po_bind; [apply po_roots|]. intros _. apply po_install_signed.
Qed.

Lemma po_newer p : In p (boot_paths c) -> po (newer_systemd_boot e (shipped_systemd_boot e c) p) K.
Proof.
  intros IN. pose proof (proj1 (boot_paths_is c p) IN) as BP. apply po_sat. intros s.
  apply (sat_newer e c); try discriminate.
  - apply (boot_ne c). left; exact BP.
  - intros s' (F & _) [(x & SH & Z)|Z] _; apply version_panic in Z || unfold boot_version in Z.
    + right; right; right; left. exists x. rewrite shipped_is in SH. split; [exact SH | exact Z].
    + destruct (lookup (s_fs s) p) as [[|y b]|] eqn:L; try discriminate. apply version_panic in Z.
      right; right; right; right; right. exists p, y, b. rewrite F. auto.
Qed.

Lemma po_boot : po (install_systemd_boot e c) K.
Proof.
  assert (In (p_fallback c) (boot_paths c) /\ In (p_systemd c) (boot_paths c)) as [B1 B2].
  { split; apply boot_paths_is; [left | right]; reflexivity. }
  apply po_bind; [apply po_newer; exact B1|]. intros n1.
  apply po_bind; [destruct n1; [apply po_ret | apply po_newer; exact B2]|]. intros n2.
  assert (forall p, po (verify_path e p) K) as PV.
  { intros p. apply po_bind; [apply po_guard|]. intros _. apply po_get. }
  apply po_bind; [apply PV|]. intros v1. apply po_bind; [destruct v1; [apply PV | apply po_ret]|]. intros v2.
  apply po_bind; [destruct (c_pcrlock c); [apply po_exists | apply po_ret]|]. intros ms.
  apply po_bind; [|intros _; apply po_install_file].
  destruct (_ || _); [|apply po_ret].
  apply po_bind; [destruct (c_pcrlock c); [apply po_lock_pe | apply po_ret]|]. intros _.
  apply po_bind; [apply po_for; intros p _; apply po_install_signed|]. intros _.
  destruct (c_pcrlock c); [apply po_rename | apply po_ret].
Qed.

Lemma po_links ls : po (generations_from_links e ls) K.
Proof.
  induction ls as [|[v l] ls IH]; cbn [generations_from_links]; [apply po_ret|].
  apply po_bind.
  - apply po_bind; [apply po_fault|]. intros []; [destruct (l_spec l); [apply po_ret|]|];
      (apply po_bind; [apply po_broken | intros _; apply po_ret]).
  - intros o. apply po_bind; [apply IH|]. intros gs. apply po_ret.
Qed.

Lemma run_panic m : snd (run_install e c m) = Panic -> panic_cause e c (s_fs (fst (run_install e c m))).
Proof.
  assert (po (install e c) K) as H; [|apply (H (start c m))].
  unfold install. destruct (parse_links (c_links c)) as [vs|] eqn:PL; [|intros s X; discriminate].
  pose proof PL as PL0. apply parse_links_spec in PL.
  apply po_bind_val with (V := eq vs); [apply po_lift; discriminate | intros s a [= <-]; reflexivity |]. intros _ <-.
  set (sel := limit_links (c_limit c) (sort_links vs)).
  pose proof (limit_links_newest (c_limit c) vs) as NW. fold sel in NW.
  apply po_bind; [|intros _; apply po_bind; [apply po_boot | intros _]].
  - apply po_bind_val with (V := fun gs => forall g, In g gs -> selected c g /\ Forall (selected c) (g_specs g)); [apply po_links | |].
    + intros s gs E. destruct (sat_from_links e (fun _ _ => True) sel s (fun r _ => r = Ok gs -> forall g, In g gs ->
        selected c g /\ Forall (selected c) (g_specs g))) as [_ Q]; [|exact (Q E)].
      intros s' got SB _ _ _ _ _ _ _ [= <-] g Hg.
      assert (forall h, In h (g :: g_specs g) -> selected c h) as HS.
      { intros h Hh. exists vs, sel. split; [exact PL|]. split; [exact NW|].
        assert (In h (flat_map link_generations got)) as X.
        { rewrite <- PSelect.tops_generations. apply in_flat_map. exists g. auto. }
        apply in_flat_map in X as (vl & V1 & V2). apply in_flat_map. exists vl. split; [|exact V2].
        apply (sub_incl _ _ SB). exact V1. }
      split; [apply HS; left; reflexivity|]. apply Forall_forall. intros h Hh. apply HS. right; exact Hh.
    + intros gs HG. destruct gs as [|g0 gs]; [apply po_fail|].
      apply po_bind.
      * apply po_for. intros g Hg. destruct (HG g Hg) as [S1 S2]. apply po_bind; [apply po_generation; exact S1|].
        intros _. apply po_for. intros h Hh. apply po_generation. rewrite Forall_forall in S2. auto.
      * intros _. apply po_bind; [apply po_guard|]. intros _. apply po_bind; [apply po_get|]. intros d.
        destruct (negb d); [apply po_fail|]. apply po_bind; [apply po_guard|]. intros _. apply po_emit.
  - apply po_bind; [apply po_get|]. intros br. destruct br; [|apply po_ret].
    apply po_bind; [apply po_gc|]. intros _. apply po_bind; [apply po_gc|]. intros _.
    destruct (c_pcrlock c); [apply po_gc | apply po_ret].
Qed.
End Run.

(** ** On an ESP with a history *)

Lemma stub_usable M e c g y sec : fits M e c -> stub_for M g y -> In sec [lit ".linux"; lit ".initrd"] -> ~ unusable_section e y sec.
Proof.
  intros FI (v & k & i & init & t & _ & _ & _ & _ & _ & _ & _ & _ & _ & HK & _ & HI & _) IN U.
  rewrite <- (fi_parse _ _ _ FI) in HK, HI.
  assert (exists d, has_section (e_parse e) y sec d /\ d <> []) as (d & H & NE).
  { destruct IN as [<-|[<-|[]]]; eexists; (split; [eassumption | discriminate]). }
  apply has_section_read in H. destruct U as [U|U]; [apply read_panic in U | apply read_empty in U]; congruence.
Qed.

Lemma entries_usable M e c m : fits M e c -> entries_ok M m -> ~ bad_entry e c m.
Proof.
  intros FI EO (g & key & n & y & b & sec & SEL & KEY & REC & L & IN & U).
  apply (recognised_named M e c FI) in REC.
  assert (in_esp c [lit "EFI"; lit "Linux"; n] = linux_file M n) as E by (unfold in_esp, linux_file; rewrite (fi_esp _ _ _ FI); reflexivity).
  rewrite E in L. pose proof (EO g key n y b (fi_gens _ _ _ FI g SEL) (fi_key _ _ _ FI key KEY) REC L) as SF.
  exact (stub_usable _ _ _ _ _ _ FI SF IN U).
Qed.

Lemma loader_point e c m os : point e c m os -> bad_loader e c (apply_all os m) -> bad_loader e c m \/ bad_signed e c.
Proof.
  intros PT (p & y & b & IN & L & U).
  destruct (all_signed e c m os p y b PT (or_introl IN) L) as [(b' & L')|(x & TB & SG)].
  - left. exists p, y, b'. auto.
  - right. exists x, y. unfold to_be_signed in TB.
    assert (existsb (eqb_path p) (boot_paths c) = true) as EX.
    { apply existsb_exists. exists p. split; [exact IN | apply eqb_path_spec; reflexivity]. }
    rewrite EX in TB. auto.
Qed.

Lemma history_panic M e c m : sound M -> fits M e c -> history M m -> snd (run_install e c m) = Panic ->
  no_initrd c \/ bad_init c \/ bare_stub e c \/ bad_shipped e c \/ bad_signed e c \/ bad_loader e c m.
Proof.
  intros SO FI HI P.
  assert (digit_class (e_digit e)) as DC by (rewrite (fi_digit _ _ _ FI); apply so_digit; exact SO).
  apply (run_panic e c DC) in P. rewrite final_fs in P.
  destruct (run_ok M e c m _ SO FI (final_point e c m)) as [_ EO]. specialize (EO (proj2 (history_ok M m SO HI))).
  destruct P as [P|[P|[P|[P|[P|P]]]]]; auto 10.
  - destruct (entries_usable M e c _ FI EO P).
  - apply (loader_point e c m _ (final_point e c m)) in P. tauto.
Qed.
