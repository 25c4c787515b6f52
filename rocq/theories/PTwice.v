(** Runs after a successful run (C14, C17, C46). *)
From Coq Require Import List NArith ZArith Bool Lia Permutation.
From Verif Require Import Base PBase MText PText MVersion MOsRelease MGeneration MNames PNames SNames MFs PFs MPe MTool MInstall PInstall SCommon SInstall PFiles PPaths PGen PBoot PGc PSelect PRun PTrace POwned PLoader SHistory PHistory SRepeat PRepeat.
Import ListNotations.
Open Scope N_scope.

Section Twice.
Variable M : machine.
Hypothesis SO : sound M.
Variable e : env.
Variable c : config.
Hypothesis FI : fits M e c.

(** ** Exactly one entry *)

Lemma nodup_map_inj {A B} (f : A -> B) l x y : NoDup (map f l) -> In x l -> In y l -> f x = f y -> x = y.
Proof.
  induction l as [|z l IH]; cbn; [contradiction|]. intros ND [->|X] [->|Y] E; auto.
  - inversion ND as [|? ? N _]; subst. exfalso. apply N. rewrite E. apply in_map. exact Y.
  - inversion ND as [|? ? N _]; subst. exfalso. apply N. rewrite <- E. apply in_map. exact X.
  - inversion ND; subst. auto.
Qed.

Lemma linux_filter_named key g n D : named M key g n -> linux_filter (D ++ [n]) = true.
Proof.
  intros NM. unfold linux_filter. rewrite rev_unit. destruct NM as (cnt & _ & ->). unfold stub_prefix. destruct (g_specname g); reflexivity.
Qed.

(** A name in EFI/Linux is no initial root. *)
Lemma linux_not_initial n : ~ In (d_linux c ++ [n]) (initial_roots c).
Proof.
  intros H. unfold initial_roots in H. apply in_app_or in H as [H|H].
  - rewrite d_linux_r in H. unfold p_fallback, p_systemd, p_conf, d_nixos, d_linux, d_boot, d_systemd, d_loader, d_efi in H.
    rewrite <- ?app_assoc in H. cbn [In app] in H.
    repeat destruct H as [H|H]; try contradiction; try (apply app_inv_head in H; discriminate).
    rewrite <- (app_nil_r (c_esp c)) in H at 1. apply app_inv_head in H. discriminate.
  - destruct (c_pcrlock c) as [d|] eqn:PL; [|contradiction]. rewrite d_linux_r in H.
    destruct H as [H|[H|[]]].
    + apply (lock_apart M e c FI d ([lit "EFI"; lit "Linux"] ++ [n]) [] PL). rewrite app_nil_r. symmetry. exact H.
    + eapply (lock_apart M e c FI d _ _ PL). symmetry. exact H.
Qed.

Lemma result_unique key vs sel l m1 t key' n' : result M e c key vs sel l m1 -> NoDup (flat_map link_generations sel) ->
  (forall g, In g (flat_map link_generations sel) -> ma_gens M g) ->
  In t l -> ma_keys M key' -> named M key' (t_g t) n' -> lookup m1 (linux_file M n') <> None -> n' = t_n t.
Proof.
  intros R ND UG Ht K' NM' L. pose proof (linux_file_eq M e c FI n') as LE. rewrite LE in L.
  destruct (re_linux _ _ _ _ _ _ _ _ R _ L) as [X|X].
  { exists [n']. reflexivity. }
  { eapply linux_filter_named; eauto. }
  { destruct (linux_not_initial _ X). }
  apply in_flat_map in X as (t' & Ht' & X).
  pose proof (re_held _ _ _ _ _ _ _ _ R) as HL. rewrite Forall_forall in HL.
  destruct (HL t' Ht') as (NM & _ & SA & _).
  assert (forall u, In u l -> ma_gens M (t_g u)) as GU.
  { intros u Hu. apply UG. rewrite <- (re_gens _ _ _ _ _ _ _ _ R). apply in_map. exact Hu. }
  unfold ent_roots in X. apply in_app_or in X as [[X|[X|[X|[]]]]|X].
  - rewrite (linux_file_eq M e c FI) in X. apply app_inv_head in X. injection X as X. subst n'.
    destruct (prefix_inj M (t_g t) (t_g t') key' key (t_n t') SO (GU t Ht) (GU t' Ht') K') as [GE _]; auto.
    { eapply fi_key; [exact FI | apply (re_key _ _ _ _ _ _ _ _ R)]. }
    f_equal. apply (nodup_map_inj t_g l); auto. rewrite (re_gens _ _ _ _ _ _ _ _ R). exact ND.
  - exfalso. destruct SA as (v & k & i & init & text & _ & SK & _). rewrite SK in X. unfold kernel_file in X.
    rewrite (nixos_file_eq M e c FI), d_nixos_r, d_linux_r in X. apply app_inv_head in X. discriminate.
  - exfalso. destruct SA as (v & k & i & init & text & _ & _ & SI). rewrite SI in X. unfold initrd_file in X.
    rewrite (nixos_file_eq M e c FI), d_nixos_r, d_linux_r in X. apply app_inv_head in X. discriminate.
  - exfalso. destruct (c_pcrlock c) as [d|] eqn:PL; [|contradiction]. destruct X as [X|[]].
    rewrite d_linux_r in X. unfold component in X. eapply (lock_apart M e c FI d _ _ PL). symmetry. exact X.
Qed.

Lemma one_entry m g : contents_ok M m -> entries_ok M m -> tree_ok m -> no_faults e -> complete_listings e ->
  all_readable c -> distinct c -> settled M c m -> snd (run_install e c m) = Ok tt -> always_selected c g ->
  let m1 := s_fs (fst (run_install e c m)) in
  exists key n y b, sg_key (e_signer e) = Some key /\ named M key g n /\ lookup m1 (linux_file M n) = Some (NFile y b) /\
    forall key' n', ma_keys M key' -> named M key' g n' -> lookup m1 (linux_file M n') <> None -> n' = n.
Proof.
  intros CO EO TR NF CL AR DC ST OK SG m1.
  destruct (run_result M SO e c FI m CO EO TR NF CL AR DC ST OK) as (key & vs & sel & l & s2 & s3 & R & _).
  fold m1 in R. pose proof (re_versions _ _ _ _ _ _ _ _ R) as LV. pose proof (re_newest _ _ _ _ _ _ _ _ R) as NW.
  specialize (SG vs sel LV NW). rewrite <- (re_gens _ _ _ _ _ _ _ _ R) in SG. apply in_map_iff in SG as (t & <- & Ht).
  pose proof (re_held _ _ _ _ _ _ _ _ R) as HL. rewrite Forall_forall in HL. destruct (HL t Ht) as (NM & (b & L) & _).
  exists key, (t_n t), (t_y t), b. split; [exact (re_key _ _ _ _ _ _ _ _ R)|]. split; [exact NM|]. split; [exact L|].
  intros key' n' K' NM' L'. eapply result_unique; eauto.
  intros g Hg. apply (fi_gens _ _ _ FI). exists vs, sel. auto.
Qed.

(** ** The boot loader *)

(** Nothing is left to do for the boot loader. *)
Definition boot_ok (m : fs) : Prop :=
  (exists x v, shipped_systemd_boot e c = Some x /\ systemd_boot_version (e_parse e) x = Ok v /\
    forall p, is_boot c p -> exists z b w, lookup m p = Some (NFile z b) /\ systemd_boot_version (e_parse e) z = Ok w /\
      version_gtb v w = false /\ sg_verify (e_signer e) (Some z) = true) /\
  (forall d, c_pcrlock c = Some d -> lookup m (p_lock_bootloader d (lit "current")) <> None) /\
  exists x y b, e_store e (components (c_conf c)) = Some x /\ lookup m (p_conf c) = Some (NFile y b) /\ e_sha e y = e_sha e x.

Lemma version_gtb_irrefl v : version_gtb v v = false.
Proof. unfold version_gtb. rewrite !N.ltb_irrefl, Z.ltb_irrefl, N.eqb_refl, Z.eqb_refl. reflexivity. Qed.

Lemma lock_not_tmp_conf d n : c_pcrlock c = Some d -> p_lock_bootloader d n <> p_conf c /\ p_lock_bootloader d n <> tmp_path (p_conf c).
Proof.
  intros PL. unfold p_lock_bootloader, d_lock_bootloader. rewrite <- app_assoc. unfold p_conf, d_loader. rewrite tmp_path_snoc, <- !app_assoc.
  split; intros E; symmetry in E; eapply (lock_apart M e c FI d _ _ PL); exact E.
Qed.

Lemma boot_not_conf p : is_boot c p -> p <> p_conf c /\ p <> tmp_path (p_conf c).
Proof.
  unfold p_conf, d_loader. rewrite tmp_path_snoc. intros [-> | ->]; unfold p_fallback, p_systemd, d_boot, d_systemd, d_efi; rewrite <- !app_assoc;
    split; intros E; apply app_inv_head in E; discriminate.
Qed.

Lemma boot_done_ok s s' : stable_signing e c -> boot_done e c s s' -> boot_ok (s_fs s').
Proof.
  intros SS (_ & _ & CF & b & _ & UP & FN). unfold stable_signing in SS. rewrite <- shipped_is in SS. split; [|split].
  - destruct b.
    + destruct (UP eq_refl) as (x & out & SH & SG & FL & _). destruct (SS x SH) as (v & V & SV). destruct (SV out SG) as [V1 V2].
      exists x, v. split; [exact SH|]. split; [exact V|]. intros p HP. exists out, false, v. rewrite (FL p HP).
      split; [reflexivity|]. split; [exact V1|]. split; [apply version_gtb_irrefl | exact V2].
    + destruct (FN eq_refl) as [[FP _] FR].
      destruct (FP (p_fallback c) (or_introl eq_refl)) as (_ & _ & (x & v & _ & SH & V & _) & _).
      exists x, v. split; [exact SH|]. split; [exact V|]. intros p HP. destruct (FP p HP) as (_ & OD & (x' & v' & w & SH' & V' & W) & VF).
      assert (x' = x) as -> by congruence. assert (v' = v) as -> by congruence.
      pose proof W as W0. unfold boot_version in W. unfold verified in VF. destruct (boot_not_conf p HP) as [N1 N2].
      destruct (lookup (s_fs s) p) as [[|z zb]|] eqn:L; try discriminate.
      exists z, zb, w. split; [rewrite FR; [exact L | exact N1 | exact N2 | congruence]|]. split; [exact W|]. split; [|exact VF].
      destruct (version_gtb v w) eqn:GT; [|reflexivity]. exfalso. apply OD. right. exists x, v. split; [exact SH|]. split; [exact V|].
      right. exists w. auto.
  - intros d PL. destruct b.
    + destruct (UP eq_refl) as (x & out & _ & _ & _ & LK). destruct (LK d PL) as (lo & bb & _ & L). congruence.
    + destruct (FN eq_refl) as [[_ FP] FR]. specialize (FP d PL). destruct (lock_not_tmp_conf d (lit "current") PL) as [N1 N2].
      apply present_lookup in FP; [|unfold p_lock_bootloader; intros E; apply app_eq_nil in E as [_ E]; discriminate].
      rewrite FR; assumption.
  - destruct CF as (x & y & bb & X & L & E). eauto 10.
Qed.

Lemma boot_ok_like m m' :
  (forall p x b, is_boot c p \/ p = p_conf c -> lookup m p = Some (NFile x b) -> exists b', lookup m' p = Some (NFile x b')) ->
  (forall d, c_pcrlock c = Some d -> lookup m (p_lock_bootloader d (lit "current")) <> None -> lookup m' (p_lock_bootloader d (lit "current")) <> None) ->
  boot_ok m -> boot_ok m'.
Proof.
  intros HF HP ((x & v & SH & V & FL) & LK & (cx & y & b & X & L & E)). split; [|split].
  - exists x, v. split; [exact SH|]. split; [exact V|]. intros p P. destruct (FL p P) as (z & zb & w & L1 & R).
    destruct (HF p z zb (or_introl P) L1) as [b' L2]. eauto 10.
  - intros d PL. apply HP; auto.
  - destruct (HF (p_conf c) y b (or_intror eq_refl) L) as [b' L2]. eauto 10.
Qed.

Lemma boot_ok_sync m : boot_ok m -> boot_ok (apply (OSyncAll (c_esp c)) m).
Proof.
  apply boot_ok_like.
  - intros p x b _ L. rewrite lookup_apply, L. destruct (below _ _); eexists; reflexivity.
  - intros d _ L. rewrite lookup_apply. destruct (lookup m _); [|congruence]. destruct (below _ _); discriminate.
Qed.

(** Paths that are in no collected directory. *)
Lemma gc_outside roots m o p : GG e c roots m o -> (forall dir, gc_dir c dir -> ~ at_or_above dir p) -> lookup (apply o m) p = lookup m p.
Proof.
  intros [(q & ->) CH] OUT. specialize (CH (fi_listings _ _ _ FI)). rewrite lookup_apply.
  destruct (eqb_path q p) eqn:E; [|reflexivity]. apply eqb_path_spec in E; subst q. exfalso.
  inversion CH as [dir q p0 GD BD BQ NR LF]; subst p0. apply (OUT dir GD).
  apply below_spec in BD as [r ->]. apply below_spec in BQ as [t ->]. exists (r ++ t). rewrite app_assoc. reflexivity.
Qed.

Lemma boot_outside p : is_boot c p \/ p = p_conf c \/ (exists d n, c_pcrlock c = Some d /\ p = p_lock_bootloader d n) ->
  forall dir, gc_dir c dir -> ~ at_or_above dir p.
Proof.
  intros HP dir GD [r E].
  assert (forall a b q, gc_dir c dir -> p = c_esp c ++ a :: b :: q -> p <> dir ++ r \/ (a = lit "EFI" /\ (b = lit "nixos" \/ b = lit "Linux"))) as H1.
  { intros a b q GD' ->. destruct GD' as [-> |[-> |(d & PL & ->)]].
    - rewrite d_nixos_r. destruct (list_eq_dec N.eq_dec a (lit "EFI")) as [-> |NE]; [destruct (list_eq_dec N.eq_dec b (lit "nixos")) as [-> |NE]; auto|];
        left; intros X; apply app_inv_head in X; cbn [app] in X; injection X; congruence.
    - rewrite d_linux_r. destruct (list_eq_dec N.eq_dec a (lit "EFI")) as [-> |NE]; [destruct (list_eq_dec N.eq_dec b (lit "Linux")) as [-> |NE]; auto|];
        left; intros X; apply app_inv_head in X; cbn [app] in X; injection X; congruence.
    - left. unfold d_lock_lanzaboote. rewrite <- app_assoc. intros X. eapply (lock_apart M e c FI d _ _ PL). exact X. }
  destruct HP as [[HP|HP]|[HP|(d & n & PL & HP)]].
  - destruct (H1 (lit "EFI") (lit "BOOT") [efi_fallback_filename (c_arch c)] GD) as [X|[_ [X|X]]]; try discriminate; [|contradiction].
    rewrite HP. unfold p_fallback, d_boot, d_efi. rewrite <- !app_assoc. reflexivity.
  - destruct (H1 (lit "EFI") (lit "systemd") [systemd_filename (c_arch c)] GD) as [X|[_ [X|X]]]; try discriminate; [|contradiction].
    rewrite HP. unfold p_systemd, d_systemd, d_efi. rewrite <- !app_assoc. reflexivity.
  - destruct (H1 (lit "loader") (lit "loader.conf") [] GD) as [X|[X _]]; try discriminate; [|contradiction].
    rewrite HP. unfold p_conf, d_loader. rewrite <- !app_assoc. reflexivity.
  - unfold p_lock_bootloader, d_lock_bootloader in HP. rewrite <- app_assoc in HP. rewrite HP in E.
    destruct GD as [-> |[-> |(d' & PL' & ->)]]; rewrite ?d_nixos_r, ?d_linux_r in E; try (symmetry in E; eapply (lock_apart M e c FI d _ _ PL); exact E).
    assert (d' = d) as -> by congruence. unfold d_lock_lanzaboote in E. rewrite <- app_assoc in E. apply app_inv_head in E. discriminate.
Qed.

Lemma boot_ok_gc roots s s' : reach (GG e c roots) s s' -> boot_ok (s_fs s) -> boot_ok (s_fs s').
Proof.
  intros RG. assert (forall p, (forall dir, gc_dir c dir -> ~ at_or_above dir p) -> lookup (s_fs s') p = lookup (s_fs s) p) as K.
  { intros p OUT. apply (reach_invariant (GG e c roots) (fun m => lookup m p = lookup (s_fs s) p)) with (2 := RG); [|reflexivity].
    intros m o GO E. rewrite (gc_outside roots m o p GO OUT). exact E. }
  apply boot_ok_like.
  - intros p x b HP L. rewrite K; [eauto|]. apply boot_outside. tauto.
  - intros d PL L. rewrite K; [exact L|]. apply boot_outside. right; right. eauto.
Qed.

Lemma boot_ok_not_needed m : boot_ok m -> ~ needed e c m /\ forall p, is_boot c p -> boot_version e m p <> Panic.
Proof.
  intros ((x & v & SH & V & FL) & LK & _).
  assert (forall p, is_boot c p -> ~ out_of_date e (shipped_systemd_boot e c) m p /\ verified e m p) as H.
  { intros p P. destruct (FL p P) as (z & b & w & L & W & GT & VF). split.
    - intros [X|(x' & v' & SH' & V' & X)].
      + unfold present in X. rewrite L in X. destruct p; discriminate.
      + assert (x' = x) as -> by congruence. assert (v' = v) as -> by congruence. unfold boot_version in X. rewrite L in X.
        destruct X as [X|(w' & W' & X)]; congruence.
    - unfold verified. rewrite L. exact VF. }
  split.
  - intros [X|[X|[X|[X|(d & PL & X)]]]].
    + apply (H (p_fallback c) (or_introl eq_refl)). exact X.
    + apply (H (p_systemd c) (or_intror eq_refl)). exact X.
    + apply X, (H (p_fallback c) (or_introl eq_refl)).
    + apply X, (H (p_systemd c) (or_intror eq_refl)).
    + specialize (LK d PL). assert (d ++ [lit "630-bootloader.pcrlock.d"; lit "current.pcrlock"] <> []) as NE by (destruct d; discriminate).
      unfold p_lock_bootloader, d_lock_bootloader in LK. rewrite <- app_assoc in LK.
      assert (present m (d ++ [lit "630-bootloader.pcrlock.d"; lit "current.pcrlock"]) = true) as X2 by (apply present_lookup; [exact NE | exact LK]).
      congruence.
  - intros p P. destruct (FL p P) as (z & b & w & L & W & _). unfold boot_version. rewrite L, W. discriminate.
Qed.

(** ** Nothing is collected *)

Lemma collect_idle G dir pred s : honest_listings e ->
  (forall p, lookup (s_fs s) p <> None -> at_or_above dir p -> pred p = true -> In p (s_roots s)) ->
  sat G (collect_garbage_with_filter e dir pred) s (fun r s' => r = Ok tt /\ s' = s).
Proof.
  intros [_ HW] H. unfold collect_garbage_with_filter. apply sat_bind, sat_get; cbn [after].
  assert (forall l, (forall p, In p l -> lookup (s_fs s) p <> None /\ at_or_above dir p) ->
    sat G (ifor l (fun p =>
       if existsb (eqb_path p) (s_roots s) then iret tt
       else if negb (pred p) then iret tt
       else
         let* d := iis_dir e p in
         if d then remove_dir_all e p
         else
           let* f := ifault e in
           let* here := iget (fun s => match lookup (s_fs s) p with
                                       | Some (NFile _ _) => true
                                       | _ => false
                                       end) in
           match f with
           | NoFault => if here then iemit (ORemove p) else iret tt
           | Fault _ => iret tt
           end)) s (fun r s' => r = Ok tt /\ s' = s)) as L.
  { induction l as [|p l IH]; intros HL; cbn [ifor]; [apply sat_ret; auto|]. apply sat_bind.
    destruct (HL p (or_introl eq_refl)) as [L A].
    assert (sat G (ifor l (fun p =>
       if existsb (eqb_path p) (s_roots s) then iret tt
       else if negb (pred p) then iret tt
       else
         let* d := iis_dir e p in
         if d then remove_dir_all e p
         else
           let* f := ifault e in
           let* here := iget (fun s => match lookup (s_fs s) p with
                                       | Some (NFile _ _) => true
                                       | _ => false
                                       end) in
           match f with
           | NoFault => if here then iemit (ORemove p) else iret tt
           | Fault _ => iret tt
           end)) s (fun r s' => r = Ok tt /\ s' = s)) as IH' by (apply IH; intros q Hq; apply HL; right; exact Hq).
    destruct (existsb (eqb_path p) (s_roots s)) eqn:EX; [apply sat_ret; exact IH'|].
    destruct (pred p) eqn:PP; cbn [negb]; [|apply sat_ret; exact IH'].
    exfalso. specialize (H p L A PP). apply existsb_path in H. congruence. }
  apply L. intros p Hp. apply HW, filter_In in Hp as [Hp B]. apply fs_paths_In in Hp. apply at_or_above_below in B. auto.
Qed.

Lemma collect_all_idle G s : honest_listings e -> s_broken s = [] ->
  (forall p, lookup (s_fs s) p <> None -> at_or_above (d_nixos c) p -> In p (s_roots s)) ->
  (forall p, lookup (s_fs s) p <> None -> at_or_above (d_linux c) p -> linux_filter p = true -> In p (s_roots s)) ->
  (forall d p, c_pcrlock c = Some d -> lookup (s_fs s) p <> None -> at_or_above (d_lock_lanzaboote d) p -> In p (s_roots s)) ->
  sat G (collect_all e c) s (fun r s' => r = Ok tt /\ s' = s).
Proof.
  intros HL BR H1 H2 H3. unfold collect_all. apply sat_bind, sat_get; cbn [after]. rewrite BR.
  apply sat_bind. eapply sat_mono; [apply collect_idle; auto|]. intros r s' _ [-> ->]; cbn [after].
  apply sat_bind. eapply sat_mono; [apply collect_idle; auto|]. intros r s' _ [-> ->]; cbn [after].
  destruct (c_pcrlock c) as [d|] eqn:PL; [|apply sat_ret; auto]. apply collect_idle; [exact HL|]. intros p L A _. eapply H3; eauto.
Qed.

(** ** Every generation is found *)

Lemma sat_ext {A} G (m m' : I A) s Q : m s = m' s -> sat G m s Q -> sat G m' s Q.
Proof. unfold sat. intros ->. auto. Qed.

Lemma named_file_dir m n x : tree_ok m -> lookup m (linux_file M n) = Some x -> is_dir m (d_linux c) = true /\ is_dir m (c_esp c) = true.
Proof.
  intros TR L. rewrite (linux_file_eq M e c FI) in L.
  assert (lookup m (d_linux c) = Some NDir) as LD.
  { apply (TR (d_linux c) n); [congruence|]. unfold d_linux, d_efi. intros E. apply app_eq_nil in E as [_ E]. discriminate. }
  split.
  - unfold is_dir. rewrite LD. destruct (d_linux c); reflexivity.
  - destruct (c_esp c) as [|a r] eqn:EE; [reflexivity|]. rewrite <- EE.
    assert (lookup m (d_efi c) = Some NDir) as LE.
    { apply (TR (d_efi c) (lit "Linux")); [change (lookup m (d_linux c) <> None); rewrite LD; discriminate|]. unfold d_efi. intros E. apply app_eq_nil in E as [_ E]. discriminate. }
    assert (lookup m (c_esp c) = Some NDir) as LL.
    { apply (TR (c_esp c) (lit "EFI")); [change (lookup m (d_efi c) <> None); rewrite LE; discriminate | rewrite EE; discriminate]. }
    unfold is_dir. rewrite LL. destruct (c_esp c); reflexivity.
Qed.

Lemma register_held G s key t : no_faults e -> complete_listings e -> tree_ok (s_fs s) -> sg_key (e_signer e) = Some key ->
  ma_gens M (t_g t) -> held M c key (s_fs s) t ->
  (forall n', named M key (t_g t) n' -> lookup (s_fs s) (linux_file M n') <> None -> n' = t_n t) ->
  sat G (install_generation e c (t_g t)) s (fun r s' => r = Ok tt /\ same_fs s s' /\
    forall p, In p (s_roots s') <-> In p (ent_roots M c t) \/ In p (s_roots s)).
Proof.
  intros NF CL TR K Gt (NM & (b & L) & SA & FK & FII & CM) UN.
  destruct (named_file_dir (s_fs s) (t_n t) _ TR L) as [DL _].
  assert (digit_class (e_digit e)) as DC by (rewrite (fi_digit _ _ _ FI); apply SO).
  assert (forall tick, entry_found e c (s_fs s) tick key (t_g t) (t_n t) (t_k t) (t_i t)) as EF.
  { intros tick. eapply entry_is_found; eauto. }
  assert (forall tick n, find (fun n => match utf8_decode n with
                 | Some s => stub_regex (e_digit e) (stub_prefix (e_sha e) key (t_g t)) s
                 | None => false
                 end) (e_list e tick (fs_names (s_fs s) (d_linux c))) = Some n -> n = t_n t) as FN.
  { intros tick n F. destruct (EF tick) as (_ & F' & _). congruence. }
  assert (so_names_of : plain_names (t_g t)) by (apply (so_names _ SO); exact Gt).
  unfold install_generation. apply sat_bind, sat_register; cbn [after].
  - intros s' _ H. specialize (H NF). congruence.
  - intros s' tick key' _ K' (n & stub & sb & F & LS & sec & HS & BAD). exfalso.
    assert (key' = key) as -> by congruence. apply FN in F as ->.
    destruct (EF tick) as (_ & _ & stub' & b' & k & i & L' & R1 & R2 & R3 & R4 & _).
    pose proof (eq_trans (eq_sym LS) L') as LL. injection LL as <- <-. destruct HS as [<-|[<-|[]]]; destruct BAD as [BAD|(kk & BAD & BAD2)]; congruence.
  - intros s' SF (key' & tick & n & kp & ip & extra & K' & EF' & R & X). apply sat_ret. split; [reflexivity|]. split; [exact SF|].
    assert (key' = key) as -> by congruence. pose proof EF' as (_ & F & stub' & b' & k & i & L' & R1 & R2 & R3 & R4 & _). apply FN in F as ->.
    destruct (EF tick) as (_ & _ & stub & b0 & k0 & i0 & L0 & R10 & R20 & R30 & R40 & _).
    pose proof (eq_trans (eq_sym L') L0) as LL. injection LL as <- <-. rewrite R10 in R1. injection R1 as <-. rewrite R30 in R3. injection R3 as <-.
    assert (kp = t_k t) as -> by congruence. assert (ip = t_i t) as -> by congruence.
    intros p. rewrite R. unfold ent_roots. rewrite (linux_file_eq M e c FI).
    destruct (c_pcrlock c) as [d|].
    + destruct X as [-> _]. rewrite (component_eq d (t_g t) so_names_of). rewrite !in_app_iff. tauto.
    + subst extra. rewrite !in_app_iff. cbn [In]. tauto.
  - intros s' key' SF (K' & [(_ & tick & NEF)|(d & tick & n & kp & ip & PL & _ & _ & NP)]); exfalso.
    + assert (key' = key) as -> by congruence. eapply NEF; [exact NF | apply EF].
    + specialize (NP NF). rewrite (component_eq d (t_g t) so_names_of) in NP. specialize (CM d PL).
      apply present_lookup in CM; [congruence|]. unfold component. destruct d; discriminate.
Qed.

Lemma register_all G key l : no_faults e -> complete_listings e -> sg_key (e_signer e) = Some key ->
  forall s, tree_ok (s_fs s) -> Forall (held M c key (s_fs s)) l -> (forall t, In t l -> ma_gens M (t_g t)) ->
  (forall t n', In t l -> named M key (t_g t) n' -> lookup (s_fs s) (linux_file M n') <> None -> n' = t_n t) ->
  sat G (ifor (map t_g l) (install_generation e c)) s (fun r s' => r = Ok tt /\ same_fs s s' /\
    forall p, In p (s_roots s') <-> In p (s_roots s) \/ In p (flat_map (ent_roots M c) l)).
Proof.
  intros NF CL K. induction l as [|t l IH]; intros s TR HL GL UN; cbn [map ifor].
  - apply sat_ret. split; [reflexivity|]. split; [repeat split|]. intros p. cbn. tauto.
  - inversion HL as [|? ? HT HL']; subst. apply sat_bind. eapply sat_mono; [apply (register_held G s key t); auto|].
    { apply GL. left; reflexivity. }
    { intros n' NM. apply UN; [left; reflexivity | exact NM]. }
    intros r s1 _ (-> & (F1 & T1 & B1) & R1); cbn [after]. eapply sat_mono; [apply IH|].
    + rewrite F1. exact TR.
    + rewrite F1. exact HL'.
    + intros u Hu. apply GL. right; exact Hu.
    + rewrite F1. intros u n' Hu. apply UN. right; exact Hu.
    + intros r s2 _ (-> & (F2 & T2 & B2) & R2). split; [reflexivity|]. split; [repeat split; congruence|].
      intros p. rewrite R2, R1. cbn [flat_map]. rewrite in_app_iff. tauto.
Qed.

(** A run on the result of a run. *)
Lemma idle_run key vs sel l m1 : result M e c key vs sel l m1 -> boot_ok m1 -> no_faults e -> complete_listings e -> distinct c ->
  snd (run_install e c m1) = Ok tt /\ s_trace (fst (run_install e c m1)) = [OSyncAll (c_esp c)].
Proof.
  intros R BO NF CL DC.
  assert (forall t, In t l -> ma_gens M (t_g t)) as GL.
  { intros t Ht. apply (fi_gens _ _ _ FI). exists vs, sel. split; [apply (re_versions _ _ _ _ _ _ _ _ R)|].
    split; [apply (re_newest _ _ _ _ _ _ _ _ R)|]. rewrite <- (re_gens _ _ _ _ _ _ _ _ R). apply in_map. exact Ht. }
  assert (forall g, In g (flat_map link_generations sel) -> ma_gens M g) as UG.
  { intros g Hg. rewrite <- (re_gens _ _ _ _ _ _ _ _ R) in Hg. apply in_map_iff in Hg as (t & <- & Ht). auto. }
  assert (NoDup (flat_map link_generations sel)) as ND.
  { eapply DC; [apply (re_versions _ _ _ _ _ _ _ _ R) | apply (re_newest _ _ _ _ _ _ _ _ R)]. }
  assert (sat (fun _ _ => True) (install e c) (start c m1) (fun r s' => r = Ok tt /\ s_trace s' = [OSyncAll (c_esp c)])) as [_ [H1 H2]].
  2: { split; assumption. }
  unfold install. rewrite (re_parse _ _ _ _ _ _ _ _ R). apply sat_bind, sat_lift; cbn [ok_or after].
  rewrite <- (re_sel _ _ _ _ _ _ _ _ R). apply sat_bind. unfold install_generations_from_links.
  apply sat_bind, sat_from_links. intros s0 got SB RD F0 T0 R0 BI B1 N0; cbn [after].
  assert (got = sel) as ->.
  { apply sub_full; [exact SB|]. specialize (N0 NF). apply (f_equal (@length _)) in N0.
    rewrite (tops_length _ RD), (tops_length _ (re_readable _ _ _ _ _ _ _ _ R)) in N0. exact N0. }
  destruct B1 as [[_ B0]|[X _]]; [|congruence]. cbn [start s_fs s_trace s_roots s_broken] in F0, T0, R0, B0.
  destruct (tops sel) as [|g0 gs] eqn:TS.
  { exfalso. pose proof (tops_length _ (re_readable _ _ _ _ _ _ _ _ R)) as X. rewrite TS in X. apply (re_some _ _ _ _ _ _ _ _ R).
    destruct sel; [reflexivity | discriminate]. }
  rewrite <- TS. apply sat_bind.
  apply sat_ext with (m := ifor (map t_g l) (install_generation e c)).
  { rewrite ifor_nested, PSelect.tops_generations, (re_gens _ _ _ _ _ _ _ _ R). reflexivity. }
  eapply sat_mono; [apply (register_all _ key l NF CL (re_key _ _ _ _ _ _ _ _ R))|].
  { rewrite F0. exact (re_tree _ _ _ _ _ _ _ _ R). }
  { rewrite F0. exact (re_held _ _ _ _ _ _ _ _ R). }
  { exact GL. }
  { rewrite F0. intros t n' Ht NM L. eapply result_unique; eauto. eapply fi_key; [exact FI | apply (re_key _ _ _ _ _ _ _ _ R)]. }
  intros r s1 _ (-> & (F1 & T1 & B1) & R1); cbn [after]. rewrite F0 in F1. rewrite T0 in T1. rewrite B0 in B1. rewrite R0 in R1.
  assert (is_dir m1 (c_esp c) = true) as DE.
  { destruct l as [|t l'].
    - exfalso. destruct (some_generation sel (re_readable _ _ _ _ _ _ _ _ R) (re_some _ _ _ _ _ _ _ _ R)) as (g1 & gs1 & E).
      rewrite <- (re_gens _ _ _ _ _ _ _ _ R) in E. discriminate.
    - pose proof (re_held _ _ _ _ _ _ _ _ R) as HL. inversion HL as [|? ? (_ & (b & L) & _) _]; subst.
      eapply named_file_dir; [exact (re_tree _ _ _ _ _ _ _ _ R) | exact L]. }
  apply sat_bind, sat_guard_ok; [exact NF|]; cbn [after]. apply sat_bind, sat_get; cbn [after].
  cbn [ticked s_fs]. rewrite F1, DE; cbn [negb]. apply sat_bind, sat_guard_ok; [exact NF|]; cbn [after].
  apply sat_emit; [exact Logic.I|]. cbn [after]. apply sat_bind.
  pose proof (boot_ok_sync _ BO) as BO2. destruct (boot_ok_not_needed _ BO2) as [NN NP].
  pose proof BO2 as ((bx & bv & SH & BV & _) & _ & (cx & y & cb & CX & CY & CE)).
  eapply sat_mono.
  { eapply (sat_boot_idle e c) with (f := bx) (v := bv).
    - exact NF.
    - cbn [emitted ticked s_fs]. rewrite F1. exact NN.
    - exact SH.
    - exact BV.
    - cbn [emitted ticked s_fs]. rewrite F1. exact NP.
    - exact CX.
    - cbn [emitted ticked s_fs]. rewrite F1. exact CY.
    - symmetry. exact CE. }
  intros r s3 _ (-> & F3 & T3 & R3 & B3); cbn [after]. cbn [emitted ticked s_fs s_trace s_roots s_broken] in F3, T3, R3, B3.
  rewrite F1 in F3. rewrite T1 in T3. rewrite B1 in B3.
  assert (forall p, lookup (s_fs s3) p <> None -> lookup m1 p <> None) as PB.
  { intros p. rewrite F3, lookup_apply. destruct (below _ _); destruct (lookup m1 p); cbn; congruence. }
  eapply sat_mono; [apply collect_all_idle; [apply (fi_listings _ _ _ FI) | exact B3 | | |]|].
  - intros p L A. rewrite R3. apply R1. apply (re_nixos _ _ _ _ _ _ _ _ R); auto.
  - intros p L A P. rewrite R3. apply R1. apply (re_linux _ _ _ _ _ _ _ _ R); auto.
  - intros d p PL L A. rewrite R3. apply R1. eapply (re_lock _ _ _ _ _ _ _ _ R); eauto.
  - intros r s4 _ [-> ->]. split; [reflexivity|]. rewrite T3. reflexivity.
Qed.

(** ** Entries that are kept *)

(** Names of other generations' entries are not written. *)
Lemma gen_other_named (U : generation -> Prop) m o key g n : ma_gens M g -> (forall g', U g' -> ma_gens M g') -> (forall g', U g' -> g' <> g) ->
  ma_keys M key -> named M key g n -> GA e c U m o -> ~ writes o (linux_file M n).
Proof.
  intros Gg UG UN KK NM [PX CH] W. rewrite (linux_file_eq M e c FI) in W.
  assert (file_ends (lit ".efi") (d_linux c ++ [n])) as EP by (exists (d_linux c), n; split; [reflexivity | eapply named_ends; eauto]).
  assert (forall g' q, gen_file e c g' q -> tmp_path q <> d_linux c ++ [n]) as NT.
  { intros g' q GF. apply not_eq_sym, efi_ne_tmp; [exact EP | eapply tmp_ends; eauto]. }
  assert (forall g' q, gen_lock c g' q -> q <> d_linux c ++ [n]) as NL.
  { intros g' q GL. apply not_eq_sym, efi_ne_lock; [exact EP | eapply gen_lock_ends; eauto]. }
  destruct CH as [g' p0 q Ug Hp BQ | g' p0 Ug GF | g' p0 z Ug GF | g' p0 Ug GF | g' label z Ug LB LT | p0
                 | g' p0 Ug GL | g' p0 z Ug GL | g' kver kd id image key' out Ug BU K SG LT HK HI | ]; cbn [writes] in W; try contradiction.
  - subst q. destruct Hp as [Hp|Hp].
    + assert (parent p0 = d_nixos c \/ parent p0 = d_linux c) as PP.
      { destruct Hp as [label x LB|key' K].
        - left. rewrite ca_path_shape by (eapply ca_label_slash; eauto). apply parent_app.
        - right. destruct (stub_path_named M e c SO FI key' g' (so_names _ SO _ (UG _ Ug))) as (n0 & -> & _). apply parent_app. }
      apply below_spec in BQ as [t BQ]. destruct PP as [PP|PP]; rewrite PP in BQ; apply (f_equal (@length _)) in BQ;
        rewrite <- app_assoc, d_linux_r in BQ; rewrite <- (app_nil_r (d_nixos c)) in BQ || rewrite <- (app_nil_r (d_linux c)) in BQ;
        rewrite ?d_nixos_r, ?d_linux_r in BQ; rewrite !app_length in BQ; cbn [length] in BQ; lia.
    + destruct (gen_lock_shape c g' p0 Hp) as (d & r & PL & -> & NE). rewrite d_linux_r in BQ. eapply (in_lock M e c FI d _ r PL BQ NE). reflexivity.
  - eapply NT; eauto.
  - eapply NT; eauto.
  - destruct W as [W|W].
    + eapply NT; [|exact W]. constructor. exact LB.
    + rewrite ca_path_shape in W by (eapply ca_label_slash; eauto). eapply nixos_ne_linux; exact W.
  - eapply NL; eauto.
  - eapply NL; eauto.
  - assert (ma_gens M g') as G' by auto. destruct W as [W|W].
    + eapply NT; [|exact W]. econstructor; eauto.
    + destruct (stub_path_named M e c SO FI key' g' (so_names _ SO _ G')) as (n0 & E & NM0). rewrite E in W. apply app_inv_head in W. injection W as ->.
      destruct (prefix_inj M g' g key' key n SO G' Gg (fi_key _ _ _ FI _ K) KK NM0 NM) as [-> _]. eapply UN; eauto.
Qed.

Lemma gen_component U m o d g : GA e c U m o -> lookup m (component d g) <> None -> lookup (apply o m) (component d g) <> None.
Proof.
  intros [PX CH] L. pose proof (component_ends d g) as CE. rewrite lookup_apply.
  assert (forall g' q, gen_file e c g' q -> eqb_path (tmp_path q) (component d g) = false) as NT.
  { intros g' q GF. apply eqb_path_false, not_eq_sym. eapply lock_ne_tmp; [exact CE | eapply tmp_ends; eauto]. }
  destruct CH as [g' p0 q Ug Hp BQ | g' p0 Ug GF | g' p0 z Ug GF | g' p0 Ug GF | g' label z Ug LB LT | p0
                 | g' p0 Ug GL | g' p0 z Ug GL | g' kver kd id image key' out Ug BU K SG LT HK HI | ].
  - destruct (eqb_path q _); congruence.
  - rewrite (NT _ _ GF). exact L.
  - rewrite (NT _ _ GF). exact L.
  - rewrite (NT _ _ GF). exact L.
  - rewrite LT. destruct (eqb_path _ (component d g)); [discriminate|]. rewrite NT with (g' := g') by (constructor; exact LB). exact L.
  - exact L.
  - destruct (eqb_path p0 _); congruence.
  - destruct (eqb_path p0 _); congruence.
  - rewrite LT. destruct (eqb_path _ (component d g)); [discriminate|]. rewrite NT with (g' := g') by (econstructor; exact K). exact L.
  - destruct (below _ _); [|exact L]. destruct (lookup m _); cbn; congruence.
Qed.

Definition sole (key : bytes) (t : ent) (m : fs) : Prop :=
  held M c key m t /\ tree_ok m /\
  forall n', named M key (t_g t) n' -> lookup m (linux_file M n') <> None -> n' = t_n t.

Lemma gen_sole (U : generation -> Prop) key t m o : ma_gens M (t_g t) -> (forall g', U g' -> ma_gens M g') -> (forall g', U g' -> g' <> t_g t) ->
  ma_keys M key -> GA e c U m o -> sole key t m -> sole key t (apply o m).
Proof.
  intros Gg UG UN KK GO ((NM & (b & L) & SA & FK & FII & CM) & TR & UQ).
  destruct (stub_at_shape M e c FI _ _ _ _ SA) as (EK & EI & _).
  assert (forall n, named M key (t_g t) n -> node_like (lookup (apply o m) (linux_file M n)) (lookup m (linux_file M n))) as NL.
  { intros n NMn. apply not_written. eapply gen_other_named; eauto. }
  split; [|split].
  - split; [exact NM|]. split.
    { pose proof (NL _ NM) as X. rewrite L in X. destruct (lookup (apply o m) _) as [[|x b']|]; try contradiction. cbn in X. subst x. eauto. }
    split; [exact SA|]. split; [eapply gen_keeps_file; eauto|]. split; [eapply gen_keeps_file; eauto|].
    intros d PL. eapply gen_component; eauto.
  - eapply gen_tree; eauto.
  - intros n' NM' L'. apply UQ; [exact NM'|]. pose proof (NL _ NM') as X. intros E. rewrite E in X.
    destruct (lookup (apply o m) _) as [[|]|]; [destruct X | destruct X | congruence].
Qed.

Lemma boot_area_not_written m0 m o p : GB e c m0 m o -> area c p -> ~ writes o p.
Proof.
  intros [_ CH] AP W.
  destruct CH as [q0 q HQ BQ | d q PL BQ | q HQ | q x HQ | | q x out HQ _ _ _ _ _ | x _ _ | | d PL _ | d x PL _ | d x out PL _ _ _ _]; cbn [writes] in W; try contradiction.
  - subst. destruct (area_not_boot c _ _ AP HQ) as (_ & _ & N). contradiction.
  - subst. apply area_esp in AP as (n & x & -> & _).
    apply below_spec in BQ as [t E]. unfold d_lock_bootloader in E. rewrite <- app_assoc in E. symmetry in E. eapply (lock_apart M e c FI); eauto.
  - destruct (area_not_boot c _ _ AP HQ) as (_ & N & _). congruence.
  - destruct (area_not_boot c _ _ AP HQ) as (_ & N & _). congruence.
  - destruct (area_not_boot c _ _ AP (or_introl HQ)) as (N1 & N2 & _). destruct W; congruence.
  - destruct (area_not_boot c p (p_conf c) AP (or_intror eq_refl)) as (N1 & N2 & _). destruct W; congruence.
  - eapply (boot_lock_ne M e c FI p d _ AP PL). symmetry. exact W.
  - eapply (boot_lock_ne M e c FI p d _ AP PL). symmetry. exact W.
  - destruct W as [W|W]; eapply (boot_lock_ne M e c FI p d _ AP PL); symmetry; exact W.
Qed.

Lemma gc_not_written roots m o p : GG e c roots m o -> incl (initial_roots c) roots -> area c p -> In p roots -> ~ writes o p.
Proof.
  intros GO IR AP RT W. pose proof (gc_keeps M e c FI roots [(p, NDir)] o p) as K. pose proof GO as [(q & ->) CH].
  assert (GG e c roots [(p, NDir)] (ORemove q)) as GO'.
  { split; [eauto|]. intros HL. specialize (CH HL). inversion CH; subst. econstructor; eauto. }
  cbn [writes] in W. subst q. specialize (K GO' IR AP RT). rewrite lookup_apply, eqb_path_refl in K. cbn [lookup] in K.
  rewrite eqb_path_refl in K. discriminate.
Qed.

Lemma kept_gens key t gs : no_faults e -> complete_listings e -> sg_key (e_signer e) = Some key -> ma_gens M (t_g t) ->
  (forall g, In g gs -> ma_gens M g) ->
  let p := linux_file M (t_n t) in
  forall s, sole key t (s_fs s) ->
  sat (fun _ o => ~ writes o p) (ifor gs (install_generation e c)) s
    (fun r s' => r = Ok tt -> In (t_g t) gs \/ In p (s_roots s) -> In p (s_roots s')).
Proof.
  intros NF CL K Gt. pose proof (fi_key _ _ _ FI _ K) as KK.
  induction gs as [|g gs IH]; intros UG p s SL; cbn [ifor].
  { apply sat_ret. intros _ [[]|X]. exact X. }
  apply sat_bind.
  assert (sat (fun _ o => ~ writes o p) (install_generation e c g) s
    (fun r s' => sole key t (s_fs s') /\ incl (s_roots s) (s_roots s') /\ (r = Ok tt -> g = t_g t -> In p (s_roots s')))) as H1.
  { assert (ma_gens M g) as Gg by (apply UG; left; reflexivity).
    destruct (list_eq_dec N.eq_dec (stub_prefix (ma_sha M) key g) (stub_prefix (ma_sha M) key (t_g t))) as [E|NE].
    - assert (g = t_g t) as ->.
      { pose proof SL as ((NM & _) & _). assert (named M key g (t_n t)) as NM'.
        { destruct NM as (cnt & C & D). exists cnt. rewrite E. auto. }
        apply (prefix_inj M g (t_g t) key key (t_n t) SO Gg Gt KK KK NM' NM). }
      destruct SL as (HT & TR & UN). eapply sat_mono; [apply (register_held _ s key t); auto|].
      intros r s' _ (-> & (F & T & B) & R). rewrite F. split; [split; [exact HT | split; [exact TR | exact UN]]|]. split.
      + intros q Hq. apply R. right; exact Hq.
      + intros _ _. apply R. left. left. reflexivity.
    - assert (g <> t_g t) as NG by congruence.
      apply sat_weaken with (G := GA e c (eq g)).
      { intros m o GO. eapply gen_other_named; [exact Gt | | | exact KK | apply SL | exact GO]; intros g' <-; assumption. }
      eapply sat_mono; [apply (sat_install_generation e c (eq g) g s (fun _ _ => True)); auto|].
      intros r s' RC _. split; [|split; [apply RC | congruence]].
      apply (reach_invariant (GA e c (eq g)) (sole key t)) with (2 := RC); [|exact SL].
      intros m o GO. apply (gen_sole (eq g)); auto; intros g' <-; assumption. }
  eapply sat_mono; [exact H1|]. intros [[]|[]|] s1 _ (S1 & I1 & D1); cbn [after]; try discriminate.
  eapply sat_mono; [apply IH; [intros g' Hg'; apply UG; right; exact Hg' | exact S1]|].
  intros r s2 _ D2 E X. apply D2; [exact E|]. destruct X as [[X|X]|X]; [right; apply D1; auto | left; exact X | right; apply I1; exact X].
Qed.

Lemma entry_kept m key t : no_faults e -> complete_listings e -> sg_key (e_signer e) = Some key -> always_selected c (t_g t) ->
  sole key t m -> ma_gens M (t_g t) ->
  sat (fun _ o => ~ writes o (linux_file M (t_n t))) (install e c) (start c m) (fun _ _ => True).
Proof.
  intros NF CL K AS SL Gt. set (p := linux_file M (t_n t)).
  assert (area c p) as AP by (right; exists (t_n t); apply (linux_file_eq M e c FI)).
  pose proof (fi_key _ _ _ FI _ K) as KK.
  unfold install. apply sat_bind, sat_lift. destruct (parse_links (c_links c)) as [vs|] eqn:PV; cbn [ok_or after]; [|exact Logic.I].
  apply parse_links_spec in PV. pose proof (limit_links_newest (c_limit c) vs) as NW.
  set (sel := limit_links (c_limit c) (sort_links vs)) in *.
  specialize (AS vs sel PV NW).
  apply sat_bind. unfold install_generations_from_links.
  apply sat_bind, sat_from_links. intros s0 got SB RD F0 T0 R0 BI B1 N0; cbn [after].
  cbn [start s_fs s_trace s_roots s_broken] in F0, T0, R0. specialize (N0 NF).
  assert (flat_map link_generations got = flat_map link_generations sel) as GG0.
  { rewrite <- !PSelect.tops_generations, N0. reflexivity. }
  destruct (tops got) as [|g0 gs] eqn:TS; [apply sat_fail; exact Logic.I|]. rewrite <- TS.
  apply sat_bind. apply sat_ext with (m := ifor (flat_map link_generations got) (install_generation e c)).
  { rewrite ifor_nested, PSelect.tops_generations. reflexivity. }
  assert (forall g, In g (flat_map link_generations got) -> ma_gens M g) as UG.
  { intros g Hg. apply (fi_gens _ _ _ FI). exists vs, sel. rewrite GG0 in Hg. auto. }
  rewrite <- GG0 in AS. clearbody sel.
  eapply sat_mono; [apply (kept_gens key t (flat_map link_generations got) NF CL K Gt UG s0); rewrite F0; exact SL|].
  intros r s1 RC D1. destruct RC as [_ [I1 _]]. rewrite R0 in I1. fold p in D1.
  destruct r as [[]|[]|]; cbn [after]; auto.
  assert (In p (s_roots s1)) as P1 by (apply D1; auto). clear D1.
  apply sat_bind, sat_guard; cbn [after]; [exact Logic.I|]. apply sat_bind, sat_get; cbn [after].
  destruct (is_dir _ _); cbn [negb]; [|apply sat_fail; exact Logic.I].
  apply sat_bind, sat_guard; cbn [after]; [exact Logic.I|]. apply sat_emit; [cbn [writes]; auto|]. cbn [after]. apply sat_bind.
  set (s2 := emitted _ _). assert (s_roots s2 = s_roots s1) as R2 by reflexivity. clearbody s2.
  assert (sat (fun _ o => ~ writes o p) (install_systemd_boot e c) s2 (fun r s' => s_roots s' = s_roots s2)) as H2.
  { apply sat_weaken with (G := GB e c (s_fs s2)); [intros m' o GO; eapply boot_area_not_written; eauto|].
    apply (sat_install_boot e c (s_fs s2) s2); [reflexivity | intros s' [Q _]; exact Q | intros s' [Q _] _; exact Q | intros s' [[Q _] _]; exact Q]. }
  eapply sat_mono; [exact H2|]. intros r s3 _ R3. destruct r as [[]|[]|]; cbn [after]; auto.
  apply sat_weaken with (G := fun m' o => s_broken s3 = [] /\ GG e c (s_roots s3) m' o).
  { intros m' o [_ GO]. apply (gc_not_written (s_roots s3) m' o p GO); [rewrite R3, R2; exact I1 | exact AP | rewrite R3, R2; exact P1]. }
  apply (sat_collect_all e c s3 (fun _ _ => True)); auto.
Qed.
End Twice.

(** ** The statements *)

Lemma again_fits M e c lst walk flt : fits M e c -> complete_listings (again e lst walk flt) -> fits M (again e lst walk flt) c.
Proof. intros [H1 H2 H3 H4 H5 H6 H7 H8 H9 H10] CL. constructor; auto. apply complete_honest. exact CL. Qed.

Lemma twice M e c m lst walk flt : sound M -> fits M e c -> history M m -> tree_ok m -> no_faults e -> complete_listings e ->
  all_readable c -> distinct c -> settled M c m -> stable_signing e c -> snd (run_install e c m) = Ok tt ->
  let e2 := again e lst walk flt in let m1 := s_fs (fst (run_install e c m)) in
  no_faults e2 -> complete_listings e2 ->
  snd (run_install e2 c m1) = Ok tt /\ s_trace (fst (run_install e2 c m1)) = [OSyncAll (c_esp c)].
Proof.
  intros SO FI HI TR NF CL AR DC ST SS OK e2 m1 NF2 CL2. destruct (history_ok M m SO HI) as [CO EO].
  destruct (run_result M SO e c FI m CO EO TR NF CL AR DC ST OK) as (key & vs & sel & l & s2 & s3 & R & BD & RG).
  fold m1 in R. pose proof (boot_ok_gc M e c FI _ _ _ RG (boot_done_ok M e c FI s2 s3 SS BD)) as BO. fold m1 in BO.
  apply (idle_run M SO e2 c (again_fits M e c lst walk flt FI CL2) key vs sel l m1); auto.
  destruct R; constructor; auto.
Qed.

Lemma kept M e c m os g key n y b : sound M -> fits M e c -> history M m -> tree_ok m -> no_faults e -> complete_listings e ->
  point e c m os -> always_selected c g -> ma_gens M g -> sg_key (e_signer e) = Some key -> named M key g n ->
  lookup m (linux_file M n) = Some (NFile y b) -> bootable M m y ->
  (forall n', named M key g n' -> lookup m (linux_file M n') <> None -> n' = n) ->
  (forall d, c_pcrlock c = Some d -> lookup m (component d g) <> None) ->
  (forall o, In o os -> ~ writes o (linux_file M n)) /\
  node_like (lookup (apply_all os m) (linux_file M n)) (lookup m (linux_file M n)).
Proof.
  intros SO FI HI TR NF CL PT AS Gg K NM L BT UN CM. destruct (history_ok M m SO HI) as [CO EO].
  pose proof (EO g key n y b Gg (fi_key _ _ _ FI _ K) NM L) as SF. apply stub_at_for in SF as (kp & ip & SA).
  destruct (bootable_files M m g y kp ip SA BT) as [FK FII].
  destruct (entry_kept M SO e c FI m key (Ent g n y kp ip) NF CL K AS) as [[(os' & T & _ & ST) _] _]; [|exact Gg|].
  { split; [|split; [exact TR | exact UN]]. split; [exact NM|]. split; [exists b; exact L|]. auto. }
  destruct PT as [rest PT]. unfold run_install in PT. rewrite T in PT. cbn [start s_trace app] in PT. subst os'.
  assert (forall o, In o os -> ~ writes o (linux_file M n)) as NW.
  { intros o Ho. destruct (steps_In _ _ _ _ ST (in_or_app os rest o (or_introl Ho))) as [m' X]. exact X. }
  split; [exact NW|]. apply not_written_all. exact NW.
Qed.
