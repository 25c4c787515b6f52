(** The boot loader's files over a whole run (C18-C20, C45). *)
From Coq Require Import List NArith Bool Lia Permutation.
From Verif Require Import Base PBase MText PText MVersion MOsRelease MGeneration MNames PNames SNames MFs PFs MPe MTool MInstall PInstall SInstall PFiles PPaths PGen PBoot PGc PSelect PRun PTrace POwned.
Import ListNotations.
Open Scope N_scope.

Section Loader.
Variable e : env.
Variable c : config.

(** Where generations are kept. *)
Definition gen_area (q : path) : Prop :=
  (exists r, q = d_nixos c ++ r) \/ (exists r, q = d_linux c ++ r) \/
  (exists d r, c_pcrlock c = Some d /\ q = d_lock_lanzaboote d ++ r).

(** The boot loader's files and measurements. *)
Definition boot_area (p : path) : Prop :=
  is_boot c p \/ exists d n, c_pcrlock c = Some d /\ p = p_lock_bootloader d n.

Lemma gen_file_area g p : gen_file e c g p -> gen_area p /\ gen_area (tmp_path p).
Proof.
  intros [label x LB|key K].
  - apply ca_label_slash in LB. rewrite ca_path_tmp, ca_path_shape by exact LB. split; left; eauto.
  - unfold stub_path. destruct (stub_path_shape (d_linux c) (e_sha e) key (c_tries c) g) as (cs & a & y & r & -> & _ & _).
    split; right; left; [eauto|]. rewrite app_assoc, tmp_path_snoc, <- app_assoc. eauto.
Qed.

Lemma gen_lock_area g p : gen_lock c g p -> gen_area p.
Proof.
  intros (d & PL & ->). destruct (version_tag_start g) as [H1 H2].
  destruct (lock_path_shape d (version_tag g) H1 H2) as (cs & n & ->). right; right. eauto.
Qed.

Lemma gen_writes U m o q : GA e c U m o -> writes o q -> exists p, gen_area p /\ at_or_above q p.
Proof.
  assert (forall p : path, at_or_above p p) as RF by (intros p; exists []; rewrite app_nil_r; reflexivity).
  intros [PX CH] W. destruct CH as [g p0 q0 Ug Hp BQ | g p0 Ug GF | g p0 z Ug GF | g p0 Ug GF | g label z Ug LB LT | p0
                 | g p0 Ug GL | g p0 z Ug GL | g kver kd id image key out Ug BU K SG LT HK HI | ]; cbn [writes] in W; try contradiction.
  - subst q0. exists p0. split; [|apply below_parent; exact BQ]. destruct Hp as [Hp|Hp]; [eapply gen_file_area; eauto | eapply gen_lock_area; eauto].
  - subst q. eexists. split; [eapply gen_file_area; eauto | apply RF].
  - subst q. eexists. split; [eapply gen_file_area; eauto | apply RF].
  - assert (gen_file e c g (ca_path e c label z)) as GF by (constructor; assumption). apply gen_file_area in GF as [G1 G2].
    destruct W as [<- | <-]; eauto.
  - subst q. eexists. split; [eapply gen_lock_area; eauto | apply RF].
  - subst q. eexists. split; [eapply gen_lock_area; eauto | apply RF].
  - assert (gen_file e c g (stub_path e c key g)) as GF by (apply gf_stub; assumption). apply gen_file_area in GF as [G1 G2].
    destruct W as [<- | <-]; eauto.
Qed.

Lemma gc_writes roots m o q : honest_listings e -> GG e c roots m o -> writes o q -> gen_area q.
Proof.
  intros HL [(p & ->) CH] W. cbn in W; subst q. specialize (CH HL). inversion CH as [dir q p0 GD BD BQ NR LF]; subst p0.
  apply below_spec in BD as [r ->]. apply below_spec in BQ as [t ->]. rewrite <- app_assoc.
  destruct GD as [-> |[-> |(d & PL & ->)]]; [left | right; left | right; right]; eauto.
Qed.

Lemma boot_shape p : is_boot c p -> exists a b, p = c_esp c ++ [lit "EFI"; a; b] /\ (a = lit "BOOT" \/ a = lit "systemd").
Proof.
  unfold is_boot, p_fallback, p_systemd, d_boot, d_systemd, d_efi. intros [-> | ->]; rewrite <- !app_assoc; cbn [app]; eauto.
Qed.

Lemma lock_shape d n : p_lock_bootloader d n = d ++ [lit "630-bootloader.pcrlock.d"; n ++ lit ".pcrlock"].
Proof. unfold p_lock_bootloader, d_lock_bootloader. rewrite <- app_assoc. reflexivity. Qed.

Hypothesis SP : separate c.

Lemma not_both d a b r : c_pcrlock c = Some d -> r = d ++ a -> r = c_esp c ++ b -> False.
Proof.
  intros PL E1 E2. destruct (SP d PL) as [N1 N2].
  destruct (below_total d (c_esp c) r) as [H|H].
  - apply below_spec; eauto.
  - apply below_spec; eauto.
  - apply below_spec in H as [x H]. apply N2. exists x. exact H.
  - apply below_spec in H as [x H]. apply N1. exists x. exact H.
Qed.

Lemma d_nixos_esp r : exists b, d_nixos c ++ r = c_esp c ++ lit "EFI" :: lit "nixos" :: b.
Proof. exists r. unfold d_nixos, d_efi. rewrite <- !app_assoc. reflexivity. Qed.

Lemma d_linux_esp r : exists b, d_linux c ++ r = c_esp c ++ lit "EFI" :: lit "Linux" :: b.
Proof. exists r. unfold d_linux, d_efi. rewrite <- !app_assoc. reflexivity. Qed.

Lemma apart p q : gen_area q -> boot_area p -> ~ at_or_above p q.
Proof.
  intros GQ [BP|(d & n & PL & ->)] [t E].
  - apply boot_shape in BP as (a & b & -> & AB). rewrite <- app_assoc in E.
    destruct GQ as [[r ->]|[[r ->]|(d & r & PL & ->)]].
    + destruct (d_nixos_esp r) as [b' E']. rewrite E' in E. apply app_inv_head in E. injection E as E _. destruct AB as [-> | ->]; discriminate.
    + destruct (d_linux_esp r) as [b' E']. rewrite E' in E. apply app_inv_head in E. injection E as E _. destruct AB as [-> | ->]; discriminate.
    + unfold d_lock_lanzaboote in E. rewrite <- app_assoc in E. eapply not_both; [exact PL | reflexivity | exact E].
  - rewrite lock_shape, <- app_assoc in E.
    destruct GQ as [[r ->]|[[r ->]|(d' & r & PL' & ->)]].
    + destruct (d_nixos_esp r) as [b' E']. rewrite E' in E. eapply not_both; [exact PL | exact E | reflexivity].
    + destruct (d_linux_esp r) as [b' E']. rewrite E' in E. eapply not_both; [exact PL | exact E | reflexivity].
    + assert (d' = d) as -> by congruence. unfold d_lock_lanzaboote in E. rewrite <- app_assoc in E. apply app_inv_head in E.
      cbn [app] in E. injection E as E _. discriminate.
Qed.

Lemma not_written o m p : ~ writes o p -> node_like (lookup (apply o m) p) (lookup m p).
Proof.
  intros NW. rewrite lookup_apply.
  assert (forall q, writes o q -> eqb_path q p = false) as NE.
  { intros q T. apply eqb_path_false. intros ->. auto. }
  destruct o as [q|q|q x|q|d|a b|q|q]; cbn [writes] in NE; auto using node_like_refl.
  - rewrite NE by reflexivity. apply node_like_refl.
  - rewrite NE by reflexivity. apply node_like_refl.
  - rewrite NE by reflexivity. apply node_like_refl.
  - destruct (eqb_path q p); auto using node_like_refl, node_like_durable.
  - destruct (below d p); auto using node_like_refl, node_like_durable.
  - destruct (lookup m a); [|apply node_like_refl]. rewrite !NE by auto. apply node_like_refl.
  - rewrite NE by reflexivity. apply node_like_refl.
Qed.

Lemma not_written_all os p : forall m, (forall o, In o os -> ~ writes o p) ->
  node_like (lookup (apply_all os m) p) (lookup m p).
Proof.
  induction os as [|o os IH]; intros m H; [apply node_like_refl|]. cbn.
  eapply node_like_trans; [apply IH; intros o' Ho; apply H; right; exact Ho|].
  apply not_written, H. left; reflexivity.
Qed.

Lemma gen_no_write U m os p : steps (GA e c U) m os -> boot_area p -> forall o, In o os -> ~ writes o p.
Proof.
  intros ST BA o Ho W. destruct (steps_In _ _ _ _ ST Ho) as [m' G]. destruct (gen_writes _ _ _ _ G W) as (q & GQ & AB).
  exact (apart _ _ GQ BA AB).
Qed.

Lemma gc_no_write roots m os p : honest_listings e -> steps (GG e c roots) m os -> boot_area p -> forall o, In o os -> ~ writes o p.
Proof.
  intros HL ST BA o Ho W. destruct (steps_In _ _ _ _ ST Ho) as [m' G]. apply (apart p p); [|exact BA | exists []; rewrite app_nil_r; reflexivity].
  eapply gc_writes; eauto.
Qed.

Definition area_like (m m1 : fs) : Prop := forall p, boot_area p -> node_like (lookup m1 p) (lookup m p).

Lemma boot_version_like m m1 p : node_like (lookup m1 p) (lookup m p) -> boot_version e m1 p = boot_version e m p.
Proof. unfold boot_version. destruct (lookup m1 p) as [[|]|], (lookup m p) as [[|]|]; cbn; intros; subst; try contradiction; reflexivity. Qed.

Lemma verified_like m m1 p : node_like (lookup m1 p) (lookup m p) -> verified e m1 p <-> verified e m p.
Proof. unfold verified. destruct (lookup m1 p) as [[|]|], (lookup m p) as [[|]|]; cbn; intros; subst; try contradiction; tauto. Qed.

Lemma present_like m m1 p : node_like (lookup m1 p) (lookup m p) -> present m1 p = present m p.
Proof. unfold present. destruct p; [reflexivity|]. destruct (lookup m1 _) as [[|]|], (lookup m _) as [[|]|]; cbn; intros; try contradiction; reflexivity. Qed.

Lemma needed_like m m1 : area_like m m1 -> needed e c m1 <-> needed e c m.
Proof.
  intros AL. unfold needed.
  assert (forall p, is_boot c p -> node_like (lookup m1 p) (lookup m p)) as BL by (intros p BP; apply AL; left; exact BP).
  pose proof (BL _ (or_introl eq_refl)) as L1. pose proof (BL _ (or_intror eq_refl)) as L2.
  unfold out_of_date. rewrite (boot_version_like _ _ _ L1), (boot_version_like _ _ _ L2), (present_like _ _ _ L1), (present_like _ _ _ L2),
    (verified_like _ _ _ L1), (verified_like _ _ _ L2).
  assert ((exists d, c_pcrlock c = Some d /\ present m1 (d ++ [lit "630-bootloader.pcrlock.d"; lit "current.pcrlock"]) = false) <->
          (exists d, c_pcrlock c = Some d /\ present m (d ++ [lit "630-bootloader.pcrlock.d"; lit "current.pcrlock"]) = false)) as X.
  { assert (forall d, c_pcrlock c = Some d -> present m1 (d ++ [lit "630-bootloader.pcrlock.d"; lit "current.pcrlock"]) =
                                              present m (d ++ [lit "630-bootloader.pcrlock.d"; lit "current.pcrlock"])) as Y.
    { intros d PL. apply present_like, AL. right. exists d, (lit "current"). rewrite current_path. auto. }
    split; intros (d & PL & P); exists d; (split; [exact PL|]); (eapply eq_trans; [|exact P]); [symmetry|]; apply Y; exact PL. }
  tauto.
Qed.

Lemma needed_iff m : needed e c m <-> boot_needed e c m.
Proof.
  unfold needed, boot_needed. rewrite <- shipped_is.
  assert (forall d, present m (d ++ [lit "630-bootloader.pcrlock.d"; lit "current.pcrlock"]) = false <->
                    lookup m (d ++ [lit "630-bootloader.pcrlock.d"; lit "current.pcrlock"]) = None) as PR.
  { intros d. assert (d ++ [lit "630-bootloader.pcrlock.d"; lit "current.pcrlock"] <> []) as NE by (intros X; apply app_eq_nil in X as [_ X]; discriminate).
    pose proof (present_lookup m _ NE) as P. destruct (present m _), (lookup m _) as [n|]; split; intros; try congruence; exfalso.
    - apply (proj1 P); auto.
    - assert (false = true); [apply P; discriminate | discriminate]. }
  assert (In (p_fallback c) (boot_paths c)) as B1 by (apply boot_paths_is; left; reflexivity).
  assert (In (p_systemd c) (boot_paths c)) as B2 by (apply boot_paths_is; right; reflexivity).
  split.
  - intros [H|[H|[H|[H|(d & PL & H)]]]]; eauto 8. right. exists d. split; [exact PL|]. apply PR, H.
  - intros [(p & Hp & H)|(d & PL & H)].
    + apply boot_paths_is in Hp as [-> | ->]; tauto.
    + do 4 right. exists d. split; [exact PL|]. apply PR, H.
Qed.

Lemma boot_len p : is_boot c p -> (length p = length (c_esp c) + 3)%nat.
Proof. intros H. apply boot_shape in H as (a & b & -> & _). rewrite app_length. reflexivity. Qed.

Lemma parent_len p q : is_boot c p \/ p = p_conf c -> below q (parent p) = true -> (length q <= length (c_esp c) + 2)%nat.
Proof.
  intros H B. apply below_spec in B as [r E]. apply (f_equal (@length _)) in E. rewrite app_length in E.
  destruct H as [H| ->].
  - apply boot_shape in H as (a & b & -> & _). change [lit "EFI"; a; b] with ([lit "EFI"; a] ++ [b]) in E. rewrite app_assoc, parent_app, app_length in E. cbn [length] in E.
    change (list N) with name in *. lia.
  - unfold p_conf in E. rewrite parent_app in E. unfold d_loader in E. rewrite app_length in E. cbn [length] in E.
    change (list N) with name in *. lia.
Qed.

(** In the boot loader phase only the final renames write to the two files. *)
Lemma boot_writes m0 m o p : GB e c m0 m o -> is_boot c p -> writes o p ->
  o = ORename (tmp_path p) p /\ (no_faults e -> needed e c m0).
Proof.
  intros [PX CH] BP W.
  destruct CH as [p0 q H BQ | d q PL BQ | p0 H | p0 z H | | p0 x out H ND SH SG LT NX | x ST LT | | d PL KP | d z PL KP | d x out PL SH SG BB LN];
    cbn [writes] in W; try contradiction.
  - subst q. pose proof (parent_len _ _ H BQ). rewrite (boot_len _ BP) in H0. lia.
  - subst q. exfalso. apply boot_shape in BP as (a & b & -> & _). apply below_spec in BQ as [r E].
    unfold d_lock_bootloader in E. rewrite <- app_assoc in E. symmetry in E. eapply not_both; [exact PL | reflexivity | symmetry; exact E].
  - destruct (boot_ne_tmp c p p0 BP H). congruence.
  - destruct (boot_ne_tmp c p p0 BP H). congruence.
  - destruct W as [W|W]; [destruct (boot_ne_tmp c p p0 BP (or_introl H)); congruence|]. subst p0. auto.
  - destruct W as [W|W]; [destruct (boot_ne_tmp c p (p_conf c) BP (or_intror eq_refl)) | destruct (boot_ne_conf c p BP)]; congruence.
  - destruct (boot_ne_lock c p d (lit "next") BP). congruence.
  - destruct (boot_ne_lock c p d (lit "next") BP). congruence.
  - destruct W as [W|W]; [destruct (boot_ne_lock c p d (lit "next") BP) | destruct (boot_ne_lock c p d (lit "current") BP)]; congruence.
Qed.

Lemma run_writes m o p : honest_listings e -> In o (s_trace (fst (run_install e c m))) -> is_boot c p -> writes o p ->
  o = ORename (tmp_path p) p /\ (no_faults e -> needed e c m).
Proof.
  intros HL Ho BP W. destruct (run_parts e c m) as (A & B & C & U & roots & [T F SA SB SC IR SE DN]).
  rewrite T in Ho. apply in_app_or in Ho as [Ho|Ho].
  { exfalso. eapply gen_no_write; eauto. left; exact BP. }
  apply in_app_or in Ho as [Ho|Ho].
  - destruct (steps_In _ _ _ _ SB Ho) as [m' G]. destruct (boot_writes _ _ _ _ G BP W) as [E N]. split; [exact E|].
    intros NF. apply (needed_like m (apply_all A m)); [|auto].
    intros q BQ. apply not_written_all. eapply gen_no_write; eauto.
  - exfalso. eapply gc_no_write; eauto. left; exact BP.
Qed.

Lemma boot_kept m os p :
  no_faults e -> honest_listings e -> ~ boot_needed e c m -> point e c m os -> In p (boot_paths c) ->
  (forall o, In o os -> ~ writes o p) /\ node_like (lookup (apply_all os m) p) (lookup m p).
Proof.
  intros NF HL NN [rest T] BP. apply boot_paths_is in BP.
  assert (forall o, In o os -> ~ writes o p) as X.
  { intros o Ho W. apply NN, needed_iff. eapply run_writes; eauto. rewrite T. apply in_or_app. left; exact Ho. }
  split; [exact X | apply not_written_all; exact X].
Qed.

(** Downgrades only for another reason. *)
Lemma boot_downgrade m os o p v w x :
  no_faults e -> honest_listings e -> point e c m os -> In o os -> writes o p -> In p (boot_paths c) ->
  e_store e (components (shipped_path c)) = Some x -> systemd_boot_version (e_parse e) x = Ok v ->
  boot_version e m p = Ok w -> version_gtb v w = false ->
  (exists q, In q (boot_paths c) /\ q <> p /\ out_of_date e (Some x) m q) \/
  (exists q, In q (boot_paths c) /\ ~ verified e m q) \/
  exists d, c_pcrlock c = Some d /\ lookup m (d ++ [lit "630-bootloader.pcrlock.d"; lit "current.pcrlock"]) = None.
Proof.
  intros NF HL [rest T] Ho W BP SH V BV GT.
  assert (boot_needed e c m) as ND.
  { apply needed_iff. eapply run_writes; eauto; [rewrite T; apply in_or_app; left; exact Ho | apply boot_paths_is; exact BP]. }
  destruct ND as [(q & BQ & H)|H]; [|auto]. rewrite SH in H. destruct H as [H|H]; [|eauto].
  destruct (path_eq_dec q p) as [-> |NE]; [|left; eauto]. exfalso.
  destruct H as [H|(x' & v' & [= <-] & V' & H)].
  - unfold boot_version in BV. unfold present in H. destruct p; [discriminate|]. destruct (lookup m _); discriminate.
  - assert (v' = v) as -> by congruence. destruct H as [H|(w' & H1 & H2)]; [congruence|]. assert (w' = w) as -> by congruence. congruence.
Qed.

(** The outcome of a successful run. *)
Lemma boot_replaced m :
  no_faults e -> honest_listings e -> boot_needed e c m -> snd (run_install e c m) = Ok tt ->
  exists x out, e_store e (components (shipped_path c)) = Some x /\ sg_sign (e_signer e) x = Some out /\
    forall p, In p (boot_paths c) -> exists b, lookup (s_fs (fst (run_install e c m))) p = Some (NFile out b).
Proof.
  intros NF HL ND. apply needed_iff in ND.
  assert (forall got s0 s1 s2, loaded e c m got got s0 \/ True -> s_fs s0 = m ->
    processed e c (fun g => In g (flat_map link_generations got)) (flat_map link_generations got) s0 s1 ->
    synced_from c s1 s2 -> needed e c (s_fs s2)) as N2.
  { intros got s0 s1 s2 _ F0 PR (F2 & _). apply (needed_like m); [|exact ND].
    pose proof (processed_reach _ _ _ _ _ _ PR) as [(os & _ & F & ST) _]. rewrite F0 in *. rewrite F2, F.
    intros p BP. eapply node_like_trans; [apply not_written; cbn; tauto|]. apply not_written_all. eapply gen_no_write; eauto. }
  assert (forall s2 s3, needed e c (s_fs s2) -> boot_done e c s2 s3 -> exists x out,
    e_store e (components (shipped_path c)) = Some x /\ sg_sign (e_signer e) x = Some out /\
    forall p, is_boot c p -> lookup (s_fs s3) p = Some (NFile out false)) as UP.
  { intros s2 s3 N (_ & _ & _ & b & B1 & B2 & _). apply B1 in N as ->; [|exact NF].
    destruct (B2 eq_refl) as (x & out & E1 & E2 & L & _). exists x, out. rewrite <- shipped_is. auto. }
  pose proof (run_shape_holds e c m) as SH. destruct (run_install e c m) as [s' r]. cbn [fst snd] in *. intros ->.
  inversion SH as [BAD SM R | vs' sel s0 LV' NW LD E R | vs' sel got s0 LV' NW LD NE RA R
    | vs' sel got s0 s1 s2 LV' NW LD NE PR BR SY QB RB R
    | vs' sel got s0 s1 s2 LV' NW LD NE PR BR SY RB BD NS R
    | vs' sel s0 s1 s2 s3 LV' NW LD NE PR BR SY RB BD RC CC]; try congruence.
  - destruct (UP s2 s') as (x & out & E1 & E2 & L); [eapply N2; eauto; apply (lo_fs _ _ _ _ _ _ LD) | exact BD|].
    exists x, out. split; [exact E1|]. split; [exact E2|]. intros p BP. exists false. apply L, boot_paths_is, BP.
  - destruct (UP s2 s3) as (x & out & E1 & E2 & L); [eapply N2; eauto; apply (lo_fs _ _ _ _ _ _ LD) | exact BD|].
    exists x, out. split; [exact E1|]. split; [exact E2|]. intros p BP. apply boot_paths_is in BP.
    destruct RC as [(os & _ & F & ST) _]. pose proof (not_written_all os p (s_fs s3)) as NL.
    rewrite <- F in NL. rewrite (L p BP) in NL. destruct (lookup (s_fs s') p) as [[|y b]|]; cbn in NL.
    + destruct NL. eapply gc_no_write; eauto. left; exact BP.
    + exists b. rewrite NL; [reflexivity|]. eapply gc_no_write; eauto. left; exact BP.
    + destruct NL. eapply gc_no_write; eauto. left; exact BP.
Qed.

(** ** C45 *)

Variable d : path.
Hypothesis PL : c_pcrlock c = Some d.
Hypothesis HL : honest_listings e.
Hypothesis LS : forall x out, sg_sign (e_signer e) x = Some out -> e_lock e out = e_lock e x.

Lemma bl_path n : bootloader_lock d n = p_lock_bootloader d n.
Proof. rewrite lock_shape. reflexivity. Qed.

Lemma area_lock n : boot_area (p_lock_bootloader d n).
Proof. right. eauto. Qed.

Lemma measured_like m m1 p n : node_like (lookup m1 p) (lookup m p) ->
  node_like (lookup m1 (p_lock_bootloader d n)) (lookup m (p_lock_bootloader d n)) ->
  measured_by (e_lock e) d m p n -> measured_by (e_lock e) d m1 p n.
Proof.
  intros N1 N2 (y & b & lo & b' & L1 & LK & L2). rewrite bl_path in L2. rewrite L1 in N1. rewrite L2 in N2. unfold measured_by.
  rewrite bl_path.
  destruct (lookup m1 p) as [[|y1 b1]|]; cbn in N1; try contradiction. subst y1.
  destruct (lookup m1 (p_lock_bootloader d n)) as [[|y2 b2]|]; cbn in N2; try contradiction. subst y2.
  exists y, b1, lo, b2. auto.
Qed.

Lemma boot_writes_lock m0 m o n : GB e c m0 m o -> writes o (p_lock_bootloader d n) ->
  (n = lit "next" /\ (o = OCreate (p_lock_bootloader d n) \/ exists x, o = OWrite (p_lock_bootloader d n) x)) \/
  o = ORename (p_lock_bootloader d (lit "next")) (p_lock_bootloader d (lit "current")).
Proof.
  intros [PX CH] W.
  assert (forall a b, p_lock_bootloader d a = p_lock_bootloader d b -> a = b) as INJ.
  { intros a b E. rewrite !lock_shape in E. apply app_inv_head in E. injection E as E. apply app_inv_tail in E. exact E. }
  destruct CH as [p0 q H BQ | d' q PL' BQ | p0 H | p0 z H | | p0 x out H ND SH SG LT NX | x ST LT | | d' PL' KP | d' z PL' KP | d' x out PL' SH SG BB LN];
    cbn [writes] in W; try contradiction; try (assert (d' = d) as -> by congruence).
  - subst q. exfalso. rewrite lock_shape in BQ. apply below_spec in BQ as [r E]. rewrite <- app_assoc in E.
    destruct H as [H| ->].
    + apply boot_shape in H as (a & b & -> & _). change [lit "EFI"; a; b] with ([lit "EFI"; a] ++ [b]) in E. rewrite app_assoc, parent_app in E.
      eapply not_both; [exact PL | exact E | reflexivity].
    + unfold p_conf in E. rewrite parent_app in E. unfold d_loader in E. eapply not_both; [exact PL | exact E | reflexivity].
  - subst q. exfalso. apply below_spec in BQ as [r E]. apply (f_equal (@length _)) in E. unfold p_lock_bootloader in E.
    rewrite !app_length in E. cbn [length] in E. lia.
  - destruct (lock_ne_tmp_boot c d n p0 H). congruence.
  - destruct (lock_ne_tmp_boot c d n p0 H). congruence.
  - destruct W as [W|W]; [destruct (lock_ne_tmp_boot c d n p0 (or_introl H)) | destruct (boot_ne_lock c p0 d n H)]; congruence.
  - destruct W as [W|W]; [destruct (lock_ne_tmp_boot c d n (p_conf c) (or_intror eq_refl)); congruence|].
    exfalso. eapply (suf_ne (lit "lock") (lit "conf")); [reflexivity | discriminate | apply (bootlock_ends d n) | apply (conf_ends c) | symmetry; exact W].
  - apply INJ in W. subst n. left. auto.
  - apply INJ in W. subst n. left. eauto.
  - right. reflexivity.
Qed.

(** What the phase does to one file [p] measured by the current component at its
    start. *)
Definition upd (m0 m : fs) (p : path) : Prop :=
  (node_like (lookup m p) (lookup m0 p) /\
   node_like (lookup m (p_lock_bootloader d (lit "current"))) (lookup m0 (p_lock_bootloader d (lit "current")))) \/
  measured_by (e_lock e) d m p (lit "next") \/ measured_by (e_lock e) d m p (lit "current").

Lemma upd_covered m0 m p : measured_by (e_lock e) d m0 p (lit "current") -> upd m0 m p -> covered (e_lock e) d m p.
Proof.
  intros H [[U1 U2]|[U|U]]; [left; eapply measured_like; eauto | right; exact U | left; exact U].
Qed.

Lemma upd_step m0 m o p : is_boot c p -> measured_by (e_lock e) d m0 p (lit "current") ->
  GB e c m0 m o -> upd m0 m p -> upd m0 (apply o m) p.
Proof.
  intros BP M0 GO J. pose proof GO as [PX CH].
  assert (~ writes o p -> (forall n, ~ writes o (p_lock_bootloader d n)) -> upd m0 (apply o m) p) as OTHER.
  { intros N1 N2. pose proof (not_written o m p N1) as K1. pose proof (fun n => not_written o m _ (N2 n)) as K2.
    destruct J as [[U1 U2]|[U|U]].
    - left. split; eapply node_like_trans; eauto.
    - right; left. eapply measured_like; eauto.
    - right; right. eapply measured_like; eauto. }
  assert (forall n, ~ writes (OSyncAll []) n) as _ by (intros n []).
  destruct M0 as (y0 & b0 & lo0 & b0' & Y1 & Y2 & Y3). rewrite bl_path in Y3.
  assert (p <> p_lock_bootloader d (lit "next")) as PN by (apply (boot_ne_lock c); exact BP).
  assert ((forall q, lookup m0 q <> None -> q <> p_lock_bootloader d (lit "next") -> lookup m q = lookup m0 q) ->
    forall x, (o = OCreate (p_lock_bootloader d (lit "next")) \/ o = OWrite (p_lock_bootloader d (lit "next")) x) -> upd m0 (apply o m) p) as NEXT.
  { intros KP x E. left.
    assert (~ writes o p) as N1 by (destruct E as [-> | ->]; cbn [writes]; apply not_eq_sym; exact PN).
    assert (~ writes o (p_lock_bootloader d (lit "current"))) as N2 by (destruct E as [-> | ->]; cbn [writes]; apply next_ne_current).
    split.
    - rewrite <- (KP p); [apply not_written; exact N1 | congruence | exact PN].
    - rewrite <- (KP (p_lock_bootloader d (lit "current"))); [apply not_written; exact N2 | congruence | apply not_eq_sym, next_ne_current]. }
  destruct CH as [p0 q H BQ | d' q PL' BQ | p0 H | p0 z H | | p0 x out H ND SH SG LT NX | x ST LT | | d' PL' KP | d' z PL' KP | d' x out PL' SH SG BB LN];
    try (assert (d' = d) as -> by congruence).
  3-4: (apply OTHER; [intros W; destruct (boot_writes _ _ _ _ GO BP W) as [W' _]; discriminate
                    | intros n W; destruct (lock_ne_tmp_boot c d n p0 H); symmetry; exact W]).
  1-3,5-6: apply OTHER; [intros W; destruct (boot_writes _ _ _ _ GO BP W) as [W' _]; try discriminate
                        | intros n W; destruct (boot_writes_lock _ _ _ _ GO W) as [[_ [W'|[x' W']]]|W']; try discriminate].
  - apply (f_equal (fun o => match o with ORename _ b => b | _ => [] end)) in W'. destruct (boot_ne_conf c p BP). symmetry. exact W'.
  - apply (f_equal (fun o => match o with ORename a _ => a | _ => [] end)) in W'.
    destruct (lock_ne_tmp_boot c d (lit "next") (p_conf c) (or_intror eq_refl)). symmetry. exact W'.
  - destruct (path_eq_dec p0 p) as [-> |NE].
    + right; left. destruct (NX d PL) as (lo & b & LK & L). exists out, false, lo, b. rewrite bl_path, !lookup_apply, LT, eqb_path_refl.
      split; [reflexivity|]. split; [rewrite (LS _ _ SG); exact LK|].
      assert (eqb_path p (p_lock_bootloader d (lit "next")) = false) as -> by (apply eqb_path_false; exact PN).
      assert (eqb_path (tmp_path p) (p_lock_bootloader d (lit "next")) = false) as ->; [|exact L].
      apply eqb_path_false. intros X. symmetry in X. destruct (lock_ne_tmp_boot c d (lit "next") p (or_introl BP) X).
    + apply OTHER.
      * intros W. destruct (boot_writes _ _ _ _ GO BP W) as [W' _]. apply (f_equal (fun o => match o with ORename _ b => b | _ => [] end)) in W'. contradiction.
      * intros n W. destruct (boot_writes_lock _ _ _ _ GO W) as [[_ [W'|[x' W']]]|W']; try discriminate.
        apply (f_equal (fun o => match o with ORename _ b => b | _ => [] end)) in W'. destruct (boot_ne_lock c p0 d (lit "current") H W').
  - apply (NEXT KP []). auto.
  - apply (NEXT KP z). auto.
  - right; right. destruct LN as (lo & b & LK & L). exists out, false, lo, b. rewrite bl_path, !lookup_apply, L, eqb_path_refl.
    assert (eqb_path (p_lock_bootloader d (lit "current")) p = false) as ->.
    { apply eqb_path_false, not_eq_sym, (boot_ne_lock c); exact BP. }
    assert (eqb_path (p_lock_bootloader d (lit "next")) p = false) as -> by (apply eqb_path_false; congruence).
    split; [apply BB; exact BP|]. split; [rewrite (LS _ _ SG); exact LK | reflexivity].
Qed.

Lemma covered_like m m1 p : is_boot c p -> (forall q, boot_area q -> node_like (lookup m1 q) (lookup m q)) ->
  covered (e_lock e) d m p -> covered (e_lock e) d m1 p.
Proof.
  intros BP H [X|X]; [left | right]; (eapply measured_like; [apply H; left; exact BP | apply H, area_lock | exact X]).
Qed.

Lemma prefix_cases {A} (os rest a b : list A) : os ++ rest = a ++ b ->
  (exists r, a = os ++ r) \/ (exists t, os = a ++ t /\ b = t ++ rest).
Proof.
  revert a; induction os as [|x os IH]; intros a E; cbn [app] in *; [left; eauto|].
  destruct a as [|y a]; cbn [app] in E; [right; exists (x :: os); auto|].
  injection E as -> E. destruct (IH a E) as [[r ->]|(t & -> & E')]; [left; exists r; reflexivity | right; exists t; auto].
Qed.

Lemma measured_during m os p : In p (boot_paths c) -> measured_by (e_lock e) d m p (lit "current") ->
  point e c m os -> covered (e_lock e) d (apply_all os m) p.
Proof.
  intros BP M0 [rest T]. apply boot_paths_is in BP.
  destruct (run_parts e c m) as (A & B & C & U & roots & [T' F SA SB SC IR SE DN]). rewrite T' in T. clear T'.
  assert (forall os' , (exists r, A = os' ++ r) -> measured_by (e_lock e) d (apply_all os' m) p (lit "current")) as PA.
  { intros os' [r E]. assert (forall q, boot_area q -> node_like (lookup (apply_all os' m) q) (lookup m q)) as H.
    { intros q BQ. apply not_written_all. intros o Ho. eapply gen_no_write; eauto. rewrite E. apply in_or_app; auto. }
    eapply measured_like; [apply H; left; exact BP | apply H, area_lock | exact M0]. }
  assert (forall os', (exists r, B = os' ++ r) -> covered (e_lock e) d (apply_all (A ++ os') m) p) as PB.
  { intros os' [r E]. rewrite apply_all_app. assert (measured_by (e_lock e) d (apply_all A m) p (lit "current")) as MA.
    { apply PA. exists []. rewrite app_nil_r. reflexivity. }
    eapply upd_covered; [exact MA|].
    rewrite E in SB. apply steps_app in SB as [SB _].
    apply (steps_invariant (GB e c (apply_all A m)) (fun m1 => upd (apply_all A m) m1 p)) with (m := apply_all A m).
    - intros m1 o GO J. eapply upd_step; eauto.
    - exact SB.
    - left. split; apply node_like_refl. }
  symmetry in T. apply prefix_cases in T as [[r E]|(t & -> & E)].
  { left. apply PA. eauto. }
  symmetry in E. apply prefix_cases in E as [[r E]|(t' & -> & E)].
  { apply PB. eauto. }
  rewrite app_assoc, apply_all_app. eapply covered_like; [exact BP | | apply PB; exists []; rewrite app_nil_r; reflexivity].
  intros q BQ. apply not_written_all. intros o Ho. eapply (gc_no_write roots (apply_all (A ++ B) m) C); eauto.
  rewrite E. apply in_or_app; auto.
Qed.

Lemma measured_before m os p : In p (boot_paths c) -> measured_by (e_lock e) d m p (lit "current") ->
  (forall o p, In o os -> In p (bootloader_lock d (lit "current") :: boot_paths c) -> ~ writes o p) ->
  measured_by (e_lock e) d (apply_all os m) p (lit "current").
Proof.
  intros BP M0 NW. eapply measured_like; [| |exact M0]; apply not_written_all; intros o Ho; apply NW; auto.
  - right; exact BP.
  - left. apply bl_path.
Qed.

(** The boot loader is measured, or there is no measurement. *)
Definition measured_or_none (m : fs) (p : path) : Prop :=
  lookup m (bootloader_lock d (lit "current")) = None \/ measured_by (e_lock e) d m p (lit "current").

Lemma measured_ensured m p : In p (boot_paths c) -> measured_or_none m p ->
  snd (run_install e c m) = Ok tt -> measured_by (e_lock e) d (s_fs (fst (run_install e c m))) p (lit "current").
Proof.
  intros BP M0. apply boot_paths_is in BP.
  assert (forall os m1, (forall q, boot_area q -> forall o, In o os -> ~ writes o q) ->
    measured_by (e_lock e) d m1 p (lit "current") -> measured_by (e_lock e) d (apply_all os m1) p (lit "current")) as KEEP.
  { intros os m1 H X. eapply measured_like; [| |exact X]; apply not_written_all; apply H; [left; exact BP | apply area_lock]. }
  assert (forall os m1, (forall q, boot_area q -> forall o, In o os -> ~ writes o q) ->
    measured_or_none m1 p -> measured_or_none (apply_all os m1) p) as KEEP'.
  { intros os m1 H [X|X]; [left | right; apply KEEP; auto]. rewrite bl_path in *.
    pose proof (not_written_all os (p_lock_bootloader d (lit "current")) m1 (H _ (area_lock _))) as NL. rewrite X in NL.
    destruct (lookup (apply_all os m1) (p_lock_bootloader d (lit "current"))) as [[|? ?]|]; [destruct NL | destruct NL | reflexivity]. }
  assert (forall (got : list (N * link)) s0 s1 s2, s_fs s0 = m ->
    processed e c (fun g => In g (flat_map link_generations got)) (flat_map link_generations got) s0 s1 ->
    synced_from c s1 s2 -> measured_or_none (s_fs s2) p) as N2.
  { intros got s0 s1 s2 F0 PR (F2 & _).
    pose proof (processed_reach _ _ _ _ _ _ PR) as [(os & _ & F & ST) _]. rewrite F0 in *. rewrite F2, F.
    apply (KEEP' [OSyncAll (c_esp c)]); [intros q BQ o [<- |[]] []|].
    apply KEEP'; [| exact M0]. intros q BQ. eapply gen_no_write; eauto. }
  assert (forall s2 s3, measured_or_none (s_fs s2) p -> boot_done e c s2 s3 ->
    measured_by (e_lock e) d (s_fs s3) p (lit "current")) as UP.
  { intros s2 s3 M2 (_ & _ & _ & b & _ & B2 & B3). destruct b.
    - destruct (B2 eq_refl) as (x & out & E1 & E2 & L & LK). destruct (LK d PL) as (lo & b & K1 & K2).
      exists out, false, lo, b. rewrite bl_path. split; [apply L; exact BP|]. split; [rewrite (LS _ _ E2); exact K1 | exact K2].
    - destruct (B3 eq_refl) as [[_ FP] K]. destruct M2 as [X|M2].
      { exfalso. specialize (FP d PL). rewrite bl_path in X. unfold present in FP. rewrite X in FP. rewrite <- bl_path in FP. unfold bootloader_lock in FP.
        destruct d; discriminate FP. }
      destruct M2 as (y & b & lo & b' & L1 & LK & L2). exists y, b, lo, b'.
      rewrite bl_path in *. split; [|split; [exact LK|]].
      + rewrite <- L1. apply K; [apply (boot_ne_conf c); exact BP | apply (boot_ne_tmp c); auto | congruence].
      + rewrite <- L2. apply K; [| apply (lock_ne_tmp_boot c); auto | congruence].
        eapply (suf_ne (lit "lock") (lit "conf")); [reflexivity | discriminate | apply bootlock_ends | apply (conf_ends c)]. }
  pose proof (run_shape_holds e c m) as SH. destruct (run_install e c m) as [s' r]. cbn [fst snd] in *. intros ->.
  inversion SH as [BAD SM R | vs' sel s0 LV' NW LD E R | vs' sel got s0 LV' NW LD NE RA R
    | vs' sel got s0 s1 s2 LV' NW LD NE PR BR SY QB RB R
    | vs' sel got s0 s1 s2 LV' NW LD NE PR BR SY RB BD NS R
    | vs' sel s0 s1 s2 s3 LV' NW LD NE PR BR SY RB BD RC CC]; try congruence.
  - eapply UP; [|exact BD]. eapply N2; eauto. apply (lo_fs _ _ _ _ _ _ LD).
  - destruct RC as [(os & _ & F & ST) _]. rewrite F. apply KEEP; [| eapply UP; [|exact BD]; eapply N2; eauto; apply (lo_fs _ _ _ _ _ _ LD)].
    intros q BQ. eapply gc_no_write; eauto.
Qed.

Lemma measured_after m p : In p (boot_paths c) -> measured_by (e_lock e) d m p (lit "current") ->
  snd (run_install e c m) = Ok tt -> measured_by (e_lock e) d (s_fs (fst (run_install e c m))) p (lit "current").
Proof. intros BP M0. apply measured_ensured; [exact BP | right; exact M0]. Qed.
End Loader.

Lemma measured_history lock d ps m m1 p :
  In p ps -> measured_by lock d m p (lit "current") -> between_updates lock d ps m m1 ->
  measured_by lock d m1 p (lit "current").
Proof.
  intros HP M0 B. induction B as [|m1 e c B IH (LK & PL & BP & SP & HL & LS) OK|m1 e c os B IH (LK & PL & BP & SP & HL & LS) PT NW].
  - exact M0.
  - subst lock ps. apply measured_after; auto.
  - subst lock ps. eapply measured_before; eauto.
Qed.

Lemma covered_history lock d ps m m1 e c os p :
  In p ps -> measured_by lock d m p (lit "current") -> between_updates lock d ps m m1 ->
  same_machine lock d ps e c -> point e c m1 os -> covered lock d (apply_all os m1) p.
Proof.
  intros HP M0 B (LK & PL & BP & SP & HL & LS) PT. pose proof (measured_history _ _ _ _ _ _ HP M0 B) as M1.
  subst lock ps. apply (measured_during e c SP d PL HL LS); auto.
Qed.

(** ** C20 *)

Lemma find_section_spec l n : forall r, find_section l n = r ->
  match r with
  | Ok None => Forall (fun t => exists m, s_name t = Some m /\ m <> n) l
  | Ok (Some s) => exists pre post, l = pre ++ s :: post /\ Forall (fun t => exists m, s_name t = Some m /\ m <> n) pre /\ s_name s = Some n
  | Panic => exists pre s post, l = pre ++ s :: post /\ Forall (fun t => exists m, s_name t = Some m /\ m <> n) pre /\ s_name s = None
  | Err _ => False
  end.
Proof.
  induction l as [|s l IH]; intros r; cbn [find_section].
  - intros <-. constructor.
  - destruct (s_name s) as [m|] eqn:N.
    + destruct (eqb_bytes m n) eqn:E.
      * intros <-. apply eqb_bytes_spec in E; subst. exists [], l. auto.
      * assert (m <> n) as NE by (intros ->; rewrite eqb_bytes_refl in E; discriminate).
        intros Hr. specialize (IH r Hr). destruct r as [[s0|]|u|].
        -- destruct IH as (pre & post & -> & F & S0). exists (s :: pre), post. split; [reflexivity|]. split; [constructor; eauto | exact S0].
        -- constructor; eauto.
        -- exact IH.
        -- destruct IH as (pre & s0 & post & -> & F & S0). exists (s :: pre), s0, post. split; [reflexivity|]. split; [constructor; eauto | exact S0].
    + intros <-. exists [], s, l. auto.
Qed.

Lemma first_unique l n pre s post pre' s' post' :
  l = pre ++ s :: post -> l = pre' ++ s' :: post' ->
  Forall (fun t => exists m, s_name t = Some m /\ m <> n) pre -> Forall (fun t => exists m, s_name t = Some m /\ m <> n) pre' ->
  (s_name s = None \/ s_name s = Some n) -> (s_name s' = None \/ s_name s' = Some n) -> s = s'.
Proof.
  revert pre pre'. induction l as [|x l IH]; intros pre pre' E E' F F' S S'.
  - destruct pre; discriminate.
  - destruct pre as [|y pre], pre' as [|y' pre']; cbn [app] in E, E'.
    + congruence.
    + injection E as -> ->. injection E' as -> E'. inversion F' as [|? ? (m & N & NE) _]; subst. destruct S as [S|S]; congruence.
    + injection E as -> E. injection E' as -> ->. inversion F as [|? ? (m & N & NE) _]; subst. destruct S' as [S'|S']; congruence.
    + injection E as -> E. injection E' as -> E'. inversion F; inversion F'; subst. eapply IH; eauto.
Qed.

Lemma slice_none l a b : a <= b -> slice l a b = None <-> N.of_nat (length l) < b.
Proof.
  intros H. unfold slice. destruct (a <=? b) eqn:E; [|apply N.leb_gt in E; lia]. cbn [andb].
  destruct (b <=? N.of_nat (length l)) eqn:E2; [apply N.leb_le in E2 | apply N.leb_gt in E2]; split; intros; try discriminate; try reflexivity; lia.
Qed.

Lemma read_panic parse file n : read_section_data parse file n = Panic <-> section_panics parse file n.
Proof.
  unfold read_section_data, section_panics. destruct (parse file) as [p|] eqn:P.
  2: { split; [discriminate | intros (p & _ & _ & _ & X & _); discriminate]. }
  pose proof (find_section_spec (pe_sections p) n _ eq_refl) as FS.
  destruct (find_section (pe_sections p) n) as [[s|]|u|]; cbn [bind].
  - destruct FS as (pre & post & L & F & S). split.
    + intros H. exists p, pre, s, post. split; [reflexivity|]. split; [exact L|]. split; [exact F|]. right. split; [exact S|].
      destruct (s_vsize s <=? s_rawsize s) eqn:V; [|apply N.leb_gt in V; auto].
      destruct (slice file _ _) eqn:SL; [discriminate|]. apply slice_none in SL; [auto | lia].
    + intros (p' & pre' & s' & post' & [= <-] & L' & F' & D).
      assert (s' = s) as ->.
      { eapply first_unique; [exact L' | exact L | exact F' | exact F | | auto]. destruct D as [D|[D _]]; auto. }
      destruct D as [D|[_ D]]; [congruence|]. destruct (s_vsize s <=? s_rawsize s) eqn:V; [|reflexivity].
      apply N.leb_le in V. destruct D as [D|D]; [lia|]. apply (slice_none file (s_rawptr s)) in D; [rewrite D; reflexivity | lia].
  - split; [discriminate|]. intros (p' & pre' & s' & post' & [= <-] & L' & F' & D).
    rewrite L' in FS. apply Forall_app in FS as [_ FS]. inversion FS as [|? ? (m & N & NE) _]; subst. destruct D as [D|[D _]]; congruence.
  - contradiction.
  - destruct FS as (pre & s & post & L & F & S). split; [|reflexivity]. intros _. exists p, pre, s, post. auto.
Qed.

Lemma read_some parse file n d : read_section_data parse file n = Ok (Some d) ->
  exists p pre s post, parse file = Some p /\ pe_sections p = pre ++ s :: post /\
    Forall (fun t => exists m, s_name t = Some m /\ m <> n) pre /\ s_name s = Some n /\
    s_vsize s <= s_rawsize s /\ slice file (s_rawptr s) (s_rawptr s + s_vsize s) = Some d.
Proof.
  unfold read_section_data. destruct (parse file) as [p|] eqn:P; [|discriminate].
  pose proof (find_section_spec (pe_sections p) n _ eq_refl) as FS.
  destruct (find_section (pe_sections p) n) as [[s|]|u|]; cbn [bind]; try discriminate; try contradiction.
  destruct FS as (pre & post & L & F & S). destruct (s_vsize s <=? s_rawsize s) eqn:V; [|discriminate].
  destruct (slice file _ _) eqn:SL; [|discriminate]. intros [= <-]. apply N.leb_le in V. exists p, pre, s, post. auto 8.
Qed.

Lemma slice_nil l a b : a <= b -> slice l a b = Some [] -> a = b \/ N.of_nat (length l) <= a.
Proof.
  intros H. unfold slice. destruct (_ && _) eqn:E; [|discriminate]. apply andb_true_iff in E as [_ E]. apply N.leb_le in E.
  intros [= X]. apply (f_equal (@length _)) in X. rewrite firstn_length, skipn_length in X. cbn in X. lia.
Qed.

Lemma read_empty parse file n : section_empty parse file n <-> read_section_data parse file n = Ok (Some []).
Proof.
  split.
  - intros (p & pre & s & post & P & L & F & S & V & R). unfold read_section_data. rewrite P.
    pose proof (find_section_spec (pe_sections p) n _ eq_refl) as FS.
    destruct (find_section (pe_sections p) n) as [[s'|]|u|]; cbn [bind].
    + destruct FS as (pre' & post' & L' & F' & S'). assert (s' = s) as -> by (eapply first_unique; eauto).
      rewrite V. replace (0 <=? s_rawsize s) with true by (symmetry; apply N.leb_le; lia). rewrite N.add_0_r. unfold slice.
      replace (s_rawptr s <=? s_rawptr s) with true by (symmetry; apply N.leb_le; lia).
      replace (s_rawptr s <=? N.of_nat (length file)) with true by (symmetry; apply N.leb_le; lia).
      rewrite N.sub_diag. reflexivity.
    + rewrite L in FS. apply Forall_app in FS as [_ FS]. inversion FS as [|? ? (m & N & NE) _]; subst. congruence.
    + contradiction.
    + destruct FS as (pre' & s' & post' & L' & F' & S'). assert (s' = s) as -> by (eapply first_unique; eauto). congruence.
  - intros H. apply read_some in H as (p & pre & s & post & P & L & F & S & V & SL). exists p, pre, s, post.
    split; [exact P|]. split; [exact L|]. split; [exact F|]. split; [exact S|].
    pose proof SL as SL'. unfold slice in SL'. destruct (_ && _) eqn:E; [|discriminate]. apply andb_true_iff in E as [_ E]. apply N.leb_le in E.
    apply slice_nil in SL; lia.
Qed.

Lemma osrel_text_panic d : osrel_text d = Panic <-> d = [].
Proof.
  unfold osrel_text. destruct (rev d) as [|x r] eqn:E.
  - apply (f_equal (@rev _)) in E. rewrite rev_involutive in E. cbn in E. subst. tauto.
  - split; [|intros ->; discriminate]. destruct (x =? 0); [destruct (existsb (N.eqb 0) r); [discriminate | intros X; destruct (ok_or_panic _ _ X)]|].
    destruct (x =? 10); [intros X; destruct (ok_or_panic _ _ X) | discriminate].
Qed.

Lemma version_panic parse file :
  systemd_boot_version parse file = Panic <->
  section_panics parse file (lit ".osrel") \/ section_empty parse file (lit ".osrel").
Proof.
  rewrite <- read_panic, read_empty. unfold systemd_boot_version.
  destruct (read_section_data parse file (lit ".osrel")) as [[d|]|u|] eqn:R; cbn [bind ok_or].
  - pose proof (osrel_text_panic d) as OP. destruct (osrel_text d) as [t|u|]; cbn [bind].
    + assert (d <> []) as ND by (intros X; apply OP in X; discriminate).
      destruct (om_get _ _); cbn [ok_or bind]; [destruct (version_parse s); cbn|]; (split; [discriminate | intros [H|[= H]]; [discriminate | contradiction]]).
    + assert (d <> []) as ND by (intros X; apply OP in X; discriminate). split; [discriminate | intros [H|[= H]]; [discriminate | contradiction]].
    + split; [|auto]. intros _. right. f_equal. f_equal. apply OP. reflexivity.
  - split; [discriminate | intros [H|H]; discriminate].
  - split; [discriminate | intros [H|H]; discriminate].
  - split; auto.
Qed.

(** The check of one installed file, without I/O errors. *)
Lemma newer_total e c p s x v :
  no_faults e -> In p (boot_paths c) -> e_store e (components (shipped_path c)) = Some x -> systemd_boot_version (e_parse e) x = Ok v ->
  (forall y b, lookup (s_fs s) p = Some (NFile y b) ->
     ~ section_panics (e_parse e) y (lit ".osrel") /\ ~ section_empty (e_parse e) y (lit ".osrel")) ->
  exists s' b, newer_systemd_boot e (Some x) p s = (s', Ok b) /\ s_fs s' = s_fs s /\
    (b = true <-> out_of_date e (Some x) (s_fs s) p).
Proof.
  intros NF BP SH V NP. apply boot_paths_is in BP. rewrite <- shipped_is in SH.
  pose proof (sat_newer e c (fun _ _ => True) p s (fun r s' => exists b, r = Ok b /\ s_fs s' = s_fs s /\ (b = true <-> out_of_date e (Some x) (s_fs s) p))) as H.
  rewrite SH in H. destruct H as [_ H].
  - apply (boot_ne c). left; exact BP.
  - intros s' _ N. destruct (N NF x v eq_refl V).
  - intros s' _ [(x' & [= <-] & Z)|Z]; [congruence|]. exfalso. unfold boot_version in Z.
    destruct (lookup (s_fs s) p) as [[|y b]|] eqn:L; try discriminate. apply version_panic in Z. destruct (NP y b eq_refl). tauto.
  - intros s' b (F & _) N _. exists b. split; [reflexivity|]. split; [exact F | apply N; exact NF].
  - destruct (newer_systemd_boot e (Some x) p s) as [s' r]. cbn [fst snd] in H. destruct H as (b & -> & F & N). exists s', b. auto.
Qed.

(** The files that make it panic. *)
Lemma newer_panics e c p s x v y b :
  no_faults e -> In p (boot_paths c) -> e_store e (components (shipped_path c)) = Some x -> systemd_boot_version (e_parse e) x = Ok v ->
  lookup (s_fs s) p = Some (NFile y b) ->
  section_panics (e_parse e) y (lit ".osrel") \/ section_empty (e_parse e) y (lit ".osrel") ->
  snd (newer_systemd_boot e (Some x) p s) = Panic.
Proof.
  intros NF BP SH V L P. apply version_panic in P. unfold newer_systemd_boot.
  unfold ibind at 1. unfold iexists, ifault. unfold ibind at 1. rewrite NF. unfold iget at 1. cbn [s_fs].
  assert (present (s_fs s) p = true) as PR.
  { unfold present. destruct p; [reflexivity|]. rewrite L. reflexivity. }
  rewrite PR. cbn [negb]. unfold isource, iguard, ifault, ibind. rewrite NF. cbn [iret ilift ok_or]. rewrite V.
  unfold iattempt, iread, iguard, ifault, ibind. rewrite NF. cbn [iret iget s_fs]. rewrite L. cbn [iret ilift]. rewrite P. reflexivity.
Qed.
