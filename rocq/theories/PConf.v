(** loader.conf over a run (C58). *)
From Coq Require Import List NArith Bool Lia.
From Verif Require Import Base PBase MText MGeneration MNames MPe MFs PFs MTool MInstall PInstall SNames SInstall MCli SCli
  PFiles PPaths PGen PBoot PGc PSelect PRun PTrace POwned PLoader.
Import ListNotations.
Open Scope N_scope.

Lemma not_written_durable o m p : ~ writes o p ->
  lookup (apply o m) p = lookup m p \/ lookup (apply o m) p = option_map durable (lookup m p).
Proof.
  intros NW. rewrite lookup_apply.
  assert (forall q, writes o q -> eqb_path q p = false) as NE.
  { intros q T. apply eqb_path_false. intros ->. auto. }
  destruct o as [q|q|q x|q|d|a b|q|q]; cbn [writes] in NE; auto; try (rewrite NE by reflexivity; auto).
  - destruct (eqb_path q p); auto.
  - destruct (below d p); auto.
  - destruct (lookup m a); [|auto]. rewrite !NE by auto. auto.
Qed.

Section Conf.
Variable e : env.
Variable c : config.
Hypothesis SP : separate c.
Hypothesis HL : honest_listings e.

Lemma conf_is : conf_path c = p_conf c.
Proof. unfold conf_path, p_conf, d_loader, in_esp. rewrite <- app_assoc. reflexivity. Qed.

Lemma conf_apart q : gen_area c q -> ~ at_or_above (p_conf c) q.
Proof.
  rewrite <- conf_is. unfold conf_path, in_esp. intros GQ [t E]. rewrite <- app_assoc in E.
  destruct GQ as [[r ->]|[[r ->]|(d & r & PL & ->)]].
  - destruct (d_nixos_esp c r) as [b' E']. rewrite E' in E. apply app_inv_head in E. discriminate.
  - destruct (d_linux_esp c r) as [b' E']. rewrite E' in E. apply app_inv_head in E. discriminate.
  - unfold d_lock_lanzaboote in E. rewrite <- app_assoc in E. eapply not_both; [exact SP | exact PL | reflexivity | exact E].
Qed.

Lemma conf_ne_tmp : tmp_path (p_conf c) <> p_conf c.
Proof. apply tmp_path_neq. unfold p_conf. destruct (d_loader c); discriminate. Qed.

(** Only the rename into place writes loader.conf. *)
Lemma conf_written m o : GR e c m o -> writes o (p_conf c) ->
  o = ORename (tmp_path (p_conf c)) (p_conf c) /\
  exists x, e_store e (components (c_conf c)) = Some x /\ lookup m (tmp_path (p_conf c)) = Some (NFile x true).
Proof.
  assert (at_or_above (p_conf c) (p_conf c)) as RF by (exists []; rewrite app_nil_r; reflexivity).
  intros [(U & HU & GA0)|[(m0 & PX & CH)|(roots & _ & GC)]] W.
  - destruct (gen_writes _ _ _ _ _ _ GA0 W) as (p & AR & AB). destruct (conf_apart _ AR AB).
  - assert (forall p, is_boot c p -> p <> p_conf c) as N1 by (intros p B; apply boot_ne_conf; exact B).
    assert (forall p, is_boot c p -> tmp_path p <> p_conf c) as N2.
    { intros p B X. apply boot_shape in B as (a & b & -> & _). rewrite <- conf_is in X. unfold conf_path, in_esp in X.
      replace (c_esp c ++ [lit "EFI"; a; b]) with ((c_esp c ++ [lit "EFI"; a]) ++ [b]) in X by (rewrite <- app_assoc; reflexivity).
      rewrite tmp_path_snoc, <- app_assoc in X. apply app_inv_head in X. discriminate. }
    assert (forall d n, c_pcrlock c = Some d -> p_lock_bootloader d n <> p_conf c) as N3.
    { intros d n PL X. rewrite lock_shape, <- conf_is in X. eapply not_both; [exact SP | exact PL | reflexivity | exact X]. }
    destruct CH as [p0 q H BQ | d q PL BQ | p0 H | p0 z H | | p0 x out H ND SH SG LT NX | x ST LT | | d PL KP | d z PL KP | d x out PL SH SG BB LN];
      cbn [writes] in W; try contradiction.
    + subst q. exfalso. pose proof (parent_len _ _ _ H BQ) as X. rewrite <- conf_is in X, BQ.
      unfold conf_path, in_esp in BQ. apply below_spec in BQ as [r BQ].
      assert (parent p0 = c_esp c ++ [lit "EFI"; lit "BOOT"] \/ parent p0 = c_esp c ++ [lit "EFI"; lit "systemd"] \/ parent p0 = c_esp c ++ [lit "loader"]) as PP.
      { destruct H as [H|H].
        - apply boot_shape in H as (a & b & -> & [-> | ->]); [left | right; left]; unfold parent; rewrite removelast_app by discriminate; reflexivity.
        - right; right. subst p0. rewrite <- conf_is. unfold conf_path, in_esp, parent. rewrite removelast_app by discriminate. reflexivity. }
      rewrite <- app_assoc in BQ. destruct PP as [PP|[PP|PP]]; rewrite PP in BQ; apply app_inv_head in BQ; discriminate.
    + subst q. exfalso. apply below_spec in BQ as [r E]. unfold d_lock_bootloader in E. rewrite <- conf_is in E.
      unfold conf_path, in_esp in E. rewrite <- app_assoc in E. eapply not_both; [exact SP | exact PL | reflexivity | exact E].
    + exfalso. destruct H as [H|H]; [exact (N2 _ H W) | subst p0; exact (conf_ne_tmp W)].
    + exfalso. destruct H as [H|H]; [exact (N2 _ H W) | subst p0; exact (conf_ne_tmp W)].
    + exfalso. destruct W as [W|W]; [exact (N2 _ H W) | exact (N1 _ H W)].
    + split; [reflexivity|]. exists x. auto.
    + exfalso. exact (N3 _ _ PL W).
    + exfalso. exact (N3 _ _ PL W).
    + exfalso. destruct W as [W|W]; exact (N3 _ _ PL W).
  - destruct (conf_apart _ (gc_writes _ _ _ _ _ _ HL GC W) RF).
Qed.

Lemma writes_dec o p : writes o p \/ ~ writes o p.
Proof.
  assert (forall a b : path, a = b \/ a <> b) as D.
  { intros a b. destruct (list_eq_dec (list_eq_dec N.eq_dec) a b); auto. }
  destruct o as [q|q|q x|q|d|a b|q|q]; cbn [writes]; auto. destruct (D a p), (D b p); tauto.
Qed.

Lemma conf_always m os : point e c m os -> conf_state e c m (apply_all os m).
Proof.
  intros PT. apply point_steps in PT.
  apply (steps_invariant (GR e c) (conf_state e c m)) with (2 := PT); [|left; apply node_like_refl].
  intros m1 o G1 J. unfold conf_state in *. destruct (writes_dec o (conf_path c)) as [W|W].
  - rewrite conf_is in *. destruct (conf_written _ _ G1 W) as (-> & x & ST & LT). right. exists x. split; [exact ST|].
    rewrite lookup_apply, LT, eqb_path_refl. reflexivity.
  - destruct J as [J|(x & ST & J)].
    + left. eapply node_like_trans; [apply not_written; exact W | exact J].
    + right. exists x. split; [exact ST|]. destruct (not_written_durable o m1 (conf_path c) W) as [E|E]; rewrite E, J; reflexivity.
Qed.

Lemma conf_installed m : snd (run_install e c m) = Ok tt ->
  exists x y b, e_store e (components (c_conf c)) = Some x /\
    lookup (s_fs (fst (run_install e c m))) (conf_path c) = Some (NFile y b) /\ e_sha e y = e_sha e x.
Proof.
  pose proof (run_shape_holds e c m) as SH. destruct (run_install e c m) as [s' r]. cbn [fst snd] in *. intros ->.
  rewrite conf_is.
  inversion SH as [BAD SM R | vs' sel s0 LV' NW LD E R | vs' sel got s0 LV' NW LD NE RA R
    | vs' sel got s0 s1 s2 LV' NW LD NE PR BR SY QB RB R
    | vs' sel got s0 s1 s2 LV' NW LD NE PR BR SY RB BD NS R
    | vs' sel s0 s1 s2 s3 LV' NW LD NE PR BR SY RB BD RC CC]; try congruence.
  - destruct BD as (_ & _ & (x & y & b & H) & _). exists x, y, b. exact H.
  - destruct BD as (_ & _ & (x & y & b & H1 & H2 & H3) & _).
    destruct RC as [(os & _ & F & ST) _].
    pose proof (not_written_all os (p_conf c) (s_fs s3)) as NL. rewrite <- F, H2 in NL.
    assert (forall o, In o os -> ~ writes o (p_conf c)) as NW2.
    { intros o Ho W. destruct (steps_In _ _ _ _ ST Ho) as [m' G]. apply (conf_apart (p_conf c)).
      - eapply gc_writes; eauto.
      - exists []. rewrite app_nil_r. reflexivity. }
    specialize (NL NW2). destruct (lookup (s_fs s') (p_conf c)) as [[|z bz]|] eqn:L; cbn in NL; try contradiction.
    exists x, z, bz. split; [exact H1|]. split; [reflexivity|]. congruence.
Qed.
End Conf.
