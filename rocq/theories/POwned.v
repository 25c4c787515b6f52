(** Which paths a run touches (C06), what it makes executable (C48), and when
    it deletes (C02, C03, C12). *)
From Coq Require Import List NArith Bool Lia Permutation.
From Verif Require Import Base PBase MText PText MGeneration MNames PNames SNames MFs PFs MPe MTool MInstall PInstall SInstall PFiles PPaths PGen PBoot PGc PSelect PRun PTrace.
Import ListNotations.
Open Scope N_scope.

Section Owned.
Variable e : env.
Variable c : config.

Lemma d_nixos_eq r : d_nixos c ++ r = in_esp c ([lit "EFI"; lit "nixos"] ++ r).
Proof. unfold d_nixos, d_efi, in_esp. rewrite <- !app_assoc. reflexivity. Qed.

Lemma d_linux_eq r : d_linux c ++ r = in_esp c ([lit "EFI"; lit "Linux"] ++ r).
Proof. unfold d_linux, d_efi, in_esp. rewrite <- !app_assoc. reflexivity. Qed.

Lemma own_nixos' n r : owned c (d_nixos c ++ n :: r).
Proof. rewrite d_nixos_eq. constructor. Qed.

Lemma own_linux' a y r : owned c (d_linux c ++ a ++ (lit "nixos-" ++ y) :: r).
Proof. rewrite d_linux_eq. apply own_linux. Qed.

Lemma boot_paths_is p : In p (boot_paths c) <-> is_boot c p.
Proof.
  unfold is_boot, boot_paths, p_fallback, p_systemd, d_boot, d_systemd, d_efi, in_esp. rewrite <- !app_assoc.
  destruct (c_arch c); (split; [intros [<- |[<- |[]]]; [left | right]; reflexivity | intros [-> | ->]; [left | right; left]; reflexivity]).
Qed.

Lemma conf_path_is : conf_path c = p_conf c.
Proof. unfold conf_path, p_conf, d_loader, in_esp. rewrite <- app_assoc. reflexivity. Qed.

Lemma tmp_boot_owned p : is_boot c p \/ p = p_conf c -> In (tmp_path p) (temporary_paths c).
Proof.
  unfold is_boot, temporary_paths, p_fallback, p_systemd, p_conf, d_boot, d_systemd, d_loader, d_efi, in_esp.
  intros [[-> | ->] | ->]; rewrite tmp_path_snoc, <- !app_assoc; destruct (c_arch c); vm_compute; auto.
Qed.

Lemma gen_file_owned g p : gen_file e c g p -> owned c p /\ owned c (tmp_path p).
Proof.
  intros [label x LB|key K].
  - apply ca_label_slash in LB. rewrite ca_path_tmp, ca_path_shape by exact LB. split; apply own_nixos'.
  - unfold stub_path. destruct (stub_path_shape (d_linux c) (e_sha e) key (c_tries c) g) as (cs & a & y & r & -> & E & E0). split.
    + rewrite E. apply (own_linux' []).
    + rewrite app_assoc, tmp_path_snoc, <- app_assoc. destruct cs as [|z cs].
      * destruct (E0 eq_refl) as (y' & ->). cbn [app]. rewrite lit_app_efi, tmp_name_ext.
        -- rewrite <- app_assoc. apply (own_linux' []).
        -- discriminate.
        -- apply efi_no_dot.
      * cbn [app] in E |- *. injection E as -> _. apply (own_linux' []).
Qed.

Lemma gen_lock_owned g p : gen_lock c g p -> owned c p.
Proof.
  intros (d & PL & ->). destruct (version_tag_start g) as [H1 H2].
  destruct (lock_path_shape d (version_tag g) H1 H2) as (cs & n & ->). unfold d_lock_lanzaboote.
  rewrite <- app_assoc. cbn [app]. destruct cs; cbn [app]; apply own_generation_lock; exact PL.
Qed.

Lemma boot_lock_owned d n : c_pcrlock c = Some d -> owned c (p_lock_bootloader d n).
Proof. intros PL. unfold p_lock_bootloader, d_lock_bootloader. rewrite <- app_assoc. apply own_bootloader_lock; exact PL. Qed.

Lemma gc_owned roots m p : incl (initial_roots c) roots -> gc_change c roots m (ORemove p) -> owned c p.
Proof.
  intros IR X. inversion X as [dir q p0 GD BD BQ NR LF]; subst p0.
  apply below_spec in BD as [r ->]. apply below_spec in BQ as [t ->].
  destruct r as [|n r].
  { exfalso. apply NR, IR. rewrite app_nil_r. unfold initial_roots. destruct GD as [-> |[-> |(d & PL & ->)]].
    - cbn; auto 10.
    - cbn; auto 10.
    - rewrite PL. apply in_or_app; right. cbn; auto. }
  destruct GD as [-> |[-> |(d & PL & ->)]].
  - rewrite <- app_assoc. apply own_nixos'.
  - specialize (LF eq_refl). unfold linux_filter in LF.
    destruct (exists_last (l := n :: r)) as (r' & n' & E); [discriminate|]. rewrite E in *. clear E n r.
    rewrite !rev_app_distr in LF. cbn [rev app] in LF.
    destruct (utf8_decode n') as [w|] eqn:D; [|discriminate]. apply utf8_encode_decode_spec in D as [<- _].
    apply starts_with_spec in LF as [z ->]. rewrite utf8_encode_app.
    rewrite <- !app_assoc. cbn [app]. apply own_linux'.
  - unfold d_lock_lanzaboote. rewrite <- !app_assoc. apply own_generation_lock; exact PL.
Qed.

(** ** C06 *)

Definition touch (o : op) (q : path) : Prop :=
  match o with
  | OCreate p | OWrite p _ | ORemove p => q = p
  | ORename a b => q = a \/ q = b
  | _ => False
  end.

Definition above_owned (q : path) : Prop := exists p, owned c p /\ at_or_above q p.

Definition allowed (m : fs) (o : op) : Prop :=
  (forall q, touch o q -> owned c q) /\ (forall q, o = OMkdir q -> lookup m q = None /\ above_owned q).

Lemma below_parent q p : below q (parent p) = true -> at_or_above q p.
Proof.
  intros H. apply below_spec in H as [r E]. destruct p as [|x p] using rev_ind.
  - exists r. exact E.
  - rewrite parent_app in E. exists (r ++ [x]). rewrite app_assoc, <- E. reflexivity.
Qed.

Lemma gen_allowed U m o : GA e c U m o -> allowed m o.
Proof.
  intros [PX CH]. split.
  - intros q T. destruct CH; cbn [touch] in T; try contradiction; subst; eauto using gen_lock_owned.
    + eapply gen_file_owned; eauto.
    + eapply gen_file_owned; eauto.
    + assert (gen_file e c g (ca_path e c label x)) as GF by (constructor; assumption).
      apply gen_file_owned in GF as [G1 G2]. destruct T as [-> | ->]; assumption.
    + assert (gen_file e c g (stub_path e c key g)) as GF by (apply gf_stub; assumption).
      apply gen_file_owned in GF as [G1 G2]. destruct T as [-> | ->]; assumption.
  - intros q ->. destruct PX as (_ & _ & N). split; [exact N|].
    inversion CH as [g p q' Ug Hp B| | | | | | | | | ]; subst. exists p. split; [|apply below_parent; exact B].
    destruct Hp as [Hp|Hp]; [eapply gen_file_owned; eauto | eapply gen_lock_owned; eauto].
Qed.

Lemma boot_allowed m0 m o : GB e c m0 m o -> allowed m o.
Proof.
  assert (forall p, is_boot c p \/ p = p_conf c -> owned c p) as BO.
  { intros p [H| ->]; [apply own_boot, boot_paths_is; exact H | rewrite <- conf_path_is; apply own_conf]. }
  assert (forall p, is_boot c p \/ p = p_conf c -> owned c (tmp_path p)) as BT.
  { intros p H. apply own_temporary, tmp_boot_owned; exact H. }
  intros [PX CH]. split.
  - intros q T. destruct CH; cbn [touch] in T; try contradiction; subst; eauto using boot_lock_owned.
    + destruct T as [-> | ->]; [apply BT | apply BO]; auto.
    + destruct T as [-> | ->]; [apply BT | apply BO]; auto.
    + destruct T as [-> | ->]; apply boot_lock_owned; assumption.
  - intros q ->. destruct PX as (_ & _ & N). split; [exact N|].
    inversion CH as [p q' H B|d q' PL B| | | | | | | | | ]; subst.
    + exists p. split; [auto | apply below_parent; exact B].
    + exists (p_lock_bootloader d (lit "next")). split; [apply boot_lock_owned; exact PL|].
      apply below_spec in B as [r E]. unfold p_lock_bootloader. eexists. rewrite E, <- app_assoc. reflexivity.
Qed.

Lemma gc_allowed roots m o : honest_listings e -> incl (initial_roots c) roots -> GG e c roots m o -> allowed m o.
Proof.
  intros HL IR [(p & ->) CH]. specialize (CH HL). split.
  - intros q ->. eapply gc_owned; eauto.
  - intros q X; discriminate.
Qed.

(** Every change of a run. *)
Definition GR (m : fs) (o : op) : Prop :=
  (exists U : generation -> Prop, (forall g, U g -> selected c g) /\ GA e c U m o) \/
  (exists m0, GB e c m0 m o) \/
  (exists roots, incl (initial_roots c) roots /\ GG e c roots m o).

Lemma run_steps m : steps GR m (s_trace (fst (run_install e c m))) /\
  s_fs (fst (run_install e c m)) = apply_all (s_trace (fst (run_install e c m))) m.
Proof.
  destruct (run_parts e c m) as (A & B & C & U & roots & [T F SA SB SC IR SE _]).
  rewrite T. split; [|exact F]. apply steps_app. split.
  { eapply steps_weaken; [|exact SA]. intros m' o H. left. eauto. }
  apply steps_app. split.
  { eapply steps_weaken; [|exact SB]. intros m' o H. right; left. eauto. }
  { rewrite <- apply_all_app. eapply steps_weaken; [|exact SC]. intros m' o H. right; right. eauto. }
Qed.

Lemma point_steps m os : point e c m os -> steps GR m os.
Proof. intros [rest E]. pose proof (run_steps m) as [H _]. rewrite E in H. apply steps_app in H. apply H. Qed.

Lemma run_allowed m o : honest_listings e -> GR m o -> allowed m o.
Proof.
  intros HL [(U & _ & H)|[(m0 & H)|(roots & IR & H)]]; eauto using gen_allowed, boot_allowed, gc_allowed.
Qed.

Lemma node_like_refl x : node_like x x.
Proof. destruct x as [[|]|]; cbn; auto. Qed.

Lemma node_like_trans x y z : node_like x y -> node_like y z -> node_like x z.
Proof. destruct x as [[|]|], y as [[|]|], z as [[|]|]; cbn; intros; subst; auto; contradiction. Qed.

Lemma node_like_sym x y : node_like x y -> node_like y x.
Proof. destruct x as [[|]|], y as [[|]|]; cbn; auto. Qed.

Lemma node_like_durable x : node_like (option_map durable x) x.
Proof. destruct x as [[|]|]; cbn; auto. Qed.

Lemma allowed_step m o p : allowed m o -> ~ owned c p ->
  node_like (lookup (apply o m) p) (lookup m p) \/
  (lookup m p = None /\ lookup (apply o m) p = Some NDir /\ above_owned p).
Proof.
  intros [A1 A2] NO. rewrite lookup_apply.
  assert (forall q, touch o q -> eqb_path q p = false) as NE.
  { intros q T. apply eqb_path_false. intros ->. auto. }
  destruct o as [q|q|q x|q|d|a b|q|q]; cbn [touch] in NE; auto using node_like_refl.
  - destruct (eqb_path q p) eqn:E; auto using node_like_refl. apply eqb_path_spec in E; subst.
    destruct (A2 p eq_refl). right. auto.
  - rewrite NE by reflexivity. auto using node_like_refl.
  - rewrite NE by reflexivity. auto using node_like_refl.
  - destruct (eqb_path q p); auto using node_like_refl, node_like_durable.
  - destruct (below d p); auto using node_like_refl, node_like_durable.
  - destruct (lookup m a); auto using node_like_refl. rewrite !NE by auto. auto using node_like_refl.
  - rewrite NE by reflexivity. auto using node_like_refl.
Qed.

Lemma foreign_untouched m os p :
  honest_listings e -> point e c m os -> ~ owned c p ->
  node_like (lookup (apply_all os m) p) (lookup m p) \/
  (lookup m p = None /\ lookup (apply_all os m) p = Some NDir /\ exists q, owned c q /\ at_or_above p q).
Proof.
  intros HL PT NO. apply point_steps in PT.
  apply (steps_invariant GR (fun m1 => node_like (lookup m1 p) (lookup m p) \/
    (lookup m p = None /\ lookup m1 p = Some NDir /\ above_owned p))) with (m := m); [| exact PT | auto using node_like_refl].
  intros m1 o GO J. apply run_allowed in GO; [|exact HL]. pose proof (allowed_step _ _ _ GO NO) as ST.
  destruct J as [J|(J1 & J2 & J3)], ST as [ST|(S1 & S2 & S3)].
  - left. eapply node_like_trans; eauto.
  - right. rewrite S1 in J. destruct (lookup m p) as [[|]|]; cbn in J; try contradiction. auto.
  - right. rewrite J2 in ST. destruct (lookup (apply o m1) p) as [[|]|]; cbn in ST; try contradiction. auto.
  - congruence.
Qed.

(** ** C02, C03, C12 *)

Lemma sub_forall {A} (P : A -> Prop) a b : sub a b -> Forall P b -> Forall P a.
Proof. intros S H. apply Forall_forall. intros x Hx. rewrite Forall_forall in H. apply H, (sub_incl _ _ S x Hx). Qed.

Lemma none_readable m vs :
  links_versions (c_links c) vs -> (forall sel, newest (c_limit c) vs sel -> Forall unreadable sel) ->
  snd (run_install e c m) = Err tt /\ untouched m (fst (run_install e c m)).
Proof.
  intros LV H.
  assert (forall sel got s0, newest (c_limit c) vs sel -> loaded e c m sel got s0 -> got <> [] -> False) as NG.
  { intros sel got s0 NW LD NE. destruct got as [|x got]; [congruence|].
    pose proof (lo_readable _ _ _ _ _ _ LD) as R. inversion R as [|? ? R1 _]; subst.
    pose proof (sub_forall _ _ _ (lo_sub _ _ _ _ _ _ LD) (H _ NW)) as N. inversion N; subst. contradiction. }
  pose proof (parse_links_spec (c_links c)) as PS.
  assert (forall vs', links_versions (c_links c) vs' -> vs' = vs) as UN.
  { intros vs' LV'. apply PS in LV, LV'. congruence. }
  pose proof (run_shape_holds e c m) as SH. destruct (run_install e c m) as [s' r]. cbn [fst snd].
  destruct SH as [BAD SM R | vs' sel s0 LV' NW LD E R | vs' sel got s0 LV' NW LD NE RA R
    | vs' sel got s0 s1 s2 LV' NW LD NE PR BR SY QB RB R
    | vs' sel got s0 s1 s2 LV' NW LD NE PR BR SY RB BD NS R
    | vs' sel s0 s1 s2 s3 LV' NW LD NE PR BR SY RB BD RC CC];
    try (apply UN in LV'; subst vs'; destruct (NG _ _ _ NW LD NE)).
  - destruct SM as (F & T & _). split; [exact R | split; assumption].
  - subst. cbn [fst snd] in *. split; [exact R|]. split; [apply (lo_fs _ _ _ _ _ _ LD) | apply (lo_trace _ _ _ _ _ _ LD)].
Qed.

Lemma broken_keeps m vs p :
  links_versions (c_links c) vs -> (forall sel, newest (c_limit c) vs sel -> Exists unreadable sel) ->
  ~ In (ORemove p) (s_trace (fst (run_install e c m))).
Proof.
  intros LV H. destruct (run_parts e c m) as (A & B & C & U & roots & [T F SA SB SC IR SE DN]).
  rewrite T. intros X. apply in_app_or in X as [X|X]; [eapply gen_no_remove; eauto|].
  apply in_app_or in X as [X|X]; [eapply boot_no_remove; eauto|].
  destruct DN as (A1 & vs' & sel & got & _ & LV' & NW & _ & RD & EQ & _).
  { right. destruct C; [contradiction|]. intros Y. apply app_eq_nil in Y as [_ Y]. discriminate. }
  rewrite EQ in RD by (intros ->; contradiction).
  assert (vs' = vs) as -> by (apply parse_links_spec in LV, LV'; congruence).
  specialize (H _ NW). apply Exists_exists in H as (x & H1 & H2). rewrite Forall_forall in RD.
  exact (RD x H1 H2).
Qed.

Lemma removal_late m os p : digit_class (e_digit e) -> point e c m (os ++ [ORemove p]) ->
  exists before after vs sel,
    os = before ++ OSyncAll (c_esp c) :: after /\ links_versions (c_links c) vs /\ newest (c_limit c) vs sel /\
    (forall vl, In vl sel -> ~ unreadable vl) /\
    (forall g, In g (flat_map link_generations sel) -> has_entry e c (apply_all before m) g).
Proof.
  intros DC [rest E]. destruct (run_parts e c m) as (A & B & C & U & roots & [T F SA SB SC IR SE DN]).
  rewrite T in E. rewrite <- app_assoc in E. cbn [app] in E.
  assert (C <> []) as NC.
  { intros ->. rewrite app_nil_r in E.
    assert (In (ORemove p) (A ++ B)) as X by (rewrite E; apply in_elt).
    apply in_app_or in X as [X|X]; [eapply gen_no_remove; eauto | eapply boot_no_remove; eauto]. }
  destruct DN as (A1 & vs & sel & got & EA & LV & NW & SB' & RD & EQ & HE).
  { right. intros X. apply app_eq_nil in X as [_ X]. contradiction. }
  specialize (EQ NC). subst got.
  assert (exists t, os = A ++ t) as [t ->].
  { pose proof (gen_no_remove _ _ _ _ _ SA) as NR. clear - E NR. revert os E. induction A as [|x A IH]; intros os E; [eexists; reflexivity|].
    destruct os as [|y os]; cbn [app] in E.
    - injection E as -> _. destruct (NR p). left; reflexivity.
    - injection E as -> E. destruct (IH ltac:(intros q Hq; apply (NR q); right; exact Hq) os E) as [t ->].
      exists t. reflexivity. }
  exists A1, t, vs, sel. split; [rewrite EA, <- app_assoc; reflexivity|]. split; [exact LV|]. split; [exact NW|]. split.
  - intros vl H N. rewrite Forall_forall in RD. exact (RD vl H N).
  - apply HE, DC.
Qed.

(** ** C48 *)

Definition exec_ok (m m1 : fs) (p : path) : Prop :=
  forall y b, lookup m1 p = Some (NFile y b) ->
    (exists b', lookup m p = Some (NFile y b')) \/
    exists x, to_be_signed e c p x /\ sg_sign (e_signer e) x = Some y.

Lemma executable_shape p : executable c p ->
  (is_boot c p \/ exists r, p = d_linux c ++ r) /\ (file_ends (lit ".efi") p \/ file_ends (lit ".EFI") p).
Proof.
  intros [H|(d & n & ->)].
  - apply boot_paths_is in H. split; [auto|]. destruct H as [-> | ->]; [right; apply fallback_ends | left; apply systemd_ends].
  - rewrite <- d_linux_eq. split; [right; eauto|]. left. exists (d_linux c ++ d), (n ++ lit ".efi").
    rewrite app_assoc. split; [reflexivity | eexists; reflexivity].
Qed.

Lemma exec_ne_tmp p q : executable c p -> file_ends (lit "..tmp") q -> p <> q.
Proof.
  intros X T. apply executable_shape in X as [_ [X|X]].
  - eapply efi_ne_tmp; eauto.
  - eapply (suf_ne (lit ".EFI") (lit ".tmp")); [reflexivity | discriminate | exact X | apply file_ends_4; exact T].
Qed.

Lemma exec_ne_lock p q : executable c p -> file_ends (lit ".pcrlock") q -> p <> q.
Proof.
  intros X T. apply file_ends_lock4 in T. apply executable_shape in X as [_ [X|X]].
  - eapply (suf_ne (lit ".efi") (lit "lock")); [reflexivity | discriminate | exact X | exact T].
  - eapply (suf_ne (lit ".EFI") (lit "lock")); [reflexivity | discriminate | exact X | exact T].
Qed.

Lemma boot_not_linux p r : is_boot c p -> p <> d_linux c ++ r.
Proof.
  unfold is_boot, p_fallback, p_systemd, d_boot, d_systemd, d_linux, d_efi. intros [-> | ->]; rewrite <- !app_assoc;
    intros E; apply app_inv_head in E; cbn [app] in E; discriminate.
Qed.

Lemma nixos_not_exec p r : executable c p -> p <> d_nixos c ++ r.
Proof.
  intros X E. apply executable_shape in X as [[X|[r' X]] _].
  - revert E X. unfold is_boot, p_fallback, p_systemd, d_boot, d_systemd, d_nixos, d_efi. intros -> [X|X];
      rewrite <- !app_assoc in X; apply app_inv_head in X; cbn [app] in X; discriminate.
  - rewrite X in E. unfold d_linux, d_nixos in E. rewrite <- !app_assoc in E. apply app_inv_head in E. discriminate.
Qed.

Lemma built_signed g kver kd id image p : built e c g kver kd id image -> ~ is_boot c p -> to_be_signed e c p image.
Proof.
  intros [_ _ _ (init & kp & ip & stub & _ & _ & _ & ST & IM)] NB. unfold to_be_signed.
  destruct (existsb (eqb_path p) (boot_paths c)) eqn:X.
  { apply existsb_path, boot_paths_is in X. contradiction. }
  unfold lanzaboote_image in IM. destruct (e_parse e stub) as [q|]; [|discriminate].
  destruct (stub_offset q) as [o| |]; cbn [bind] in IM; try discriminate.
  exists stub. eexists. split; [exact ST|]. destruct (e_objcopy e stub _) eqn:OB; cbn [ok_or] in IM; [|discriminate].
  injection IM as ->. exact OB.
Qed.

Lemma shipped_is : shipped_systemd_boot e c = e_store e (components (shipped_path c)).
Proof. unfold shipped_systemd_boot, shipped_path, systemd_filename. destruct (c_arch c); reflexivity. Qed.

Lemma bootlock_file_ends d n : file_ends (lit ".pcrlock") (p_lock_bootloader d n).
Proof. unfold p_lock_bootloader. apply file_ends_snoc. Qed.

Lemma exec_step m m1 o p : executable c p -> GR m1 o -> exec_ok m m1 p -> exec_ok m (apply o m1) p.
Proof.
  intros EX GO J y b. rewrite lookup_apply.
  assert (forall x, lookup m1 p = Some (NFile y x) -> (exists b', lookup m p = Some (NFile y b')) \/
    exists x, to_be_signed e c p x /\ sg_sign (e_signer e) x = Some y) as JJ by (intros x; apply J).
  assert (forall q n b', q <> p -> (if eqb_path q p then n else lookup m1 p) = Some (NFile y b') ->
    (exists b', lookup m p = Some (NFile y b')) \/ exists x, to_be_signed e c p x /\ sg_sign (e_signer e) x = Some y) as JN.
  { intros q n b' NE H. apply eqb_path_false in NE. rewrite NE in H. eauto. }
  assert (forall d x, (if below d p then option_map durable (lookup m1 p) else lookup m1 p) = Some (NFile y x) ->
    (exists b', lookup m p = Some (NFile y b')) \/ exists x, to_be_signed e c p x /\ sg_sign (e_signer e) x = Some y) as JD.
  { intros d x H. destruct (below d p); [|eauto]. destruct (lookup m1 p) as [[|z b0]|] eqn:L; try discriminate.
    cbn in H. injection H as -> _. eauto. }
  assert (forall q x, (if eqb_path q p then option_map durable (lookup m1 p) else lookup m1 p) = Some (NFile y x) ->
    (exists b', lookup m p = Some (NFile y b')) \/ exists x, to_be_signed e c p x /\ sg_sign (e_signer e) x = Some y) as JS.
  { intros q x H. destruct (eqb_path q p); [|eauto]. destruct (lookup m1 p) as [[|z b0]|] eqn:L; try discriminate.
    cbn in H. injection H as -> _. eauto. }
  assert (forall q x, (if eqb_path q p then Some NDir else lookup m1 p) = Some (NFile y x) ->
    (exists b', lookup m p = Some (NFile y b')) \/ exists x, to_be_signed e c p x /\ sg_sign (e_signer e) x = Some y) as JM.
  { intros q x H. destruct (eqb_path q p); [discriminate | eauto]. }
  destruct GO as [(U & _ & _ & CH)|[(m0 & _ & CH)|(roots & _ & (q & ->) & _)]].
  - destruct CH as [g p0 q Ug Hp BQ | g p0 Ug GF | g p0 z Ug GF | g p0 Ug GF | g label z Ug LB LT | p0
                 | g p0 Ug GL | g p0 z Ug GL | g kver kd id image key out Ug BU K SG LT HK HI | ]; eauto.
    + apply JN. intros <-. eapply exec_ne_tmp; [exact EX | eapply tmp_ends; eauto | reflexivity].
    + apply JN. intros <-. eapply exec_ne_tmp; [exact EX | eapply tmp_ends; eauto | reflexivity].
    + rewrite LT. rewrite ca_path_shape by (eapply ca_label_slash; eauto).
      destruct (eqb_path (d_nixos c ++ _) p) eqn:E.
      { apply eqb_path_spec in E. symmetry in E. destruct (nixos_not_exec _ _ EX E). }
      destruct (eqb_path (tmp_path _) p); [discriminate | eauto].
    + apply JN. intros <-. eapply exec_ne_lock; [exact EX | eapply gen_lock_ends; eauto | reflexivity].
    + apply JN. intros <-. eapply exec_ne_lock; [exact EX | eapply gen_lock_ends; eauto | reflexivity].
    + rewrite LT. destruct (eqb_path (stub_path e c key g) p) eqn:E.
      { intros [= -> _]. right. exists image. split; [|exact SG]. eapply built_signed; eauto.
        apply eqb_path_spec in E. unfold stub_path in E.
        destruct (stub_path_shape (d_linux c) (e_sha e) key (c_tries c) g) as (cs & a & yy & r & E1 & _).
        intros B. apply (boot_not_linux p (cs ++ [a ++ lit ".efi"])) in B. congruence. }
      destruct (eqb_path (tmp_path _) p); [discriminate | eauto].
  - destruct CH as [p0 q H BQ | d q PL BQ | p0 H | p0 z H | | p0 x out H ND SH SG LT NX | x ST LT | | d PL KP | d z PL KP | d x out PL SH SG BB (lo & b0 & LK & LN)]; eauto.
    + apply JN. intros <-. eapply exec_ne_tmp; [exact EX | apply file_ends_tmp, (boot_ne c); exact H | reflexivity].
    + apply JN. intros <-. eapply exec_ne_tmp; [exact EX | apply file_ends_tmp, (boot_ne c); exact H | reflexivity].
    + rewrite LT. destruct (eqb_path p0 p) eqn:E.
      { intros [= -> _]. right. exists x. split; [|exact SG]. apply eqb_path_spec in E; subst p0.
        unfold to_be_signed. apply boot_paths_is, existsb_path in H. rewrite H, <- shipped_is. exact SH. }
      destruct (eqb_path (tmp_path _) p); [discriminate | eauto].
    + rewrite LT. destruct (eqb_path (p_conf c) p) eqn:E.
      { apply eqb_path_spec in E. exfalso. apply executable_shape in EX as [_ [X|X]].
        - eapply (suf_ne (lit ".efi") (lit "conf")); [reflexivity | discriminate | exact X | apply conf_ends | symmetry; exact E].
        - eapply (suf_ne (lit ".EFI") (lit "conf")); [reflexivity | discriminate | exact X | apply conf_ends | symmetry; exact E]. }
      destruct (eqb_path (tmp_path _) p); [discriminate | eauto].
    + apply JN. intros <-. eapply exec_ne_lock; [exact EX | apply bootlock_file_ends | reflexivity].
    + apply JN. intros <-. eapply exec_ne_lock; [exact EX | apply bootlock_file_ends | reflexivity].
    + rewrite LN. destruct (eqb_path (p_lock_bootloader d (lit "current")) p) eqn:E.
      { apply eqb_path_spec in E. exfalso. eapply exec_ne_lock; [exact EX | apply bootlock_file_ends | symmetry; exact E]. }
      destruct (eqb_path (p_lock_bootloader d (lit "next")) p); [discriminate | eauto].
  - destruct (eqb_path q p); [discriminate | eauto].
Qed.

Lemma all_signed m os p y b :
  point e c m os -> executable c p -> lookup (apply_all os m) p = Some (NFile y b) ->
  (exists b', lookup m p = Some (NFile y b')) \/
  exists x, to_be_signed e c p x /\ sg_sign (e_signer e) x = Some y.
Proof.
  intros PT EX. apply point_steps in PT.
  apply (steps_invariant GR (fun m1 => exec_ok m m1 p)) with (m := m).
  - intros m1 o GO J. eapply exec_step; eauto.
  - exact PT.
  - intros y0 b0 H. eauto.
Qed.
End Owned.

Lemma run_points e c m :
  point e c m (s_trace (fst (run_install e c m))) /\
  s_fs (fst (run_install e c m)) = apply_all (s_trace (fst (run_install e c m))) m.
Proof. split; [exists []; rewrite app_nil_r; reflexivity | apply run_steps]. Qed.
