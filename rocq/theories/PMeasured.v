(** The components of measured boot belong to the entries (C46). *)
From Coq Require Import List NArith ZArith Bool Lia Permutation.
From Verif Require Import Base PBase MText PText MVersion MOsRelease MGeneration MNames PNames SNames MFs PFs MPe MTool MInstall PInstall SCommon SInstall PFiles PPaths PGen PBoot PGc PSelect PRun PTrace POwned PLoader PEntry SHistory PHistory PHistories SRepeat PRepeat PTwice.
Import ListNotations.
Open Scope N_scope.

Section Measured.
Variable M : machine.
Hypothesis SO : sound M.
Variable Sign Lock : bytes -> bytes -> Prop.
Variable d : path.

(** Every entry is intact and has its component. *)
Definition intact (m : fs) : Prop :=
  forall g key n, ma_gens M g -> ma_keys M key -> named M key g n -> lookup m (linux_file M n) <> None ->
    exists y b kp ip lo b', lookup m (linux_file M n) = Some (NFile y b) /\
      stub_at M g y kp ip /\ is_file m kp /\ is_file m ip /\
      lookup m (component d g) = Some (NFile lo b') /\ same_image Sign Lock y lo.

Variable e : env.
Variable c : config.
Hypothesis FI : fits M e c.
Hypothesis MB : made_by Sign Lock e.
Hypothesis PL : c_pcrlock c = Some d.
Hypothesis NF : no_faults e.
Hypothesis CL : complete_listings e.
Hypothesis NR : no_reuse M.

Let DC : digit_class (e_digit e).
Proof. rewrite (fi_digit _ _ _ FI). apply (so_digit _ SO). Qed.

(** An entry is found if there is one. *)
Lemma some_entry_found m t key g n : tree_ok m -> intact m -> ma_gens M g -> ma_keys M key -> named M key g n ->
  lookup m (linux_file M n) <> None -> exists n' kp ip, entry_found e c m t key g n' kp ip.
Proof.
  intros TR IT Gg KK NM L.
  assert (is_dir m (d_linux c) = true) as D.
  { destruct (lookup m (linux_file M n)) as [x|] eqn:E; [|congruence]. eapply (named_file_dir M e c FI); eauto. }
  set (f := fun n => match utf8_decode n with Some s => stub_regex (e_digit e) (stub_prefix (e_sha e) key g) s | None => false end).
  assert (forall n', f n' = true <-> named M key g n') as FN.
  { intros n'. unfold f. rewrite (regex_recognised e DC key g n'). apply (recognised_named M e c FI). }
  destruct (find f (e_list e t (fs_names m (d_linux c)))) as [n'|] eqn:FD.
  2: { exfalso. assert (f n = false) as X.
       { apply (find_none f _ FD). apply (Permutation_in _ (Permutation_sym (proj1 CL t _))), fs_names_In.
         rewrite <- (linux_file_eq M e c FI). exact L. }
       apply FN in NM. congruence. }
  pose proof FD as FD0. apply find_some in FD0 as [IN FD0]. apply FN in FD0.
  apply (Permutation_in _ (proj1 CL t _)), fs_names_In in IN. rewrite <- (linux_file_eq M e c FI) in IN.
  destruct (IT g key n' Gg KK FD0 IN) as (y & b & kp & ip & lo & b' & L' & SA & (kx & kb & FK) & (ix & ib & FII) & _).
  exists n', kp, ip. split; [exact D|]. split; [exact FD|].
  destruct SA as (v & kc & ic & init & text & (_ & _ & _ & _ & _ & _ & N1 & N2 & SV & K1 & K2 & I1 & I2 & _) & -> & ->).
  rewrite <- (fi_parse _ _ _ FI) in K1, I1. apply has_section_read in K1, I1.
  eexists y, b, _, _. split; [rewrite <- (linux_file_eq M e c FI); exact L'|].
  split; [exact K1|]. split; [exact (resolve_content M e c FI (lit "kernel-" ++ v) v kc N1 N2 SV (or_introl eq_refl))|].
  split; [exact I1|]. split; [exact (resolve_content M e c FI (lit "initrd-" ++ v) v ic N1 N2 SV (or_intror eq_refl))|].
  split; (apply present_lookup; [unfold kernel_file, initrd_file, nixos_file; intros E; apply app_eq_nil in E as [_ E]; discriminate | congruence]).
Qed.

(** No directory appears under an entry's name. *)
Lemma gen_no_dir (U : generation -> Prop) m o n : (forall g, U g -> ma_gens M g) -> GA e c U m o -> o <> OMkdir (linux_file M n).
Proof.
  intros UG [PX CH] ->. rewrite (linux_file_eq M e c FI) in CH. inversion CH as [g' p0 q Ug Hp BQ | | | | | | | | |]; subst.
  destruct Hp as [Hp|Hp].
  - assert (parent p0 = d_nixos c \/ parent p0 = d_linux c) as PP.
    { destruct Hp as [label x LB|key' K].
      - left. rewrite ca_path_shape by (eapply ca_label_slash; eauto). apply parent_app.
      - right. destruct (stub_path_named M e c SO FI key' g' (so_names _ SO _ (UG _ Ug))) as (n0 & -> & _). apply parent_app. }
    apply below_spec in BQ as [t BQ]. destruct PP as [PP|PP]; rewrite PP in BQ; apply (f_equal (@length _)) in BQ;
      rewrite <- app_assoc, d_linux_r in BQ; rewrite <- (app_nil_r (d_nixos c)) in BQ || rewrite <- (app_nil_r (d_linux c)) in BQ;
      rewrite ?d_nixos_r, ?d_linux_r in BQ; rewrite !app_length in BQ; cbn [length] in BQ; lia.
  - destruct (gen_lock_shape c g' p0 Hp) as (d0 & r & PL' & -> & NE). rewrite d_linux_r in BQ. eapply (in_lock M e c FI d0 _ r PL' BQ NE). reflexivity.
Qed.

Lemma reach_no_dir (U : generation -> Prop) s s' n : (forall g, U g -> ma_gens M g) -> reach (GA e c U) s s' -> ends (lit ".efi") n ->
  lookup (s_fs s) (linux_file M n) <> Some NDir -> lookup (s_fs s') (linux_file M n) <> Some NDir.
Proof.
  intros UG RC EN. apply (reach_invariant (GA e c U) (fun m => lookup m (linux_file M n) <> Some NDir)) with (2 := RC).
  intros m o GO H E.
  destruct (gen_linux M e c SO FI U m o n UG GO EN) as [X|[X|[[X1 X2]|(g & key & out & kp & ip & _ & _ & _ & X & _)]]]; cbn zeta in *.
  - congruence.
  - rewrite X in E. destruct (lookup m (linux_file M n)) as [[|]|]; cbn in E; congruence.
  - apply (gen_no_dir U m o n UG GO). rewrite lookup_apply in E. destruct o as [q|q|q x|q|q|a b|q|q].
    + destruct (eqb_path q (linux_file M n)) eqn:Q; [apply eqb_path_spec in Q; subst; reflexivity | congruence].
    + destruct (eqb_path q (linux_file M n)); congruence.
    + destruct (eqb_path q (linux_file M n)); congruence.
    + rewrite X1 in E. destruct (eqb_path q (linux_file M n)); cbn in E; congruence.
    + rewrite X1 in E. destruct (below q _); cbn in E; congruence.
    + exfalso. pose proof (proj1 GO) as (F & _). destruct F as (x & b0 & F). rewrite F in E.
      destruct (eqb_path b (linux_file M n)); [congruence|]. destruct (eqb_path a (linux_file M n)); congruence.
    + congruence.
    + destruct (eqb_path q (linux_file M n)); congruence.
  - congruence.
Qed.

(** One generation. *)
Lemma done_intact (U : generation -> Prop) g0 s s' : (forall g, U g -> ma_gens M g) -> ma_gens M g0 ->
  tree_ok (s_fs s) -> intact (s_fs s) ->
  reach (GA e c U) s s' -> done_gen e c g0 s s' -> intact (s_fs s').
Proof.
  intros UG G0 TR IT RC DG.
  pose proof DG as [_ [(F & _)|(kver & kd & id & image & key & out & extra & lock & BU & K & SG & (s1 & SF & UR & XR) & R & L & HK & HI & LK & FR)]].
  { rewrite F. exact IT. }
  pose proof (fi_key _ _ _ FI _ K) as KK.
  (* there was no entry *)
  assert (forall n, named M key g0 n -> lookup (s_fs s) (linux_file M n) = None) as NONE.
  { intros n NM. destruct (lookup (s_fs s) (linux_file M n)) as [x|] eqn:E; [|reflexivity]. exfalso.
    assert (lookup (s_fs s) (linux_file M n) <> None) as E' by congruence.
    destruct UR as [_ [(_ & t & NEF)|(d' & t & n' & kp & ip & PL' & _ & _ & NP)]].
    - destruct (some_entry_found (s_fs s) t key g0 n TR IT G0 KK NM E') as (n' & kp & ip & EF). exact (NEF NF n' kp ip EF).
    - assert (d' = d) as -> by congruence. specialize (NP NF). rewrite component_eq in NP by (apply (so_names _ SO); exact G0).
      destruct (IT g0 key n G0 KK NM E') as (y & b & kp' & ip' & lo & b' & _ & _ & _ & _ & LC & _).
      assert (present (s_fs s) (component d g0) = true) as X by (apply present_lookup; [unfold component; destruct d; discriminate | congruence]). congruence. }
  rewrite PL in LK. destruct LK as (-> & lo0 & LO & LK). rewrite component_eq in LK by (apply (so_names _ SO); exact G0).
  assert (~ In 47 (lit "kernel-" ++ kver) /\ ~ In 47 (lit "initrd-" ++ kver)) as [S1 S2].
  { pose proof (kernel_version_slash _ _ (bu_kver _ _ _ _ _ _ _ BU)) as KV. split; apply notin_app; try apply lit_slash_tac; exact KV. }
  assert (forall p, In p (map tmp_path ([ca_path e c (lit "kernel-" ++ kver) kd; ca_path e c (lit "initrd-" ++ kver) id; stub_path e c key g0]
      ++ [p_lock_generation d (version_tag g0)])) -> file_ends (lit "..tmp") p) as TMP.
  { intros p X. apply in_map_iff in X as (q & <- & Hq). apply file_ends_tmp. intros ->.
    apply in_app_or in Hq as [[Hq|[Hq|[Hq|[]]]]|[Hq|[]]].
    + revert Hq. apply ca_path_ne. exact S1.
    + revert Hq. apply ca_path_ne. exact S2.
    + revert Hq. apply stub_path_ne.
    + rewrite component_eq in Hq by (apply (so_names _ SO); exact G0). unfold component in Hq. destruct d; discriminate. }
  intros g key' n Gg KK' NM L'.
  assert (key' = key) as -> by (apply NR; assumption).
  assert (file_ends (lit ".efi") (linux_file M n)) as EP by (rewrite (linux_file_eq M e c FI); exists (d_linux c), n; split; [reflexivity | eapply named_ends; eauto]).
  assert (lookup (s_fs s') (linux_file M n) <> Some NDir) as ND.
  { apply (reach_no_dir U s s' n UG RC); [eapply named_ends; eauto|]. destruct (lookup (s_fs s) (linux_file M n)) as [x|] eqn:E; [|congruence].
    assert (lookup (s_fs s) (linux_file M n) <> None) as E' by congruence.
    destruct (IT g key n Gg KK NM E') as (y & b & _ & _ & _ & _ & X & _). congruence. }
  destruct (done_linux M e c SO FI g0 s s' n G0 DG (named_ends _ _ _ _ NM)) as [[E|[_ E]]|(key' & out' & kp & ip & K' & NM' & LL & SA & FK & FII & _)].
  - (* an entry from before *)
    rewrite E in L'. destruct (IT g key n Gg KK NM L') as (y & b & kp & ip & lo & b' & LL & SA & FK & FII & LC & SI).
    exists y, b, kp, ip, lo, b'. split; [congruence|]. split; [exact SA|].
    destruct (stub_at_shape M e c FI _ _ _ _ SA) as (EK & EI & _).
    split; [eapply reach_keeps; eauto|]. split; [eapply reach_keeps; eauto|]. split; [|exact SI].
    rewrite <- LC. pose proof (component_ends d g) as CE. eapply frame_file; [exact FR | | | congruence].
    + rewrite component_eq by (apply (so_names _ SO); exact G0).
      intros X. apply in_app_or in X as [[X|[X|[X|[]]]]|[X|[]]].
      * eapply efi_ne_lock; [apply ca_file_ends; exact S1 | exact CE | exact X].
      * eapply efi_ne_lock; [apply ca_file_ends; exact S2 | exact CE | exact X].
      * eapply efi_ne_lock; [apply stub_file_ends | exact CE | exact X].
      * apply component_inj in X as [X1 X2]; [|apply (so_names _ SO); assumption | apply (so_names _ SO); assumption].
        assert (g0 = g) as -> by (apply NR; assumption). rewrite (NONE n NM) in L'. congruence.
    + intros X. apply TMP in X. eapply (lock_ne_tmp _ _ CE X). reflexivity.
  - congruence.
  - (* the new one *)
    assert (key' = key) as -> by congruence.
    destruct (prefix_inj M g g0 key key n SO Gg G0 KK KK NM NM') as [-> _].
    assert (linux_file M n = stub_path e c key g0) as EN.
    { destruct (list_eq_dec (list_eq_dec N.eq_dec) (linux_file M n) (stub_path e c key g0)) as [X|NE]; [exact X|]. exfalso.
      destruct (FR (linux_file M n)) as [X|[_ X]]; [| |rewrite (NONE n NM) in X; congruence | congruence].
      - rewrite component_eq by (apply (so_names _ SO); exact G0).
        intros X. apply in_app_or in X as [[X|[X|[X|[]]]]|[X|[]]]; [| |congruence|].
        + rewrite ca_path_shape, (linux_file_eq M e c FI) in X by exact S1. eapply nixos_ne_linux; exact X.
        + rewrite ca_path_shape, (linux_file_eq M e c FI) in X by exact S2. eapply nixos_ne_linux; exact X.
        + eapply efi_ne_lock; [exact EP | apply component_ends | symmetry; exact X].
      - intros X. apply TMP in X. eapply (efi_ne_tmp _ _ EP X). reflexivity. }
    rewrite <- EN in L. rewrite L in LL. injection LL as <-.
    exists out, false, kp, ip, lo0, false. split; [exact L|]. split; [exact SA|]. split; [exact FK|]. split; [exact FII|]. split; [exact LK|].
    exists image. split; [apply MB; exact SG | apply MB; exact LO].
Qed.

Lemma processed_intact (U : generation -> Prop) gs s s' : (forall g, U g -> ma_gens M g) -> (forall g, In g gs -> U g) ->
  tree_ok (s_fs s) -> intact (s_fs s) -> processed e c U gs s s' -> tree_ok (s_fs s') /\ intact (s_fs s').
Proof.
  intros UG GU TR IT PR. induction PR as [s|g0 gs s s1 s2 R D PR IH]; [auto|].
  apply IH.
  - intros g Hg. apply GU. right; exact Hg.
  - apply (reach_invariant (GA e c U) tree_ok) with (2 := R); [intros m o; apply gen_tree | exact TR].
  - apply (done_intact U g0 s s1 UG); auto. apply UG, GU. left; reflexivity.
Qed.

Lemma stub_at_fun g g' y kp ip kp' ip' : stub_at M g y kp ip -> stub_at M g' y kp' ip' -> kp = kp' /\ ip = ip'.
Proof.
  intros (v & k & i & init & text & (_ & _ & _ & _ & _ & _ & _ & _ & _ & K1 & _ & I1 & _) & -> & ->)
         (v' & k' & i' & init' & text' & (_ & _ & _ & _ & _ & _ & _ & _ & _ & K2 & _ & I2 & _) & -> & ->).
  pose proof (has_section_fun _ _ _ _ _ K1 K2) as EK. pose proof (has_section_fun _ _ _ _ _ I1 I2) as EI.
  apply app_inv_head in EK. apply app_inv_head in EI. unfold kernel_file, initrd_file. rewrite EK, EI. auto.
Qed.

(** [intact] depends only on the files of entries. *)
Lemma intact_like m m' :
  (forall n, lookup m' (linux_file M n) <> None -> lookup m (linux_file M n) <> None) ->
  (forall g n y kp ip p x b, ma_gens M g -> (exists key, ma_keys M key /\ named M key g n) -> lookup m' (linux_file M n) <> None ->
     lookup m (linux_file M n) = Some (NFile y true) \/ lookup m (linux_file M n) = Some (NFile y false) -> stub_at M g y kp ip ->
     In p [linux_file M n; kp; ip; component d g] -> lookup m p = Some (NFile x b) -> exists b', lookup m' p = Some (NFile x b')) ->
  intact m -> intact m'.
Proof.
  intros H1 H2 IT g key n Gg KK NM L. destruct (IT g key n Gg KK NM (H1 n L)) as (y & b & kp & ip & lo & b' & LL & SA & (kx & kb & FK) & (ix & ib & FII) & LC & SI).
  assert (exists key, ma_keys M key /\ named M key g n) as KN by eauto.
  assert (lookup m (linux_file M n) = Some (NFile y true) \/ lookup m (linux_file M n) = Some (NFile y false)) as YY by (destruct b; auto).
  destruct (H2 g n y kp ip _ y b Gg KN L YY SA (or_introl eq_refl) LL) as [b1 L1].
  destruct (H2 g n y kp ip _ kx kb Gg KN L YY SA (or_intror (or_introl eq_refl)) FK) as [b2 L2].
  destruct (H2 g n y kp ip _ ix ib Gg KN L YY SA (or_intror (or_intror (or_introl eq_refl))) FII) as [b3 L3].
  destruct (H2 g n y kp ip _ lo b' Gg KN L YY SA (or_intror (or_intror (or_intror (or_introl eq_refl)))) LC) as [b4 L4].
  exists y, b1, kp, ip, lo, b4. split; [exact L1|]. split; [exact SA|]. split; [exists kx, b2; exact L2|]. split; [exists ix, b3; exact L3|]. auto.
Qed.

Lemma intact_sync m : intact m -> intact (apply (OSyncAll (c_esp c)) m).
Proof.
  apply intact_like.
  - intros n. rewrite lookup_apply. destruct (below _ _); destruct (lookup m _); cbn; congruence.
  - intros g n y kp ip p x b _ _ _ _ _ _ L. rewrite lookup_apply, L. destruct (below _ _); eexists; reflexivity.
Qed.

Lemma intact_boot m0 s s' : reach (GB e c m0) s s' -> boot_done e c s s' -> intact (s_fs s) -> intact (s_fs s').
Proof.
  intros RB BD.
  assert (forall p, area c p -> lookup (s_fs s') p = lookup (s_fs s) p) as AR.
  { intros p AP. apply (reach_invariant (GB e c m0) (fun m => lookup m p = lookup (s_fs s) p)) with (2 := RB); [|reflexivity].
    intros m o GO E. rewrite (boot_keeps M e c FI m0 m o p GO AP). exact E. }
  assert (forall n, area c (linux_file M n)) as AL by (intros n; right; exists n; apply (linux_file_eq M e c FI)).
  apply intact_like.
  - intros n. rewrite AR by apply AL. auto.
  - intros g n y kp ip p x b _ _ _ _ SA IN L. destruct (stub_at_shape M e c FI _ _ _ _ SA) as (_ & _ & AK & AI).
    destruct IN as [<-|[<-|[<-|[<-|[]]]]]; [rewrite AR by apply AL | rewrite AR by assumption | rewrite AR by assumption
      | rewrite (boot_component e c s s' d g PL BD) by congruence]; eauto.
Qed.

Lemma run_intact m : distinct c -> history M m -> tree_ok m -> intact m -> snd (run_install e c m) = Ok tt ->
  tree_ok (s_fs (fst (run_install e c m))) /\ intact (s_fs (fst (run_install e c m))).
Proof.
  intros DI HI TR IT OK. destruct (history_ok M m SO HI) as [CO EO].
  assert (forall vs sel got s0 s1 s2 s3, links_versions (c_links c) vs -> newest (c_limit c) vs sel -> loaded e c m sel got s0 ->
    processed e c (fun g => In g (flat_map link_generations got)) (flat_map link_generations got) s0 s1 ->
    synced_from c s1 s2 -> reach (GB e c (s_fs s2)) s2 s3 -> boot_done e c s2 s3 ->
    tree_ok (s_fs s3) /\ intact (s_fs s3)) as PRE.
  { intros vs sel got s0 s1 s2 s3 LV NW LD PR (F2 & _) RB BD.
    destruct (processed_intact (fun g => In g (flat_map link_generations got)) (flat_map link_generations got) s0 s1) as [T1 I1]; auto.
    { intros g Hg. apply (fi_gens _ _ _ FI). exists vs, sel. split; [exact LV|]. split; [exact NW|].
      eapply sub_in_map; [apply (lo_sub _ _ _ _ _ _ LD) | exact Hg]. }
    { rewrite (lo_fs _ _ _ _ _ _ LD). exact TR. }
    { rewrite (lo_fs _ _ _ _ _ _ LD). exact IT. }
    assert (tree_ok (s_fs s2)) as T2 by (rewrite F2; apply posix_tree_ok; [discriminate | exact Logic.I | exact T1]).
    split.
    - apply (reach_invariant (GB e c (s_fs s2)) tree_ok) with (2 := RB); [intros m0 o; apply boot_tree | exact T2].
    - eapply intact_boot; [exact RB | exact BD |]. rewrite F2. apply intact_sync. exact I1. }
  destruct (run_shape_holds e c m) as [LK SM E | vs sel s0 LV NW LD E1 E2 | vs sel got s0 LV NW LD GN RC E
    | vs sel got s0 s1 s2 LV NW LD GN PR SB SY QB RB E | vs sel got s0 s1 s2 LV NW LD GN PR SB SY RB BD GS E
    | vs sel s0 s1 s2 s3 LV NW LD GN PR SB SY RB BD RG CA]; try congruence.
  { eapply PRE; eauto. }
  destruct (PRE vs sel sel s0 s1 s2 s3 LV NW LD PR SY RB BD) as [T3 I3].
  pose proof (lo_fs _ _ _ _ _ _ LD) as F0. pose proof (lo_roots _ _ _ _ _ _ LD) as R0.
  pose proof (lo_readable _ _ _ _ _ _ LD) as RD.
  assert (forall g, In g (flat_map link_generations sel) -> selected c g) as US by (intros g Hg; exists vs, sel; auto).
  destruct (some_generation sel RD GN) as (g1 & gs1 & GE).
  assert (exists key, sg_key (e_signer e) = Some key) as [key K].
  { clear -PR GE. rewrite GE in PR. inversion PR as [|? ? ? ? ? _ DG _]; subst.
    destruct DG as [_ [(_ & _ & key & t & n & kp & ip & extra & K & _)|(kver & kd & id & image & key & out & extra & lock & _ & K & _)]]; eauto. }
  pose proof (fi_key _ _ _ FI _ K) as KK.
  destruct (processed_tracked M SO e c FI (fun g => In g (flat_map link_generations sel)) (flat_map link_generations sel) s0 s1 key US
    (fun g H => H) NF K (DI vs sel LV NW)) as [_ (l & GL & HL & RL)].
  { rewrite F0. exact CO. }
  { rewrite F0. exact EO. }
  { rewrite F0. intros g Hg d' n y b PL' NM L. assert (d' = d) as -> by congruence.
    assert (lookup m (linux_file M n) <> None) as L' by congruence.
    destruct (IT g key n (fi_gens _ _ _ FI g (US g Hg)) KK NM L') as (_ & _ & _ & _ & lo & b' & _ & _ & _ & _ & LC & _). congruence. }
  { exact PR. }
  destruct SY as (F2 & _ & R2 & B2). pose proof BD as ((R3 & B3) & _).
  assert (s_broken s3 = []) as BR.
  { rewrite B3, B2, SB. apply (lo_broken _ _ _ _ _ _ LD). reflexivity. }
  destruct (collect_all_tree e c NF CL s3 _ _ BR T3 CA) as (_ & T4 & K4 & _ & L4 & _).
  assert (forall p, In p (s_roots s3) <-> In p (initial_roots c) \/ In p (flat_map (ent_roots M c) l)) as RR.
  { intros p. rewrite R3, R2, <- R0. apply RL. }
  split; [exact T4|]. revert I3. apply intact_like.
  - intros n L X. destruct (K4 (linux_file M n)) as [Y|[Y _]]; congruence.
  - intros g n y kp ip p x b Gg (key' & KK' & NM) L YY SA IN LP.
    assert (key' = key) as -> by (apply NR; assumption).
    (* the entry is one of those tracked *)
    assert (exists t, In t l /\ t_n t = n /\ t_g t = g) as (t & Ht & TN & TG).
    { destruct (proj1 (RR (linux_file M n))) as [X|X].
      - apply L4; [exact L | exists [n]; apply (linux_file_eq M e c FI) |].
        rewrite (linux_file_eq M e c FI). eapply linux_filter_named; eauto.
      - exfalso. rewrite (linux_file_eq M e c FI) in X. eapply (linux_not_initial M e c FI); exact X.
      - apply in_flat_map in X as (t & Ht & X). exists t. split; [exact Ht|].
        rewrite Forall_forall in HL. destruct (HL t Ht) as (NMt & _ & SAt & _).
        assert (n = t_n t) as ->.
        { unfold ent_roots in X. rewrite (linux_file_eq M e c FI n) in X. apply in_app_or in X as [[X|[X|[X|[]]]]|X].
          - rewrite (linux_file_eq M e c FI) in X. apply app_inv_head in X. congruence.
          - exfalso. destruct SAt as (v & k & i & init & text & _ & SK & _). rewrite SK in X. unfold kernel_file in X.
            rewrite (nixos_file_eq M e c FI) in X. eapply nixos_ne_linux; exact X.
          - exfalso. destruct SAt as (v & k & i & init & text & _ & _ & SI). rewrite SI in X. unfold initrd_file in X.
            rewrite (nixos_file_eq M e c FI) in X. eapply nixos_ne_linux; exact X.
          - exfalso. rewrite PL in X. destruct X as [X|[]]. rewrite d_linux_r in X. unfold component in X.
            eapply (lock_apart M e c FI d _ _ PL). symmetry. exact X. }
        split; [reflexivity|].
        assert (ma_gens M (t_g t)) as Gt.
        { apply (fi_gens _ _ _ FI), US. rewrite <- GL. apply in_map. exact Ht. }
        symmetry. apply (prefix_inj M g (t_g t) key key (t_n t) SO Gg Gt KK KK NM NMt). }
    subst n g. rewrite Forall_forall in HL. pose proof (HL t Ht) as HT.
    assert (held M c key (s_fs s3) t) as (_ & (bt & Lt) & SAt & _).
    { eapply (held_boot M e c FI); [exact RB | exact BD |]. rewrite F2. apply held_sync. exact HT. }
    assert (t_y t = y) as TY by (destruct YY as [YY|YY]; rewrite Lt in YY; congruence).
    (* paths of stubs are determined *)
    assert (kp = t_k t /\ ip = t_i t) as [-> ->].
    { subst y. eapply stub_at_fun; [exact SA | exact SAt]. }
    assert (In p (ent_roots M c t)) as IR.
    { unfold ent_roots. rewrite PL. cbn [In app]. destruct IN as [<-|[<-|[<-|[<-|[]]]]]; auto. }
    destruct (ent_shape M e c FI t p SAt IR) as (D & z & GD & ->).
    exists b. rewrite <- LP. apply (gc_spares M e c FI (s_roots s3)); auto.
    + intros q Hq. apply RR. left; exact Hq.
    + apply RR. right. apply in_flat_map. eauto.
Qed.
End Measured.

(** ** Histories *)

Section Histories.
Variable M : machine.
Hypothesis SO : sound M.
Variable Sign Lock : bytes -> bytes -> Prop.
Variable d : path.
Hypothesis NR : no_reuse M.

Lemma eqb_path_ne (p q : path) : p <> q -> eqb_path p q = false.
Proof. intros H. destruct (eqb_path p q) eqn:E; [apply eqb_path_spec in E; contradiction | reflexivity]. Qed.

Lemma count_intact e c m g key n n' x b : fits M e c -> c_pcrlock c = Some d -> history M m -> tree_ok m -> intact M Sign Lock d m ->
  ma_gens M g -> ma_keys M key -> named M key g n -> named M key g n' ->
  lookup m (linux_file M n) = Some (NFile x b) -> lookup m (linux_file M n') = None ->
  tree_ok (apply (ORename (linux_file M n) (linux_file M n')) m) /\
  intact M Sign Lock d (apply (ORename (linux_file M n) (linux_file M n')) m).
Proof.
  intros FI PL HI TR IT Gg KK NM NM' L L'.
  assert (forall z, parent (linux_file M z) = d_linux c) as PA.
  { intros z. rewrite (linux_file_eq M e c FI). apply parent_app. }
  assert (forall z, linux_file M z <> []) as NN.
  { intros z X. rewrite (linux_file_eq M e c FI) in X. apply app_eq_nil in X as [_ X]. discriminate. }
  split.
  - apply posix_tree_ok; [discriminate | | exact TR]. split; [exists x, b; exact L|]. split.
    + rewrite PA. unfold is_dir. destruct (d_linux c) as [|z0 zs] eqn:Q; [reflexivity|]. rewrite <- Q.
      rewrite (TR (d_linux c) n); [reflexivity | |].
      * rewrite <- (linux_file_eq M e c FI). congruence.
      * unfold d_linux, d_efi. intros X. apply app_eq_nil in X as [_ X]. discriminate.
    + unfold is_dir. destruct (linux_file M n') eqn:Q; [exfalso; exact (NN _ Q)|]. rewrite L'. reflexivity.
  - assert (forall p, p <> linux_file M n -> p <> linux_file M n' ->
      lookup (apply (ORename (linux_file M n) (linux_file M n')) m) p = lookup m p) as OT.
    { intros p P1 P2. rewrite lookup_apply, L, !eqb_path_ne by congruence. reflexivity. }
    assert (lookup (apply (ORename (linux_file M n) (linux_file M n')) m) (linux_file M n) = None) as LN.
    { rewrite lookup_apply, L, eqb_path_refl, eqb_path_ne; [reflexivity | congruence]. }
    assert (lookup (apply (ORename (linux_file M n) (linux_file M n')) m) (linux_file M n') = Some (NFile x b)) as LN'.
    { rewrite lookup_apply, L, eqb_path_refl. reflexivity. }
    assert (forall y kp ip g, stub_at M g y kp ip -> forall z, kp <> linux_file M z /\ ip <> linux_file M z) as AK.
    { intros y kp ip g0 (v & k & i & init & text & _ & -> & ->) z. unfold kernel_file, initrd_file.
      rewrite (linux_file_eq M e c FI), !(nixos_file_eq M e c FI). split; apply nixos_ne_linux. }
    assert (forall g z, component d g <> linux_file M z) as AC.
    { intros g0 z. rewrite (linux_file_eq M e c FI), d_linux_r. unfold component. intros X. eapply (lock_apart M e c FI d _ _ PL). symmetry. exact X. }
    intros g0 key0 n0 G0 K0 NM0 L0.
    assert (exists n1 y b kp ip lo b', lookup m (linux_file M n1) = Some (NFile y b) /\
      lookup (apply (ORename (linux_file M n) (linux_file M n')) m) (linux_file M n0) = Some (NFile y b) /\
      stub_at M g0 y kp ip /\ is_file m kp /\ is_file m ip /\
      lookup m (component d g0) = Some (NFile lo b') /\ same_image Sign Lock y lo) as
      (n1 & y & b0 & kp & ip & lo & b' & _ & L1 & SA & FK & FII & LC & SI).
    { destruct (list_eq_dec N.eq_dec n0 n') as [->|D].
      - destruct (prefix_inj M g0 g key0 key n' SO G0 Gg K0 KK NM0 NM') as [-> ->].
        assert (lookup m (linux_file M n) <> None) as LL by congruence.
        destruct (IT g key n Gg KK NM LL) as (y & b0 & kp & ip & lo & b' & L1 & REST). exists n, y, b0, kp, ip, lo, b'.
        split; [exact L1|]. split; [|exact REST]. rewrite LN'. congruence.
      - assert (linux_file M n0 <> linux_file M n) as D1 by (intros X; rewrite X in L0; congruence).
        assert (linux_file M n0 <> linux_file M n') as D2.
        { intros X. rewrite !(linux_file_eq M e c FI) in X. apply app_inv_head in X. congruence. }
        rewrite (OT _ D1 D2) in *. destruct (IT g0 key0 n0 G0 K0 NM0 L0) as (y & b0 & kp & ip & lo & b' & L1 & REST).
        exists n0, y, b0, kp, ip, lo, b'. auto. }
    exists y, b0, kp, ip, lo, b'. destruct FK as (kx & kb & FK), FII as (ix & ib & FII).
    split; [exact L1|]. split; [exact SA|].
    split; [exists kx, kb; rewrite OT; [exact FK | apply (AK _ _ _ _ SA) ..]|].
    split; [exists ix, ib; rewrite OT; [exact FII | apply (AK _ _ _ _ SA) ..]|].
    split; [rewrite OT; [exact LC | apply AC ..] | exact SI].
Qed.

Lemma measured_state m : measured_history M Sign Lock d m -> history M m /\ tree_ok m /\ intact M Sign Lock d m /\
  ((forall g key n, ma_gens M g -> ma_keys M key -> named M key g n -> lookup m (linux_file M n) = None) \/
   exists e c, fits M e c /\ c_pcrlock c = Some d).
Proof.
  intros H. induction H as [m TR CO NO | m e c _ (HI & TR & IT & _) FI MB PL NF CL DI OK | m g key n n' x b _ (HI & TR & IT & CA) Gg KK NM NM' L L'].
  - split.
    { apply hi_start; [exact CO|]. intros g key n y b Gg KK NM L. rewrite (NO g key n Gg KK NM) in L. discriminate. }
    split; [exact TR|]. split; [intros g key n Gg KK NM L; destruct L; eauto | left; exact NO].
  - destruct (run_intact M SO Sign Lock d e c FI MB PL NF CL NR m DI HI TR IT OK) as [T1 I1].
    split; [|split; [exact T1|]; split; [exact I1 | right; eauto]].
    rewrite final_fs. eapply hi_run; [exact HI | exact FI |]. exists []. rewrite app_nil_r. reflexivity.
  - destruct CA as [NO|(e & c & FI & PL)]; [rewrite (NO g key n Gg KK NM) in L; discriminate|].
    destruct (count_intact e c m g key n n' x b FI PL HI TR IT Gg KK NM NM' L L') as [T1 I1].
    split; [|split; [exact T1|]; split; [exact I1 | right; eauto]]. eapply hi_count; eauto.
Qed.

(** C46 *)
Lemma measured_always m : measured_history M Sign Lock d m -> measured M Sign Lock d m.
Proof.
  intros H g key n Gg KK NM L. destruct (measured_state m H) as (_ & _ & IT & _).
  destruct (IT g key n Gg KK NM L) as (y & b & _ & _ & lo & b' & L1 & _ & _ & _ & L2 & SI). exists y, b, lo, b'. auto.
Qed.

Lemma measured_selected e c m : fits M e c -> made_by Sign Lock e -> c_pcrlock c = Some d -> no_faults e -> complete_listings e ->
  distinct c -> measured_history M Sign Lock d m -> snd (run_install e c m) = Ok tt ->
  forall g, always_selected c g -> exists key n y b lo b', ma_keys M key /\ named M key g n /\
    lookup (s_fs (fst (run_install e c m))) (linux_file M n) = Some (NFile y b) /\ bootable M (s_fs (fst (run_install e c m))) y /\
    lookup (s_fs (fst (run_install e c m))) (component d g) = Some (NFile lo b') /\ same_image Sign Lock y lo.
Proof.
  intros FI MB PL NF CL DI MH OK g AS. destruct (measured_state m MH) as (HI & _).
  destruct (all_boot M e c m SO FI HI NF OK) as (vs & sel & LV & NW & B).
  destruct (B g (AS vs sel LV NW)) as (key & n & y & b & KK & NM & L & BT).
  assert (ma_gens M g) as Gg by (apply (fi_gens _ _ _ FI); exists vs, sel; split; [exact LV|]; split; [exact NW | exact (AS vs sel LV NW)]).
  assert (measured_history M Sign Lock d (s_fs (fst (run_install e c m)))) as MH' by (eapply mh_run; eauto).
  assert (lookup (s_fs (fst (run_install e c m))) (linux_file M n) <> None) as L' by congruence.
  destruct (measured_always _ MH' g key n Gg KK NM L') as (y' & b' & lo & bl & L1 & L2 & SI).
  assert (y' = y) as -> by congruence. exists key, n, y, b, lo, bl. auto 10.
Qed.
End Histories.
