(** Runs that follow other runs (C14, C17, C46). *)
From Coq Require Import List NArith Bool Lia Permutation.
From Verif Require Import Base PBase MText PText MVersion PVersion MOsRelease MGeneration MNames PNames SCommon SNames SOsRelease POsRelease MFs PFs MPe MTool MInstall PInstall SInstall SImage PImage SHistory SRepeat PFiles PPaths PGen PBoot PGc PSelect PRun PTrace POwned PLoader PEntry PHistory PHistories.
Import ListNotations.
Open Scope N_scope.

Lemma complete_honest e : complete_listings e -> honest_listings e.
Proof. intros [L W]. split; intros t l x H; [apply (Permutation_in _ (L t l) H) | apply (Permutation_in _ (W t l) H)]. Qed.

(** ** Components *)

Lemma component_eq d g : plain_names g -> p_lock_generation d (version_tag g) = component d g.
Proof.
  intros [PN _]. unfold p_lock_generation, component, version_tag, describe_specialisation, d_lock_lanzaboote.
  rewrite path_join_name.
  - rewrite <- !app_assoc. reflexivity.
  - apply utf8_slash. apply notin_app; [|intros H; vm_compute in H; intuition discriminate].
    apply notin_app; [apply dec_slash|]. destruct (g_specname g) as [n|]; [|intros []].
    apply notin_app; [apply lit_slash_tac | apply (PN n eq_refl)].
  - rewrite utf8_encode_app, app_length. change (utf8_encode (lit ".pcrlock")) with (lit ".pcrlock"). cbn. lia.
Qed.

Lemma component_ends d g : file_ends (lit ".pcrlock") (component d g).
Proof.
  unfold component. exists (d ++ [lit "635-lanzaboote.pcrlock.d"]). eexists. rewrite <- app_assoc. split; [reflexivity|].
  rewrite app_assoc, utf8_encode_app. change (utf8_encode (lit ".pcrlock")) with (lit ".pcrlock"). eexists. reflexivity.
Qed.

Lemma component_inj d g1 g2 : plain_names g1 -> plain_names g2 -> component d g1 = component d g2 ->
  g_version g1 = g_version g2 /\ g_specname g1 = g_specname g2.
Proof.
  intros [P1 _] [P2 _] E. unfold component in E. apply app_inv_head in E. injection E as E.
  apply (f_equal utf8_decode) in E.
  assert (forall g, (forall n, g_specname g = Some n -> ~ In 47 n /\ Forall scalar_value n) ->
    Forall scalar_value (dec (g_version g) ++ match g_specname g with Some n => lit "-" ++ n | None => [] end ++ lit ".pcrlock")) as SV.
  { intros g P. assert (forall l, Forall (fun z => z < 128) l -> Forall scalar_value l) as AS.
    { intros l. apply Forall_impl. unfold scalar_value. intros; lia. }
    apply Forall_app. split; [apply AS; eapply Forall_impl; [|apply dec_digits]; cbn; intros; lia|].
    apply Forall_app. split; [|apply AS; repeat constructor].
    destruct (g_specname g) as [n|]; [|constructor]. apply Forall_app. split; [apply AS; repeat constructor | apply (P n eq_refl)]. }
  rewrite !utf8_decode_encode_spec in E by (apply SV; assumption). injection E as E. clear SV.
  rewrite !app_assoc in E. apply app_inv_tail in E.
  assert (forall z, ~ In 45 (dec z)) as ND.
  { intros z H. pose proof (dec_digits z) as D. rewrite Forall_forall in D. specialize (D _ H). cbn in D. lia. }
  assert (forall a b r1 r2, ~ In 45 a -> ~ In 45 b -> (r1 = [] \/ exists q, r1 = 45 :: q) -> (r2 = [] \/ exists q, r2 = 45 :: q) ->
            a ++ r1 = b ++ r2 -> a = b /\ r1 = r2) as CUT.
  { induction a as [|x a IH]; intros b r1 r2 Na Nb H1 H2 Q.
    - destruct b as [|y b]; [auto|]. exfalso. cbn in Q. destruct H1 as [-> |[q ->]]; [discriminate|]. injection Q as Q _. subst. apply Nb. left; reflexivity.
    - destruct b as [|y b].
      + exfalso. cbn in Q. destruct H2 as [-> |[q ->]]; [discriminate|]. injection Q as Q _. subst. apply Na. left; reflexivity.
      + cbn in Q. injection Q as -> Q. destruct (IH b r1 r2) as [-> ->]; auto; intros H; [apply Na | apply Nb]; right; exact H. }
  apply CUT in E as [E1 E2]; auto.
  - apply dec_inj in E1. split; [exact E1|].
    destruct (g_specname g1), (g_specname g2); cbn in E2; congruence.
  - destruct (g_specname g1); [right; eexists; reflexivity | left; reflexivity].
  - destruct (g_specname g2); [right; eexists; reflexivity | left; reflexivity].
Qed.

Section Repeat.
Variable M : machine.
Hypothesis SO : sound M.
Variable e : env.
Variable c : config.
Hypothesis FI : fits M e c.

Let DC : digit_class (e_digit e).
Proof. rewrite (fi_digit _ _ _ FI). apply (so_digit _ SO). Qed.

(** ** Entries *)

(** What [read_installed_generation] accepts is an entry of the generation. *)
Lemma found_entry m t key g n kp ip : ma_gens M g -> sg_key (e_signer e) = Some key -> contents_ok M m -> entries_ok M m ->
  entry_found e c m t key g n kp ip ->
  named M key g n /\ exists y b, lookup m (linux_file M n) = Some (NFile y b) /\ stub_at M g y kp ip /\ is_file m kp /\ is_file m ip.
Proof.
  intros Gg K CO EO (_ & FD & stub & b & k & i & L & R1 & R2 & R3 & R4 & P1 & P2).
  apply find_some in FD as [_ FD].
  apply (proj1 (regex_recognised e DC key g n)) in FD.
  apply (recognised_named M e c FI) in FD. rewrite <- (linux_file_eq M e c FI) in L.
  pose proof (EO g key n stub b Gg (fi_key _ _ _ FI _ K) FD L) as ST.
  apply stub_at_for in ST as (kp' & ip' & ST). pose proof ST as ST'.
  destruct ST as (v & kc & ic & init & text & (_ & _ & _ & _ & _ & _ & N1 & N2 & SV & K1 & K2 & I1 & I2 & _) & -> & ->).
  rewrite <- (fi_parse _ _ _ FI) in K1, I1. apply has_section_read in K1, I1.
  assert (k = lit "\EFI\nixos\" ++ content_name M (lit "kernel-" ++ v) kc) as -> by congruence.
  assert (i = lit "\EFI\nixos\" ++ content_name M (lit "initrd-" ++ v) ic) as -> by congruence.
  pose proof (resolve_content M e c FI (lit "kernel-" ++ v) v kc N1 N2 SV (or_introl eq_refl)) as Q2.
  pose proof (resolve_content M e c FI (lit "initrd-" ++ v) v ic N1 N2 SV (or_intror eq_refl)) as Q4.
  pose proof (eq_trans (eq_sym R2) Q2) as Q2'. pose proof (eq_trans (eq_sym R4) Q4) as Q4'. injection Q2' as ->. injection Q4' as ->.
  assert (forall label x, present m (nixos_file M (content_name M label x)) = true -> is_file m (nixos_file M (content_name M label x))) as PF.
  { intros label x P. apply contents_file; [exact CO|]. apply present_lookup in P; [exact P|].
    unfold nixos_file. intros E. apply app_eq_nil in E as [_ E]. discriminate. }
  split; [exact FD|]. exists stub, b. split; [exact L|]. split; [exact ST'|]. split; [apply PF; exact P1 | apply PF; exact P2].
Qed.

(** The other way round, if it is the only one. *)
Lemma entry_is_found m t key g n y b kp ip : complete_listings e -> is_dir m (d_linux c) = true ->
  named M key g n -> lookup m (linux_file M n) = Some (NFile y b) -> stub_at M g y kp ip ->
  is_file m kp -> is_file m ip ->
  (forall n', named M key g n' -> lookup m (linux_file M n') <> None -> n' = n) ->
  entry_found e c m t key g n kp ip.
Proof.
  intros [CL _] D NM L SA (kx & kb & FK) (ix & ib & FII) UN. split; [exact D|].
  set (f := fun n => match utf8_decode n with Some s => stub_regex (e_digit e) (stub_prefix (e_sha e) key g) s | None => false end).
  assert (forall n', f n' = true <-> named M key g n') as FN.
  { intros n'. unfold f. rewrite (regex_recognised e DC key g n'). apply (recognised_named M e c FI). }
  split.
  - destruct (find f (e_list e t (fs_names m (d_linux c)))) as [n'|] eqn:FD.
    + apply find_some in FD as [IN FD]. apply FN in FD. f_equal. apply UN; [exact FD|].
      apply (Permutation_in _ (CL t _)), fs_names_In in IN. rewrite (linux_file_eq M e c FI). exact IN.
    + exfalso. assert (f n = false) as X.
      { apply (find_none f _ FD). apply (Permutation_in _ (Permutation_sym (CL t _))), fs_names_In.
        rewrite <- (linux_file_eq M e c FI). congruence. }
      apply FN in NM. congruence.
  - destruct SA as (v & kc & ic & init & text & (_ & _ & _ & _ & _ & _ & N1 & N2 & SV & K1 & K2 & I1 & I2 & _) & -> & ->).
    rewrite <- (fi_parse _ _ _ FI) in K1, I1. apply has_section_read in K1, I1.
    eexists y, b, _, _. split; [rewrite <- (linux_file_eq M e c FI); exact L|].
    split; [exact K1|]. split; [exact (resolve_content M e c FI (lit "kernel-" ++ v) v kc N1 N2 SV (or_introl eq_refl))|].
    split; [exact I1|]. split; [exact (resolve_content M e c FI (lit "initrd-" ++ v) v ic N1 N2 SV (or_intror eq_refl))|].
    split; (apply present_lookup; [unfold kernel_file, initrd_file, nixos_file; intros E; apply app_eq_nil in E as [_ E]; discriminate | congruence]).
Qed.

(** A generation with its entry. *)
Record ent := Ent { t_g : generation; t_n : name; t_y : bytes; t_k : path; t_i : path }.

Definition ent_roots (t : ent) : list path :=
  [linux_file M (t_n t); t_k t; t_i t] ++ match c_pcrlock c with Some d => [component d (t_g t)] | None => [] end.

Definition held (key : bytes) (m : fs) (t : ent) : Prop :=
  named M key (t_g t) (t_n t) /\ (exists b, lookup m (linux_file M (t_n t)) = Some (NFile (t_y t) b)) /\
  stub_at M (t_g t) (t_y t) (t_k t) (t_i t) /\ is_file m (t_k t) /\ is_file m (t_i t) /\
  forall d, c_pcrlock c = Some d -> lookup m (component d (t_g t)) <> None.

(** The component of [g] is there if an entry is. *)
Definition settled_gen (key : bytes) (g : generation) (m : fs) : Prop :=
  forall d n y b, c_pcrlock c = Some d -> named M key g n ->
    lookup m (linux_file M n) = Some (NFile y b) -> lookup m (component d g) <> None.

Lemma done_entry g s s' key : ma_gens M g -> no_faults e -> sg_key (e_signer e) = Some key ->
  contents_ok M (s_fs s) -> entries_ok M (s_fs s) -> settled_gen key g (s_fs s) ->
  done_gen e c g s s' ->
  exists t, t_g t = g /\ held key (s_fs s') t /\ forall p, In p (s_roots s') <-> In p (ent_roots t) \/ In p (s_roots s).
Proof.
  intros Gg NF K CO EO ST [_ [(F & _ & key' & t & n & kp & ip & extra & K' & EF & R & X)
                |(kver & kd & id & image & key' & out & extra & lock & BU & K' & SG & (s1 & SF & UR & XR) & R & L & HK & HI & LK & _)]];
  assert (key' = key) as -> by congruence; clear K'.
  - destruct (found_entry _ _ _ _ _ _ _ Gg K CO EO EF) as (NM & y & b & L & SA & FK & FII).
    exists (Ent g n y kp ip). cbn. split; [reflexivity|]. split.
    + unfold held; cbn. rewrite F. split; [exact NM|]. split; [eauto|]. split; [exact SA|]. split; [exact FK|]. split; [exact FII|].
      intros d PL. rewrite PL in X. destruct X as [_ X]. rewrite component_eq in X by (apply (so_names _ SO); exact Gg).
      apply present_lookup in X; [exact X|]. destruct (component_ends d g) as (d0 & n0 & -> & _). intros E. apply app_eq_nil in E as [_ E]. discriminate.
    + intros p. rewrite R. unfold ent_roots; cbn [t_g t_n t_k t_i]. rewrite (linux_file_eq M e c FI).
      destruct (c_pcrlock c) as [d|].
      * destruct X as [-> _]. rewrite component_eq by (apply (so_names _ SO); exact Gg). cbn. tauto.
      * subst extra. cbn. tauto.
  - assert (extra = []) as ->.
    { destruct UR as [_ [[R1 _]|(d & t & n & kp & ip & PL & EF & R1 & AB)]].
      - rewrite R1 in XR. apply (f_equal (@length _)) in XR. rewrite app_length in XR. destruct extra; [reflexivity | cbn in XR; lia].
      - exfalso. destruct (found_entry _ _ _ _ _ _ _ Gg K CO EO EF) as (NM & y & b & L1 & _).
        specialize (AB NF). rewrite component_eq in AB by (apply (so_names _ SO); exact Gg).
        pose proof (ST d n y b PL NM L1) as Z. apply present_lookup in Z; [congruence|].
        destruct (component_ends d g) as (d0 & n0 & -> & _). intros E. apply app_eq_nil in E as [_ E]. discriminate. }
    destruct (stub_path_named M e c SO FI key g (so_names _ SO _ Gg)) as (n & E & NM). rewrite <- (linux_file_eq M e c FI) in E. rewrite E in *.
    exists (Ent g n out (ca_path e c (lit "kernel-" ++ kver) kd) (ca_path e c (lit "initrd-" ++ kver) id)). cbn. split; [reflexivity|]. split.
    + unfold held; cbn. split; [exact NM|]. split; [eauto|]. split; [eapply built_stub; eauto|].
      destruct HK as (kx & kb & HK & _). destruct HI as (ix & ib & HI & _).
      split; [exists kx, kb; exact HK|]. split; [exists ix, ib; exact HI|].
      intros d PL. rewrite PL in LK. destruct LK as (_ & lo & _ & LK). rewrite component_eq in LK by (apply (so_names _ SO); exact Gg). congruence.
    + intros p. rewrite R. unfold ent_roots; cbn [t_g t_n t_k t_i].
      destruct (c_pcrlock c) as [d|].
      * destruct LK as (-> & _). rewrite component_eq by (apply (so_names _ SO); exact Gg). cbn. tauto.
      * subst lock. cbn. tauto.
Qed.

(** What processing a generation leaves alone. *)
Lemma done_component g0 g s s' d : ma_gens M g0 -> c_pcrlock c = Some d -> done_gen e c g0 s s' ->
  lookup (s_fs s) (component d g) <> None -> lookup (s_fs s') (component d g) <> None.
Proof.
  intros G0 PL [_ [(F & _)|(kver & kd & id & image & key & out & extra & lock & BU & K & SG & _ & R & L & HK & HI & LK & FR)]] H.
  { rewrite F. exact H. }
  pose proof (component_ends d g) as CE. rewrite PL in LK. destruct LK as (-> & lo & _ & LK).
  assert (~ In 47 (lit "kernel-" ++ kver) /\ ~ In 47 (lit "initrd-" ++ kver)) as [S1 S2].
  { pose proof (kernel_version_slash _ _ (bu_kver _ _ _ _ _ _ _ BU)) as KV. split; apply notin_app; try apply lit_slash_tac; exact KV. }
  destruct (list_eq_dec (list_eq_dec N.eq_dec) (p_lock_generation d (version_tag g0)) (component d g)) as [<-|NE]; [congruence|].
  assert (file_ends (lit ".pcrlock") (p_lock_generation d (version_tag g0))) as LE by (apply (gen_lock_ends c g0); exists d; auto).
  destruct (FR (component d g)) as [X|[X _]]; [| |congruence|congruence].
  - intros X. apply in_app_or in X as [[X|[X|[X|[]]]]|[X|[]]]; [ | | |contradiction].
    + eapply efi_ne_lock; [apply ca_file_ends; exact S1 | exact CE | exact X].
    + eapply efi_ne_lock; [apply ca_file_ends; exact S2 | exact CE | exact X].
    + eapply efi_ne_lock; [apply stub_file_ends | exact CE | exact X].
  - intros X. apply in_map_iff in X as (q & X & Hq).
    eapply (lock_ne_tmp (component d g) (tmp_path q)); [exact CE | | congruence]. apply file_ends_tmp. intros ->.
    apply in_app_or in Hq as [[Hq|[Hq|[Hq|[]]]]|[Hq|[]]].
    + revert Hq. apply ca_path_ne. exact S1.
    + revert Hq. apply ca_path_ne. exact S2.
    + revert Hq. apply stub_path_ne.
    + rewrite Hq in LE. destruct LE as (d0 & n0 & E & _). destruct d0; discriminate.
Qed.

Lemma done_other U g0 s s' key g n y b : ma_gens M g0 -> ma_gens M g -> g <> g0 -> sg_key (e_signer e) = Some key ->
  reach (GA e c U) s s' -> done_gen e c g0 s s' -> named M key g n ->
  lookup (s_fs s') (linux_file M n) = Some (NFile y b) <-> lookup (s_fs s) (linux_file M n) = Some (NFile y b).
Proof.
  intros G0 Gg NE K RC DN NM.
  destruct (done_linux M e c SO FI g0 s s' n G0 DN (named_ends _ _ _ _ NM)) as [[E|[E1 E2]]|(key' & out & kp' & ip' & K' & NM' & _)].
  - rewrite E. tauto.
  - rewrite E1, E2. split; discriminate.
  - exfalso. apply NE. assert (key' = key) as -> by congruence.
    apply (prefix_inj M g g0 key key n SO Gg G0 (fi_key _ _ _ FI _ K) (fi_key _ _ _ FI _ K) NM NM').
Qed.

Lemma done_held U g0 s s' key t : ma_gens M g0 -> ma_gens M (t_g t) -> t_g t <> g0 -> sg_key (e_signer e) = Some key ->
  reach (GA e c U) s s' -> done_gen e c g0 s s' -> held key (s_fs s) t -> held key (s_fs s') t.
Proof.
  intros G0 Gg NE K RC DN (NM & (b & L) & SA & FK & FII & CM).
  destruct (stub_at_shape M e c FI _ _ _ _ SA) as (EK & EI & AK & AI).
  split; [exact NM|]. split; [exists b; apply (proj2 (done_other U g0 s s' key (t_g t) (t_n t) (t_y t) b G0 Gg NE K RC DN NM)); exact L|]. split; [exact SA|].
  split; [eapply reach_keeps; eauto|]. split; [eapply reach_keeps; eauto|].
  intros d PL. apply (done_component g0 (t_g t) s s' d G0 PL DN), CM, PL.
Qed.

(** Everything referenced belongs to an entry. *)
Definition tracked (key : bytes) (l : list ent) (roots0 roots : list path) (m : fs) : Prop :=
  Forall (held key m) l /\ forall p, In p roots <-> In p roots0 \/ In p (flat_map ent_roots l).

Lemma processed_tracked (U : generation -> Prop) gs s s' key : (forall g, U g -> selected c g) -> (forall g, In g gs -> U g) ->
  no_faults e -> sg_key (e_signer e) = Some key -> NoDup gs ->
  contents_ok M (s_fs s) -> entries_ok M (s_fs s) -> (forall g, In g gs -> settled_gen key g (s_fs s)) ->
  processed e c U gs s s' ->
  (forall t, ma_gens M (t_g t) -> ~ In (t_g t) gs -> held key (s_fs s) t -> held key (s_fs s') t) /\
  exists l, map t_g l = gs /\ tracked key l (s_roots s) (s_roots s') (s_fs s').
Proof.
  intros US GU NF K ND CO EO ST PR. induction PR as [s|g0 gs s s1 s2 R D PR IH].
  { split; [auto|]. exists []. split; [reflexivity|]. split; [constructor | cbn; tauto]. }
  assert (forall g, U g -> ma_gens M g) as UG by (intros g H; apply (fi_gens _ _ _ FI); auto).
  pose proof (reach_contents M e c SO FI U _ _ US R CO) as CO1. pose proof (reach_entries M e c SO FI U _ _ US R EO) as EO1.
  assert (ma_gens M g0) as G0 by (apply UG, GU; left; reflexivity).
  inversion ND as [|? ? NI ND']; subst.
  destruct (done_entry g0 s s1 key G0 NF K CO EO (ST g0 (or_introl eq_refl)) D) as (t0 & T0 & H0 & RT0).
  destruct IH as [I1 (l & ML & HL & RL)]; [intros g H; apply GU; right; exact H | exact ND' | exact CO1 | exact EO1 | |].
  { intros g Hg d n y b PL NM L. assert (g <> g0) as NG by (intros ->; contradiction).
    assert (ma_gens M g) as Gg by (apply UG, GU; right; exact Hg).
    apply (done_component g0 g s s1 d G0 PL D). eapply ST; [right; exact Hg | exact PL | exact NM |].
    apply (proj1 (done_other U g0 s s1 key g n y b G0 Gg NG K R D NM)). exact L. }
  split.
  - intros t Gt NIn HT. apply I1; [exact Gt | intros X; apply NIn; right; exact X |].
    apply (done_held U g0 s s1 key t G0 Gt); [|exact K | exact R | exact D | exact HT]. intros E. apply NIn. left; auto.
  - exists (t0 :: l). split; [cbn; congruence|]. split.
    + constructor; [|exact HL]. apply I1; [congruence | congruence | exact H0].
    + intros p. rewrite RL, RT0. cbn [flat_map]. rewrite in_app_iff. tauto.
Qed.

End Repeat.

(** ** Collection *)

Section Collect.
Variable e : env.
Variable c : config.
Hypothesis NF : no_faults e.
Hypothesis CL : complete_listings e.

Lemma collect_tree dir pred s s' r : tree_ok (s_fs s) -> collect_garbage_with_filter e dir pred s = (s', r) ->
  r = Ok tt /\ tree_ok (s_fs s') /\ s_roots s' = s_roots s /\ s_broken s' = s_broken s /\
  (forall p, lookup (s_fs s') p = lookup (s_fs s) p \/
     lookup (s_fs s') p = None /\ exists q, at_or_above dir q /\ at_or_above q p /\ ~ In q (s_roots s)) /\
  forall p, lookup (s_fs s') p <> None -> at_or_above dir p -> pred p = true -> In p (s_roots s).
Proof.
  intros T H. destruct (sat_collect e NF CL dir pred s T) as [_ (_ & RT & BR & _)]. rewrite H in RT, BR. cbn [fst] in RT, BR.
  destruct (collect_exact e NF CL dir pred s s' r T H) as [R X]. split; [exact R|].
  assert (forall p, lookup (s_fs s') p <> None -> ~ garbage (s_fs s) (s_roots s) dir pred p) as NG.
  { intros p P G. apply (proj1 (X p)) in G. contradiction. }
  split.
  { intros p n L NE. pose proof (NG _ L) as G. rewrite (proj2 (X _) G) in L. pose proof (T p n L NE) as D.
    rewrite (proj2 (X p)); [exact D|]. intros (_ & q & Q1 & Q2 & Q3 & Q4). apply G. split; [exact L|]. exists q.
    split; [exact Q1|]. split; [exact Q2|]. split; [|exact Q4]. destruct Q3 as [r' ->]. exists (r' ++ [n]). rewrite app_assoc. reflexivity. }
  split; [exact RT|]. split; [exact BR|]. split.
  - intros p. destruct (sat_collect e NF CL dir pred s T) as [_ (_ & _ & _ & L)]. rewrite H in L. cbn [fst] in L. rewrite L.
    destruct (existsb _ _) eqn:EX; [right | left; reflexivity]. split; [reflexivity|].
    apply existsb_exists in EX as (q & Q1 & Q2). apply (walk_In e CL), filter_In in Q1 as [_ Q1].
    apply andb_true_iff in Q2 as [Q2 Q3]. exists q. rewrite !at_or_above_below. split; [exact Q1|]. split; [exact Q3|].
    unfold trigger in Q2. apply andb_true_iff in Q2 as [Q2 _]. intros IN. apply existsb_path in IN. rewrite IN in Q2. discriminate.
  - intros p L A P. pose proof (NG _ L) as G. rewrite (proj2 (X _) G) in L.
    destruct (in_dec (list_eq_dec (list_eq_dec N.eq_dec)) p (s_roots s)) as [Y|Y]; [exact Y|]. exfalso. apply G.
    split; [exact L|]. exists p. split; [exact L|]. split; [exact A|]. split; [exists []; rewrite app_nil_r; reflexivity | auto].
Qed.

Lemma collect_all_tree s s' r : s_broken s = [] -> tree_ok (s_fs s) -> collect_all e c s = (s', r) ->
  r = Ok tt /\ tree_ok (s_fs s') /\
  (forall p, lookup (s_fs s') p = lookup (s_fs s) p \/
     lookup (s_fs s') p = None /\ exists dir q, gc_dir c dir /\ at_or_above dir q /\ at_or_above q p /\ ~ In q (s_roots s)) /\
  (forall p, lookup (s_fs s') p <> None -> at_or_above (d_nixos c) p -> In p (s_roots s)) /\
  (forall p, lookup (s_fs s') p <> None -> at_or_above (d_linux c) p -> linux_filter p = true -> In p (s_roots s)) /\
  (forall d p, c_pcrlock c = Some d -> lookup (s_fs s') p <> None -> at_or_above (d_lock_lanzaboote d) p -> In p (s_roots s)).
Proof.
  intros BR T H. unfold collect_all in H. unfold ibind at 1 in H. cbn [iget] in H. rewrite BR in H.
  unfold ibind at 1 in H. destruct (collect_garbage_with_filter e (d_nixos c) (fun _ => true) s) as [s1 r1] eqn:C1.
  destruct (collect_tree _ _ _ _ _ T C1) as (-> & T1 & R1 & B1 & K1 & E1).
  unfold ibind at 1 in H. destruct (collect_garbage_with_filter e (d_linux c) linux_filter s1) as [s2 r2] eqn:C2.
  destruct (collect_tree _ _ _ _ _ T1 C2) as (-> & T2 & R2 & B2 & K2 & E2). rewrite R1 in *.
  assert (forall p, lookup (s_fs s2) p = lookup (s_fs s) p \/
     lookup (s_fs s2) p = None /\ exists dir q, gc_dir c dir /\ at_or_above dir q /\ at_or_above q p /\ ~ In q (s_roots s)) as K12.
  { intros p. destruct (K2 p) as [X|(X & q & Q)]; [|right; split; [exact X|]; exists (d_linux c), q; split; [right; left; reflexivity | exact Q]].
    destruct (K1 p) as [Y|(Y & q & Q)]; [left; congruence|]. right. split; [congruence|]. exists (d_nixos c), q. split; [left; reflexivity | exact Q]. }
  assert (forall p, lookup (s_fs s2) p <> None -> lookup (s_fs s1) p <> None) as M2.
  { intros p L. destruct (K2 p) as [X|[X _]]; congruence. }
  destruct (c_pcrlock c) as [d|] eqn:PL.
  - destruct (collect_tree _ _ _ _ _ T2 H) as (-> & T3 & R3 & B3 & K3 & E3). rewrite R2 in *.
    assert (forall p, lookup (s_fs s') p <> None -> lookup (s_fs s2) p <> None) as M3.
    { intros p L. destruct (K3 p) as [X|[X _]]; congruence. }
    split; [reflexivity|]. split; [exact T3|]. split; [|split; [|split]].
    + intros p. destruct (K3 p) as [X|(X & q & Q)]; [|right; split; [exact X|]; exists (d_lock_lanzaboote d), q; split; [right; right; exists d; auto | exact Q]].
      destruct (K12 p) as [Y|(Y & Q)]; [left; congruence | right; split; [congruence | exact Q]].
    + intros p L A. apply E1; auto.
    + intros p L A P. apply E2; auto.
    + intros d' p [= <-] L A. apply E3; auto.
  - cbn [iret] in H. injection H as <- <-.
    split; [reflexivity|]. split; [exact T2|]. split; [exact K12|]. split; [|split].
    + intros p L A. apply E1; auto.
    + intros p L A P. apply E2; auto.
    + discriminate.
Qed.
End Collect.

Section Result.
Variable M : machine.
Hypothesis SO : sound M.
Variable e : env.
Variable c : config.
Hypothesis FI : fits M e c.

(** Files directly in a collected directory stay if they are referenced. *)
Lemma gc_between D x dir q : gc_dir c D -> gc_dir c dir -> at_or_above dir q -> at_or_above q (D ++ [x]) -> q = D \/ q = D ++ [x].
Proof.
  intros GD GD' [a ->] [b E].
  assert (dir = D) as ->.
  { assert (forall d r q, c_pcrlock c = Some d -> c_esp c ++ r = d ++ q -> False) as LA.
    { intros d r q0 PL. apply (lock_apart M e c FI d r q0 PL). }
    rewrite <- app_assoc in E. symmetry in E.
    destruct GD as [-> |[-> |(d & PL & ->)]], GD' as [-> |[-> |(d' & PL' & ->)]]; auto;
      unfold d_lock_lanzaboote in *; rewrite <- ?d_nixos_r, ?d_linux_r, <- ?app_assoc in E; rewrite ?d_nixos_r, ?d_linux_r in E.
    - apply app_inv_head in E. discriminate.
    - exfalso. eapply LA; eauto.
    - apply app_inv_head in E. discriminate.
    - exfalso. eapply LA; eauto.
    - exfalso. eapply LA; [exact PL | exact E].
    - exfalso. eapply LA; [exact PL | exact E].
    - congruence. }
  rewrite <- app_assoc in E. apply app_inv_head in E. destruct a as [|z a]; [left; apply app_nil_r|].
  right. injection E as <- E. symmetry in E. apply app_eq_nil in E as [-> _]. reflexivity.
Qed.

Lemma gc_spares roots m m' D x : 
  (forall p, lookup m' p = lookup m p \/
     lookup m' p = None /\ exists dir q, gc_dir c dir /\ at_or_above dir q /\ at_or_above q p /\ ~ In q roots) ->
  incl (initial_roots c) roots -> gc_dir c D -> In (D ++ [x]) roots -> lookup m' (D ++ [x]) = lookup m (D ++ [x]).
Proof.
  intros K IR GD RT. destruct (K (D ++ [x])) as [X|(_ & dir & q & Q1 & Q2 & Q3 & Q4)]; [exact X|]. exfalso.
  destruct (gc_between D x dir q GD Q1 Q2 Q3) as [-> | ->]; [|contradiction]. apply Q4, IR. unfold initial_roots.
  destruct GD as [-> |[-> |(d & PL & ->)]]; apply in_or_app; [left; cbn; auto 10 | left; cbn; auto 10 |]. right. rewrite PL. right; left; reflexivity.
Qed.

Lemma ent_shape t p : stub_at M (t_g t) (t_y t) (t_k t) (t_i t) -> In p (ent_roots M c t) -> exists D x, gc_dir c D /\ p = D ++ [x].
Proof.
  intros SA IN. destruct (stub_at_shape M e c FI _ _ _ _ SA) as (_ & _ & AK & AI).
  assert (forall q, area c q -> exists D x, gc_dir c D /\ q = D ++ [x]) as AR.
  { intros q [[n ->]|[n ->]]; [exists (d_nixos c), n; split; [left|]; reflexivity | exists (d_linux c), n; split; [right; left|]; reflexivity]. }
  unfold ent_roots in IN. apply in_app_or in IN as [[<-|[<-|[<-|[]]]]|IN]; auto.
  - apply AR. right. exists (t_n t). apply (linux_file_eq M e c FI).
  - destruct (c_pcrlock c) as [d|] eqn:PL; [|contradiction]. destruct IN as [<-|[]].
    exists (d_lock_lanzaboote d). eexists. split; [right; right; exists d; auto|]. unfold component, d_lock_lanzaboote. rewrite <- app_assoc. reflexivity.
Qed.

(** [held] depends only on the referenced files. *)
Lemma held_like key m m' t :
  (forall p x b, In p (ent_roots M c t) -> lookup m p = Some (NFile x b) -> exists b', lookup m' p = Some (NFile x b')) ->
  (forall p, In p (ent_roots M c t) -> lookup m p <> None -> lookup m' p <> None) ->
  held M c key m t -> held M c key m' t.
Proof.
  intros HF HP (NM & (b & L) & SA & (kx & kb & FK) & (ix & ib & FII) & CM).
  assert (In (linux_file M (t_n t)) (ent_roots M c t) /\ In (t_k t) (ent_roots M c t) /\ In (t_i t) (ent_roots M c t)) as (I1 & I2 & I3)
    by (unfold ent_roots; split; [|split]; apply in_or_app; left; [left | right; left | right; right; left]; reflexivity).
  split; [exact NM|]. split; [apply (HF _ _ _ I1 L)|]. split; [exact SA|].
  destruct (HF _ _ _ I2 FK) as [b2 L2]. destruct (HF _ _ _ I3 FII) as [b3 L3].
  split; [exists kx, b2; exact L2|]. split; [exists ix, b3; exact L3|].
  intros d PL. apply HP; [|apply CM; exact PL]. unfold ent_roots. rewrite PL. apply in_or_app. right. left. reflexivity.
Qed.

Lemma held_sync key m t : held M c key m t -> held M c key (apply (OSyncAll (c_esp c)) m) t.
Proof.
  apply held_like.
  - intros p x b _ L. rewrite lookup_apply, L. destruct (below _ _); eexists; reflexivity.
  - intros p _ L. rewrite lookup_apply. destruct (lookup m p); [|congruence]. destruct (below _ _); discriminate.
Qed.

Lemma boot_component s s' d g : c_pcrlock c = Some d -> boot_done e c s s' -> lookup (s_fs s) (component d g) <> None ->
  lookup (s_fs s') (component d g) = lookup (s_fs s) (component d g).
Proof.
  intros PL (_ & FR & _) L. pose proof (component_ends d g) as CE.
  assert (forall n, component d g <> p_lock_bootloader d n) as N1.
  { intros n E. unfold component, p_lock_bootloader, d_lock_bootloader in E. rewrite <- app_assoc in E. apply app_inv_head in E. discriminate. }
  assert (forall p, is_boot c p \/ p = p_conf c -> component d g <> p) as N2.
  { intros p [[-> | ->]| ->]; apply not_eq_sym.
    - eapply (suf_ne (lit ".EFI") (lit "lock")); [reflexivity | discriminate | apply fallback_ends | apply file_ends_lock4, CE].
    - eapply (suf_ne (lit ".efi") (lit "lock")); [reflexivity | discriminate | apply systemd_ends | apply file_ends_lock4, CE].
    - eapply (suf_ne (lit "conf") (lit "lock")); [reflexivity | discriminate | apply conf_ends | apply file_ends_lock4, CE]. }
  assert (forall p, In p (boot_frame c) -> p <> []) as NN.
  { unfold boot_frame. rewrite PL. intros p H ->. cbn [In app] in H.
    destruct H as [H|[H|[H|[H|[H|[]]]]]]; [eapply boot_ne; [|exact H]; left; left; reflexivity | eapply boot_ne; [|exact H]; left; right; reflexivity
      | eapply boot_ne; [|exact H]; right; reflexivity | destruct d; discriminate | destruct d; discriminate]. }
  destruct (FR (component d g)) as [X|[X _]]; [| |exact X|congruence].
  - unfold boot_frame. rewrite PL. intros H. cbn [In app] in H. destruct H as [H|[H|[H|[H|[H|[]]]]]].
    + eapply N2; [left; left; reflexivity | symmetry; exact H].
    + eapply N2; [left; right; reflexivity | symmetry; exact H].
    + eapply N2; [right; reflexivity | symmetry; exact H].
    + eapply N1; symmetry; exact H.
    + eapply N1; symmetry; exact H.
  - intros H. apply in_map_iff in H as (p & E & H). apply NN in H.
    eapply (lock_ne_tmp (component d g) (tmp_path p)); [exact CE | apply file_ends_tmp; exact H | congruence].
Qed.

Lemma held_boot key m0 s s' t : reach (GB e c m0) s s' -> boot_done e c s s' -> held M c key (s_fs s) t -> held M c key (s_fs s') t.
Proof.
  intros RB BD H. pose proof H as (_ & _ & SA & _). destruct (stub_at_shape M e c FI _ _ _ _ SA) as (_ & _ & AK & AI).
  assert (forall p, area c p -> lookup (s_fs s') p = lookup (s_fs s) p) as AR.
  { intros p AP. apply (reach_invariant (GB e c m0) (fun m => lookup m p = lookup (s_fs s) p)) with (2 := RB); [|reflexivity].
    intros m o GO E. rewrite (boot_keeps M e c FI m0 m o p GO AP). exact E. }
  assert (forall p, In p (ent_roots M c t) -> lookup (s_fs s) p <> None -> lookup (s_fs s') p = lookup (s_fs s) p) as SAME.
  { unfold ent_roots. intros p IN L. apply in_app_or in IN as [[<-|[<-|[<-|[]]]]|IN]; auto.
    - apply AR. right. exists (t_n t). apply (linux_file_eq M e c FI).
    - destruct (c_pcrlock c) as [d|] eqn:PL; [|contradiction]. destruct IN as [<-|[]]. apply boot_component; assumption. }
  revert H. apply held_like.
  - intros p x b IN L. rewrite SAME; [eauto | exact IN | congruence].
  - intros p IN L. rewrite SAME; assumption.
Qed.

(** The state after a successful run with collection. *)
Record result (key : bytes) (vs sel : list (N * link)) (l : list ent) (m1 : fs) : Prop := {
  re_versions : links_versions (c_links c) vs;
  re_newest : newest (c_limit c) vs sel;
  re_parse : parse_links (c_links c) = Some vs;
  re_sel : sel = limit_links (c_limit c) (sort_links vs);
  re_readable : Forall readable sel;
  re_some : sel <> [];
  re_key : sg_key (e_signer e) = Some key;
  re_gens : map t_g l = flat_map link_generations sel;
  re_held : Forall (held M c key m1) l;
  re_tree : tree_ok m1;
  re_nixos : forall p, lookup m1 p <> None -> at_or_above (d_nixos c) p -> In p (initial_roots c) \/ In p (flat_map (ent_roots M c) l);
  re_linux : forall p, lookup m1 p <> None -> at_or_above (d_linux c) p -> linux_filter p = true ->
    In p (initial_roots c) \/ In p (flat_map (ent_roots M c) l);
  re_lock : forall d p, c_pcrlock c = Some d -> lookup m1 p <> None -> at_or_above (d_lock_lanzaboote d) p ->
    In p (initial_roots c) \/ In p (flat_map (ent_roots M c) l) }.

Lemma gen_tree U m o : GA e c U m o -> tree_ok m -> tree_ok (apply o m).
Proof. intros [PX CH]. apply posix_tree_ok; [|exact PX]. intros p ->. inversion CH. Qed.

Lemma boot_tree m0 m o : GB e c m0 m o -> tree_ok m -> tree_ok (apply o m).
Proof. intros [PX CH]. apply posix_tree_ok; [|exact PX]. intros p ->. inversion CH. Qed.

Lemma sub_full {A} (a b : list A) : sub a b -> length a = length b -> a = b.
Proof.
  induction 1 as [|x a b S IH|x a b S IH]; cbn; intros E; [reflexivity | f_equal; apply IH; lia|].
  apply sub_length in S. lia.
Qed.

Lemma tops_length ls : Forall readable ls -> length (tops ls) = length ls.
Proof.
  induction 1 as [|[v l] ls R _ IH]; [reflexivity|]. unfold tops in *. cbn [flat_map fst snd length].
  unfold readable in R. cbn in R. destruct (l_spec l); [|congruence]. cbn. rewrite IH. reflexivity.
Qed.

Lemma all_got m vs sel got s0 : no_faults e -> all_readable c -> links_versions (c_links c) vs -> newest (c_limit c) vs sel ->
  loaded e c m sel got s0 -> got = sel /\ Forall readable sel.
Proof.
  intros NF AR LV NW LD. specialize (AR vs sel LV NW).
  assert (Forall readable sel) as RD.
  { eapply Forall_impl; [|exact AR]. intros vl H E. apply H. exact E. }
  split; [|exact RD]. apply sub_full; [exact (lo_sub _ _ _ _ _ _ LD)|].
  pose proof (lo_faults _ _ _ _ _ _ LD NF) as T. apply (f_equal (@length _)) in T.
  rewrite (tops_length _ RD), (tops_length _ (lo_readable _ _ _ _ _ _ LD)) in T. exact T.
Qed.

Lemma some_generation sel : Forall readable sel -> sel <> [] -> exists g gs, flat_map link_generations sel = g :: gs.
Proof.
  destruct sel as [|[v l] sel]; [congruence|]. intros R _. inversion R as [|? ? R1 _]; subst. unfold readable in R1. cbn in R1.
  cbn [flat_map]. unfold link_generations at 1. cbn [fst snd]. destruct (l_spec l); [|congruence]. eexists _, _. reflexivity.
Qed.

Lemma run_result m : contents_ok M m -> entries_ok M m -> tree_ok m -> no_faults e -> complete_listings e ->
  all_readable c -> distinct c -> settled M c m -> snd (run_install e c m) = Ok tt ->
  exists key vs sel l s2 s3,
    result key vs sel l (s_fs (fst (run_install e c m))) /\
    boot_done e c s2 s3 /\
    reach (GG e c (s_roots s3)) s3 (fst (run_install e c m)).
Proof.
  intros CO EO TR NF CL AR DC ST OK.
  destruct (run_shape_holds e c m) as [LK SM E | vs sel s0 LV NW LD E1 E2 | vs sel got s0 LV NW LD GN RC E
    | vs sel got s0 s1 s2 LV NW LD GN PR SB SY QB RB E | vs sel got s0 s1 s2 LV NW LD GN PR SB SY RB BD GS E
    | vs sel s0 s1 s2 s3 LV NW LD GN PR SB SY RB BD RG CA]; try congruence.
  { exfalso. apply GS. exact (proj1 (all_got m vs sel got s0 NF AR LV NW LD)). }
  destruct (all_got m vs sel sel s0 NF AR LV NW LD) as [_ RD].
  pose proof (lo_fs _ _ _ _ _ _ LD) as F0. pose proof (lo_roots _ _ _ _ _ _ LD) as R0.
  assert (forall g, In g (flat_map link_generations sel) -> selected c g) as US by (intros g Hg; exists vs, sel; auto).
  destruct (some_generation sel RD GN) as (g1 & gs1 & GE).
  assert (exists key, sg_key (e_signer e) = Some key) as [key K].
  { clear -PR GE. rewrite GE in PR. inversion PR as [|? ? ? ? ? _ DG _]; subst.
    destruct DG as [_ [(_ & _ & key & t & n & kp & ip & extra & K & _)|(kver & kd & id & image & key & out & extra & lock & _ & K & _)]]; eauto. }
  destruct (processed_tracked M SO e c FI (fun g => In g (flat_map link_generations sel)) (flat_map link_generations sel) s0 s1 key US
    (fun g H => H) NF K (DC vs sel LV NW)) as [_ (l & GL & HL & RL)].
  { rewrite F0. exact CO. }
  { rewrite F0. exact EO. }
  { rewrite F0. intros g Hg d n y b PL NM L. eapply ST; eauto. eapply fi_key; eauto. }
  { exact PR. }
  assert (tree_ok (s_fs s1)) as T1.
  { apply (reach_invariant (GA e c (fun g => In g (flat_map link_generations sel))) tree_ok) with (s := s0).
    - intros m0 o. apply gen_tree.
    - eapply processed_reach; exact PR.
    - rewrite F0. exact TR. }
  destruct SY as (F2 & _ & R2 & B2).
  assert (tree_ok (s_fs s2)) as T2.
  { rewrite F2. apply posix_tree_ok; [discriminate | exact Logic.I | exact T1]. }
  assert (tree_ok (s_fs s3)) as T3.
  { apply (reach_invariant (GB e c (s_fs s2)) tree_ok) with (s := s2); [intros m0 o; apply boot_tree | exact RB | exact T2]. }
  pose proof BD as (QB & _). destruct QB as (R3 & B3).
  assert (s_broken s3 = []) as BR.
  { rewrite B3, B2, SB. apply (lo_broken _ _ _ _ _ _ LD). reflexivity. }
  destruct (collect_all_tree e c NF CL s3 _ _ BR T3 CA) as (_ & T4 & K4 & N4 & L4 & P4).
  assert (forall p, In p (s_roots s3) <-> In p (initial_roots c) \/ In p (flat_map (ent_roots M c) l)) as RR.
  { intros p. rewrite R3, R2, <- R0. apply RL. }
  exists key, vs, sel, l, s2, s3. split; [|split; [exact BD | exact RG]].
  destruct (lo_sel _ _ _ _ _ _ LD) as (vs' & PV & SE).
  assert (vs' = vs) as ->.
  { apply parse_links_spec in LV. rewrite LV in PV. congruence. }
  constructor; auto.
  - apply Forall_forall. intros t Ht. rewrite Forall_forall in HL. specialize (HL t Ht).
    assert (held M c key (s_fs s3) t) as H3.
    { eapply held_boot; [exact RB | exact BD |]. rewrite F2. apply held_sync. exact HL. }
    assert (forall p, In p (ent_roots M c t) -> lookup (s_fs (fst (run_install e c m))) p = lookup (s_fs s3) p) as SAME.
    { intros p Hp. destruct (ent_shape t p (proj1 (proj2 (proj2 H3))) Hp) as (D & x & GD & ->).
      apply (gc_spares (s_roots s3)); auto.
      - intros q Hq. apply RR. left. exact Hq.
      - apply RR. right. apply in_flat_map. eauto. }
    revert H3. apply held_like.
    + intros p x b IN L. rewrite SAME by exact IN. eauto.
    + intros p IN L. rewrite SAME by exact IN. exact L.
  - intros p L A. apply RR. apply N4; assumption.
  - intros p L A P. apply RR. apply L4; assumption.
  - intros d p PL L A. apply RR. eapply P4; eassumption.
Qed.
End Result.
