(** Proofs for C75. *)
From Coq Require Import List NArith Bool Permutation Lia.
From Verif Require Import Base PBase MText PText MGeneration MNames MPe MFs MTool MInstall SCommon SNames SInstall PFs PInstall.
From Verif Require Import SHistory PHistory PHistories SRepeat PRepeat PTwice SExact.
Import ListNotations.
Open Scope N_scope.

Section Run.
Variables (M : machine).
Hypothesis SO : sound M.
Variables (e : env) (c : config) (m : fs).
Hypothesis FI : fits M e c.
Notation m1 := (s_fs (fst (run_install e c m))).

Lemma nixos_not_initial a r : ~ In (d_nixos c ++ a :: r) (initial_roots c).
Proof.
  intros H. unfold initial_roots in H. apply in_app_or in H as [H|H].
  - rewrite d_nixos_r in H. unfold p_fallback, p_systemd, p_conf, d_nixos, d_linux, d_boot, d_systemd, d_loader, d_efi in H.
    rewrite <- ?app_assoc in H. cbn [In app] in H.
    repeat destruct H as [H|H]; try contradiction; try (apply app_inv_head in H; discriminate).
    rewrite <- (app_nil_r (c_esp c)) in H at 1. apply app_inv_head in H. discriminate.
  - destruct (c_pcrlock c) as [d|] eqn:PL; [|contradiction]. rewrite d_nixos_r in H.
    destruct H as [H|[H|[]]].
    + apply (lock_apart M e c FI d ([lit "EFI"; lit "nixos"] ++ a :: r) [] PL). rewrite app_nil_r. symmetry. exact H.
    + eapply (lock_apart M e c FI d _ _ PL). symmetry. exact H.
Qed.

Lemma locks_not_initial d a r : c_pcrlock c = Some d -> ~ In (d_lock_lanzaboote d ++ a :: r) (initial_roots c).
Proof.
  intros PL H. unfold d_lock_lanzaboote in H. rewrite <- app_assoc in H. unfold initial_roots in H. apply in_app_or in H as [H|H].
  - unfold p_fallback, p_systemd, p_conf, d_nixos, d_linux, d_boot, d_systemd, d_loader, d_efi in H.
    rewrite <- ?app_assoc in H. cbn [In] in H.
    repeat destruct H as [H|H]; try contradiction; try (eapply (lock_apart M e c FI d _ _ PL); exact H).
    rewrite <- (app_nil_r (c_esp c)) in H at 1. eapply (lock_apart M e c FI d _ _ PL); exact H.
  - rewrite PL in H. destruct H as [H|[H|[]]].
    + rewrite <- (app_nil_r d) in H at 1. apply app_inv_head in H. discriminate.
    + apply app_inv_head in H. discriminate.
Qed.

Lemma stub_sections_at g y kp ip : stub_at M g y kp ip ->
  (exists k, has_section (ma_parse M) y (lit ".linux") k /\ efi_path M k kp) /\
  (exists k, has_section (ma_parse M) y (lit ".initrd") k /\ efi_path M k ip).
Proof.
  intros (v & k & i & init & text & (_ & _ & _ & _ & _ & _ & N1 & N2 & SV & K1 & K2 & I1 & I2 & _) & -> & ->).
  split.
  - exists (lit "\EFI\nixos\" ++ content_name M (lit "kernel-" ++ v) k). split; [exact K1|].
    destruct (section_content M (lit "kernel-" ++ v) v k N1 N2 SV) as (F & E & _); [auto|].
    exists [lit "EFI"; lit "nixos"; content_name M (lit "kernel-" ++ v) k]. split; [discriminate|]. split; [exact F|]. split; [exact E | reflexivity].
  - exists (lit "\EFI\nixos\" ++ content_name M (lit "initrd-" ++ v) i). split; [exact I1|].
    destruct (section_content M (lit "initrd-" ++ v) v i N1 N2 SV) as (F & E & _); [auto|].
    exists [lit "EFI"; lit "nixos"; content_name M (lit "initrd-" ++ v) i]. split; [discriminate|]. split; [exact F|]. split; [exact E | reflexivity].
Qed.

Lemma exact_after : history M m -> tree_ok m -> no_faults e -> complete_listings e -> all_readable c -> distinct c -> settled M c m ->
  snd (run_install e c m) = Ok tt ->
  exists key vs sel l, sg_key (e_signer e) = Some key /\ links_versions (c_links c) vs /\ newest (c_limit c) vs sel /\
    map fst l = flat_map link_generations sel /\ NoDup (map snd l) /\
    exact_entries M key l m1 /\ exact_files M l m1 /\
    forall d, c_pcrlock c = Some d -> exact_components d l m1.
Proof.
  intros HI TO NF CL AR DC ST OK. destruct (history_ok M m SO HI) as [CO EO].
  destruct (run_result M SO e c FI m CO EO TO NF CL AR DC ST OK) as (key & vs & sel & l & s2 & s3 & R & BD & RG).
  assert (history M m1) as HI1 by (rewrite final_fs; eapply hi_run; [exact HI | exact FI | apply final_point]).
  destruct (history_ok M _ SO HI1) as [CO1 EO1].
  pose proof (re_held _ _ _ _ _ _ _ _ R) as HL. rewrite Forall_forall in HL.
  pose proof (re_gens _ _ _ _ _ _ _ _ R) as GE.
  assert (forall t, In t l -> ma_gens M (t_g t)) as GU.
  { intros t Ht. apply (fi_gens _ _ _ FI). exists vs, sel. split; [apply (re_versions _ _ _ _ _ _ _ _ R)|].
    split; [apply (re_newest _ _ _ _ _ _ _ _ R)|]. rewrite <- GE. apply in_map. exact Ht. }
  assert (ma_keys M key) as KK by (eapply fi_key; [exact FI | apply (re_key _ _ _ _ _ _ _ _ R)]).
  exists key, vs, sel, (map (fun t => (t_g t, t_n t)) l).
  split; [apply (re_key _ _ _ _ _ _ _ _ R)|]. split; [apply (re_versions _ _ _ _ _ _ _ _ R)|]. split; [apply (re_newest _ _ _ _ _ _ _ _ R)|].
  split; [rewrite map_map; exact GE|].
  split.
  { rewrite map_map. cbn [snd].
    assert (NoDup (map t_g l)) as ND by (rewrite GE; apply (DC vs sel); [apply (re_versions _ _ _ _ _ _ _ _ R) | apply (re_newest _ _ _ _ _ _ _ _ R)]).
    clear -ND HL GU SO KK. induction l as [|t l IH]; cbn [map] in *; [constructor|].
    inversion ND as [|? ? N1 N2]; subst. constructor; [|apply IH; auto with datatypes].
    intros X. apply in_map_iff in X as (t' & E & Ht'). apply N1.
    destruct (HL t (or_introl eq_refl)) as (NM & _). destruct (HL t' (or_intror Ht')) as (NM' & _). rewrite E in NM'.
    destruct (prefix_inj M (t_g t) (t_g t') key key (t_n t) SO) as [EG _]; auto using in_eq, in_cons.
    rewrite EG. apply in_map. exact Ht'. }
  split; [split|split].
  - intros g n Hg. apply in_map_iff in Hg as (t & [= <- <-] & Ht). destruct (HL t Ht) as (NM & (b & L) & SA & FK & FI2 & _).
    split; [exact NM|]. exists (t_y t), b. split; [exact L|]. split; [apply stub_at_for; eauto|].
    destruct FK as (zk & bk & FK). destruct FI2 as (zi & bi & FI2).
    eapply stub_bootable; [exact CO1 | exact SA | congruence | congruence].
  - intros n tx DN LN.
    rewrite (linux_file_eq M e c FI) in LN. destruct (re_linux _ _ _ _ _ _ _ _ R _ LN) as [X|X].
    { eexists. reflexivity. }
    { unfold linux_filter. rewrite rev_unit, DN. reflexivity. }
    { destruct (linux_not_initial M e c FI _ X). }
    apply in_flat_map in X as (t & Ht & X). destruct (HL t Ht) as (NM & _ & SA & _).
    unfold ent_roots in X. apply in_app_or in X as [[X|[X|[X|[]]]]|X].
    + rewrite (linux_file_eq M e c FI) in X. apply app_inv_head in X. injection X as X. rewrite <- X.
      rewrite map_map. cbn [snd]. apply (in_map t_n). exact Ht.
    + exfalso. destruct SA as (v & k & i & init & text & _ & SKK & _). rewrite SKK in X. unfold kernel_file in X.
      rewrite (nixos_file_eq M e c FI), d_nixos_r, d_linux_r in X. apply app_inv_head in X. discriminate.
    + exfalso. destruct SA as (v & k & i & init & text & _ & _ & SI). rewrite SI in X. unfold initrd_file in X.
      rewrite (nixos_file_eq M e c FI), d_nixos_r, d_linux_r in X. apply app_inv_head in X. discriminate.
    + exfalso. destruct (c_pcrlock c) as [d|] eqn:PL; [|contradiction]. destruct X as [X|[]].
      rewrite d_linux_r in X. unfold component in X. eapply (lock_apart M e c FI d _ _ PL). symmetry. exact X.
  - intros p (a & r & EP) LN.
    assert (p = d_nixos c ++ a :: r) as EP' by (rewrite d_nixos_r, (fi_esp _ _ _ FI), EP, <- app_assoc; reflexivity).
    destruct (re_nixos _ _ _ _ _ _ _ _ R p LN) as [X|X].
    { rewrite EP'. eexists. reflexivity. }
    { rewrite EP' in X. destruct (nixos_not_initial _ _ X). }
    apply in_flat_map in X as (t & Ht & X). destruct (HL t Ht) as (NM & (b & L) & SA & _).
    destruct (stub_sections_at _ _ _ _ SA) as [(k1 & S1 & P1) (k2 & S2 & P2)].
    exists (t_g t), (t_n t), (t_y t), b.
    unfold ent_roots in X. apply in_app_or in X as [[X|[X|[X|[]]]]|X].
    + exfalso. rewrite (linux_file_eq M e c FI), EP', d_linux_r, d_nixos_r in X. apply app_inv_head in X. discriminate.
    + exists (lit ".linux"), k1. split; [apply in_map_iff; exists t; auto|]. split; [exact L|]. split; [left; reflexivity|]. split; [exact S1 | rewrite <- X; exact P1].
    + exists (lit ".initrd"), k2. split; [apply in_map_iff; exists t; auto|]. split; [exact L|]. split; [right; left; reflexivity|]. split; [exact S2 | rewrite <- X; exact P2].
    + exfalso. destruct (c_pcrlock c) as [d|] eqn:PL; [|contradiction]. destruct X as [X|[]].
      rewrite EP', d_nixos_r in X. unfold component in X. eapply (lock_apart M e c FI d _ _ PL). symmetry. exact X.
  - intros d PL p (a & r & EP). split.
    + intros LN. destruct (re_lock _ _ _ _ _ _ _ _ R d p PL LN) as [X|X].
      { exists (a :: r). exact EP. }
      { rewrite EP in X. destruct (locks_not_initial d a r PL X). }
      apply in_flat_map in X as (t & Ht & X). destruct (HL t Ht) as (NM & (b & L) & SA & _).
      unfold ent_roots in X. apply in_app_or in X as [[X|[X|[X|[]]]]|X].
      * exfalso. rewrite (linux_file_eq M e c FI), EP, d_linux_r, <- app_assoc in X. eapply (lock_apart M e c FI d _ _ PL). exact X.
      * exfalso. destruct SA as (v & k & i & init & text & _ & SKK & _). rewrite SKK in X. unfold kernel_file in X.
        rewrite (nixos_file_eq M e c FI), d_nixos_r, EP, <- app_assoc in X. eapply (lock_apart M e c FI d _ _ PL). exact X.
      * exfalso. destruct SA as (v & k & i & init & text & _ & _ & SI). rewrite SI in X. unfold initrd_file in X.
        rewrite (nixos_file_eq M e c FI), d_nixos_r, EP, <- app_assoc in X. eapply (lock_apart M e c FI d _ _ PL). exact X.
      * rewrite PL in X. destruct X as [X|[]]. exists (t_g t), (t_n t). split; [apply in_map_iff; exists t; auto | symmetry; exact X].
    + intros (g & n & Hg & ->). apply in_map_iff in Hg as (t & [= <- <-] & Ht). destruct (HL t Ht) as (_ & _ & _ & _ & _ & CM). apply CM. exact PL.
Qed.

(** ** Counting *)

Lemma entries_number key l mm : NoDup (map snd l) -> exact_entries M key l mm -> number (listed M mm) (length l).
Proof.
  intros ND [E1 E2]. exists (map snd l). split; [exact ND|]. split; [|apply map_length].
  intros n. split.
  - intros H. apply in_map_iff in H as ([g n'] & <- & H). destruct (E1 g n' H) as (NM & y & b & L & _). split; [|cbn [snd]; congruence].
    cbn [snd]. destruct NM as (cnt & CS & D). rewrite D.
    exists (skipn 6 (stub_prefix (ma_sha M) key g ++ cnt ++ lit ".efi")). unfold stub_prefix. destruct (g_specname g); reflexivity.
  - intros [(t & D) L]. eapply E2; eauto.
Qed.

Lemma number_at_most {A} (P : A -> Prop) n : number P n -> at_most P n.
Proof.
  intros (l & ND & H & <-) l' ND' H'. apply NoDup_incl_length; [exact ND'|]. intros x Hx. apply H. apply H'. exact Hx.
Qed.

Lemma at_most_le {A} (P : A -> Prop) n k : at_most P n -> (n <= k)%nat -> at_most P k.
Proof. intros H L l ND Hl. specialize (H l ND Hl). lia. Qed.

Lemma components_at_most d l mm : exact_components d l mm -> at_most (variant d mm) (length l).
Proof.
  intros H l' ND Hl. rewrite <- (map_length (fun gn : generation * name => component d (fst gn)) l). apply NoDup_incl_length; [exact ND|].
  intros p Hp. destruct (Hl p Hp) as [B L]. apply (H p B) in L as (g & n & I & ->). apply in_map_iff. exists (g, n). auto.
Qed.

Lemma few_generations vs sel : links_versions (c_links c) vs -> newest (c_limit c) vs sel -> no_specialisations c ->
  (length (flat_map link_generations sel) <= length sel)%nat.
Proof.
  intros LV (sk & PM & _) NS.
  assert (forall vl, In vl sel -> In (snd vl) (c_links c)) as IN.
  { intros vl Hv. assert (In vl vs) as Hvs by (eapply Permutation_in; [symmetry; exact PM | apply in_or_app; right; exact Hv]).
    clear -LV Hvs. induction LV as [|l vl' ls vs' [E _] _ IH]; [destruct Hvs|]. destruct Hvs as [->|Hvs]; [left; symmetry; exact E | right; apply IH; exact Hvs]. }
  clear PM. induction sel as [|[v l] sel IH]; [reflexivity|]. cbn [flat_map length]. rewrite app_length.
  specialize (IH (fun vl H => IN vl (or_intror H))).
  assert (length (link_generations (v, l)) <= 1)%nat as L1; [|lia].
  unfold link_generations. cbn [fst snd]. destruct (l_spec l) as [b|] eqn:LS; [|cbn; lia]. cbv zeta.
  unfold parse_boot_json. cbn [g_specs]. rewrite (NS l b (IN _ (or_introl eq_refl)) LS). cbn. lia.
Qed.
End Run.

Lemma components_number d (l : list (generation * name)) mm :
  (forall g n, In (g, n) l -> plain_names g) ->
  NoDup (map (fun g => (g_version g, g_specname g)) (map fst l)) ->
  exact_components d l mm -> number (variant d mm) (length l).
Proof.
  intros PN ND H. exists (map (fun gn : generation * name => component d (fst gn)) l). split; [|split; [|apply map_length]].
  - clear H mm. induction l as [|[g n] l IH]; [constructor|]. cbn [map fst] in ND |- *. inversion ND as [|? ? NI ND']; subst.
    constructor; [|apply IH; [intros g' n' I; exact (PN g' n' (or_intror I)) | exact ND']].
    intros I. apply NI. apply in_map_iff in I as ([g' n'] & E & I). cbn [fst] in E.
    apply component_inj in E as [E1 E2]; [|exact (PN _ _ (or_intror I)) | exact (PN _ _ (or_introl eq_refl))].
    apply in_map_iff. exists g'. split; [congruence|]. apply (in_map fst _ _ I).
  - intros p. split.
    + intros I. apply in_map_iff in I as ([g n] & <- & I). cbn [fst].
      assert (below (d ++ [lit "635-lanzaboote.pcrlock.d"]) (component d g)) as B.
      { unfold component. eexists _, []. rewrite <- app_assoc. reflexivity. }
      split; [exact B|]. apply (H _ B). exists g, n. auto.
    + intros [B L]. apply (H p B) in L as (g & n & I & ->). apply in_map_iff. exists (g, n). auto.
Qed.

Lemma generations_number sel : Forall (fun vl => ~ unreadable vl) sel ->
  length (flat_map link_generations sel) = (length sel + list_sum (map specialisations sel))%nat.
Proof.
  induction 1 as [|[v l] sel U _ IH]; [reflexivity|]. cbn [flat_map length map list_sum fold_right]. rewrite app_length, IH.
  unfold link_generations, specialisations. cbn [snd fst]. destruct (l_spec l) as [b|] eqn:E.
  - cbv zeta. unfold parse_boot_json. cbn [length g_specs]. rewrite map_length. unfold list_sum. cbn [fold_right]. lia.
  - exfalso. apply U. exact E.
Qed.

Lemma number_at_most_iff {A} (P : A -> Prop) n k : number P n -> (at_most P k <-> (n <= k)%nat).
Proof.
  intros N. split.
  - destruct N as (l & ND & H & <-). intros AM. apply AM; [exact ND|]. intros x. apply H.
  - intros LE. eapply at_most_le; [apply number_at_most; exact N | exact LE].
Qed.
