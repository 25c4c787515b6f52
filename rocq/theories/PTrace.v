(** Consequences of the shape of a run for its sequence of changes. *)
From Coq Require Import List NArith Bool Lia Permutation.
From Verif Require Import Base PBase MText PText MGeneration MNames PNames SNames MFs PFs MPe MTool MInstall PInstall SInstall PFiles PPaths PGen PBoot PGc PSelect PRun.
Import ListNotations.
Open Scope N_scope.

Section Trace.
Variable e : env.
Variable c : config.

(** ** Entries *)

Lemma entry_ends g p : is_entry e c g p -> file_ends (lit ".efi") p.
Proof.
  intros (key & cnt & _ & _ & [-> | ->]); unfold in_esp.
  - rewrite (app_assoc (stub_prefix (e_sha e) key g)), utf8_efi. exists (c_esp c ++ [lit "EFI"; lit "Linux"]). eexists.
    split; [rewrite <- app_assoc; reflexivity | eexists; reflexivity].
  - rewrite (app_assoc (stub_prefix (e_sha e) key g)), utf8_efi.
    destruct (components_end (utf8_encode (stub_prefix (e_sha e) key g ++ cnt)) (lit ".efi")) as (cs & n & E & _).
    + intros H; vm_compute in H; intuition discriminate.
    + cbn; lia.
    + rewrite E. exists ((c_esp c ++ [lit "EFI"; lit "Linux"]) ++ cs), (n ++ lit ".efi").
      split; [rewrite <- !app_assoc; reflexivity | eexists; reflexivity].
Qed.

(** A file named [.efi] stays one during the generation phase. *)
Lemma gen_keeps_file U m o p : GA e c U m o -> file_ends (lit ".efi") p ->
  (exists x b, lookup m p = Some (NFile x b)) -> exists x b, lookup (apply o m) p = Some (NFile x b).
Proof.
  intros [PX CH] EP (x & b & L). rewrite lookup_apply.
  destruct CH as [g p0 q Ug Hp BQ | g p0 Ug GF | g p0 y Ug GF | g p0 Ug GF | g label y Ug LB LT | p0
                 | g p0 Ug GL | g p0 y Ug GL | g kver kd id image key out Ug BU K SG LT HK HI | ].
  - destruct (eqb_path q p) eqn:E; [|eauto]. apply eqb_path_spec in E; subst. destruct PX as (_ & _ & PX). congruence.
  - destruct (eqb_path (tmp_path p0) p) eqn:E; eauto.
  - destruct (eqb_path (tmp_path p0) p) eqn:E; eauto.
  - destruct (eqb_path (tmp_path p0) p) eqn:E; rewrite L; cbn; eauto.
  - rewrite LT. destruct (eqb_path (ca_path e c label y) p) eqn:E; eauto.
    destruct (eqb_path (tmp_path (ca_path e c label y)) p) eqn:E2; eauto.
    apply eqb_path_spec in E2; subst. exfalso.
    eapply (efi_ne_tmp _ _ EP); [|reflexivity]. eapply tmp_ends. constructor; eauto.
  - eauto.
  - destruct (eqb_path p0 p) eqn:E; eauto.
  - destruct (eqb_path p0 p) eqn:E; eauto.
  - rewrite LT. destruct (eqb_path (stub_path e c key g) p) eqn:E; eauto.
    destruct (eqb_path (tmp_path (stub_path e c key g)) p) eqn:E2; eauto.
    apply eqb_path_spec in E2; subst. exfalso.
    eapply (efi_ne_tmp _ _ EP); [|reflexivity]. eapply tmp_ends. apply gf_stub; eauto.
  - destruct (below (c_esp c) p); rewrite L; cbn; eauto.
Qed.

Lemma gen_keeps_entry U m os g : steps (GA e c U) m os -> has_entry e c m g -> has_entry e c (apply_all os m) g.
Proof.
  intros ST (p & x & b & IE & L).
  assert (exists x b, lookup (apply_all os m) p = Some (NFile x b)) as (x' & b' & L').
  { apply (steps_invariant (GA e c U) (fun m => exists x b, lookup m p = Some (NFile x b))) with (m := m); eauto.
    intros. eapply gen_keeps_file; eauto. eapply entry_ends; eauto. }
  exists p, x', b'. auto.
Qed.

Lemma stub_path_entry key g : digit_class (e_digit e) -> sg_key (e_signer e) = Some key -> is_entry e c g (stub_path e c key g).
Proof.
  intros DC K. pose proof (stub_name_regex (e_digit e) (e_sha e) key (c_tries c) g DC) as R.
  apply stub_regex_spec in R as (cnt & CN & EQ); [|exact DC]. exists key, cnt. split; [exact K|]. split; [exact CN|].
  right. rewrite <- EQ. unfold stub_path.
  destruct (stub_name_nixos (e_sha e) key (c_tries c) g) as [r ->]. rewrite utf8_encode_app.
  rewrite path_join_start.
  - unfold in_esp, d_linux, d_efi. rewrite <- !app_assoc. reflexivity.
  - intros H; vm_compute in H; intuition discriminate.
  - discriminate.
Qed.

Lemma done_has_entry g s s' : digit_class (e_digit e) -> done_gen e c g s s' -> has_entry e c (s_fs s') g.
Proof.
  intros DC [_ [(F & _ & key & t & n & kp & ip & extra & K & EF & _)
                |(kver & kd & id & image & key & out & extra & lock & _ & K & _ & _ & _ & L & _)]].
  - destruct EF as (_ & FD & stub & b & k & i & L & _). exists (d_linux c ++ [n]), stub, b. rewrite F. split; [|exact L].
    apply find_some in FD as [_ FD]. destruct (utf8_decode n) as [t'|] eqn:D; [|discriminate].
    apply stub_regex_spec in FD as (cnt & CN & ->); [|exact DC]. apply utf8_encode_decode_spec in D as [D _].
    exists key, cnt. split; [exact K|]. split; [exact CN|]. left. unfold d_linux, d_efi, in_esp.
    rewrite <- !app_assoc. cbn [app]. rewrite D. reflexivity.
  - exists (stub_path e c key g), out, false. split; [|exact L]. apply stub_path_entry; auto.
Qed.

Lemma processed_entries U gs s s' : digit_class (e_digit e) -> processed e c U gs s s' ->
  forall g, In g gs -> has_entry e c (s_fs s') g.
Proof.
  intros DC PR. induction PR as [s|g0 gs s s1 s2 R D PR IH]; intros g H; [contradiction|].
  destruct H as [-> |H]; [|auto].
  pose proof (done_has_entry _ _ _ DC D) as HE. apply processed_reach in PR as [(os & _ & -> & ST) _].
  eapply gen_keeps_entry; eauto.
Qed.

(** ** Phases *)

(** A run's changes in their three phases. *)
Record parts (m : fs) (s' : st) (r : res unit unit) (A B C : list op) (U : generation -> Prop) (roots : list path) : Prop := {
  pa_trace : s_trace s' = A ++ B ++ C;
  pa_fs : s_fs s' = apply_all (A ++ B ++ C) m;
  pa_gen : steps (GA e c U) m A;
  pa_boot : steps (GB e c (apply_all A m)) (apply_all A m) B;
  pa_gc : steps (GG e c roots) (apply_all (A ++ B) m) C;
  pa_roots : incl (initial_roots c) roots;
  pa_selected : forall g, U g -> selected c g;
  pa_done : r = Ok tt \/ B ++ C <> [] -> exists A1 vs sel got,
    A = A1 ++ [OSyncAll (c_esp c)] /\ links_versions (c_links c) vs /\ newest (c_limit c) vs sel /\
    sub got sel /\ Forall readable got /\ (C <> [] -> got = sel) /\
    (digit_class (e_digit e) -> forall g, In g (flat_map link_generations got) -> has_entry e c (apply_all A1 m) g) }.

Lemma sub_in_map {A B} (f : A -> list B) a b x : sub a b -> In x (flat_map f a) -> In x (flat_map f b).
Proof.
  intros S H. apply in_flat_map in H as (y & H1 & H2). apply in_flat_map. exists y. split; [|exact H2].
  apply (sub_incl _ _ S y H1).
Qed.

Lemma reach_steps G s s' : reach G s s' -> exists os, s_trace s' = s_trace s ++ os /\ s_fs s' = apply_all os (s_fs s) /\ steps G (s_fs s) os.
Proof. intros [H _]. exact H. Qed.

(** The common part of runs that reach the boot loader phase. *)
Lemma parts_core m vs sel got s0 s1 s2 :
  links_versions (c_links c) vs -> newest (c_limit c) vs sel -> loaded e c m sel got s0 ->
  processed e c (fun g => In g (flat_map link_generations got)) (flat_map link_generations got) s0 s1 ->
  synced_from c s1 s2 ->
  exists A, s_trace s2 = A /\ s_fs s2 = apply_all A m /\ steps (GA e c (fun g => In g (flat_map link_generations got))) m A /\
    incl (initial_roots c) (s_roots s2) /\
    (forall g, In g (flat_map link_generations got) -> selected c g) /\
    exists A1, A = A1 ++ [OSyncAll (c_esp c)] /\
      (digit_class (e_digit e) -> forall g, In g (flat_map link_generations got) -> has_entry e c (apply_all A1 m) g).
Proof.
  intros LV NW LD PR (F2 & T2 & R2 & _). pose proof (processed_reach _ _ _ _ _ _ PR) as [(os & T & F & ST) [IR _]].
  rewrite (lo_trace _ _ _ _ _ _ LD) in T. cbn [app] in T. rewrite (lo_fs _ _ _ _ _ _ LD) in F, ST.
  exists (s_trace s2). split; [reflexivity|]. rewrite T2, T. split; [|split; [|split; [|split]]].
  - rewrite F2, F, apply_all_app. reflexivity.
  - apply steps_app. split; [exact ST|]. cbn. split; [|exact Logic.I]. split; [exact Logic.I | apply A_all].
  - rewrite R2. rewrite (lo_roots _ _ _ _ _ _ LD) in IR. exact IR.
  - intros g H. exists vs, sel. split; [exact LV|]. split; [exact NW|]. eapply sub_in_map; [apply (lo_sub _ _ _ _ _ _ LD) | exact H].
  - exists os. split; [reflexivity|]. intros DC g H. rewrite <- F. eapply processed_entries; eauto.
Qed.

Lemma run_parts m :
  exists A B C U roots, parts m (fst (run_install e c m)) (snd (run_install e c m)) A B C U roots.
Proof.
  pose proof (run_shape_holds e c m) as SH. destruct (run_install e c m) as [s' r]. cbn [fst snd] in *.
  destruct SH as [BAD SM R | vs sel s0 LV NW LD E R | vs sel got s0 LV NW LD NE RA R
    | vs sel got s0 s1 s2 LV NW LD NE PR BR SY QB RB R
    | vs sel got s0 s1 s2 LV NW LD NE PR BR SY RB BD NS R
    | vs sel s0 s1 s2 s3 LV NW LD NE PR BR SY RB BD RC CC].
  - exists [], [], [], (fun _ => False), (initial_roots c). destruct SM as (F & T & _). constructor; cbn; auto using incl_refl.
    + contradiction.
    + intros [X|X]; congruence.
  - exists [], [], [], (fun _ => False), (initial_roots c). rewrite E. constructor; cbn; auto using incl_refl.
    + apply (lo_trace _ _ _ _ _ _ LD).
    + apply (lo_fs _ _ _ _ _ _ LD).
    + contradiction.
    + intros [X|X]; congruence.
  - apply reach_steps in RA as (os & T & F & ST). rewrite (lo_trace _ _ _ _ _ _ LD) in T. rewrite (lo_fs _ _ _ _ _ _ LD) in F, ST.
    exists os, [], [], (fun g => In g (flat_map link_generations got)), (initial_roots c).
    constructor; cbn; rewrite ?app_nil_r; auto using incl_refl.
    + intros g H. exists vs, sel. split; [exact LV|]. split; [exact NW|]. eapply sub_in_map; [apply (lo_sub _ _ _ _ _ _ LD) | exact H].
    + intros [X|X]; congruence.
  - destruct (parts_core _ _ _ _ _ _ _ LV NW LD PR SY) as (A & TA & FA & SA & IR & SE & A1 & EA & HE).
    apply reach_steps in RB as (os & T & F & ST). rewrite FA in ST, F. rewrite TA in T.
    exists A, os, [], (fun g => In g (flat_map link_generations got)), (initial_roots c).
    constructor; cbn; rewrite ?app_nil_r; auto using incl_refl.
    + rewrite F, apply_all_app. reflexivity.
    + intros _. exists A1, vs, sel, got. split; [exact EA|]. split; [exact LV|]. split; [exact NW|].
      split; [apply (lo_sub _ _ _ _ _ _ LD)|]. split; [apply (lo_readable _ _ _ _ _ _ LD)|]. split; [congruence | exact HE].
  - destruct (parts_core _ _ _ _ _ _ _ LV NW LD PR SY) as (A & TA & FA & SA & IR & SE & A1 & EA & HE).
    apply reach_steps in RB as (os & T & F & ST). rewrite FA in ST, F. rewrite TA in T.
    exists A, os, [], (fun g => In g (flat_map link_generations got)), (initial_roots c).
    constructor; cbn; rewrite ?app_nil_r; auto using incl_refl.
    + rewrite F, apply_all_app. reflexivity.
    + intros _. exists A1, vs, sel, got. split; [exact EA|]. split; [exact LV|]. split; [exact NW|].
      split; [apply (lo_sub _ _ _ _ _ _ LD)|]. split; [apply (lo_readable _ _ _ _ _ _ LD)|]. split; [congruence | exact HE].
  - destruct (parts_core _ _ _ _ _ _ _ LV NW LD PR SY) as (A & TA & FA & SA & IR & SE & A1 & EA & HE).
    pose proof BD as ([QR _] & _).
    apply reach_steps in RB as (os & T & F & ST). rewrite FA in ST, F. rewrite TA in T.
    apply reach_steps in RC as (os2 & T2 & F2 & ST2).
    exists A, os, os2, (fun g => In g (flat_map link_generations sel)), (s_roots s3).
    constructor; auto.
    + rewrite T2, T, app_assoc. reflexivity.
    + rewrite F2, F, !apply_all_app. reflexivity.
    + rewrite apply_all_app, <- F. exact ST2.
    + rewrite QR. exact IR.
    + intros _. exists A1, vs, sel, sel. split; [exact EA|]. split; [exact LV|]. split; [exact NW|].
      split; [apply sub_refl|]. split; [apply (lo_readable _ _ _ _ _ _ LD)|]. split; [reflexivity | exact HE].
Qed.

(** ** Properties of every change *)

Definition no_remove (os : list op) : Prop := forall p, ~ In (ORemove p) os.

Lemma steps_In G m os o : steps G m os -> In o os -> exists m', G m' o.
Proof.
  revert m; induction os as [|x os IH]; intros m; cbn; [contradiction|]. intros [H1 H2] [-> |H]; eauto.
Qed.

Lemma gen_no_remove U m os : steps (GA e c U) m os -> no_remove os.
Proof. intros ST p H. destruct (steps_In _ _ _ _ ST H) as (m' & _ & X). inversion X. Qed.

Lemma boot_no_remove m0 m os : steps (GB e c m0) m os -> no_remove os.
Proof. intros ST p H. destruct (steps_In _ _ _ _ ST H) as (m' & _ & X). inversion X. Qed.
End Trace.
