(** The shape of a whole run (install.rs:109-225): reading links, installing
    generations, syncing, installing the boot loader, collecting garbage. *)
From Coq Require Import List NArith Bool Lia Permutation.
From Verif Require Import Base PBase MText MGeneration MNames MFs PFs MPe MTool MInstall PInstall SInstall PFiles PPaths PGen PBoot PGc PSelect.
Import ListNotations.
Open Scope N_scope.

(** A sublist. *)
Inductive sub {A} : list A -> list A -> Prop :=
| sub_nil : sub [] []
| sub_keep x a b : sub a b -> sub (x :: a) (x :: b)
| sub_drop x a b : sub a b -> sub a (x :: b).

Lemma sub_refl {A} (l : list A) : sub l l.
Proof. induction l; constructor; auto. Qed.

Lemma sub_incl {A} (a b : list A) : sub a b -> incl a b.
Proof. induction 1; intros z Hz; [contradiction | destruct Hz; [left|right]; auto | right; auto]. Qed.

Lemma sub_length {A} (a b : list A) : sub a b -> (length a <= length b)%nat.
Proof. induction 1; cbn; lia. Qed.

Section Run.
Variable e : env.
Variable c : config.

(** ** Collection *)

Definition gc_dir (dir : path) : Prop :=
  dir = d_nixos c \/ dir = d_linux c \/ exists d, c_pcrlock c = Some d /\ dir = d_lock_lanzaboote d.

Inductive gc_change (roots : list path) (m : fs) : op -> Prop :=
| G_remove dir q p : gc_dir dir -> below dir q = true -> below q p = true -> ~ In q roots ->
    (dir = d_linux c -> linux_filter q = true) -> gc_change roots m (ORemove p).

(** What a collection may do; listings are not trusted unless honest. *)
Definition GG (roots : list path) (m : fs) (o : op) : Prop :=
  (exists p, o = ORemove p) /\ (honest_listings e -> gc_change roots m o).

Lemma sat_for_inv {A} G (f : A -> I unit) (P : st -> Prop) (Q : res unit unit -> st -> Prop) l : forall s,
  (forall x s1, In x l -> P s1 -> sat G (f x) s1 (fun r s' => P s')) ->
  P s -> (forall r s', P s' -> Q r s') -> sat G (ifor l f) s Q.
Proof.
  induction l as [|x l IH]; intros s H HP HQ; cbn [ifor]; [apply sat_ret; auto|].
  apply sat_bind. eapply sat_mono; [apply H; [left; reflexivity | exact HP]|].
  intros [[]|[]|] s1 _ P1; cbn [after]; auto. apply IH; auto. intros; apply H; [right; assumption | assumption].
Qed.

Lemma sat_gc_dir dir pred s (Q : res unit unit -> st -> Prop) :
  gc_dir dir -> (forall p, dir = d_linux c -> pred p = true -> linux_filter p = true) ->
  (forall s' r, s_roots s' = s_roots s -> s_broken s' = s_broken s -> Q r s') ->
  sat (GG (s_roots s)) (collect_garbage_with_filter e dir pred) s Q.
Proof.
  intros GD PR HQ. unfold collect_garbage_with_filter. apply sat_bind, sat_get; cbn [after].
  apply (sat_for_inv _ _ (fun s' => s_roots s' = s_roots s /\ s_broken s' = s_broken s)); [| auto | intros r s' []; auto].
  intros p s1 IN [R B].
  assert (honest_listings e -> below dir p = true) as BW.
  { intros [_ HL]. apply HL, filter_In in IN as [_ BW]. exact BW. }
  destruct (existsb (eqb_path p) (s_roots s)) eqn:EX; [apply sat_ret; auto|].
  destruct (pred p) eqn:PP; cbn [negb]; [|apply sat_ret; auto].
  assert (forall m q, (honest_listings e -> below p q = true) -> GG (s_roots s) m (ORemove q)) as RM.
  { intros m q BQ. split; [eauto|]. intros HL. eapply G_remove; eauto.
    intros INR. assert (existsb (eqb_path p) (s_roots s) = true); [|congruence].
    apply existsb_exists. exists p. split; [exact INR | apply eqb_path_refl]. }
  apply sat_bind, sat_is_dir; cbn [after]. intros d _ _. destruct d.
  - unfold remove_dir_all. apply sat_bind, sat_get; cbn [after].
    apply (sat_for_inv _ _ (fun s' => s_roots s' = s_roots s /\ s_broken s' = s_broken s)); auto.
    intros q s2 INQ [R2 B2].
    apply sat_bind, sat_guard; cbn [after]; [auto|]. apply sat_emit; [apply RM | auto].
    intros [_ HL]. apply in_rev, HL, filter_In in INQ as [_ BQ]. exact BQ.
  - apply sat_bind, sat_fault; cbn [after]. apply sat_bind, sat_get; cbn [after].
    destruct (e_fault e _); [|apply sat_ret; auto].
    destruct (lookup _ p) as [[|x b]|]; try (apply sat_ret; auto; fail).
    apply sat_emit; [apply RM; intros _; apply below_refl | auto].
Qed.

Lemma sat_collect_all s (Q : res unit unit -> st -> Prop) :
  (forall s', s_broken s <> [] -> s' = s -> Q (Ok tt) s') ->
  (forall s' r, s_broken s = [] -> s_roots s' = s_roots s -> Q r s') ->
  sat (fun m o => s_broken s = [] /\ GG (s_roots s) m o) (collect_all e c) s Q.
Proof.
  intros HB HQ. unfold collect_all. apply sat_bind, sat_get; cbn [after].
  destruct (s_broken s) as [|v b] eqn:BR; [|apply sat_ret, HB; [discriminate | reflexivity]].
  apply sat_weaken with (G := GG (s_roots s)); [auto|].
  assert (forall r s', s_roots s' = s_roots s -> Q r s') as HQ' by auto.
  apply sat_bind, sat_gc_dir; [left; reflexivity | |].
  { intros p X. destruct (nixos_linux c X). }
  intros s1 r1 R1 B1. destruct r1 as [[]|[]|]; cbn [after]; try (apply HQ'; congruence).
  rewrite <- R1. apply sat_bind, sat_gc_dir; [right; left; reflexivity | auto |].
  intros s2 r2 R2 B2. destruct r2 as [[]|[]|]; cbn [after]; try (apply HQ'; congruence).
  destruct (c_pcrlock c) as [d|] eqn:PL.
  - rewrite <- R2. apply sat_gc_dir; [right; right; eauto | |].
    + intros p X. unfold d_lock_lanzaboote, d_linux in X. apply app_inj_tail in X as [_ X]. discriminate.
    + intros s3 r3 R3 B3. apply HQ'; congruence.
  - apply sat_ret. apply HQ'; congruence.
Qed.

(** ** Reading links *)

Definition readable (vl : N * link) : Prop := l_spec (snd vl) <> None.

Lemma sat_from_links G ls : forall s (Q : res unit (list generation) -> st -> Prop),
  (forall s' got, sub got ls -> Forall readable got -> s_fs s' = s_fs s -> s_trace s' = s_trace s ->
     s_roots s' = s_roots s -> incl (s_broken s) (s_broken s') ->
     (got = ls /\ s_broken s' = s_broken s) \/ (got <> ls /\ s_broken s' <> []) ->
     (no_faults e -> tops got = tops ls) -> Q (Ok (tops got)) s') ->
  sat G (generations_from_links e ls) s Q.
Proof.
  induction ls as [|[v l] ls IH]; intros s Q HO; cbn [generations_from_links].
  - apply sat_ret. apply (HO s []); auto; try constructor; try apply incl_refl; auto.
  - apply sat_bind. unfold generation_from_link. apply sat_bind, sat_fault; cbn [after].
    assert ((exists b, l_spec l = Some b /\ e_fault e (s_tick s) = NoFault) \/
            (l_spec l = None \/ e_fault e (s_tick s) <> NoFault)) as [(b & LB & FB)|BAD].
    { destruct (l_spec l) as [b|]; [|auto]. destruct (e_fault e (s_tick s)); [left; eauto | right; right; discriminate]. }
    + rewrite FB, LB. apply sat_ret; cbn [after]. apply sat_bind, IH.
      intros s' got SB RD F T R BI B1 N; cbn [after]. apply sat_ret.
      assert (tops ((v, l) :: got) = parse_boot_json v (l_time l) b :: tops got) as TG.
      { unfold tops. cbn [flat_map fst snd]. rewrite LB. reflexivity. }
      rewrite <- TG. apply (HO s' ((v, l) :: got)); auto.
      * constructor; exact SB.
      * constructor; [unfold readable; cbn; congruence | exact RD].
      * destruct B1 as [[-> B1]|[B1 B2]]; [left; auto | right; split; [congruence | exact B2]].
      * intros NF. unfold tops in *. cbn [flat_map fst snd]. rewrite LB, N by exact NF. reflexivity.
    + assert (sat G (let* _ := ibroken v in iret (@None generation)) (ticked s) (after G (fun o => let* gs := generations_from_links e ls in
                       iret (match o with Some g => g :: gs | None => gs end)) Q)) as H.
      { apply sat_bind, sat_broken; cbn [after]. apply sat_ret; cbn [after]. apply sat_bind, IH.
        intros s' got SB RD F T R BI B1 N; cbn [after]. apply sat_ret. apply (HO s' got); auto.
        - constructor; exact SB.
        - intros x Hx. apply BI. right; exact Hx.
        - right. split.
          + intros ->. apply sub_length in SB. cbn in SB. lia.
          + intros X. specialize (BI v (or_introl eq_refl)). rewrite X in BI. contradiction.
        - intros NF. rewrite (N NF). unfold tops. cbn [flat_map fst snd]. destruct BAD as [BAD|BAD]; [rewrite BAD; reflexivity|].
          destruct (BAD (NF _)). }
      destruct (e_fault e (s_tick s)); [destruct BAD as [BAD|BAD]; [rewrite BAD; exact H | congruence] | exact H].
Qed.

(** ** The whole run *)

Definition synced_from (s s' : st) : Prop :=
  s_fs s' = apply (OSyncAll (c_esp c)) (s_fs s) /\ s_trace s' = s_trace s ++ [OSyncAll (c_esp c)] /\
  s_roots s' = s_roots s /\ s_broken s' = s_broken s.

(** The state after reading the links of [sel], of which those of [got] were
    readable. *)
Record loaded (m : fs) (sel got : list (N * link)) (s0 : st) : Prop := {
  lo_sub : sub got sel;
  lo_readable : Forall readable got;
  lo_fs : s_fs s0 = m;
  lo_trace : s_trace s0 = [];
  lo_roots : s_roots s0 = initial_roots c;
  lo_broken : s_broken s0 = [] <-> got = sel;
  lo_faults : no_faults e -> tops got = tops sel;
  lo_sel : exists vs, parse_links (c_links c) = Some vs /\ sel = limit_links (c_limit c) (sort_links vs) }.

Inductive run_shape (m : fs) (s' : st) (r : res unit unit) : Prop :=
| R_links : (exists l, In l (c_links c) /\ link_version (l_name l) = None) ->
    same (start c m) s' -> r = Err tt -> run_shape m s' r
| R_none vs sel s0 : links_versions (c_links c) vs -> newest (c_limit c) vs sel ->
    loaded m sel [] s0 -> s' = s0 -> r = Err tt -> run_shape m s' r
| R_gen vs sel got s0 : links_versions (c_links c) vs -> newest (c_limit c) vs sel ->
    loaded m sel got s0 -> got <> [] ->
    reach (GA e c (fun g => In g (flat_map link_generations got))) s0 s' -> r <> Ok tt -> run_shape m s' r
| R_boot vs sel got s0 s1 s2 : links_versions (c_links c) vs -> newest (c_limit c) vs sel ->
    loaded m sel got s0 -> got <> [] ->
    processed e c (fun g => In g (flat_map link_generations got)) (flat_map link_generations got) s0 s1 ->
    s_broken s1 = s_broken s0 ->
    synced_from s1 s2 -> quiet s2 s' -> reach (GB e c (s_fs s2)) s2 s' -> r <> Ok tt -> run_shape m s' r
| R_kept vs sel got s0 s1 s2 : links_versions (c_links c) vs -> newest (c_limit c) vs sel ->
    loaded m sel got s0 -> got <> [] ->
    processed e c (fun g => In g (flat_map link_generations got)) (flat_map link_generations got) s0 s1 ->
    s_broken s1 = s_broken s0 ->
    synced_from s1 s2 -> reach (GB e c (s_fs s2)) s2 s' -> boot_done e c s2 s' -> got <> sel ->
    r = Ok tt -> run_shape m s' r
| R_collect vs sel s0 s1 s2 s3 : links_versions (c_links c) vs -> newest (c_limit c) vs sel ->
    loaded m sel sel s0 -> sel <> [] ->
    processed e c (fun g => In g (flat_map link_generations sel)) (flat_map link_generations sel) s0 s1 ->
    s_broken s1 = s_broken s0 ->
    synced_from s1 s2 -> reach (GB e c (s_fs s2)) s2 s3 -> boot_done e c s2 s3 ->
    reach (GG (s_roots s3)) s3 s' ->
    collect_all e c s3 = (s', r) ->
    run_shape m s' r.

Lemma parse_links_none ls : parse_links ls = None -> exists l, In l ls /\ link_version (l_name l) = None.
Proof.
  induction ls as [|x ls IH]; cbn; [discriminate|].
  destruct (link_version (l_name x)) as [v|] eqn:E; [|intros _; exists x; auto].
  destruct (parse_links ls) as [r|]; [discriminate|]. intros _. destruct (IH eq_refl) as (l & H & N). eauto.
Qed.

Lemma loaded_broken m sel got s0 s : loaded m sel got s0 -> s_broken s = s_broken s0 -> s_broken s = [] <-> got = sel.
Proof. intros L ->. apply (lo_broken _ _ _ _ L). Qed.

Definition shape_of (m : fs) (x : st * res unit unit) : Prop := run_shape m (fst x) (snd x).

Lemma run_shape_holds m :
  run_shape m (fst (run_install e c m)) (snd (run_install e c m)).
Proof.
  change (shape_of m (run_install e c m)). unfold run_install, install.
  destruct (parse_links (c_links c)) as [vs|] eqn:PL.
  2: { unfold shape_of; cbn. apply R_links; [apply parse_links_none; exact PL | apply same_refl | reflexivity]. }
  unfold ibind at 1. cbn [ok_or ilift]. pose proof PL as PL0. apply parse_links_spec in PL.
  set (sel := limit_links (c_limit c) (sort_links vs)).
  pose proof (limit_links_newest (c_limit c) vs) as NW. fold sel in NW.
  assert (sat (fun _ _ => True) (generations_from_links e sel) (start c m)
            (fun r s0 => exists got, loaded m sel got s0 /\ r = Ok (tops got))) as [_ (got & LD & E)].
  { apply sat_from_links. intros s' got SB RD F T R BI B1 N. exists got. split; [|reflexivity]. constructor; auto.
    { destruct B1 as [[-> B1]|[B1 B2]]; cbn in *; tauto. }
    exists vs. auto. }
  destruct (generations_from_links e sel (start c m)) as [s0 r0] eqn:GL. cbn [fst snd] in LD, E. subst r0.
  set (U := fun g => In g (flat_map link_generations got)).
  unfold install_generations_from_links. unfold ibind at 1 2. rewrite GL.
  destruct (tops got) as [|g0 gs] eqn:TG.
  { assert (got = []) as ->.
    { pose proof (lo_readable _ _ _ _ LD) as RD. destruct got as [|[v l] got]; [reflexivity|]. inversion RD as [|? ? R1 R2]; subst.
      unfold readable in R1. cbn in R1. unfold tops in TG. cbn [flat_map fst snd] in TG. destruct (l_spec l); [discriminate | congruence]. }
    unfold shape_of; cbn. eapply R_none; eauto. }
  assert (got <> []) as NE by (intros ->; discriminate).
  rewrite <- TG. clear g0 gs TG GL.
  assert (forall s, ifor (tops got) (fun g => let* _ := install_generation e c g in ifor (g_specs g) (install_generation e c)) s
            = ifor (flat_map link_generations got) (install_generation e c) s) as IF.
  { intros s. rewrite ifor_nested, tops_generations. reflexivity. }
  unfold ibind at 1. rewrite IF. clear IF.
  destruct (sat_generations e c U (flat_map link_generations got) ltac:(auto) s0
     (fun r s1 => s_broken s1 = s_broken s0 /\ (r = Ok tt -> processed e c U (flat_map link_generations got) s0 s1)))
     as [RA [BA PA]]; [split; [assumption | discriminate] | split; [assumption | discriminate] | auto |].
  destruct (ifor (flat_map link_generations got) (install_generation e c) s0) as [s1 r1]. cbn [fst snd] in RA, BA, PA.
  destruct r1 as [[]|[]|]; [|unfold shape_of; cbn [fst snd]; eapply R_gen; eauto; discriminate | unfold shape_of; cbn [fst snd]; eapply R_gen; eauto; discriminate].
  specialize (PA eq_refl).
  (* the sync *)
  assert (sat (GA e c U) (let* _ := iguard e in
             let* d := iget (fun s => is_dir (s_fs s) (c_esp c)) in
             if negb d then ifail else
             let* _ := iguard e in
             iemit (OSyncAll (c_esp c))) s1 (fun r s2 => r = Err tt \/ r = Ok tt /\ synced_from s1 s2)) as [RS QS].
  { apply sat_bind, sat_guard; cbn [after]; [auto|]. apply sat_bind, sat_get; cbn [after].
    destruct (is_dir _ _); cbn [negb]; [|apply sat_fail; auto].
    apply sat_bind, sat_guard; cbn [after]; [auto|]. apply sat_emit; [split; [exact Logic.I | apply A_all]|].
    right. repeat split. }
  destruct ((let* _ := iguard e in
             let* d := iget (fun s => is_dir (s_fs s) (c_esp c)) in
             if negb d then ifail else
             let* _ := iguard e in
             iemit (OSyncAll (c_esp c))) s1) as [s2 r2] eqn:E2. cbn [fst snd] in RS, QS.
  destruct QS as [-> | [-> SY]].
  { unfold shape_of; cbn [fst snd]. eapply R_gen; eauto; [eapply reach_trans; eauto | discriminate]. }
  (* the boot loader *)
  unfold ibind at 1.
  destruct (sat_install_boot e c (s_fs s2) s2 (fun r s3 => quiet s2 s3 /\ (r = Ok tt -> boot_done e c s2 s3)))
    as [RB [QB BB]]; [reflexivity | split; [assumption | discriminate] | split; [assumption | discriminate]
                     | intros s' D; split; [apply D | auto] |].
  destruct (install_systemd_boot e c s2) as [s3 r3]. cbn [fst snd] in RB, QB, BB.
  destruct r3 as [[]|[]|]; [|unfold shape_of; cbn [fst snd]; eapply R_boot; eauto; discriminate | unfold shape_of; cbn [fst snd]; eapply R_boot; eauto; discriminate].
  specialize (BB eq_refl).
  assert (s_broken s3 = s_broken s0) as B3.
  { destruct QB as [_ QB]. destruct SY as (_ & _ & _ & SY). congruence. }
  pose proof (loaded_broken _ _ _ _ _ LD B3) as LB.
  destruct (sat_collect_all s3 (fun r s' => (s_broken s3 <> [] /\ s' = s3 /\ r = Ok tt) \/ s_broken s3 = [])) as [RC QC]; auto.
  destruct QC as [(N1 & N2 & N3)|QC].
  - unfold shape_of. rewrite N2, N3. eapply R_kept; eauto. tauto.
  - apply LB in QC as ->. eapply R_collect; eauto.
    + eapply reach_weaken; [|exact RC]. intros ? ? []; auto.
    + destruct (collect_all e c s3); reflexivity.
Qed.
End Run.
