(** Proofs about garbage collection (C05) and about the selection of links
    (C01, C04). *)
From Coq Require Import List NArith Bool Lia Permutation Sorted.
From Verif Require Import Base PBase MGeneration MNames MFs PFs MTool MInstall PInstall SInstall.
Import ListNotations.
Open Scope N_scope.

Lemma at_or_above_below a p : at_or_above a p <-> below a p = true.
Proof. unfold at_or_above. symmetry. apply below_spec. Qed.

(** ** Exact effect of a collection *)
Section Exact.
Variable e : env.
Hypothesis NF : no_faults e.
Hypothesis CL : complete_listings e.

Lemma walk_In t l x : In x (e_walk e t l) <-> In x l.
Proof.
  destruct CL as [_ H]. split; intros Hx.
  - eapply Permutation_in; eauto.
  - eapply Permutation_in; [apply Permutation_sym; eauto | exact Hx].
Qed.

Definition any (m : fs) (o : op) : Prop := True.

Lemma sat_remove_dir_all p s :
  sat any (remove_dir_all e p) s (fun r s' => r = Ok tt /\ s_roots s' = s_roots s /\ s_broken s' = s_broken s /\
    forall q, lookup (s_fs s') q = if below p q then None else lookup (s_fs s) q).
Proof.
  unfold remove_dir_all. apply sat_bind, sat_get; cbn [after].
  apply (sat_for any _ (fun done s' => s_roots s' = s_roots s /\ s_broken s' = s_broken s /\
           forall q, lookup (s_fs s') q = if existsb (eqb_path q) done then None else lookup (s_fs s) q) _ _ []).
  - repeat split.
  - intros x done s1 (R & B & L). apply sat_bind, sat_guard_ok; [exact NF|]; cbn [after].
    apply sat_emit; [exact Logic.I|]. cbn [emitted ticked s_roots s_broken s_fs]. repeat split; auto.
    intros q. rewrite lookup_apply, L, existsb_app. cbn [existsb]. rewrite orb_false_r.
    destruct (eqb_path x q) eqn:E.
    + apply eqb_path_spec in E; subst. rewrite eqb_path_refl, orb_true_r. reflexivity.
    + replace (eqb_path q x) with false; [rewrite orb_false_r; reflexivity|].
      symmetry. apply eqb_path_false. apply eqb_path_false in E. congruence.
  - cbn [app]. intros s1 (R & B & L). repeat split; auto. intros q. rewrite L.
    assert (existsb (eqb_path q) (rev (e_walk e (s_tick s) (filter (below p) (fs_paths (s_fs s))))) = true
            <-> below p q = true /\ lookup (s_fs s) q <> None) as H.
    { rewrite existsb_exists. rewrite <- fs_paths_In. rewrite and_comm, <- filter_In.
      rewrite <- (walk_In (s_tick s)). split.
      - intros (x & Hx & E). apply eqb_path_spec in E; subst. apply in_rev; exact Hx.
      - intros Hq. exists q. split; [apply in_rev in Hq; exact Hq | apply eqb_path_refl]. }
    destruct (below p q) eqn:E.
    + destruct (existsb _ _); [reflexivity|]. destruct (lookup (s_fs s) q) eqn:E2; [|reflexivity].
      destruct H as [_ H]. discriminate H. split; [reflexivity | discriminate].
    + destruct (existsb _ _); [|reflexivity]. destruct H as [H _]. destruct (H eq_refl); discriminate.
Qed.

(** Whether [q] triggers a removal. *)
Definition trigger (roots : list path) (pred : path -> bool) (q : path) : bool :=
  negb (existsb (eqb_path q) roots) && pred q.

Lemma existsb_path q l : existsb (eqb_path q) l = true <-> In q l.
Proof.
  rewrite existsb_exists. split.
  - intros (x & Hx & E). apply eqb_path_spec in E; subst; exact Hx.
  - intros H. exists q. split; [exact H | apply eqb_path_refl].
Qed.

Lemma sat_collect dir pred s :
  tree_ok (s_fs s) ->
  sat any (collect_garbage_with_filter e dir pred) s (fun r s' => r = Ok tt /\
    s_roots s' = s_roots s /\ s_broken s' = s_broken s /\
    forall p, lookup (s_fs s') p =
      if existsb (fun q => trigger (s_roots s) pred q && below q p)
           (e_walk e (s_tick s) (filter (below dir) (fs_paths (s_fs s))))
      then None else lookup (s_fs s) p).
Proof.
  intros T. unfold collect_garbage_with_filter. apply sat_bind, sat_get; cbn [after].
  apply (sat_for any _ (fun done s' => s_roots s' = s_roots s /\ s_broken s' = s_broken s /\
           forall p, lookup (s_fs s') p =
             if existsb (fun q => trigger (s_roots s) pred q && below q p) done then None else lookup (s_fs s) p)
           _ _ []).
  - repeat split.
  - intros q done s1 (R & B & L).
    destruct (trigger (s_roots s) pred q) eqn:TR.
    2:{ assert (forall p, existsb (fun q => trigger (s_roots s) pred q && below q p) (done ++ [q])
                         = existsb (fun q => trigger (s_roots s) pred q && below q p) done) as E.
        { intros p. rewrite existsb_app. cbn [existsb]. rewrite TR. cbn. apply orb_false_r. }
        unfold trigger in TR. destruct (existsb (eqb_path q) (s_roots s)); cbn in TR.
        - apply sat_ret. repeat split; auto. intros p. rewrite E. apply L.
        - rewrite TR; cbn [negb]. apply sat_ret. repeat split; auto. intros p. rewrite E. apply L. }
    assert (forall p, existsb (fun q => trigger (s_roots s) pred q && below q p) (done ++ [q])
                         = existsb (fun q => trigger (s_roots s) pred q && below q p) done || below q p) as E.
    { intros p. rewrite existsb_app. cbn [existsb]. rewrite TR. cbn. rewrite orb_false_r. reflexivity. }
    unfold trigger in TR. apply andb_true_iff in TR. destruct TR as [TR1 TR2].
    apply negb_true_iff in TR1. rewrite TR1, TR2; cbn [negb].
    apply sat_bind, sat_is_dir. intros d _ D; cbn [after]. specialize (D NF).
    destruct d.
    + eapply sat_mono; [apply sat_remove_dir_all|]. intros r s2 _ (-> & R2 & B2 & L2).
      cbn [ticked s_roots s_broken s_fs] in *. repeat split; try congruence.
      intros p. rewrite L2, L, E. destruct (below q p); [rewrite orb_true_r; reflexivity | rewrite orb_false_r; reflexivity].
    + apply sat_bind, sat_fault; cbn [after]. apply sat_bind, sat_get; cbn [after]. cbn [ticked s_fs] in *.
      rewrite NF.
      assert (forall p r, p = q ++ r -> r <> [] -> lookup (s_fs s1) p = None) as NB.
      { intros p r -> Hr. destruct (lookup (s_fs s1) (q ++ r)) as [n|] eqn:E1; [|reflexivity]. exfalso.
        pose proof E1 as E2. rewrite L in E2.
        destruct (existsb (fun q0 => trigger (s_roots s) pred q0 && below q0 (q ++ r)) done) eqn:X; [discriminate|].
        assert (forall r', (exists t, r = r' ++ t /\ t <> []) -> q ++ r' <> [] -> lookup (s_fs s) (q ++ r') = Some NDir) as A.
        { intros r' (t & -> & Ht). clear E1 X L E D Hr. intros NE. revert r' NE n E2. induction t as [|x t IH]; [congruence|].
          intros r' NE n E2. destruct t as [|y t].
          - apply (T (q ++ r') x); [|exact NE]. rewrite <- app_assoc. rewrite E2. discriminate.
          - assert (lookup (s_fs s) (q ++ r' ++ [x]) = Some NDir) as A1.
            { apply (IH ltac:(discriminate) (r' ++ [x]) ltac:(destruct q; [destruct r'|]; discriminate) n).
              rewrite <- app_assoc. exact E2. }
            apply (T (q ++ r') x); [|exact NE]. rewrite <- app_assoc, A1. discriminate. }
        destruct (list_eq_dec (list_eq_dec N.eq_dec) q []) as [->|NE].
        - cbn in D. discriminate.
        - specialize (A [] ltac:(exists r; auto)). rewrite app_nil_r in A. specialize (A NE).
          assert (is_dir (s_fs s1) q = true); [|congruence].
          apply is_dir_lookup; [exact NE|]. rewrite L, A.
          destruct (existsb (fun q0 => trigger (s_roots s) pred q0 && below q0 q) done) eqn:X2; [|reflexivity].
          apply existsb_exists in X2. destruct X2 as (q0 & Hq0 & Y). apply andb_true_iff in Y. destruct Y as [Y1 Y2].
          assert (existsb (fun q0 => trigger (s_roots s) pred q0 && below q0 (q ++ r)) done = true); [|congruence].
          apply existsb_exists. exists q0. rewrite Y1. cbn. split; [exact Hq0|].
          eapply below_trans; [exact Y2 | apply below_app]. }
      assert (forall p, below q p = true -> p = q \/ lookup (s_fs s1) p = None) as NB2.
      { intros p Hp. apply below_spec in Hp. destruct Hp as [r ->]. destruct r as [|x r].
        - left. apply app_nil_r.
        - right. eapply NB; [reflexivity | discriminate]. }
      destruct (lookup (s_fs s1) q) as [[|fc fb]|] eqn:LQ.
      * destruct q; [cbn in D; discriminate|]. cbn in D. rewrite LQ in D. discriminate.
      * apply sat_emit; [exact Logic.I|]. cbn [emitted ticked s_roots s_broken s_fs]. repeat split; auto.
        intros p. rewrite lookup_apply, E. destruct (eqb_path q p) eqn:EQ.
        { apply eqb_path_spec in EQ; subst. rewrite below_refl, orb_true_r. reflexivity. }
        destruct (below q p) eqn:BE.
        { destruct (NB2 p BE) as [->|H]; [rewrite eqb_path_refl in EQ; discriminate|].
          rewrite H, orb_true_r. reflexivity. }
        rewrite orb_false_r. apply L.
      * apply sat_ret. repeat split; auto. intros p. rewrite E. cbn [ticked s_fs].
        destruct (below q p) eqn:BE.
        { rewrite orb_true_r. destruct (NB2 p BE) as [->|H]; assumption. }
        rewrite orb_false_r. apply L.
  - cbn [app]. auto.
Qed.

Lemma collect_exact dir pred s s' r :
  tree_ok (s_fs s) ->
  collect_garbage_with_filter e dir pred s = (s', r) ->
  r = Ok tt /\
  forall p, (garbage (s_fs s) (s_roots s) dir pred p -> lookup (s_fs s') p = None) /\
            (~ garbage (s_fs s) (s_roots s) dir pred p -> lookup (s_fs s') p = lookup (s_fs s) p).
Proof.
  intros T H. destruct (sat_collect dir pred s T) as [_ (Hr & _ & _ & L)].
  rewrite H in *. cbn [fst snd] in *. split; [exact Hr|]. intros p. rewrite L.
  assert (existsb (fun q => trigger (s_roots s) pred q && below q p)
            (e_walk e (s_tick s) (filter (below dir) (fs_paths (s_fs s)))) = true <->
          exists q, lookup (s_fs s) q <> None /\ at_or_above dir q /\ at_or_above q p /\ ~ In q (s_roots s) /\ pred q = true) as X.
  { rewrite existsb_exists. split.
    - intros (q & Hq & Y). apply walk_In, filter_In in Hq. destruct Hq as [Hq HB].
      apply fs_paths_In in Hq. apply andb_true_iff in Y. destruct Y as [Y1 Y2].
      unfold trigger in Y1. apply andb_true_iff in Y1. destruct Y1 as [Y1 Y3].
      exists q. rewrite !at_or_above_below. repeat split; auto.
      intros IN. apply existsb_path in IN. rewrite IN in Y1. discriminate.
    - intros (q & Hq & HB & Y2 & Y1 & Y3). exists q. rewrite at_or_above_below in HB, Y2. split.
      + apply walk_In, filter_In. rewrite fs_paths_In. auto.
      + rewrite Y2, andb_true_r. unfold trigger. rewrite Y3, andb_true_r. apply negb_true_iff.
        destruct (existsb (eqb_path q) (s_roots s)) eqn:E; [|reflexivity].
        apply existsb_path in E. contradiction. }
  split.
  - intros [P Q]. apply X in Q. rewrite Q. reflexivity.
  - intros NG. destruct (existsb _ _) eqn:E; [|reflexivity].
    destruct (lookup (s_fs s) p) eqn:P; [|reflexivity]. exfalso. apply NG. split; [congruence|].
    apply X. reflexivity.
Qed.
End Exact.

(** ** Selection of links *)
Lemma parse_links_spec ls vs : parse_links ls = Some vs <-> links_versions ls vs.
Proof.
  unfold links_versions. revert vs; induction ls as [|l ls IH]; intros vs; cbn.
  - split.
    + intros H; inversion H; constructor.
    + intros H; inversion H; reflexivity.
  - split.
    + destruct (link_version (l_name l)) as [v|] eqn:E; [|discriminate].
      destruct (parse_links ls) as [r|] eqn:E2; [|discriminate].
      intros H; inversion H; subst. constructor; [cbn; auto | apply IH; reflexivity].
    + intros H; inversion H as [|? [v l'] ? vs' [H1 H2] H3]; subst. cbn in *.
      rewrite H2. apply IH in H3. rewrite H3. subst. reflexivity.
Qed.

Lemma insert_link_perm x l : Permutation (insert_link x l) (x :: l).
Proof.
  induction l as [|y l IH]; cbn; [reflexivity|].
  destruct (fst x <=? fst y); [reflexivity|].
  rewrite IH. apply perm_swap.
Qed.

Lemma sort_links_perm l : Permutation (sort_links l) l.
Proof.
  induction l as [|x l IH]; cbn; [reflexivity|].
  rewrite insert_link_perm. constructor. exact IH.
Qed.

Lemma insert_link_sorted x l :
  StronglySorted (fun a b => fst a <= fst b) l -> StronglySorted (fun a b : N * link => fst a <= fst b) (insert_link x l).
Proof.
  induction l as [|y l IH]; cbn; intros H.
  - repeat constructor.
  - inversion H as [|? ? H1 H2]; subst. destruct (N.leb_spec (fst x) (fst y)) as [L|L].
    + constructor; [exact H|]. constructor; [exact L|]. eapply Forall_impl; [|exact H2]. cbn; intros; lia.
    + constructor; [apply IH; exact H1|].
      eapply Permutation_Forall; [apply Permutation_sym, insert_link_perm|].
      constructor; [lia | exact H2].
Qed.

Lemma sort_links_sorted l : StronglySorted (fun a b : N * link => fst a <= fst b) (sort_links l).
Proof. induction l as [|x l IH]; cbn; [constructor | apply insert_link_sorted; exact IH]. Qed.

Lemma sorted_app {A} (R : A -> A -> Prop) a b :
  StronglySorted R (a ++ b) -> StronglySorted R b /\ Forall (fun x => Forall (R x) b) a.
Proof.
  induction a as [|x a IH]; cbn; intros H; [auto|].
  inversion H as [|? ? H1 H2]; subst. destruct (IH H1) as [H3 H4]. split; [exact H3|].
  constructor; [|exact H4]. apply Forall_app in H2. tauto.
Qed.

Lemma limit_links_newest n l : newest n l (limit_links n (sort_links l)).
Proof.
  unfold limit_links, newest. destruct (N.ltb_spec 0 n) as [L|L].
  - set (srt := sort_links l). set (k := N.to_nat n).
    assert (srt = rev (skipn k (rev srt)) ++ rev (firstn k (rev srt))) as E.
    { rewrite <- rev_app_distr, firstn_skipn, rev_involutive. reflexivity. }
    exists (rev (skipn k (rev srt))). rewrite <- E.
    pose proof (sort_links_sorted l) as S. fold srt in S. rewrite E in S. apply sorted_app in S.
    repeat split.
    + apply Permutation_sym. apply sort_links_perm.
    + apply S.
    + lia.
    + intros _. rewrite rev_length, firstn_length, rev_length.
      unfold srt. rewrite (Permutation_length (sort_links_perm l)). unfold k. lia.
    + apply S.
  - exists []. cbn [app]. repeat split.
    + apply Permutation_sym, sort_links_perm.
    + apply sort_links_sorted.
    + lia.
    + constructor.
Qed.

(** A check for concrete trees. *)
Definition tree_check (m : fs) : bool :=
  forallb (fun p => match removelast p with
                    | [] => true
                    | q => match lookup m q with Some NDir => true | _ => false end
                    end) (fs_paths m).

Lemma tree_check_ok m : tree_check m = true -> tree_ok m.
Proof.
  intros H p n L NE. unfold tree_check in H. rewrite forallb_forall in H.
  specialize (H (p ++ [n])). rewrite removelast_last in H.
  assert (In (p ++ [n]) (fs_paths m)) as HI by (apply fs_paths_In; exact L).
  specialize (H HI). destruct p as [|x p]; [congruence|].
  destruct (lookup m (x :: p)) as [[|]|]; [reflexivity | discriminate | discriminate].
Qed.
