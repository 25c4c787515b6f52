(** Lemmas about the file system model. *)
From Coq Require Import List NArith Bool Lia.
From Verif Require Import Base PBase MNames PNames MFs.
Import ListNotations.
Open Scope N_scope.

Lemma eqb_path_spec a b : eqb_path a b = true <-> a = b.
Proof.
  revert b; induction a as [|x a IH]; intros [|y b]; cbn.
  - split; reflexivity.
  - split; discriminate.
  - split; discriminate.
  - rewrite andb_true_iff, eqb_bytes_spec, IH. split; [intros [-> ->]; reflexivity | intros H; inversion H; auto].
Qed.

Lemma eqb_path_refl a : eqb_path a a = true.
Proof. apply eqb_path_spec; reflexivity. Qed.

Lemma eqb_path_false a b : eqb_path a b = false <-> a <> b.
Proof.
  destruct (eqb_path a b) eqn:E.
  - apply eqb_path_spec in E. split; [discriminate | congruence].
  - split; [intros _ H; apply eqb_path_spec in H; congruence | reflexivity].
Qed.

Definition path_eq_dec : forall a b : path, {a = b} + {a <> b} := list_eq_dec (list_eq_dec N.eq_dec).

Lemma lookup_remove m p q : lookup (fs_remove p m) q = if eqb_path p q then None else lookup m q.
Proof.
  induction m as [|[r n] m IH]; cbn [fs_remove filter fst lookup].
  - destruct (eqb_path p q); reflexivity.
  - fold (fs_remove p m). destruct (eqb_path r p) eqn:E; cbn [negb lookup].
    + rewrite IH. apply eqb_path_spec in E; subst r.
      destruct (eqb_path p q); reflexivity.
    + destruct (eqb_path r q) eqn:E2.
      * apply eqb_path_spec in E2; subst q.
        destruct (eqb_path p r) eqn:E3; [|reflexivity].
        apply eqb_path_spec in E3; subst. rewrite eqb_path_refl in E; discriminate.
      * apply IH.
Qed.

Lemma lookup_insert m p n q : lookup (fs_insert p n m) q = if eqb_path p q then Some n else lookup m q.
Proof.
  unfold fs_insert; cbn. rewrite lookup_remove. destruct (eqb_path p q); reflexivity.
Qed.

Lemma lookup_sync m d q :
  lookup (map (fun e => if below d (fst e) then (fst e, durable (snd e)) else e) m) q
  = if below d q then option_map durable (lookup m q) else lookup m q.
Proof.
  induction m as [|[r n] m IH]; cbn.
  - destruct (below d q); reflexivity.
  - destruct (below d r) eqn:B; cbn; rewrite IH.
    + destruct (eqb_path r q) eqn:E.
      * apply eqb_path_spec in E; subst. rewrite B. reflexivity.
      * destruct (below d q); reflexivity.
    + destruct (eqb_path r q) eqn:E.
      * apply eqb_path_spec in E; subst. rewrite B. reflexivity.
      * destruct (below d q); reflexivity.
Qed.

Lemma lookup_apply o m q :
  lookup (apply o m) q =
  match o with
  | OMkdir p => if eqb_path p q then Some NDir else lookup m q
  | OCreate p => if eqb_path p q then Some (NFile [] false) else lookup m q
  | OWrite p c => if eqb_path p q then Some (NFile c false) else lookup m q
  | OSync p => if eqb_path p q then option_map durable (lookup m q) else lookup m q
  | OSyncAll d => if below d q then option_map durable (lookup m q) else lookup m q
  | ORename a b =>
      match lookup m a with
      | Some n => if eqb_path b q then Some n else if eqb_path a q then None else lookup m q
      | None => lookup m q
      end
  | OChmod p => lookup m q
  | ORemove p => if eqb_path p q then None else lookup m q
  end.
Proof.
  destruct o as [p|p|p c|p|d|a b|p|p]; cbn [apply].
  - apply lookup_insert.
  - apply lookup_insert.
  - apply lookup_insert.
  - destruct (lookup m p) as [n|] eqn:E.
    + rewrite lookup_insert. destruct (eqb_path p q) eqn:E2; [|reflexivity].
      apply eqb_path_spec in E2; subst. rewrite E. reflexivity.
    + destruct (eqb_path p q) eqn:E2; [|reflexivity].
      apply eqb_path_spec in E2; subst. rewrite E. reflexivity.
  - apply lookup_sync.
  - destruct (lookup m a) as [n|] eqn:E; [|reflexivity].
    rewrite lookup_insert, lookup_remove. reflexivity.
  - reflexivity.
  - apply lookup_remove.
Qed.

Lemma below_spec d p : below d p = true <-> exists r, p = d ++ r.
Proof.
  unfold below. split.
  - destruct (strip_prefix d p) as [r|] eqn:E; [|discriminate].
    intros _. exists r. apply strip_prefix_some; exact E.
  - intros [r ->]. rewrite strip_prefix_app. reflexivity.
Qed.

Lemma below_refl d : below d d = true.
Proof. apply below_spec. exists []. rewrite app_nil_r. reflexivity. Qed.

Lemma below_app d r : below d (d ++ r) = true.
Proof. apply below_spec; eauto. Qed.

Lemma below_trans a b c : below a b = true -> below b c = true -> below a c = true.
Proof.
  intros H1 H2. apply below_spec in H1, H2. destruct H1 as [r ->], H2 as [t ->].
  apply below_spec. exists (r ++ t). rewrite app_assoc. reflexivity.
Qed.

Lemma below_antisym a b : below a b = true -> below b a = true -> a = b.
Proof.
  intros H1 H2. apply below_spec in H1, H2. destruct H1 as [r ->], H2 as [t H].
  rewrite <- app_assoc in H. assert (r ++ t = []) as E.
  { apply (app_inv_head a). rewrite app_nil_r. symmetry. exact H. }
  apply app_eq_nil in E. destruct E as [-> _]. rewrite app_nil_r. reflexivity.
Qed.

(** Two prefixes of the same path are comparable. *)
Lemma below_total a b p : below a p = true -> below b p = true -> below a b = true \/ below b a = true.
Proof.
  intros H1 H2. apply below_spec in H1, H2. destruct H1 as [r ->], H2 as [t H].
  revert b H; induction a as [|x a IH]; intros b H.
  - left. apply below_spec. exists b. reflexivity.
  - destruct b as [|y b].
    + right. apply below_spec. exists (x :: a). reflexivity.
    + cbn in H. inversion H as [[E1 E2]]. destruct (IH b E2) as [L|L]; apply below_spec in L; destruct L as [w ->].
      * left. apply below_spec. exists w. reflexivity.
      * right. apply below_spec. exists w. reflexivity.
Qed.

Lemma lookup_In m p : (exists n, In (p, n) m) <-> lookup m p <> None.
Proof.
  induction m as [|[q k] m IH]; cbn.
  - split; [intros [n []] | congruence].
  - destruct (eqb_path q p) eqn:E.
    + apply eqb_path_spec in E; subst. split; [discriminate | eauto].
    + rewrite <- IH. split.
      * intros [n [H|H]]; [|eauto]. inversion H; subst. rewrite eqb_path_refl in E; discriminate.
      * intros [n H]; eauto.
Qed.

Lemma fs_paths_In m p : In p (fs_paths m) <-> lookup m p <> None.
Proof.
  unfold fs_paths. rewrite nodup_In, <- lookup_In, in_map_iff.
  split.
  - intros [[q n] [H1 H2]]; cbn in H1; subst; eauto.
  - intros [n H]. exists (p, n); auto.
Qed.

Lemma fs_paths_NoDup m : NoDup (fs_paths m).
Proof. apply NoDup_nodup. Qed.

Lemma fs_names_In m d n : In n (fs_names m d) <-> lookup m (d ++ [n]) <> None.
Proof.
  unfold fs_names. rewrite in_flat_map, <- fs_paths_In. split.
  - intros (p & Hp & Hn). destruct (strip_prefix d p) as [[|x [|y r]]|] eqn:E; cbn in Hn; try tauto.
    destruct Hn as [->|[]]. apply strip_prefix_some in E; subst; exact Hp.
  - intros H. exists (d ++ [n]). rewrite strip_prefix_app. cbn; auto.
Qed.

Lemma fs_names_NoDup m d : NoDup (fs_names m d).
Proof.
  unfold fs_names. pose proof (fs_paths_NoDup m) as H. induction (fs_paths m) as [|p l IH]; cbn; [constructor|].
  inversion H as [|? ? Hp Hl]; subst. specialize (IH Hl).
  destruct (strip_prefix d p) as [[|x [|y r]]|] eqn:E; cbn; auto.
  constructor; [|exact IH]. intros Hx. apply in_flat_map in Hx. destruct Hx as (q & Hq & Hx).
  destruct (strip_prefix d q) as [[|x' [|y' r']]|] eqn:E'; cbn in Hx; try tauto.
  destruct Hx as [->|[]]. apply strip_prefix_some in E, E'; subst. contradiction.
Qed.

Lemma present_lookup m p : p <> [] -> (present m p = true <-> lookup m p <> None).
Proof.
  intros H. unfold present. destruct p as [|x p]; [congruence|].
  destruct (lookup m (x :: p)); split; congruence.
Qed.

Lemma is_dir_lookup m p : p <> [] -> (is_dir m p = true <-> lookup m p = Some NDir).
Proof.
  intros H. unfold is_dir. destruct p as [|x p]; [congruence|].
  destruct (lookup m (x :: p)) as [[|c b]|]; split; congruence.
Qed.

Lemma apply_all_app a b m : apply_all (a ++ b) m = apply_all b (apply_all a m).
Proof. unfold apply_all. apply fold_left_app. Qed.

Lemma parent_app p n : parent (p ++ [n]) = p.
Proof. unfold parent. apply removelast_last. Qed.
