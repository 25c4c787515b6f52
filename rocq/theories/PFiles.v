(** What the file-copying functions of the installer do
    (install.rs:578-671, pcrlock.rs:49-65), for any requirement [G] on the
    changes made. *)
From Coq Require Import List NArith Bool Lia.
From Verif Require Import Base PBase MNames MFs PFs MTool MInstall PInstall SInstall.
Import ListNotations.
Open Scope N_scope.

(** Roots and broken generations are unchanged. *)
Definition quiet (s s' : st) : Prop := s_roots s' = s_roots s /\ s_broken s' = s_broken s.

Lemma quiet_refl s : quiet s s.
Proof. split; reflexivity. Qed.

Lemma quiet_trans a b c : quiet a b -> quiet b c -> quiet a c.
Proof. intros [A1 A2] [B1 B2]; split; congruence. Qed.

Lemma quiet_ticked s : quiet s (ticked s).
Proof. split; reflexivity. Qed.

Lemma quiet_emitted o s : quiet s (emitted o s).
Proof. split; reflexivity. Qed.

Lemma same_quiet s s' : same s s' -> quiet s s'.
Proof. intros (_ & _ & R & B). split; assumption. Qed.

Definition is_file (m : fs) (p : path) : Prop := exists c b, lookup m p = Some (NFile c b).

(** The preconditions under which the operating system makes a change. *)
Definition posix (m : fs) (o : op) : Prop :=
  match o with
  | OMkdir p => p <> [] /\ is_dir m (parent p) = true /\ lookup m p = None
  | OCreate p => is_dir m (parent p) = true /\ is_dir m p = false
  | OWrite p _ => is_file m p
  | OSync p => is_file m p
  | ORename a b => is_file m a /\ is_dir m (parent b) = true /\ is_dir m b = false
  | OSyncAll _ => True
  | OChmod p => present m p = true
  | ORemove p => True
  end.

Lemma is_dir_nil m : is_dir m [] = true.
Proof. reflexivity. Qed.

Lemma tmp_path_snoc d n : tmp_path (d ++ [n]) = d ++ [tmp_name n].
Proof. unfold tmp_path. rewrite rev_app_distr. cbn. rewrite rev_involutive. reflexivity. Qed.

Lemma tmp_path_nil : tmp_path [] = [].
Proof. reflexivity. Qed.

Lemma parent_tmp p : parent (tmp_path p) = parent p.
Proof.
  destruct p as [|x p] using rev_ind; [reflexivity|]. rewrite tmp_path_snoc, !parent_app. reflexivity.
Qed.

Section Env.
Variable e : env.
Variable G : fs -> op -> Prop.

Lemma sat_create p s (Q : res unit unit -> st -> Prop) :
  ((no_faults e -> is_dir (s_fs s) (parent p) && negb (is_dir (s_fs s) p) = false) -> Q (Err tt) (ticked s)) ->
  (posix (s_fs s) (OCreate p) -> G (s_fs s) (OCreate p) /\ Q (Ok tt) (emitted (OCreate p) (ticked s))) ->
  sat G (icreate e p) s Q.
Proof.
  intros H1 H2. unfold icreate, iguard. apply sat_bind, sat_bind, sat_fault; cbn [after].
  destruct (e_fault e (s_tick s)) eqn:E.
  - apply sat_ret; cbn [after]. apply sat_bind, sat_get; cbn [after]. cbn [ticked s_fs].
    destruct (is_dir (s_fs s) (parent p) && negb (is_dir (s_fs s) p)) eqn:X.
    + apply andb_true_iff in X. destruct X as [X1 X2]. apply negb_true_iff in X2.
      destruct H2 as [HG HQ]; [split; assumption|]. apply sat_emit; assumption.
    + apply sat_fail. apply H1. reflexivity.
  - apply sat_fail; cbn [after]. apply H1. intros N. rewrite N in E. discriminate.
Qed.

Lemma sat_write p c s (Q : res unit unit -> st -> Prop) :
  (~ no_faults e -> Q (Err tt) (ticked s)) ->
  (~ no_faults e -> forall c', G (s_fs s) (OWrite p c') /\ Q (Err tt) (emitted (OWrite p c') (ticked s))) ->
  G (s_fs s) (OWrite p c) -> Q (Ok tt) (emitted (OWrite p c) (ticked s)) ->
  sat G (iwrite e p c) s Q.
Proof.
  intros H1 H2 HG HQ. unfold iwrite. apply sat_bind, sat_fault; cbn [after].
  destruct (e_fault e (s_tick s)) as [|[c'|]] eqn:E.
  - apply sat_emit; assumption.
  - destruct (H2 ltac:(intros N; rewrite N in E; discriminate) c') as [A B].
    apply sat_bind, sat_emit; [exact A|]; cbn [after]. apply sat_fail. exact B.
  - apply sat_fail, H1. intros N; rewrite N in E; discriminate.
Qed.

Lemma sat_sync p s (Q : res unit unit -> st -> Prop) :
  (~ no_faults e -> Q (Err tt) (ticked s)) ->
  G (s_fs s) (OSync p) -> Q (Ok tt) (emitted (OSync p) (ticked s)) ->
  sat G (isync e p) s Q.
Proof.
  intros H1 HG HQ. unfold isync, iguard. apply sat_bind, sat_bind, sat_fault; cbn [after].
  destruct (e_fault e (s_tick s)) eqn:E.
  - apply sat_ret; cbn [after]. apply sat_emit; assumption.
  - apply sat_fail; cbn [after]. apply H1. intros N; rewrite N in E; discriminate.
Qed.

Lemma sat_rename a b s (Q : res unit unit -> st -> Prop) :
  ((no_faults e -> is_file (s_fs s) a -> is_dir (s_fs s) (parent b) && negb (is_dir (s_fs s) b) = false) ->
   Q (Err tt) (ticked s)) ->
  (posix (s_fs s) (ORename a b) -> G (s_fs s) (ORename a b) /\ Q (Ok tt) (emitted (ORename a b) (ticked s))) ->
  sat G (irename e a b) s Q.
Proof.
  intros H1 H2. unfold irename, iguard. apply sat_bind, sat_bind, sat_fault; cbn [after].
  destruct (e_fault e (s_tick s)) eqn:E.
  - apply sat_ret; cbn [after]. apply sat_bind, sat_get; cbn [after]. cbn [ticked s_fs].
    destruct (lookup (s_fs s) a) as [[|fc fb]|] eqn:L.
    + apply sat_fail, H1. intros _ (x & y & Z). congruence.
    + destruct (is_dir (s_fs s) (parent b) && negb (is_dir (s_fs s) b)) eqn:X.
      * apply andb_true_iff in X. destruct X as [X1 X2]. apply negb_true_iff in X2.
        destruct H2 as [HG HQ]; [split; [eexists; eauto | split; assumption]|]. apply sat_emit; assumption.
      * apply sat_fail, H1. reflexivity.
    + apply sat_fail, H1. intros _ (x & y & Z). congruence.
  - apply sat_fail; cbn [after]. apply H1. intros N; rewrite N in E; discriminate.
Qed.

(** Only directories appear between two states. *)
Definition only_dirs (m m' : fs) (p : path) : Prop :=
  forall q, lookup m' q = lookup m q \/ (lookup m q = None /\ lookup m' q = Some NDir /\ below q p = true).

Lemma only_dirs_refl m p : only_dirs m m p.
Proof. intros q; left; reflexivity. Qed.

Lemma only_dirs_trans a b c p : only_dirs a b p -> only_dirs b c p -> only_dirs a c p.
Proof.
  intros H1 H2 q. destruct (H1 q) as [A|(A1 & A2 & A3)], (H2 q) as [B|(B1 & B2 & B3)].
  - left; congruence.
  - right. rewrite <- A. auto.
  - right. rewrite B. auto.
  - congruence.
Qed.

Lemma only_dirs_file a b p q c x : only_dirs a b p -> lookup a q = Some (NFile c x) -> lookup b q = Some (NFile c x).
Proof. intros H L. destruct (H q) as [A|(A1 & _)]; congruence. Qed.

Lemma sat_mkdirs rest : forall done s,
  (forall m p, below p (done ++ rest) = true -> posix m (OMkdir p) -> G m (OMkdir p)) ->
  sat G (imkdirs e done rest) s (fun r s' => quiet s s' /\ only_dirs (s_fs s) (s_fs s') (done ++ rest) /\
    (r = Ok tt -> is_dir (s_fs s) done = true -> is_dir (s_fs s') (done ++ rest) = true) /\
    (no_faults e -> is_dir (s_fs s) done = true ->
     (forall p, below p (done ++ rest) = true -> ~ is_file (s_fs s) p) -> r = Ok tt) /\ r <> Panic).
Proof.
  induction rest as [|n rest IH]; intros done s HG; cbn [imkdirs].
  - apply sat_ret. rewrite app_nil_r. repeat split; auto using only_dirs_refl; discriminate.
  - replace (done ++ n :: rest) with ((done ++ [n]) ++ rest) in * by (rewrite <- app_assoc; reflexivity).
    apply sat_bind, sat_get; cbn [after]. destruct (is_dir (s_fs s) (done ++ [n])) eqn:D.
    + eapply sat_mono; [apply (IH (done ++ [n]) s HG)|]. cbn. intros r s' _ (A & B & C & D2 & E). repeat split; auto.
      * apply A.
      * apply A.
    + unfold iguard. apply sat_bind, sat_bind, sat_fault; cbn [after].
      destruct (e_fault e (s_tick s)) eqn:E.
      2:{ apply sat_fail; cbn [after]. repeat split; auto using only_dirs_refl; try discriminate.
          intros N; rewrite N in E; discriminate. }
      apply sat_ret; cbn [after]. apply sat_bind, sat_get; cbn [after]. cbn [ticked s_fs].
      destruct (is_dir (s_fs s) done && negb (present (s_fs s) (done ++ [n]))) eqn:X.
      2:{ apply sat_fail. repeat split; auto using only_dirs_refl; try discriminate.
          intros _ DD NF. exfalso. rewrite DD in X; cbn in X. apply negb_false_iff in X.
          apply present_lookup in X; [|destruct done; discriminate].
          destruct (lookup (s_fs s) (done ++ [n])) as [[|fc fb]|] eqn:L; [| |congruence].
          - apply (is_dir_lookup (s_fs s) (done ++ [n])) in L; [congruence | destruct done; discriminate].
          - apply (NF (done ++ [n])); [apply below_app | eexists; eauto]. }
      apply andb_true_iff in X. destruct X as [X1 X2]. apply negb_true_iff in X2.
      assert (lookup (s_fs s) (done ++ [n]) = None) as L.
      { destruct (lookup (s_fs s) (done ++ [n])) eqn:L; [|reflexivity].
        assert (present (s_fs s) (done ++ [n]) = true); [|congruence].
        apply present_lookup; [destruct done; discriminate | congruence]. }
      apply sat_bind, sat_emit; cbn [after].
      { apply HG; [apply below_app|]. split; [destruct done; discriminate|].
        rewrite parent_app. auto. }
      eapply sat_mono; [apply (IH (done ++ [n]) _ HG)|]. cbn beta.
      set (s1 := emitted (OMkdir (done ++ [n])) (ticked s)).
      intros r s' _ (A & B & C & D2 & EP).
      assert (only_dirs (s_fs s) (s_fs s1) ((done ++ [n]) ++ rest)) as O.
      { intros q. unfold s1; cbn [emitted s_fs ticked]. rewrite lookup_apply.
        destruct (eqb_path (done ++ [n]) q) eqn:EQ; [|left; reflexivity].
        apply eqb_path_spec in EQ; subst q. right. repeat split; auto. apply below_app. }
      assert (is_dir (s_fs s1) (done ++ [n]) = true) as DD.
      { apply is_dir_lookup; [destruct done; discriminate|]. unfold s1; cbn [emitted s_fs ticked].
        rewrite lookup_apply, eqb_path_refl. reflexivity. }
      repeat split; auto.
      * apply A.
      * apply A.
      * eapply only_dirs_trans; eauto.
      * intros NF _ NFi. apply D2; auto. intros p Hp (fc & fb & F).
        unfold s1 in F; cbn [emitted s_fs ticked] in F. rewrite lookup_apply in F.
        destruct (eqb_path (done ++ [n]) p); [discriminate|]. apply (NFi p Hp). eexists; eauto.
Qed.

Lemma sat_ensure_parent_dir p s :
  (forall m q, below q (parent p) = true -> posix m (OMkdir q) -> G m (OMkdir q)) ->
  sat G (ensure_parent_dir e p) s (fun r s' => r = Ok tt /\ quiet s s' /\ only_dirs (s_fs s) (s_fs s') (parent p) /\
    (no_faults e -> (forall q, below q (parent p) = true -> ~ is_file (s_fs s) q) ->
     is_dir (s_fs s') (parent p) = true)).
Proof.
  intros HG. unfold ensure_parent_dir. apply sat_bind, sat_attempt.
  eapply sat_mono; [apply (sat_mkdirs (parent p) [] s HG)|]. cbn [app after].
  intros r s' _ (A & B & C & D & E).
  destruct r as [[]|[]|]; [| |congruence]; apply sat_ret; repeat split; auto; try apply A.
Qed.

(** Writing [out] to a new file [p]. *)
Lemma sat_put p out s (Q : res unit unit -> st -> Prop) :
  (posix (s_fs s) (OCreate p) -> G (s_fs s) (OCreate p)) ->
  (forall m x, posix m (OWrite p x) -> (forall q, q <> p -> lookup m q = lookup (s_fs s) q) -> G m (OWrite p x)) ->
  (forall s', quiet s s' -> (forall q, q <> p -> lookup (s_fs s') q = lookup (s_fs s) q) ->
     (no_faults e -> is_dir (s_fs s) (parent p) && negb (is_dir (s_fs s) p) = false) -> Q (Err tt) s') ->
  (forall s', quiet s s' -> (forall q, q <> p -> lookup (s_fs s') q = lookup (s_fs s) q) ->
     posix (s_fs s) (OCreate p) ->
     lookup (s_fs s') p = Some (NFile out false) -> Q (Ok tt) s') ->
  sat G (let* _ := icreate e p in iwrite e p out) s Q.
Proof.
  intros GC GW HE HO. apply sat_bind, sat_create; cbn [after].
  - intros X. apply HE; auto using quiet_ticked.
  - intros PX. split; [apply GC; exact PX|].
    set (s1 := emitted (OCreate p) (ticked s)).
    assert (is_file (s_fs s1) p) as F1.
    { unfold s1; cbn [emitted s_fs ticked]. eexists _, _. rewrite lookup_apply, eqb_path_refl. reflexivity. }
    assert (forall q, q <> p -> lookup (s_fs s1) q = lookup (s_fs s) q) as L1.
    { intros q Hq. unfold s1; cbn [emitted s_fs ticked]. rewrite lookup_apply.
      destruct (eqb_path p q) eqn:EQ; [apply eqb_path_spec in EQ; congruence | reflexivity]. }
    assert (forall x q, q <> p -> lookup (apply (OWrite p x) (s_fs s1)) q = lookup (s_fs s) q) as L2.
    { intros x q Hq. rewrite lookup_apply.
      destruct (eqb_path p q) eqn:EQ; [apply eqb_path_spec in EQ; congruence | auto]. }
    apply sat_write.
    + intros NN. apply HE; [split; reflexivity | exact L1 | intros N; contradiction].
    + intros NN x. split; [apply GW; [exact F1 | exact L1]|].
      apply HE; [split; reflexivity | apply L2 | intros N; contradiction].
    + apply GW; [exact F1 | exact L1].
    + apply HO; [split; reflexivity | apply L2 | exact PX |].
      cbn [emitted s_fs ticked]. fold s1. rewrite lookup_apply, eqb_path_refl. reflexivity.
Qed.

(** What a copy to [to] may touch: [to], its temporary file, parents. *)
Definition touches (m m' : fs) (to : path) : Prop :=
  forall q, q <> to -> q <> tmp_path to ->
    lookup m' q = lookup m q \/ (lookup m q = None /\ lookup m' q = Some NDir /\ below q (parent to) = true).

Lemma only_dirs_touches m m' to : only_dirs m m' (parent to) -> touches m m' to.
Proof. intros H q _ _. apply H. Qed.

Lemma sat_sign_and_copy from to s (Q : res unit unit -> st -> Prop) :
  (forall m, posix m (OCreate to) -> G m (OCreate to)) ->
  (forall m x, posix m (OWrite to x) -> G m (OWrite to x)) ->
  (forall s', quiet s s' -> (forall q, q <> to -> lookup (s_fs s') q = lookup (s_fs s) q) ->
     (no_faults e -> forall x out, from = Some x -> sg_sign (e_signer e) x = Some out ->
        is_dir (s_fs s) (parent to) && negb (is_dir (s_fs s) to) = false) -> Q (Err tt) s') ->
  (forall s' x out, quiet s s' -> (forall q, q <> to -> lookup (s_fs s') q = lookup (s_fs s) q) ->
     posix (s_fs s) (OCreate to) ->
     from = Some x -> sg_sign (e_signer e) x = Some out ->
     lookup (s_fs s') to = Some (NFile out false) -> Q (Ok tt) s') ->
  sat G (sign_and_copy e from to) s Q.
Proof.
  intros GC GW HE HO. unfold sign_and_copy. apply sat_bind, sat_source; cbn [after].
  - intros N. apply HE; auto using quiet_ticked. intros NF x out X. rewrite (N NF) in X. discriminate.
  - intros x Hx. destruct (sg_sign (e_signer e) x) as [out|] eqn:SG.
    + apply sat_put; [auto | auto | |].
      * intros s' A B X. apply HE; [exact A | exact B |].
        intros NF x' out' E1 E2. apply X; exact NF.
      * intros s' A B PX L. apply (HO s' x out); assumption.
    + apply sat_fail. apply HE; auto using quiet_ticked.
      intros NF x' out' E1 E2. congruence.
Qed.

Lemma tmp_name_neq n : tmp_name n <> n.
Proof.
  unfold tmp_name. intros H.
  assert (length (file_stem n) <= length n)%nat as L1.
  { clear H. induction n as [|c n IH]; cbn [file_stem]; [lia|].
    destruct (existsb _ n); [cbn; lia|]. destruct (c =? 46); cbn; lia. }
  assert (file_stem n = n \/ (length (file_stem n) < length n)%nat /\ exists a b, n = a ++ [46] ++ b /\ ~ In 46 b /\ file_stem n = a) as L2.
  { clear H L1. induction n as [|c n IH]; cbn [file_stem]; [left; reflexivity|].
    destruct (existsb (N.eqb 46) n) eqn:X.
    - destruct IH as [IH|(IH1 & a & b & IH2 & IH3 & IH4)].
      + exfalso. assert (forall l, file_stem l = l -> existsb (N.eqb 46) l = false) as Y.
        { clear. induction l as [|c l IH]; cbn [file_stem existsb]; [reflexivity|]. destruct (existsb (N.eqb 46) l) eqn:E.
          - intros H. inversion H as [H1]. specialize (IH H1). discriminate.
          - destruct (N.eqb_spec c 46); [discriminate|]. intros _. rewrite orb_false_r.
            apply N.eqb_neq. congruence. }
        rewrite (Y n IH) in X. discriminate.
      + right. split; [cbn; lia|]. exists (c :: a), b. rewrite IH2 at 1. repeat split; auto. cbn. congruence.
    - destruct (N.eqb_spec c 46) as [->|NE].
      + right. split; [cbn; lia|]. exists [], n. repeat split; auto.
        intros HI. assert (existsb (N.eqb 46) n = true); [|congruence].
        apply existsb_exists. exists 46. split; [exact HI | reflexivity].
      + left. reflexivity. }
  destruct L2 as [E|(L & a & b & E1 & E2 & E3)].
  - destruct (file_stem n) as [|x l] eqn:X; apply (f_equal (@length N)) in H; rewrite app_length in H; cbn in *; subst; cbn in *; lia.
  - rewrite E3 in H.
    assert (a ++ lit "..tmp" = n \/ n ++ lit "..tmp" = n) as H' by (destruct a; auto).
    clear H. destruct H' as [H|H].
    + rewrite E1 in H. apply app_inv_head in H. cbn in H. inversion H as [H1]. apply E2. rewrite <- H1. cbn; auto.
    + apply (f_equal (@length N)) in H. rewrite app_length in H. cbn in H. lia.
Qed.

Lemma tmp_path_neq p : p <> [] -> tmp_path p <> p.
Proof.
  intros H. destruct p as [|x p] using rev_ind; [congruence|].
  rewrite tmp_path_snoc. intros E. apply app_inj_tail in E. destruct E as [_ E]. exact (tmp_name_neq _ E).
Qed.

Lemma below_longer p d n : below (d ++ [n]) p = true -> (length d < length p)%nat.
Proof. intros H. apply below_spec in H. destruct H as [r ->]. rewrite !app_length. cbn. lia. Qed.

Lemma snoc_facts to : to <> [] ->
  parent to <> tmp_path to /\ parent to <> to /\
  below (tmp_path to) (parent to) = false /\ below to (parent to) = false.
Proof.
  intros H. destruct to as [|n d] using rev_ind; [congruence|].
  rewrite tmp_path_snoc, parent_app.
  assert (forall x, d <> d ++ [x]) as A.
  { intros x E. apply (f_equal (@length _)) in E. rewrite app_length in E. cbn in E. lia. }
  assert (forall x, below (d ++ [x]) d = false) as B.
  { intros x. destruct (below (d ++ [x]) d) eqn:X; [|reflexivity]. apply below_longer in X. lia. }
  auto.
Qed.

(** [install_signed] with the requirements on its changes. *)
Definition signed_rules (from : option bytes) (to : path) : Prop :=
  (forall m q, below q (parent to) = true -> posix m (OMkdir q) -> G m (OMkdir q)) /\
  (forall m, posix m (OCreate (tmp_path to)) -> G m (OCreate (tmp_path to))) /\
  (forall m x, posix m (OWrite (tmp_path to) x) -> G m (OWrite (tmp_path to) x)).

Lemma sat_install_signed from to s (Q : res unit unit -> st -> Prop) :
  to <> [] ->
  signed_rules from to ->
  (forall m x out, posix m (ORename (tmp_path to) to) -> from = Some x -> sg_sign (e_signer e) x = Some out ->
     touches (s_fs s) m to -> lookup m to = lookup (s_fs s) to ->
     lookup m (tmp_path to) = Some (NFile out false) -> G m (ORename (tmp_path to) to)) ->
  (forall s', quiet s s' -> touches (s_fs s) (s_fs s') to ->
     (no_faults e -> forall x out, from = Some x -> sg_sign (e_signer e) x = Some out ->
        (forall q, below q (parent to) = true -> ~ is_file (s_fs s) q) ->
        is_dir (s_fs s) (tmp_path to) = true \/ is_dir (s_fs s) to = true) -> Q (Err tt) s') ->
  (forall s' x out, quiet s s' -> touches (s_fs s) (s_fs s') to ->
     from = Some x -> sg_sign (e_signer e) x = Some out ->
     lookup (s_fs s') to = Some (NFile out false) -> lookup (s_fs s') (tmp_path to) = None -> Q (Ok tt) s') ->
  sat G (install_signed e from to) s Q.
Proof.
  intros TO (GM & GC & GW) GR HE HO. unfold install_signed.
  assert (tmp_path to <> to) as TN by (apply tmp_path_neq; exact TO).
  destruct (snoc_facts to TO) as (PT & PT2 & B1 & B2).
  apply sat_bind. eapply sat_mono; [apply sat_ensure_parent_dir; rewrite parent_tmp; exact GM|].
  cbn beta. rewrite parent_tmp. intros r s1 _ (-> & Q1 & O1 & D1); cbn [after].
  assert (forall q, is_dir (s_fs s1) q = true -> below q (parent to) = false -> is_dir (s_fs s) q = true) as ND.
  { intros q Hq HB. destruct q as [|x q]; [reflexivity|]. apply is_dir_lookup in Hq; [|discriminate].
    apply is_dir_lookup; [discriminate|]. destruct (O1 (x :: q)) as [X|(X1 & X2 & X3)]; congruence. }
  apply sat_bind, sat_sign_and_copy; cbn [after]; [exact GC | exact GW | |].
  - intros s2 Q2 L2 N2. apply HE.
    + eapply quiet_trans; eauto.
    + intros q H1 H2. rewrite (L2 q H2). apply O1.
    + intros NF x out E1 E2 NFi. rewrite parent_tmp in N2. specialize (N2 NF x out E1 E2).
      rewrite (D1 NF NFi) in N2. cbn in N2. apply negb_false_iff in N2. left. apply ND; assumption.
  - intros s2 x out Q2 L2 PX E1 E2 L3. apply sat_rename.
    + intros N3. apply HE.
      * destruct Q1, Q2. split; cbn; congruence.
      * intros q H1 H2. cbn [ticked s_fs]. rewrite (L2 q H2). apply O1.
      * intros NF x' out' _ _ NFi. specialize (N3 NF ltac:(eexists; eauto)).
        assert (is_dir (s_fs s2) (parent to) = true) as PD.
        { destruct (parent to) as [|z w] eqn:PE; [reflexivity|]. apply is_dir_lookup; [discriminate|].
          rewrite L2 by exact PT. apply is_dir_lookup; [discriminate | exact (D1 NF NFi)]. }
        rewrite PD in N3. cbn in N3. apply negb_false_iff in N3.
        right. apply ND; [|exact B2]. apply is_dir_lookup; [exact TO|]. apply is_dir_lookup in N3; [|exact TO].
        rewrite <- L2 by congruence. exact N3.
    + intros PR. split.
      * eapply GR; eauto.
        { intros q H1 H2. rewrite (L2 q H2). apply O1. }
        { rewrite L2 by congruence. destruct (O1 to) as [X|(X1 & X2 & X3)]; [exact X|congruence]. }
      * eapply HO; eauto.
        { destruct Q1, Q2. split; cbn; congruence. }
        { intros q H1 H2. cbn [emitted ticked s_fs]. rewrite lookup_apply, L3.
          destruct (eqb_path to q) eqn:X1; [apply eqb_path_spec in X1; congruence|].
          destruct (eqb_path (tmp_path to) q) eqn:X2; [apply eqb_path_spec in X2; congruence|].
          rewrite (L2 q H2). apply O1. }
        { cbn [emitted ticked s_fs]. rewrite lookup_apply, L3, eqb_path_refl. reflexivity. }
        { cbn [emitted ticked s_fs]. rewrite lookup_apply, L3, eqb_path_refl.
          destruct (eqb_path to (tmp_path to)) eqn:X; [apply eqb_path_spec in X; congruence | reflexivity]. }
Qed.

(** [install] (install.rs:596-601) and [lock_pe]. *)
Definition copy_rules (from : option bytes) (to : path) (s : st) : Prop :=
  (forall m q, below q (parent to) = true -> posix m (OMkdir q) -> G m (OMkdir q)) /\
  (forall m, posix m (OCreate (tmp_path to)) -> G m (OCreate (tmp_path to))) /\
  (forall m x, posix m (OWrite (tmp_path to) x) -> G m (OWrite (tmp_path to) x)) /\
  (forall m, posix m (OSync (tmp_path to)) -> G m (OSync (tmp_path to))) /\
  (forall m x, posix m (ORename (tmp_path to) to) -> from = Some x ->
     touches (s_fs s) m to -> lookup m (tmp_path to) = Some (NFile x true) -> G m (ORename (tmp_path to) to)) /\
  (forall m, posix m (OChmod to) -> G m (OChmod to)).

Lemma sat_atomic_copy from to s (Q : res unit unit -> st -> Prop) :
  to <> [] ->
  (forall m, posix m (OCreate (tmp_path to)) -> G m (OCreate (tmp_path to))) ->
  (forall m x, posix m (OWrite (tmp_path to) x) -> G m (OWrite (tmp_path to) x)) ->
  (forall m, posix m (OSync (tmp_path to)) -> G m (OSync (tmp_path to))) ->
  (forall m x, posix m (ORename (tmp_path to) to) -> from = Some x ->
     (forall q, q <> tmp_path to -> lookup m q = lookup (s_fs s) q) ->
     lookup m (tmp_path to) = Some (NFile x true) -> G m (ORename (tmp_path to) to)) ->
  (forall s', quiet s s' -> (forall q, q <> tmp_path to -> lookup (s_fs s') q = lookup (s_fs s) q) -> Q (Err tt) s') ->
  (forall s' x, quiet s s' -> (forall q, q <> to -> q <> tmp_path to -> lookup (s_fs s') q = lookup (s_fs s) q) ->
     from = Some x -> lookup (s_fs s') to = Some (NFile x true) -> lookup (s_fs s') (tmp_path to) = None ->
     Q (Ok tt) s') ->
  sat G (atomic_copy e from to) s Q.
Proof.
  intros TO GC GW GS GR HE HO. unfold atomic_copy.
  assert (tmp_path to <> to) as TN by (apply tmp_path_neq; exact TO).
  apply sat_bind, sat_source; cbn [after].
  - intros _. apply HE; auto using quiet_ticked.
  - intros x Hx. apply sat_bind, sat_create; cbn [after].
    + intros _. apply HE; [split; reflexivity | reflexivity].
    + intros PC. split; [apply GC; exact PC|].
      set (s1 := emitted (OCreate (tmp_path to)) (ticked (ticked s))).
      assert (lookup (s_fs s1) (tmp_path to) = Some (NFile [] false)) as F1.
      { unfold s1; cbn [emitted s_fs ticked]. rewrite lookup_apply, eqb_path_refl. reflexivity. }
      assert (forall q, q <> tmp_path to -> lookup (s_fs s1) q = lookup (s_fs s) q) as L1.
      { intros q Hq. unfold s1; cbn [emitted s_fs ticked]. rewrite lookup_apply.
        destruct (eqb_path (tmp_path to) q) eqn:EQ; [apply eqb_path_spec in EQ; congruence | reflexivity]. }
      assert (forall y q, q <> tmp_path to -> lookup (apply (OWrite (tmp_path to) y) (s_fs s1)) q = lookup (s_fs s) q) as L2.
      { intros y q Hq. rewrite lookup_apply.
        destruct (eqb_path (tmp_path to) q) eqn:EQ; [apply eqb_path_spec in EQ; congruence | auto]. }
      apply sat_bind, sat_write; cbn [after].
      * intros _. apply HE; [split; reflexivity | exact L1].
      * intros _ y. split; [apply GW; eexists _, _; exact F1 | apply HE; [split; reflexivity | apply L2]].
      * apply GW; eexists _, _; exact F1.
      * set (s2 := emitted (OWrite (tmp_path to) x) (ticked s1)).
        assert (lookup (s_fs s2) (tmp_path to) = Some (NFile x false)) as F2.
        { unfold s2; cbn [emitted s_fs ticked]. rewrite lookup_apply, eqb_path_refl. reflexivity. }
        assert (forall q, q <> tmp_path to -> lookup (s_fs s2) q = lookup (s_fs s) q) as L3 by (apply L2).
        apply sat_bind, sat_sync; cbn [after].
        { intros _. apply HE; [split; reflexivity | exact L3]. }
        { apply GS. eexists _, _; exact F2. }
        set (s3 := emitted (OSync (tmp_path to)) (ticked s2)).
        assert (lookup (s_fs s3) (tmp_path to) = Some (NFile x true)) as F3.
        { unfold s3; cbn [emitted s_fs ticked]. rewrite lookup_apply, eqb_path_refl, F2. reflexivity. }
        assert (forall q, q <> tmp_path to -> lookup (s_fs s3) q = lookup (s_fs s) q) as L4.
        { intros q Hq. unfold s3; cbn [emitted s_fs ticked]. rewrite lookup_apply.
          destruct (eqb_path (tmp_path to) q) eqn:EQ; [apply eqb_path_spec in EQ; congruence | auto]. }
        apply sat_rename.
        { intros _. apply HE; [split; reflexivity | exact L4]. }
        intros PR. split; [eapply GR; eauto|].
        apply (HO _ x); cbn [emitted s_fs ticked]; auto.
        { split; reflexivity. }
        { intros q H1 H2. rewrite lookup_apply, F3.
          destruct (eqb_path to q) eqn:X1; [apply eqb_path_spec in X1; congruence|].
          destruct (eqb_path (tmp_path to) q) eqn:X2; [apply eqb_path_spec in X2; congruence|]. auto. }
        { rewrite lookup_apply, F3, eqb_path_refl. reflexivity. }
        { rewrite lookup_apply, F3, eqb_path_refl.
          destruct (eqb_path to (tmp_path to)) eqn:X; [apply eqb_path_spec in X; congruence | reflexivity]. }
Qed.

Lemma sat_install_file from to s (Q : res unit unit -> st -> Prop) :
  to <> [] -> copy_rules from to s ->
  (forall s', quiet s s' -> touches (s_fs s) (s_fs s') to ->
     lookup (s_fs s') to = lookup (s_fs s) to \/ (exists x, from = Some x /\ lookup (s_fs s') to = Some (NFile x true)) ->
     Q (Err tt) s') ->
  (forall s' x, quiet s s' -> touches (s_fs s) (s_fs s') to -> from = Some x ->
     (lookup (s_fs s') to = Some (NFile x true) \/
      (same s s' /\ exists y b, lookup (s_fs s) to = Some (NFile y b) /\ e_sha e y = e_sha e x)) ->
     Q (Ok tt) s') ->
  sat G (install_file e from to) s Q.
Proof.
  intros TO (GM & GC & GW & GS & GR & GH) HE HO. unfold install_file.
  destruct (snoc_facts to TO) as (PT & PT2 & B1 & B2).
  assert (tmp_path to <> to) as TN by (apply tmp_path_neq; exact TO).
  assert (forall s1, same s s1 -> sat G (force_install e from to) s1 Q) as FI.
  { intros s1 SM. unfold force_install. apply sat_bind.
    eapply sat_mono; [apply sat_ensure_parent_dir; exact GM|].
    intros r s2 _ (-> & Q1 & O1 & _); cbn [after].
    destruct SM as (SF & _ & SR & SB). rewrite SF in O1.
    apply sat_bind, sat_atomic_copy; cbn [after]; auto.
    - intros m x P1 P2 P3 P4. eapply GR; eauto. intros q H1 H2. rewrite (P3 q H2). apply O1.
    - intros s3 Q2 L. apply HE.
      + destruct Q1, Q2; split; congruence.
      + intros q H1 H2. rewrite (L q H2). apply O1.
      + left. rewrite L by congruence. destruct (O1 to) as [X|(X1 & X2 & X3)]; [exact X | congruence].
    - intros s3 x Q2 L E1 L1 L2. unfold set_permission_bits.
      assert (quiet s s3) as Q3 by (destruct Q1, Q2; split; congruence).
      assert (touches (s_fs s) (s_fs s3) to) as T3 by (intros q H1 H2; rewrite (L q H1 H2); apply O1).
      apply sat_bind, sat_guard; cbn [after].
      { apply HE; [exact Q3 | exact T3 | eauto]. }
      apply sat_bind, sat_guard; cbn [after].
      { apply HE; [exact Q3 | exact T3 | eauto]. }
      apply sat_bind, sat_get; cbn [after]. cbn [ticked s_fs].
      assert (present (s_fs s3) to = true) as PR by (apply present_lookup; [exact TO | congruence]).
      rewrite PR. apply sat_emit; [apply GH; exact PR|].
      apply (HO _ x); auto. }
  apply sat_bind, sat_exists. intros ex EX _; cbn [after]. destruct ex.
  - apply sat_bind, sat_bind, sat_source; cbn [after].
    + intros _. apply HE; [split; reflexivity | intros q _ _; left; reflexivity | left; reflexivity].
    + intros x Hx. apply sat_bind, sat_read; cbn [after].
      * intros _. apply HE; [split; reflexivity | intros q _ _; left; reflexivity | left; reflexivity].
      * intros y b L. apply sat_ret; cbn [after].
        destruct (eqb_bytes (e_sha e x) (e_sha e y)) eqn:SH; cbn [negb].
        { apply sat_ret. apply (HO _ x); auto.
          - split; reflexivity.
          - intros q _ _; left; reflexivity.
          - right. split; [repeat split|]. exists y, b. split; [exact L|].
            apply eqb_bytes_spec in SH. congruence. }
        { apply FI. repeat split. }
  - apply sat_bind, sat_ret; cbn [after]. apply FI. repeat split.
Qed.

(** A file that is already right is left alone. *)
Lemma sat_install_file_same from to s x y b :
  no_faults e -> to <> [] -> from = Some x -> lookup (s_fs s) to = Some (NFile y b) -> e_sha e x = e_sha e y ->
  sat G (install_file e from to) s (fun r s' => r = Ok tt /\ same s s').
Proof.
  intros NF TO E1 L SH. unfold install_file.
  apply sat_bind, sat_exists. intros ex _ EX; cbn [after]. rewrite (EX NF).
  replace (present (s_fs s) to) with true by (symmetry; apply present_lookup; congruence).
  apply sat_bind, sat_bind, sat_source; cbn [after].
  - intros X. rewrite (X NF) in E1. discriminate.
  - intros x' Hx. apply sat_bind, sat_read; cbn [after].
    + intros X. cbn [ticked s_fs] in X. destruct (X NF y b L).
    + intros y' b' L'. apply sat_ret; cbn [after]. cbn [ticked s_fs] in L'.
      assert (x' = x) as -> by congruence. assert (y' = y) as -> by congruence.
      rewrite SH, eqb_bytes_refl. cbn [negb]. apply sat_ret. repeat split.
Qed.

Lemma sat_lock_pe bin p s (Q : res unit unit -> st -> Prop) :
  p <> [] ->
  (forall m q, below q (parent p) = true -> posix m (OMkdir q) -> G m (OMkdir q)) ->
  (forall m, posix m (OCreate p) ->
     (forall q, q <> p -> lookup (s_fs s) q <> None -> lookup m q = lookup (s_fs s) q) -> G m (OCreate p)) ->
  (forall m x, posix m (OWrite p x) ->
     (forall q, q <> p -> lookup (s_fs s) q <> None -> lookup m q = lookup (s_fs s) q) -> G m (OWrite p x)) ->
  (forall s', quiet s s' ->
     (forall q, q <> p -> lookup (s_fs s') q = lookup (s_fs s) q \/
        (lookup (s_fs s) q = None /\ lookup (s_fs s') q = Some NDir /\ below q (parent p) = true)) -> Q (Err tt) s') ->
  (forall s' x out, quiet s s' ->
     (forall q, q <> p -> lookup (s_fs s') q = lookup (s_fs s) q \/
        (lookup (s_fs s) q = None /\ lookup (s_fs s') q = Some NDir /\ below q (parent p) = true)) ->
     bin = Some x -> e_lock e x = Some out -> lookup (s_fs s') p = Some (NFile out false) -> Q (Ok tt) s') ->
  sat G (lock_pe e bin p) s Q.
Proof.
  intros TO GM GC GW HE HO. unfold lock_pe. apply sat_bind, sat_source; cbn [after].
  - intros _. apply HE; [split; reflexivity | auto].
  - intros x Hx. destruct (e_lock e x) as [out|] eqn:LK.
    + apply sat_bind. eapply sat_mono; [apply sat_ensure_parent_dir; exact GM|].
      intros r s1 _ (-> & Q1 & O1 & _); cbn [after].
      assert (forall q, lookup (s_fs s) q <> None -> lookup (s_fs s1) q = lookup (s_fs s) q) as O2.
      { intros q Hq. destruct (O1 q) as [X|(X & _)]; [exact X | cbn [ticked s_fs] in X; congruence]. }
      apply sat_put.
      { intros PX. apply GC; auto. }
      { intros m y PX L. apply GW; [exact PX|]. intros q H1 H2. rewrite (L q H1). auto. }
      * intros s2 Q2 L _. apply HE; [destruct Q1, Q2; split; cbn in *; congruence|].
        intros q Hq. rewrite (L q Hq). apply O1.
      * intros s2 Q2 L _ LP. apply (HO s2 x out); auto; [destruct Q1, Q2; split; cbn in *; congruence|].
        intros q Hq. rewrite (L q Hq). apply O1.
    + apply sat_fail. apply HE; [split; reflexivity | auto].
Qed.
End Env.

Lemma posix_tree_ok m o :
  (forall p, o <> ORemove p) -> posix m o -> tree_ok m -> tree_ok (apply o m).
Proof.
  intros NR P T.
  assert (forall p d, is_dir d p = true -> p <> [] -> lookup d p = Some NDir) as ID.
  { intros p d H1 H2. apply is_dir_lookup; assumption. }
  assert (forall p n : path, p ++ n = p -> n = []) as AP.
  { intros p n H. apply (app_inv_head p). rewrite app_nil_r. exact H. }
  assert (forall (p : path) (n : name), p ++ [n] <> p) as AN.
  { intros p n H. apply AP in H. discriminate. }
  intros p n. rewrite !lookup_apply.
  destruct o as [q|q|q x|q|d|a b|q|q]; cbn [posix] in P.
  - destruct P as (P0 & P1 & P2). intros H NE.
    destruct (eqb_path q p) eqn:E2; [reflexivity|].
    destruct (eqb_path q (p ++ [n])) eqn:E1; [|eauto].
    apply eqb_path_spec in E1; subst q. rewrite parent_app in P1. eauto.
  - destruct P as (P1 & P2). intros H NE.
    destruct (eqb_path q (p ++ [n])) eqn:E1.
    + apply eqb_path_spec in E1; subst q. rewrite parent_app in P1.
      destruct (eqb_path (p ++ [n]) p) eqn:E2; [apply eqb_path_spec in E2; destruct (AN _ _ E2) | eauto].
    + specialize (T p n H NE). destruct (eqb_path q p) eqn:E2; [|exact T].
      apply eqb_path_spec in E2; subst. apply is_dir_lookup in T; [congruence | exact NE].
  - destruct P as (fc & fb & P). intros H NE.
    destruct (eqb_path q p) eqn:E2.
    + apply eqb_path_spec in E2; subst q. destruct (eqb_path p (p ++ [n])) eqn:E1.
      * apply eqb_path_spec in E1. symmetry in E1. destruct (AN _ _ E1).
      * specialize (T p n H NE). congruence.
    + destruct (eqb_path q (p ++ [n])) eqn:E1; [|eauto].
      apply eqb_path_spec in E1; subst q. apply (T p n); congruence.
  - intros H NE. assert (lookup m (p ++ [n]) <> None) as H'.
    { destruct (eqb_path q (p ++ [n])); [|exact H]. destruct (lookup m (p ++ [n])); [discriminate | exact H]. }
    rewrite (T p n H' NE). destruct (eqb_path q p); reflexivity.
  - intros H NE. assert (lookup m (p ++ [n]) <> None) as H'.
    { destruct (below d (p ++ [n])); [|exact H]. destruct (lookup m (p ++ [n])); [discriminate | exact H]. }
    rewrite (T p n H' NE). destruct (below d p); reflexivity.
  - destruct P as ((fc & fb & P) & P1 & P2). rewrite P. intros H NE.
    destruct (eqb_path b (p ++ [n])) eqn:E1.
    + apply eqb_path_spec in E1; subst b. rewrite parent_app in P1. specialize (ID p m P1 NE).
      destruct (eqb_path (p ++ [n]) p) eqn:E2; [apply eqb_path_spec in E2; destruct (AN _ _ E2)|].
      destruct (eqb_path a p) eqn:E3; [apply eqb_path_spec in E3; subst; congruence | exact ID].
    + destruct (eqb_path a (p ++ [n])) eqn:E3; [congruence|].
      specialize (T p n H NE).
      destruct (eqb_path b p) eqn:E2.
      * apply eqb_path_spec in E2; subst. apply is_dir_lookup in T; [congruence | exact NE].
      * destruct (eqb_path a p) eqn:E4; [apply eqb_path_spec in E4; subst; congruence | exact T].
  - intros H NE. eauto.
  - destruct (NR q eq_refl).
Qed.
