(** loader.conf as systemd-boot reads it (C78). *)
From Coq Require Import List NArith ZArith Bool Lia Permutation.
From Verif Require Import Base PBase MText MLoaderConf SCommon SMenu SLoaderConf PVersion PMenu.
Import ListNotations.
Open Scope N_scope.

Lemma insert_perm e s : Permutation (insert_name e s) (e :: s).
Proof.
  induction s as [|f r IH]; cbn; [reflexivity|]. destruct (name_le (fst e) (fst f)); [reflexivity|].
  rewrite IH. apply perm_swap.
Qed.
Lemma by_name_perm s : Permutation (by_name s) s.
Proof. induction s as [|e r IH]; cbn; [reflexivity|]. change (fold_right insert_name [] r) with (by_name r). now rewrite insert_perm, IH. Qed.

Lemma setting_in k s v : setting k s = Some v -> In (k, v) s.
Proof.
  induction s as [|[k' w] r IH]; cbn; [discriminate|]. destruct (eqb_bytes k k') eqn:E.
  - apply eqb_bytes_spec in E as ->. intros [= ->]. left. reflexivity.
  - intros H. right. auto.
Qed.
Lemma setting_none k s : setting k s = None -> forall w, ~ In (k, w) s.
Proof.
  induction s as [|[k' v] r IH]; cbn; intros H w; [tauto|]. destruct (eqb_bytes k k') eqn:E; [discriminate|].
  intros [X|X]; [injection X as -> ->; rewrite (proj2 (eqb_bytes_spec _ _) eq_refl) in E; discriminate | exact (IH H w X)].
Qed.

Lemma update_in defaults user k v : In (k, v) (update defaults user) <-> in_force defaults user k v.
Proof.
  unfold update. split.
  - intros H. eapply Permutation_in in H; [|apply by_name_perm]. apply in_app_or in H as [H|H]; [left; exact H|].
    apply filter_In in H as [H S]. cbn [fst] in S. destruct (setting k user) eqn:E; [discriminate|].
    apply if_default; [apply setting_none; exact E | exact H].
  - intros H. eapply Permutation_in; [symmetry; apply by_name_perm|]. apply in_or_app. destruct H as [H|N H]; [left; exact H|].
    right. apply filter_In. split; [exact H|]. cbn [fst]. destruct (setting k user) eqn:E; [|reflexivity].
    destruct (N v0). apply setting_in. exact E.
Qed.

Lemma nodup_app {A} (a b : list A) : NoDup a -> NoDup b -> (forall x, In x a -> ~ In x b) -> NoDup (a ++ b).
Proof.
  induction a as [|x a IH]; cbn; intros N1 N2 D; [exact N2|]. inversion N1; subst. constructor.
  - rewrite in_app_iff. intros [H|H]; [contradiction | exact (D x (or_introl eq_refl) H)].
  - apply IH; [assumption | exact N2 |]. intros y Y. apply D. right. exact Y.
Qed.

Lemma update_nodup defaults user : NoDup (map fst defaults) -> NoDup (map fst user) -> NoDup (map fst (update defaults user)).
Proof.
  intros D U. unfold update. eapply Permutation_NoDup; [apply Permutation_map; symmetry; apply by_name_perm|].
  rewrite map_app. 
  assert (forall k, In k (map fst user) -> ~ In k (map fst (filter (fun e => match setting (fst e) user with Some _ => false | None => true end) defaults))) as X.
  { intros k K1 K2. apply in_map_iff in K2 as ([k' v] & <- & K2). apply filter_In in K2 as [_ S]. cbn [fst] in *.
    destruct (setting k' user) eqn:E; [discriminate|]. apply in_map_iff in K1 as ([k'' w] & E2 & K1). cbn [fst] in E2. subst.
    exact (setting_none _ _ E w K1). }
  assert (NoDup (map fst (filter (fun e => match setting (fst e) user with Some _ => false | None => true end) defaults))) as Y.
  { clear X. induction defaults as [|e r IH]; cbn; [constructor|]. inversion D as [|? ? N1 N2]; subst.
    destruct (setting (fst e) user); cbn; [auto|]. constructor; [|auto]. intros H. apply N1.
    apply in_map_iff in H as (f & <- & H). apply filter_In in H as [H _]. apply in_map. exact H. }
  apply nodup_app; assumption.
Qed.

(** ** Texts of values *)

Lemma dec_digits n c : In c (dec n) -> ascii_digit c = true.
Proof.
  destruct (numeral_dec n) as [H _]. revert c. induction H as [c H|s v c _ IH H]; intros d.
  - intros [<-|[]]. unfold ascii_digit. apply andb_true_iff. split; apply N.leb_le; lia.
  - rewrite in_app_iff. intros [I|[<-|[]]]; [auto|]. unfold ascii_digit. apply andb_true_iff. split; apply N.leb_le; lia.
Qed.
Lemma dec_nonempty n : dec n <> [].
Proof. destruct (numeral_dec n) as [H _]. destruct H; [discriminate | destruct s; discriminate]. Qed.

Lemma value_means v : v <> VNull -> means v (value_text v).
Proof.
  destruct v as [|[]|[|p|p]|s]; intros H; try congruence; cbn [value_text]; try constructor.
  - apply (me_nat 0). exact (numeral_dec 0).
  - apply (me_nat (Npos p)). apply numeral_dec.
  - apply (me_neg (Npos p)); [lia | apply numeral_dec].
Qed.

(** ** Lines *)

Lemma escape_plain k : (forall c, In c k -> is_blank c = false) -> escape_blanks k = k.
Proof.
  induction k as [|c k IH]; intros H; [reflexivity|]. cbn [escape_blanks flat_map].
  assert ((c =? 32) = false) as ->.
  { specialize (H c (or_introl eq_refl)). unfold is_blank in H. apply orb_false_iff in H. apply H. }
  cbn [app]. f_equal. apply IH. intros d D. apply H. right. exact D.
Qed.

Lemma starts_iff c s : starts c s = true <-> exists r, s = c :: r.
Proof.
  destruct s as [|x s]; cbn; [split; [discriminate | intros [r [=]]]|]. rewrite N.eqb_eq. split; [intros ->; eauto | intros [r [= -> _]]; reflexivity].
Qed.

Lemma strip_ends c s d : is_blank c = false -> is_blank d = false -> strip (c :: s ++ [d]) = c :: s ++ [d].
Proof.
  intros H1 H2. unfold strip. rewrite skip_stop by exact H1. change (c :: s ++ [d]) with ((c :: s) ++ [d]).
  rewrite rev_unit, skip_stop by exact H2. rewrite <- rev_unit. apply rev_involutive.
Qed.

Lemma conf_pair_ok k v : plain_name k -> plain_text v -> conf_pair (k ++ [32] ++ v) = [(k, v)].
Proof.
  intros (_ & KN & KC & KB) (_ & VN & V1 & V2 & VQ). unfold conf_pair.
  destruct (exists_last VN) as (v' & d & EV). destruct k as [|c k]; [congruence|].
  assert (strip ((c :: k) ++ [32] ++ v) = (c :: k) ++ [32] ++ v) as ->.
  { rewrite EV. replace ((c :: k) ++ [32] ++ v' ++ [d]) with (c :: (k ++ [32] ++ v') ++ [d]) by (cbn [app]; rewrite <- !app_assoc; reflexivity).
    apply strip_ends; [apply KB; left; reflexivity | apply (V2 v' d EV)]. }
  assert (starts 35 ((c :: k) ++ [32] ++ v) = false) as ->.
  { destruct (starts 35 ((c :: k) ++ [32] ++ v)) eqn:E; [|reflexivity]. apply starts_iff in E as [r E]. injection E as -> _. destruct KC. eauto. }
  rewrite span_app.
  - cbn [app skip]. change (is_blank 32) with true. cbn iota.
    assert (skip is_blank v = v) as -> by (destruct v as [|x v0]; [reflexivity | apply skip_stop; eapply V1; reflexivity]).
    assert (unquote v = v) as ->; [|reflexivity]. unfold unquote. destruct (starts 34 v && starts 34 (rev v)) eqn:E; [|reflexivity].
    apply andb_true_iff in E as [E1 E2]. apply starts_iff in E1, E2. destruct VQ. split; [exact E1|]. destruct E2 as [r E2].
    exists (rev r). rewrite <- (rev_involutive v), E2. reflexivity.
  - apply forallb_forall. intros x I. rewrite (KB x I). reflexivity.
  - reflexivity.
Qed.

Lemma digits_plain t : (forall c, In c t -> ascii_digit c = true \/ c = 45) -> t <> [] -> plain_text t.
Proof.
  intros H N. assert (forall c, In c t -> c = 45 \/ 48 <= c <= 57) as B.
  { intros c I. destruct (H c I) as [X| ->]; [|left; reflexivity]. right. unfold ascii_digit in X. apply andb_true_iff in X as [X1 X2].
    apply N.leb_le in X1, X2. lia. }
  assert (forall c, In c t -> is_blank c = false) as NB.
  { intros c I. unfold is_blank. apply orb_false_iff. split; apply N.eqb_neq; destruct (B c I); lia. }
  split; [|split; [exact N|]].
  - repeat split; intros I; destruct (B _ I); lia.
  - split; [intros c r ->; apply NB; left; reflexivity|]. split; [intros r c ->; apply NB, in_or_app; right; left; reflexivity|].
    intros [[r ->] _]. destruct (B 34 (or_introl eq_refl)); lia.
Qed.

Lemma value_plain v : v <> VNull -> (forall t, v = VStr t -> plain_text t) -> plain_text (value_text v).
Proof.
  intros NN H. destruct v as [|[]|[|p|p]|s]; cbn [value_text]; try congruence.
  - split; [closed_line|]. split; [discriminate|]. split; [intros c r [= <- <-]; reflexivity|].
    split; [intros r c E; apply (f_equal (@rev N)) in E; rewrite rev_unit in E; vm_compute in E; injection E as <- _; reflexivity|].
    intros [[r E] _]. discriminate E.
  - split; [closed_line|]. split; [discriminate|]. split; [intros c r [= <- <-]; reflexivity|].
    split; [intros r c E; apply (f_equal (@rev N)) in E; rewrite rev_unit in E; vm_compute in E; injection E as <- _; reflexivity|].
    intros [[r E] _]. discriminate E.
  - apply digits_plain; [intros c [<-|[]]; left; reflexivity | discriminate].
  - apply digits_plain; [intros c I; left; eapply dec_digits; exact I | apply dec_nonempty].
  - apply digits_plain; [|discriminate]. intros c [<-|I]; [right; reflexivity | left; eapply dec_digits; exact I].
  - apply H. reflexivity.
Qed.

Definition pair_of (e : bytes * value) : list (bytes * bytes) :=
  match snd e with VNull => [] | v => [(fst e, value_text v)] end.

Lemma conf_pairs s : (forall k v, In (k, v) s -> plain_name k /\ forall t, v = VStr t -> plain_text t) ->
  flat_map conf_pair (text_lines [] (loader_conf s)) = flat_map pair_of s.
Proof.
  induction s as [|[k v] r IH]; intros H; [reflexivity|].
  cbn [loader_conf flat_map fst snd]. change (flat_map (fun e => key_value (fst e) (snd e) ++ [10]) r) with (loader_conf r).
  rewrite <- app_assoc. cbn [app]. destruct (H k v (or_introl eq_refl)) as [PK PV].
  assert (v = VNull \/ v <> VNull) as [->|NN] by (destruct v; [left; reflexivity | right; discriminate ..]).
  - cbn [key_value pair_of snd app]. change (10 :: loader_conf r) with ([] ++ 10 :: loader_conf r). rewrite text_lines_app by closed_line.
    cbn [rev app flat_map]. change (conf_pair []) with (@nil (bytes * bytes)). cbn [app]. apply IH. intros; apply H; right; assumption.
  - assert (key_value k v = k ++ [32] ++ value_text v) as -> by (destruct v; try congruence; cbn [key_value]; rewrite escape_plain by apply PK; reflexivity).
    pose proof (value_plain v NN PV) as PT. rewrite text_lines_app.
    + cbn [flat_map]. change (rev (@nil N) ++ k ++ [32] ++ value_text v) with (k ++ [32] ++ value_text v). rewrite (conf_pair_ok k (value_text v) PK PT).
      assert (pair_of (k, v) = [(k, value_text v)]) as -> by (destruct v; try congruence; reflexivity).
      f_equal. apply IH. intros; apply H; right; assumption.
    + apply one_line_app; [apply PK|]. apply one_line_app; [closed_line | apply PT].
Qed.

Lemma last_of_absent k (l : list (list N * list N)) : (forall v, ~ In (k, v) l) -> last_of k l = None.
Proof.
  induction l as [|[k' v] r IH]; intros H; [reflexivity|]. cbn [last_of]. rewrite IH by (intros w I; apply (H w); right; exact I).
  unfold eqs. destruct (list_eq_dec N.eq_dec k k') as [->|]; [|reflexivity]. destruct (H v). left. reflexivity.
Qed.

Lemma last_of_pairs s k : NoDup (map fst s) ->
  forall v, In (k, v) s -> last_of k (flat_map pair_of s) = match v with VNull => None | _ => Some (value_text v) end.
Proof.
  induction s as [|[k' v'] r IH]; intros ND v; [intros []|]. inversion ND as [|? ? N1 N2]; subst. cbn [flat_map fst] in *.
  intros [E|I].
  - injection E as -> ->. assert (last_of k (flat_map pair_of r) = None) as X.
    { apply last_of_absent. intros w W. apply in_flat_map in W as ([k2 v2] & I & W). apply N1. apply in_map_iff. exists (k2, v2). split; [|exact I].
      unfold pair_of in W. cbn [fst snd] in *. destruct v2; try contradiction; destruct W as [[= <- _]|[]]; reflexivity. }
    destruct v; cbn [pair_of snd fst app last_of]; rewrite X; unfold eqs;
      try (destruct (list_eq_dec N.eq_dec k k); [reflexivity | congruence]).
  - assert (k <> k') as NE by (intros ->; apply N1, in_map_iff; exists (k', v); auto).
    assert (last_of k (pair_of (k', v') ++ flat_map pair_of r) = last_of k (flat_map pair_of r)) as ->; [|apply IH; assumption].
    destruct v'; cbn [pair_of snd fst app last_of]; try reflexivity;
      (destruct (last_of k (flat_map pair_of r)); [reflexivity|]; unfold eqs; destruct (list_eq_dec N.eq_dec k k'); [congruence | reflexivity]).
Qed.

Lemma conf_read defaults user : plain_settings defaults -> plain_settings user ->
  let text := loader_config_file defaults user in
  (forall k v, in_force defaults user k v -> v <> VNull -> exists t, means v t /\ conf_reads text k = Some t) /\
  (forall k, in_force defaults user k VNull \/ (forall v, ~ in_force defaults user k v) -> conf_reads text k = None).
Proof.
  intros [D1 D2] [U1 U2] text.
  assert (flat_map conf_pair (text_lines [] text) = flat_map pair_of (update defaults user)) as E.
  { apply conf_pairs. intros k v I. apply update_in in I as [I|_ I]; [apply U2 | apply D2]; exact I. }
  pose proof (update_nodup defaults user D1 U1) as ND. unfold conf_reads. rewrite E. split.
  - intros k v I NN. exists (value_text v). split; [apply value_means; exact NN|].
    apply update_in in I. rewrite (last_of_pairs _ k ND v I). destruct v; try reflexivity. congruence.
  - intros k [I|N].
    + apply update_in in I. exact (last_of_pairs _ k ND VNull I).
    + apply last_of_absent. intros t I. apply in_flat_map in I as ([k' v] & I & P). apply (N v). apply update_in.
      unfold pair_of in P. cbn [fst snd] in P. destruct v; try contradiction; destruct P as [[= <- _]|[]]; exact I.
Qed.
