(** Lemmas about Base.v. *)
From Coq Require Import List NArith ZArith Bool Lia ZifyBool ZifyNat ZifyN.
From Verif Require Import Base.
Import ListNotations.
Open Scope N_scope.

Ltac Zify.zify_post_hook ::= Z.to_euclidean_division_equations.

Lemma eqb_bytes_spec a b : eqb_bytes a b = true <-> a = b.
Proof.
  revert b; induction a as [|x a IH]; destruct b as [|y b]; cbn; try (split; congruence).
  rewrite andb_true_iff, N.eqb_eq, IH. split; [intros [-> ->]|intros [= -> ->]]; auto.
Qed.

Lemma eqb_bytes_refl a : eqb_bytes a a = true.
Proof. now apply eqb_bytes_spec. Qed.

Lemma eqb_bytes_false a b : eqb_bytes a b = false <-> a <> b.
Proof.
  rewrite <- (eqb_bytes_spec a b). destruct (eqb_bytes a b); split; congruence.
Qed.

Lemma starts_with_spec p s : starts_with p s = true <-> exists t, s = p ++ t.
Proof.
  revert s; induction p as [|x p IH]; intros s; cbn.
  - split; eauto.
  - destruct s as [|y s].
    + split; [discriminate | intros [t [=]]].
    + rewrite andb_true_iff, N.eqb_eq, IH. split.
      * intros [-> [t ->]]. now exists t.
      * intros [t [= -> ->]]. eauto.
Qed.

(** ** Splitting *)

Lemma split_on_nonempty c s : split_on c s <> [].
Proof. destruct s; cbn; try congruence. destruct (n =? c); try congruence. destruct (split_on c s); congruence. Qed.

Lemma split_on_app c a b :
  ~ In c a -> split_on c (a ++ c :: b) = a :: split_on c b.
Proof.
  induction a as [|x a IH]; cbn; intros H.
  - now rewrite N.eqb_refl.
  - destruct (N.eqb_spec x c) as [->|Hn]; [tauto|].
    rewrite IH by tauto. reflexivity.
Qed.

Lemma split_on_none c a : ~ In c a -> split_on c a = [a].
Proof.
  induction a as [|x a IH]; cbn; intros H; auto.
  destruct (N.eqb_spec x c) as [->|Hn]; [tauto|]. now rewrite IH by tauto.
Qed.

Lemma split_on_cons_inv c s p ps :
  split_on c s = p :: ps ->
  ~ In c p /\ ((ps = [] /\ s = p) \/ (exists s', ps = split_on c s' /\ s = p ++ c :: s')).
Proof.
  revert p ps; induction s as [|x s IH]; intros p ps; cbn.
  - intros [= <- <-]. split; auto.
  - destruct (N.eqb_spec x c) as [->|Hn].
    + intros [= <- <-]. split; auto. right. exists s. auto.
    + destruct (split_on c s) as [|q qs] eqn:E.
      * now apply split_on_nonempty in E.
      * intros [= <- <-]. destruct (IH q qs eq_refl) as [Hq Hc]. split.
        { cbn. intros [->|H]; auto. }
        destruct Hc as [[-> ->]|[s' [-> ->]]]; [left; auto | right; exists s'; auto].
Qed.

Lemma split_once_some pat s a b :
  split_once pat s = Some (a, b) -> s = a ++ pat ++ b.
Proof.
  revert a b; induction s as [|x s IH]; intros a b; cbn [split_once].
  - destruct (starts_with pat []) eqn:E; [|discriminate].
    intros [= <- <-]. apply starts_with_spec in E as [t E].
    destruct pat; cbn in *; [now subst|discriminate].
  - destruct (starts_with pat (x :: s)) eqn:E.
    + intros [= <- <-]. apply starts_with_spec in E as [t E]. rewrite E.
      cbn. f_equal. now rewrite skipn_app, skipn_all, Nat.sub_diag.
    + destruct (split_once pat s) as [[a' b']|] eqn:E'; [|discriminate].
      intros [= <- <-]. cbn. f_equal. now apply IH.
Qed.

Lemma split_once_char_some c s a b :
  split_once [c] s = Some (a, b) <-> s = a ++ c :: b /\ ~ In c a.
Proof.
  revert a b; induction s as [|x s IH]; intros a b; cbn.
  - split; [discriminate|]. intros [E _]. destruct a; discriminate.
  - rewrite andb_true_r. destruct (N.eqb_spec c x) as [->|Hn].
    + split.
      * intros [= <- <-]. auto.
      * intros [E H]. destruct a as [|y a]; cbn in *.
        { now inversion E. }
        injection E as -> ->. tauto.
    + destruct (split_once [c] s) as [[a' b']|] eqn:E.
      * split.
        { intros [= <- <-]. destruct (proj1 (IH a' b') eq_refl) as [-> H]. cbn. split; auto.
          intros [->|?]; auto. }
        { intros [E' H]. destruct a as [|y a]; cbn in *; injection E' as -> ->; [tauto|].
          assert (Some (a', b') = Some (a, b)) as [= -> ->] by (apply IH; tauto). auto. }
      * split; [discriminate|]. intros [E' H]. destruct a as [|y a]; cbn in *; injection E' as -> ->; [tauto|].
        assert (None = Some (a, b)) by (apply IH; tauto). discriminate.
Qed.

Lemma split_once_char_none c s : split_once [c] s = None <-> ~ In c s.
Proof.
  split.
  - intros H Hin. apply in_split in Hin as (a & b & ->).
    revert H. induction a as [|x a IH]; cbn.
    + rewrite N.eqb_refl. discriminate.
    + rewrite andb_true_r. destruct (c =? x); [discriminate|].
      destruct (split_once [c] (a ++ c :: b)) as [[]|]; auto; discriminate.
  - intros H. destruct (split_once [c] s) as [[a b]|] eqn:E; auto.
    apply split_once_char_some in E as [-> _]. exfalso. apply H. apply in_or_app; right; now left.
Qed.

(** ** Decimal *)

Lemma is_digit_spec c : is_digit c = true <-> 48 <= c <= 57.
Proof. unfold is_digit. lia. Qed.

Lemma digits_value_app a b :
  digits_value (a ++ b) = fold_left (fun acc c => acc * 10 + (c - 48)) b (digits_value a).
Proof. unfold digits_value. apply fold_left_app. Qed.

Lemma digits_value_snoc a c : digits_value (a ++ [c]) = digits_value a * 10 + (c - 48).
Proof. now rewrite digits_value_app. Qed.

Lemma dec_aux_app fuel n acc : dec_aux fuel n acc = dec_aux fuel n [] ++ acc.
Proof.
  revert n acc; induction fuel as [|f IH]; intros n acc; cbn [dec_aux]; auto.
  destruct (n <? 10); auto. rewrite IH. rewrite (IH _ [48 + n mod 10]).
  now rewrite <- app_assoc.
Qed.

Lemma size_nat_div10 n : 10 <= n -> (N.size_nat (n / 10) < N.size_nat n)%nat.
Proof.
  intros H.
  assert (Hs : forall m, N.size_nat m = N.to_nat (N.size m)).
  { intros m. destruct m; auto. cbn. induction p; cbn; auto; rewrite IHp; lia. }
  rewrite !Hs. apply Nat.compare_lt_iff. rewrite <- N2Nat.inj_compare.
  apply N.compare_lt_iff.
  assert (n / 10 <> 0) by (intros E; apply N.div_small_iff in E; lia).
  rewrite !N.size_log2 by lia.
  apply N.add_lt_mono_r with (p := 0). rewrite !N.add_0_r.
  apply -> N.succ_lt_mono.
  apply N.log2_lt_pow2; [lia|].
  pose proof (N.log2_spec n ltac:(lia)) as [Hl _].
  pose proof (N.log2_spec n ltac:(lia)) as [_ Hu].
  assert (n / 10 <= n / 2 ) by (apply N.div_le_compat_l; lia).
  assert (0 < N.log2 n) by (apply N.log2_pos; lia).
  assert (2 ^ N.succ (N.log2 n) = 2 * 2 ^ N.log2 n) by (rewrite N.pow_succ_r'; lia).
  enough (n / 2 < 2 ^ N.log2 n) by lia.
  lia.
Qed.

(** Decimal representations: digits, correct value, no leading zero. *)
Lemma dec_aux_spec fuel n :
  (N.size_nat n < fuel)%nat ->
  Forall (fun c => 48 <= c <= 57) (dec_aux fuel n []) /\
  digits_value (dec_aux fuel n []) = n /\
  dec_aux fuel n [] <> [] /\
  (0 < n -> exists c l, dec_aux fuel n [] = c :: l /\ c <> 48) /\
  (n = 0 -> dec_aux fuel n [] = [48]).
Proof.
  revert n; induction fuel as [|f IH]; intros n Hf; [lia|].
  cbn [dec_aux]. destruct (N.ltb_spec n 10) as [Hl|Hl].
  - rewrite N.mod_small by lia. repeat split.
    + constructor; [lia|constructor].
    + unfold digits_value. cbn [fold_left]. lia.
    + discriminate.
    + intros. exists (48 + n), []. split; auto. lia.
    + intros ->. reflexivity.
  - rewrite dec_aux_app.
    destruct (IH (n / 10)) as (H1 & H2 & H3 & H4 & H5).
    { pose proof (size_nat_div10 n Hl). lia. }
    repeat split.
    + apply Forall_app. split; auto. constructor; [|constructor]. lia.
    + rewrite digits_value_snoc, H2. lia.
    + destruct (dec_aux f (n / 10) []); discriminate.
    + intros _. destruct H4 as (c & l & -> & Hc); [lia|]. exists c, (l ++ [48 + n mod 10]). split; auto.
    + lia.
Qed.

Lemma dec_digits n : Forall (fun c => 48 <= c <= 57) (dec n).
Proof. apply dec_aux_spec. lia. Qed.

Lemma dec_value n : digits_value (dec n) = n.
Proof. apply dec_aux_spec. lia. Qed.

Lemma dec_nonempty n : dec n <> [].
Proof. apply dec_aux_spec. lia. Qed.

Lemma dec_no_leading_zero n : 0 < n -> exists c l, dec n = c :: l /\ c <> 48.
Proof. apply dec_aux_spec. lia. Qed.

Lemma dec_inj a b : dec a = dec b -> a = b.
Proof. intros H. rewrite <- (dec_value a), <- (dec_value b). now f_equal. Qed.

Lemma forallb_is_digit l : forallb is_digit l = true <-> Forall (fun c => 48 <= c <= 57) l.
Proof.
  rewrite forallb_forall, Forall_forall. split; intros H x Hx; apply is_digit_spec; auto.
Qed.

Lemma dec_forallb n : forallb is_digit (dec n) = true.
Proof. apply forallb_is_digit, dec_digits. Qed.

Lemma parse_unsigned_digits max ds :
  Forall (fun c => 48 <= c <= 57) ds -> ds <> [] ->
  parse_unsigned max ds = if digits_value ds <=? max then Some (digits_value ds) else None.
Proof.
  intros Hd Hn. unfold parse_unsigned.
  destruct ds as [|d ds]; [congruence|].
  assert (d <> 43) by (inversion Hd; subst; lia).
  destruct (N.eqb_spec d 43) as [|_]; [congruence|].
  apply forallb_is_digit in Hd. now rewrite Hd.
Qed.

Lemma parse_unsigned_dec max n : n <= max -> parse_unsigned max (dec n) = Some n.
Proof.
  intros H. rewrite parse_unsigned_digits; [|apply dec_digits|apply dec_nonempty].
  rewrite dec_value. destruct (N.leb_spec n max); [auto|lia].
Qed.

(** Two decimal numerals followed by something that does not start with a digit. *)
Lemma digits_prefix_unique (a b x y : list N) :
  Forall (fun c => 48 <= c <= 57) a -> Forall (fun c => 48 <= c <= 57) b ->
  (forall c l, x = c :: l -> ~ (48 <= c <= 57)) ->
  (forall c l, y = c :: l -> ~ (48 <= c <= 57)) ->
  a ++ x = b ++ y -> a = b /\ x = y.
Proof.
  revert b; induction a as [|d a IH]; intros b Ha Hb Hx Hy E; destruct b as [|e b]; cbn in *.
  - auto.
  - subst x. exfalso. inversion Hb; subst. eapply Hx; eauto.
  - subst y. exfalso. inversion Ha; subst. eapply Hy; eauto.
  - injection E as -> E. inversion Ha; inversion Hb; subst.
    destruct (IH b) as [-> ->]; auto.
Qed.

(** Evaluate string literals. *)
Ltac lits :=
  repeat match goal with
         | |- context [lit ?s] => let r := eval vm_compute in (lit s) in change (lit s) with r
         end.
Ltac lits_in H :=
  repeat match type of H with
         | context [lit ?s] => let r := eval vm_compute in (lit s) in change (lit s) with r in H
         end.
