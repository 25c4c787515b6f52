(** Proofs for C21. *)
From Coq Require Import List NArith ZArith Bool Lia ZifyBool ZifyNat ZifyN.
From Verif Require Import Base PBase SCommon SVersion MVersion.
Import ListNotations.
Open Scope N_scope.

(** ** numerals *)

Lemma numeral_digits s v :
  numeral s v <-> Forall (fun c => 48 <= c <= 57) s /\ s <> [] /\ digits_value s = v.
Proof.
  split.
  - induction 1 as [c Hc|s v c H IH Hc].
    + split; [constructor; auto|split; [discriminate|]].
      unfold digits_value; cbn [fold_left]. lia.
    + destruct IH as (H1 & H2 & H3). split; [|split].
      * apply Forall_app; auto.
      * destruct s; discriminate.
      * rewrite digits_value_snoc, H3. lia.
  - revert v; induction s as [|c s IH] using rev_ind; intros v (H1 & H2 & H3); [congruence|].
    apply Forall_app in H1 as [H1 Hc]. inversion Hc; subst.
    destruct s as [|d s].
    + replace (digits_value ([] ++ [c])) with (c - 48).
      * now constructor.
      * cbn [app]. unfold digits_value; cbn [fold_left]. lia.
    + rewrite digits_value_snoc. rewrite N.mul_comm. constructor; auto.
      apply IH. repeat split; auto. discriminate.
Qed.

Lemma numeral_dec n : plain_numeral (dec n) n.
Proof.
  split.
  - apply numeral_digits. repeat split; [apply dec_digits|apply dec_nonempty|apply dec_value].
  - intros t E. destruct (N.eq_0_gt_0_cases n) as [->|Hn].
    + cbn in E. congruence.
    + destruct (dec_no_leading_zero n Hn) as (c & l & E' & Hc). congruence.
Qed.

Lemma numeral_fun s v w : numeral s v -> numeral s w -> v = w.
Proof. rewrite !numeral_digits. intros (_ & _ & <-) (_ & _ & <-). reflexivity. Qed.

Lemma numeral_notin s v c : numeral s v -> ~ (48 <= c <= 57) -> ~ In c s.
Proof.
  rewrite numeral_digits. intros (H & _) Hc Hi. rewrite Forall_forall in H. auto.
Qed.

Lemma numeral_forallb s v : numeral s v -> forallb is_digit s = true.
Proof. rewrite numeral_digits. intros (H & _). now apply forallb_is_digit. Qed.

Lemma parse_unsigned_spec max s v :
  parse_unsigned max s = Some v <-> rust_unsigned s v /\ v <= max.
Proof.
  split.
  - unfold parse_unsigned. intros H.
    set (ds := match s with c :: ds' => if c =? 43 then ds' else s | [] => s end) in H.
    assert (Hds : s = ds \/ s = 43 :: ds).
    { unfold ds. destruct s as [|c s]; auto. destruct (N.eqb_spec c 43); subst; auto. }
    destruct ds as [|d ds']; [discriminate|]. cbv zeta in H.
    destruct (forallb is_digit (d :: ds')) eqn:Hd; [|discriminate].
    destruct (N.leb_spec (digits_value (d :: ds')) max) as [Hm|]; [|discriminate].
    injection H as <-. split; auto.
    assert (numeral (d :: ds') (digits_value (d :: ds'))).
    { apply numeral_digits. repeat split; [now apply forallb_is_digit|discriminate]. }
    destruct Hds as [->| ->]; [now apply ru_plain|now apply (ru_plus (d :: ds'))].
  - intros [H Hm]. destruct H as [s v H|s v H].
    + apply numeral_digits in H as (H1 & H2 & H3).
      rewrite parse_unsigned_digits, H3 by auto. destruct (N.leb_spec v max); [auto|lia].
    + apply numeral_digits in H as (H1 & H2 & H3).
      lits. cbn [app]. unfold parse_unsigned. rewrite N.eqb_refl.
      destruct s; [congruence|].
      apply forallb_is_digit in H1. rewrite H1. cbv zeta. rewrite H3.
      destruct (N.leb_spec v max); [auto|lia].
Qed.

Lemma rust_unsigned_minus s v : rust_unsigned s v -> forall t, s <> 45 :: t.
Proof.
  intros H t ->. inversion H as [? ? Hn|? ? Hn E]; subst.
  eapply (numeral_notin _ _ 45) in Hn; [apply Hn; now left|lia].
Qed.

Lemma parse_signed_spec s v :
  parse_signed i32_max s = Some v <-> rust_signed s v /\ (- 2 ^ 31 <= v < 2 ^ 31)%Z.
Proof.
  unfold i32_max.
  assert (U : forall v, match parse_unsigned 2147483647 s with
               | Some u => Some (Z.of_N u) | None => None end = Some v <->
              exists u, v = Z.of_N u /\ rust_unsigned s u /\ u <= 2147483647).
  { intros w. destruct (parse_unsigned 2147483647 s) as [u|] eqn:E.
    - apply parse_unsigned_spec in E. split; [intros [= <-]; eauto|].
      intros (u' & -> & Hu). apply parse_unsigned_spec in Hu. apply parse_unsigned_spec in E.
      congruence.
    - split; [discriminate|]. intros (u & _ & Hu). apply parse_unsigned_spec in Hu. congruence. }
  unfold parse_signed. cbv zeta.
  assert (Hu : (exists u, v = Z.of_N u /\ rust_unsigned s u /\ u <= 2147483647) ->
               rust_signed s v /\ (- 2 ^ 31 <= v < 2 ^ 31)%Z).
  { intros (u & -> & H1 & H2). split; [now constructor|]. lia. }
  destruct s as [|c ds].
  - rewrite U. split; auto. intros [H Hr]. inversion H as [? u Hx|? u Hx E]; subst.
    exists u. repeat split; auto. lia.
  - destruct (N.eqb_spec c 45) as [->|Hc].
    + split.
      * destruct ds as [|d ds]; [discriminate|].
        destruct (forallb is_digit (d :: ds)) eqn:Hd; [|discriminate].
        destruct (N.leb_spec (digits_value (d :: ds)) (2147483647 + 1)) as [Hm|]; [|discriminate].
        intros [= <-]. split; [|lia].
        apply (rs_neg (d :: ds)). apply numeral_digits. repeat split; [now apply forallb_is_digit|discriminate].
      * intros [H Hr]. inversion H as [? u Hx|s' u Hx E]; subst.
        { exfalso. eapply rust_unsigned_minus; eauto. }
        apply numeral_digits in Hx as (H1 & H2 & H3).
        destruct ds; [congruence|]. apply forallb_is_digit in H1. rewrite H1, H3.
        destruct (N.leb_spec u (2147483647 + 1)); [auto|lia].
    + rewrite U. split; auto. intros [H Hr]. inversion H as [? u Hx|s' u Hx E]; subst.
      * exists u. repeat split; auto. lia.
      * congruence.
Qed.

(** ** the parser *)

Definition in_minus_rc (c : N) : Prop := c = 45 \/ c = 114 \/ c = 99.

Lemma rust_unsigned_chars s v : rust_unsigned s v -> Forall (fun c => c = 43 \/ 48 <= c <= 57) s.
Proof.
  assert (D : forall s v, numeral s v -> Forall (fun c => c = 43 \/ 48 <= c <= 57) s).
  { intros t w H. apply numeral_digits in H as (H & _). eapply Forall_impl; [|exact H].
    cbn beta. auto. }
  destruct 1 as [s v H|s v H]; eauto. lits. cbn [app]. constructor; eauto.
Qed.

Lemma rust_signed_chars s v : rust_signed s v -> Forall (fun c => c = 43 \/ c = 45 \/ 48 <= c <= 57) s.
Proof.
  destruct 1 as [s v H|s v H].
  - eapply Forall_impl; [|eapply rust_unsigned_chars; eauto]. cbn beta. tauto.
  - lits. cbn [app]. constructor; auto. apply numeral_digits in H as (H & _).
    eapply Forall_impl; [|exact H]. cbn beta. auto.
Qed.

Lemma split_once_rc_first a b :
  ~ In 45 a -> split_once (lit "-rc") (a ++ lit "-rc" ++ b) = Some (a, b).
Proof.
  lits. induction a as [|x a IH]; intros H.
  - reflexivity.
  - cbn [app split_once starts_with].
    destruct (N.eqb_spec 45 x) as [<-|Hx]; [exfalso; apply H; now left|].
    cbn [andb]. cbn [app] in IH. rewrite IH; auto. intros Hi. apply H. now right.
Qed.

Lemma split_once_rc_none s : ~ In 114 s -> split_once (lit "-rc") s = None.
Proof.
  intros H. destruct (split_once (lit "-rc") s) as [[a b]|] eqn:E; auto.
  apply split_once_some in E. exfalso. apply H. rewrite E. lits.
  apply in_or_app. right. right. now left.
Qed.

Lemma version_parse_spec s M m p :
  version_parse s = Some (Version M m p) <-> accepted_version s M m p.
Proof.
  split.
  - unfold version_parse. destruct (split_once (lit "-rc") s) as [[a b]|] eqn:E1.
    { apply split_once_some in E1. subst s.
      destruct (parse_unsigned u32_max a) eqn:Ea; [|discriminate].
      destruct (parse_unsigned u32_max b) eqn:Eb; [|discriminate].
      intros [= <- <- <-]. apply parse_unsigned_spec in Ea as [Ea1 Ea2].
      apply parse_unsigned_spec in Eb as [Eb1 Eb2]. unfold u32_max in *.
      constructor; auto; lia. }
    destruct (split_once (lit ".") s) as [[a b]|] eqn:E2.
    { apply split_once_some in E2. subst s.
      destruct (parse_unsigned u32_max a) eqn:Ea; [|discriminate].
      destruct (parse_signed i32_max b) eqn:Eb; [|discriminate].
      intros [= <- <- <-]. apply parse_unsigned_spec in Ea as [Ea1 Ea2].
      apply parse_signed_spec in Eb as [Eb1 Eb2]. unfold u32_max in *.
      constructor; auto; lia. }
    destruct (parse_unsigned u32_max s) eqn:Ea; [|discriminate].
    intros [= <- <- <-]. apply parse_unsigned_spec in Ea as [Ea1 Ea2]. unfold u32_max in *.
    constructor; auto; lia.
  - unfold version_parse.
    assert (PU : forall s v, rust_unsigned s v -> v < 2 ^ 32 -> parse_unsigned u32_max s = Some v).
    { intros. apply parse_unsigned_spec. split; auto. unfold u32_max. lia. }
    assert (NI : forall c s v, rust_unsigned s v -> c <> 43 -> ~ (48 <= c <= 57) -> ~ In c s).
    { intros c t v H H1 H2 Hi. apply rust_unsigned_chars in H. rewrite Forall_forall in H.
      specialize (H _ Hi). lia. }
    destruct 1 as [sM sK M K H1 H2 H3 H4|sM sm M m H1 H2 H3 H4|sM M H1 H2].
    + rewrite split_once_rc_first by (eapply NI; eauto; lia).
      now rewrite (PU sM M), (PU sK K).
    + rewrite split_once_rc_none.
      * assert (Es : split_once (lit ".") (sM ++ lit "." ++ sm) = Some (sM, sm)).
        { change (lit ".") with [46]. apply split_once_char_some. split; auto. eapply NI; eauto; lia. }
        rewrite Es, (PU sM M) by auto.
        assert (parse_signed i32_max sm = Some m) as -> by (apply parse_signed_spec; auto). reflexivity.
      * intros Hi. apply in_app_or in Hi as [Hi|Hi].
        { revert Hi. eapply NI; eauto; lia. }
        lits_in Hi. cbn [app] in Hi. destruct Hi as [Hi|Hi]; [discriminate|].
        apply rust_signed_chars in H2. rewrite Forall_forall in H2. specialize (H2 _ Hi). lia.
    + rewrite split_once_rc_none by (eapply NI; eauto; lia).
      assert (Es : split_once (lit ".") sM = None).
      { change (lit ".") with [46]. apply split_once_char_none. eapply NI; eauto; lia. }
      now rewrite Es, (PU sM M).
Qed.

Lemma version_parse_release r s :
  release_name r s -> release_in_range r ->
  exists v, version_parse s = Some v /\
    v = match r with
        | Candidate M K => Version M (-1) K
        | Final M => Version M 0 0
        | Point M m => Version M (Z.of_N m) 0
        end.
Proof.
  intros H Hr. eexists; split; [|reflexivity].
  destruct H; cbn in Hr; apply version_parse_spec; constructor; try (now constructor); try lia.
  constructor; now constructor.
Qed.

Lemma version_order r1 r2 s1 s2 :
  release_name r1 s1 -> release_name r2 s2 -> release_in_range r1 -> release_in_range r2 ->
  exists v1 v2, version_parse s1 = Some v1 /\ version_parse s2 = Some v2 /\
    (version_gtb v1 v2 = true <-> older r2 r1).
Proof.
  intros H1 H2 R1 R2.
  destruct (version_parse_release _ _ H1 R1) as (v1 & E1 & ->).
  destruct (version_parse_release _ _ H2 R2) as (v2 & E2 & ->).
  eexists _, _. split; [exact E1|]. split; [exact E2|].
  unfold version_gtb.
  destruct r1, r2; cbn [v_major v_minor v_patch older]; lia.
Qed.
