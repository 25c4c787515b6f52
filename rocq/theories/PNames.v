(** Proofs about names, paths and encodings. *)
From Coq Require Import List NArith ZArith Bool Lia ZifyBool ZifyNat ZifyN.
From Verif Require Import Base PBase MText PText MGeneration MNames SCommon SNames SVersion PVersion.
Import ListNotations.
Open Scope N_scope.

Ltac Zify.zify_post_hook ::= Z.to_euclidean_division_equations.

(** ** The regular expression *)

Lemma span_digits_spec nd s a b :
  span_digits nd s = (a, b) ->
  s = a ++ b /\ forallb nd a = true /\ (forall c t, b = c :: t -> nd c = false).
Proof.
  revert a b; induction s as [|c s IH]; intros a b; cbn.
  - intros [= <- <-]. repeat split; auto. discriminate.
  - destruct (nd c) eqn:Hc.
    + destruct (span_digits nd s) as [a' b']. intros [= <- <-].
      destruct (IH a' b' eq_refl) as (-> & H & H'). repeat split; auto.
      cbn. now rewrite Hc.
    + intros [= <- <-]. repeat split; auto. intros ? ? [= <- <-]. auto.
Qed.

Lemma span_digits_app nd a b :
  forallb nd a = true -> (forall c t, b = c :: t -> nd c = false) ->
  span_digits nd (a ++ b) = (a, b).
Proof.
  induction a as [|c a IH]; cbn; intros H Hb.
  - destruct b as [|c b]; auto. cbn. now rewrite (Hb c b eq_refl).
  - apply andb_true_iff in H as [Hc H]. rewrite Hc, IH; auto.
Qed.

Lemma digit_class_dot nd : digit_class nd -> nd 46 = false.
Proof.
  intros H. destruct (nd 46) eqn:E; auto. apply H in E; lia.
Qed.
Lemma digit_class_minus nd : digit_class nd -> nd 45 = false.
Proof.
  intros H. destruct (nd 45) eqn:E; auto. apply H in E; lia.
Qed.
Lemma digit_class_plus nd : digit_class nd -> nd 43 = false.
Proof.
  intros H. destruct (nd 43) eqn:E; auto. apply H in E; lia.
Qed.

Lemma suffix_match_spec nd s :
  digit_class nd ->
  suffix_match nd s = true <-> exists c, counter nd c /\ s = c ++ lit ".efi".
Proof.
  intros Hnd. pose proof (digit_class_dot nd Hnd) as Hdot.
  pose proof (digit_class_minus nd Hnd) as Hmin.
  split.
  - intros H. destruct s as [|c s1]; [discriminate|]. unfold suffix_match in H.
    destruct (N.eqb_spec c 43) as [->|Hc].
    + destruct (span_digits nd s1) as [d1 s2] eqn:E1.
      apply span_digits_spec in E1 as (-> & F1 & _).
      destruct d1 as [|x d1]; [discriminate|].
      destruct s2 as [|c2 s3]; [discriminate|].
      destruct (N.eqb_spec c2 45) as [->|Hc2].
      * destruct (span_digits nd s3) as [d2 s4] eqn:E2.
        apply span_digits_spec in E2 as (-> & F2 & _).
        destruct d2 as [|y d2]; [discriminate|]. apply eqb_bytes_spec in H. subst s4.
        exists (lit "+" ++ (x :: d1) ++ lit "-" ++ (y :: d2)). split.
        { constructor; auto; discriminate. }
        rewrite <- !app_assoc. reflexivity.
      * apply eqb_bytes_spec in H. rewrite H.
        exists (lit "+" ++ (x :: d1)). split.
        { constructor; auto; discriminate. }
        rewrite <- !app_assoc. reflexivity.
    + apply eqb_bytes_spec in H. rewrite H. exists []. split; [constructor|reflexivity].
  - intros (c & Hc & ->). destruct Hc as [|a Ha Fa|a b Ha Hb Fa Fb].
    + reflexivity.
    + change (lit "+") with [43]. change (lit ".efi") with [46;101;102;105]. cbn [app].
      unfold suffix_match. rewrite N.eqb_refl.
      rewrite span_digits_app; auto; [|intros ? ? [= <- <-]; auto].
      destruct a; [congruence|]. reflexivity.
    + change (lit "+") with [43]. change (lit "-") with [45].
      change (lit ".efi") with [46;101;102;105]. rewrite <- !app_assoc. cbn [app].
      unfold suffix_match. rewrite N.eqb_refl.
      rewrite span_digits_app; auto; [|intros ? ? [= <- <-]; auto].
      destruct a as [|x a]; [congruence|]. rewrite N.eqb_refl.
      rewrite span_digits_app; auto; [|intros ? ? [= <- <-]; auto].
      destruct b as [|y b]; [congruence|]. reflexivity.
Qed.

Lemma skipn_app_exact {A} (a b : list A) : skipn (length a) (a ++ b) = b.
Proof. now rewrite skipn_app, skipn_all, Nat.sub_diag. Qed.

Lemma stub_regex_spec nd p s :
  digit_class nd ->
  stub_regex nd p s = true <-> exists c, counter nd c /\ s = p ++ c ++ lit ".efi".
Proof.
  intros Hnd. unfold stub_regex. rewrite andb_true_iff, starts_with_spec. split.
  - intros [[t ->] H]. rewrite skipn_app_exact in H. apply suffix_match_spec in H as (c & Hc & ->); eauto.
  - intros (c & Hc & ->). rewrite skipn_app_exact. split; eauto.
    apply suffix_match_spec; eauto.
Qed.

(** ** Stub names *)

Lemma is_digit_class nd n : digit_class nd -> forallb nd (dec n) = true.
Proof.
  intros H. apply forallb_forall. intros c Hc. pose proof (dec_digits n) as D.
  rewrite Forall_forall in D. specialize (D c Hc). cbn beta in D. apply H; lia.
Qed.

Definition name_hash (h : bytes -> bytes) (k : bytes) (g : generation) : str :=
  base32 (h (utf8_encode (json_stub_inputs (bs_toplevel (g_spec g)) k))).

Lemma name_hash_length h k g : hash32 h -> length (name_hash h k g) = 52%nat.
Proof.
  intros H. unfold name_hash. rewrite base32_length.
  rewrite (proj1 (H _)). reflexivity.
Qed.

Lemma name_hash_inj h k1 k2 g1 g2 :
  hash32 h -> name_hash h k1 g1 = name_hash h k2 g2 ->
  (bs_toplevel (g_spec g1) = bs_toplevel (g_spec g2) /\ k1 = k2) \/ collision h.
Proof.
  intros H E. unfold name_hash in E.
  apply base32_inj in E; try apply H.
  2: { now rewrite !(proj1 (H _)). }
  rewrite !utf8_ascii in E by apply json_stub_inputs_ascii.
  destruct (list_eq_dec N.eq_dec (json_stub_inputs (bs_toplevel (g_spec g1)) k1)
              (json_stub_inputs (bs_toplevel (g_spec g2)) k2)) as [E'|Hn].
  - left. now apply json_stub_inputs_inj.
  - right. eexists _, _. eauto.
Qed.

Lemma stub_prefix_stem h k g :
  hash32 h -> stub_stem (g_version g) (g_specname g) (name_hash h k g) (stub_prefix h k g).
Proof.
  intros H. exists (dec (g_version g)).
  split; [apply numeral_dec|]. split; [now apply name_hash_length|].
  split; [apply base32_chars|]. unfold stub_prefix. now destruct (g_specname g).
Qed.

Lemma stub_name_form h k t g :
  hash32 h -> exists stem hash, stub_stem (g_version g) (g_specname g) hash stem /\
    stub_name h k t g = stem ++ (if 0 <? t then lit "+" ++ dec t else []) ++ lit ".efi".
Proof.
  intros H. exists (stub_prefix h k g), (name_hash h k g). split; [now apply stub_prefix_stem|].
  unfold stub_name. cbv zeta. destruct (0 <? t); [|reflexivity].
  now rewrite <- !app_assoc.
Qed.

(** Lists equal up to suffixes. *)
Lemma app_eq_length {A} (a b x y : list A) :
  a ++ x = b ++ y -> length a = length b -> a = b /\ x = y.
Proof.
  revert b; induction a as [|c a IH]; intros [|d b] E Hl; cbn in *; try lia; auto.
  injection E as -> E. destruct (IH b E ltac:(lia)) as [-> ->]. auto.
Qed.

Lemma app_eq_length_r {A} (a b x y : list A) :
  a ++ x = b ++ y -> length x = length y -> a = b /\ x = y.
Proof.
  intros E Hl. apply app_eq_length; auto.
  apply (f_equal (@length A)) in E. rewrite !app_length in E. lia.
Qed.

Lemma last_split (p q u v : list N) :
  p ++ 45 :: u = q ++ 45 :: v -> ~ In 45 u -> ~ In 45 v -> p = q /\ u = v.
Proof.
  intros E Hu Hv. apply (f_equal (@rev N)) in E.
  rewrite !rev_app_distr in E. cbn in E. rewrite <- !app_assoc in E. cbn in E.
  assert (Hu' : ~ In 45 (rev u)) by now rewrite <- in_rev.
  assert (Hv' : ~ In 45 (rev v)) by now rewrite <- in_rev.
  assert (rev u = rev v /\ rev p = rev q) as [H1 H2].
  { revert E Hu' Hv'. generalize (rev u) (rev v) (rev p) (rev q). clear.
    induction l as [|x l IH]; intros m p q E Hu Hv; destruct m as [|y m]; cbn in *.
    - injection E as E. auto.
    - injection E as E1 E2. exfalso. apply Hv. now left.
    - injection E as E1 E2. exfalso. apply Hu. now left.
    - injection E as E1 E2. subst y. destruct (IH m p q E2) as [-> ->]; auto. }
  apply (f_equal (@rev N)) in H1. apply (f_equal (@rev N)) in H2.
  rewrite !rev_involutive in *. auto.
Qed.

Definition counter_chars (nd : N -> bool) (c : N) : Prop := c = 43 \/ c = 45 \/ nd c = true.

(** Core combinatorial fact: [s1 "-" h1 c1 = s2 "-" h2 c2]. *)
Lemma tail_unique nd s1 s2 h1 h2 c1 c2 :
  digit_class nd -> counter nd c1 -> counter nd c2 ->
  length h1 = 52%nat -> length h2 = 52%nat ->
  Forall base32_char h1 -> Forall base32_char h2 ->
  s1 ++ lit "-" ++ h1 ++ c1 = s2 ++ lit "-" ++ h2 ++ c2 ->
  (length c2 <= length c1)%nat ->
  (s1 = s2 /\ h1 = h2 /\ c1 = c2) \/
  (In 43 s2 /\ Forall (fun c => 48 <= c <= 57) h2).
Proof.
  change (lit "-") with [45]. cbn [app].
  intros Hnd C1 C2 L1 L2 B1 B2 E Hle.
  assert (Hplus : forall c, In c h1 \/ In c h2 -> c <> 43 /\ c <> 45).
  { intros c [Hc|Hc]; [rewrite Forall_forall in B1; apply B1 in Hc|rewrite Forall_forall in B2; apply B2 in Hc];
      unfold base32_char in Hc; lia. }
  destruct (Nat.eq_dec (length c1) (length c2)) as [El|Hne].
  { left. change (s1 ++ 45 :: h1 ++ c1 = s2 ++ 45 :: h2 ++ c2) in E.
    apply app_eq_length_r in E as [-> E].
    - injection E as E. apply app_eq_length in E as [-> ->]; auto. congruence.
    - cbn. rewrite !app_length. lia. }
  (* c1 strictly longer: c1 = x ++ c2 with x <> [] *)
  assert (Hx : exists x, c1 = x ++ c2 /\ x <> []).
  { apply (f_equal (@rev N)) in E.
    assert (S : forall (a b u v : list N), a ++ u = b ++ v -> (length v <= length u)%nat -> exists x, u = x ++ v).
    { clear. intros a b u v E Hl. exists (firstn (length u - length v) u).
      assert (length a <= length b)%nat.
      { apply (f_equal (@length N)) in E. rewrite !app_length in E. lia. }
      pose proof (f_equal (skipn (length b)) E) as E'.
      rewrite skipn_app_exact, skipn_app, skipn_all2, app_nil_l in E' by lia.
      replace (length b - length a)%nat with (length u - length v)%nat in E'
        by (apply (f_equal (@length N)) in E; rewrite !app_length in E; lia).
      rewrite <- (firstn_skipn (length u - length v) u) at 1. now rewrite E'. }
    apply (f_equal (@rev N)) in E. rewrite !rev_involutive in E.
    destruct (S (s1 ++ 45 :: h1) (s2 ++ 45 :: h2) c1 c2) as [x Ex]; auto.
    { rewrite <- !app_assoc. exact E. }
    exists x. split; auto. intros ->. cbn in Ex. congruence. }
  destruct Hx as (x & Ex & Hx).
  assert (Hc2 : c2 = []).
  { destruct C2 as [|a Ha Fa|a b Ha Hb Fa Fb]; auto; exfalso.
    - change (lit "+") with [43] in Ex. cbn [app] in Ex.
      assert (Hin : In 43 (tl c1)).
      { rewrite Ex. destruct x as [|y x]; [congruence|]. cbn. apply in_or_app; right; now left. }
      destruct C1 as [|a' Ha' Fa'|a' b' Ha' Hb' Fa' Fb']; cbn in Hin; try contradiction.
      + rewrite forallb_forall in Fa'. apply Fa' in Hin. rewrite (digit_class_plus nd Hnd) in Hin. discriminate.
      + apply in_app_or in Hin as [Hin|Hin]; [|destruct Hin as [Hin|Hin]; [discriminate|]].
        * rewrite forallb_forall in Fa'. apply Fa' in Hin. rewrite (digit_class_plus nd Hnd) in Hin. discriminate.
        * rewrite forallb_forall in Fb'. apply Fb' in Hin. rewrite (digit_class_plus nd Hnd) in Hin. discriminate.
    - change (lit "+") with [43] in Ex. cbn [app] in Ex.
      assert (Hin : In 43 (tl c1)).
      { rewrite Ex. destruct x as [|y x]; [congruence|]. cbn. apply in_or_app; right; now left. }
      destruct C1 as [|a' Ha' Fa'|a' b' Ha' Hb' Fa' Fb']; cbn in Hin; try contradiction.
      + rewrite forallb_forall in Fa'. apply Fa' in Hin. rewrite (digit_class_plus nd Hnd) in Hin. discriminate.
      + apply in_app_or in Hin as [Hin|Hin]; [|destruct Hin as [Hin|Hin]; [discriminate|]].
        * rewrite forallb_forall in Fa'. apply Fa' in Hin. rewrite (digit_class_plus nd Hnd) in Hin. discriminate.
        * rewrite forallb_forall in Fb'. apply Fb' in Hin. rewrite (digit_class_plus nd Hnd) in Hin. discriminate. }
  subst c2. rewrite app_nil_r in E, Ex. subst x.
  (* s1 - h1 c1 = s2 - h2, c1 nonempty *)
  right.
  destruct C1 as [|a Ha Fa|a b Ha Hb Fa Fb]; [congruence| |].
  - (* "+a": the last 53 characters contain "-": impossible *)
    exfalso. change (lit "+") with [43] in E. cbn [app] in E.
    (* position of last '-' on the right: 53 from the end; on the left: 52 + 1 + len *)
    apply last_split in E as [_ E].
    + apply (f_equal (@length N)) in E. rewrite !app_length in E. cbn in E. lia.
    + intros Hi. apply in_app_or in Hi as [Hi|[Hi|Hi]].
      * apply (Hplus 45); auto.
      * discriminate.
      * rewrite forallb_forall in Fa. apply Fa in Hi. rewrite (digit_class_minus nd Hnd) in Hi. discriminate.
    + intros Hi. apply (Hplus 45); auto.
  - change (lit "+") with [43] in E. change (lit "-") with [45] in E. cbn [app] in E.
    replace (s1 ++ 45 :: h1 ++ 43 :: a ++ 45 :: b) with ((s1 ++ 45 :: h1 ++ 43 :: a) ++ 45 :: b) in E
      by (rewrite <- !app_assoc; cbn; rewrite <- !app_assoc; reflexivity).
    apply last_split in E as [<- ->].
    + split.
      * apply in_or_app; right; right. apply in_or_app; right; now left.
      * apply Forall_forall. intros c Hc. rewrite forallb_forall in Fb. apply Fb in Hc as Hd.
        apply Hnd in Hd; auto. rewrite Forall_forall in B2. specialize (B2 c Hc).
        unfold base32_char in B2. lia.
    + intros Hi. rewrite forallb_forall in Fb. apply Fb in Hi. rewrite (digit_class_minus nd Hnd) in Hi. discriminate.
    + intros Hi. apply (Hplus 45); auto.
Qed.

Lemma plain_numeral_inj v a b : plain_numeral v a -> plain_numeral v b -> a = b.
Proof. intros [H _] [H' _]. eapply numeral_fun; eauto. Qed.

Lemma numeral_cons_digits s v : numeral s v -> Forall (fun c => 48 <= c <= 57) s.
Proof. intros H. now apply numeral_digits in H. Qed.

(** A name of documented form determines everything, except for the digit-hash case. *)
Lemma stem_unique nd v1 v2 n1 n2 h1 h2 p1 p2 c1 c2 :
  digit_class nd -> counter nd c1 -> counter nd c2 ->
  stub_stem v1 n1 h1 p1 -> stub_stem v2 n2 h2 p2 ->
  p1 ++ c1 = p2 ++ c2 ->
  (v1 = v2 /\ n1 = n2 /\ h1 = h2 /\ c1 = c2) \/
  (exists n, (n1 = Some n /\ In 43 n /\ Forall (fun c => 48 <= c <= 57) h1) \/
             (n2 = Some n /\ In 43 n /\ Forall (fun c => 48 <= c <= 57) h2)).
Proof.
  intros Hnd C1 C2 (t1 & N1 & L1 & B1 & ->) (t2 & N2 & L2 & B2 & ->) E.
  assert (Hspec : forall s h c h' c', length h' = 52%nat -> Forall base32_char h' ->
            lit "-" ++ h' ++ c' <> lit "-specialisation-" ++ s ++ lit "-" ++ h ++ c).
  { clear. intros s h c h' c' Hl HB E. lits_in E. cbn [app] in E. injection E as E.
    do 14 (destruct h' as [|? h']; [discriminate Hl|]). cbn [app] in E.
    destruct h' as [|x h']; [discriminate Hl|]. cbn [app] in E.
    repeat (injection E as ? E). subst.
    repeat match goal with H : Forall _ (_ :: _) |- _ => inversion H; clear H; subst end.
    unfold base32_char in *. lia. }
  assert (Hcut : t1 = t2 /\
     (match n1 with None => lit "-" ++ h1 | Some n => lit "-specialisation-" ++ n ++ lit "-" ++ h1 end) ++ c1 =
     (match n2 with None => lit "-" ++ h2 | Some n => lit "-specialisation-" ++ n ++ lit "-" ++ h2 end) ++ c2).
  { apply (digits_prefix_unique t1 t2).
    - apply N1 || eapply numeral_cons_digits, N1.
    - eapply numeral_cons_digits, N2.
    - intros c l Ec. destruct n1; lits_in Ec; cbn [app] in Ec; injection Ec as <- _; lia.
    - intros c l Ec. destruct n2; lits_in Ec; cbn [app] in Ec; injection Ec as <- _; lia.
    - apply (app_inv_head (lit "nixos-generation-")).
      destruct n1, n2; repeat rewrite <- app_assoc in E; repeat rewrite <- app_assoc; exact E. }
  destruct Hcut as [-> Hcut].
  assert (v1 = v2) as -> by (eapply plain_numeral_inj; eauto).
  destruct n1 as [n1|], n2 as [n2|].
  - rewrite <- !app_assoc in Hcut. apply app_inv_head in Hcut.
    destruct (Nat.le_ge_cases (length c2) (length c1)) as [Hle|Hle].
    + destruct (tail_unique nd n1 n2 h1 h2 c1 c2) as [(-> & -> & ->)|H]; auto.
      right. exists n2. right. tauto.
    + symmetry in Hcut.
      destruct (tail_unique nd n2 n1 h2 h1 c2 c1) as [(-> & -> & ->)|H]; auto.
      right. exists n1. left. tauto.
  - exfalso. rewrite <- !app_assoc in Hcut. symmetry in Hcut. eapply Hspec; [| |exact Hcut]; auto.
  - exfalso. rewrite <- !app_assoc in Hcut. eapply Hspec; [| |exact Hcut]; auto.
  - rewrite <- !app_assoc in Hcut. apply app_inv_head in Hcut.
    apply app_eq_length in Hcut as [-> ->]; auto. congruence.
Qed.


(** ** Paths *)

Lemma strip_prefix_app esp rel : strip_prefix esp (esp ++ rel) = Some rel.
Proof. induction esp as [|a esp IH]; cbn; auto. now rewrite eqb_bytes_refl. Qed.

Lemma strip_prefix_some esp p rel : strip_prefix esp p = Some rel -> p = esp ++ rel.
Proof.
  revert p; induction esp as [|a esp IH]; intros p; cbn.
  - now intros [= ->].
  - destruct p as [|b p]; [discriminate|]. destruct (eqb_bytes a b) eqn:E; [|discriminate].
    apply eqb_bytes_spec in E as ->. intros H. now rewrite (IH p H).
Qed.

Lemma split_on_join c l :
  l <> [] -> Forall (fun x => ~ In c x) l -> split_on c (join [c] l) = l.
Proof.
  induction l as [|x [|y l] IH]; intros Hn F; [congruence| |].
  - cbn. inversion F; subst. now apply split_on_none.
  - inversion F; subst. change (join [c] (x :: y :: l)) with (x ++ c :: join [c] (y :: l)).
    rewrite (split_on_app c x (join [c] (y :: l))) by auto. f_equal. apply IH; auto. discriminate.
Qed.

Lemma utf8_encode_replace a b s :
  a < 128 -> b < 128 ->
  utf8_encode (replace_char a b s) = replace_char a b (utf8_encode s).
Proof.
  intros Ha Hb. induction s as [|c s IH]; [reflexivity|].
  unfold utf8_encode, replace_char in *. cbn [map flat_map]. rewrite IH, map_app. f_equal.
  destruct (N.eqb_spec c a) as [->|Hc].
  - unfold utf8_char. destruct (N.ltb_spec b 0x80); [|lia]. destruct (N.ltb_spec a 0x80); [|lia].
    cbn. now rewrite N.eqb_refl.
  - unfold utf8_char.
    destruct (N.ltb_spec c 0x80).
    { cbn. destruct (N.eqb_spec c a); [congruence|auto]. }
    destruct (N.ltb_spec c 0x800).
    { cbn [map]. repeat (match goal with |- context [?x =? a] => destruct (N.eqb_spec x a); [lia|] end). auto. }
    destruct (N.ltb_spec c 0x10000).
    { cbn [map]. repeat (match goal with |- context [?x =? a] => destruct (N.eqb_spec x a); [lia|] end). auto. }
    cbn [map]. repeat (match goal with |- context [?x =? a] => destruct (N.eqb_spec x a); [lia|] end). auto.
Qed.

Lemma replace_char_notin a b l : ~ In a l -> replace_char a b l = l.
Proof.
  intros H. unfold replace_char. rewrite <- (map_id l) at 2. apply map_ext_in.
  intros x Hx. destruct (N.eqb_spec x a) as [->|]; [tauto|auto].
Qed.

Lemma replace_char_inv a b l : ~ In b l -> replace_char b a (replace_char a b l) = l.
Proof.
  intros H. unfold replace_char. rewrite map_map. rewrite <- (map_id l) at 2. apply map_ext_in.
  intros x Hx. destruct (N.eqb_spec x a) as [->|Hn].
  - now rewrite N.eqb_refl.
  - destruct (N.eqb_spec x b) as [->|]; [tauto|auto].
Qed.

Lemma In_join c sep l : In c (join [sep] l) -> c = sep \/ exists x, In x l /\ In c x.
Proof.
  induction l as [|x [|y l] IH]; cbn [join].
  - contradiction.
  - intros H. right. exists x. split; auto. now left.
  - intros H. apply in_app_or in H as [H|H].
    + right. exists x. split; auto. now left.
    + destruct H as [H|H]; [now left|]. destruct (IH H) as [|(z & Hz & Hc)]; auto.
      right. exists z. split; auto. now right.
Qed.

Lemma flat_map_join l :
  l <> [] -> Forall (fun x => ~ In 47 x) l ->
  flat_map (fun c => 92 :: c) l = 92 :: replace_char 47 92 (join [47] l).
Proof.
  induction l as [|x [|y l] IH]; intros Hn F; [congruence| |].
  - inversion F; subst. cbn [flat_map join app]. rewrite app_nil_r, replace_char_notin; auto.
  - inversion F; subst. change (join [47] (x :: y :: l)) with (x ++ 47 :: join [47] (y :: l)).
    change (flat_map (fun c => 92 :: c) (x :: y :: l)) with (92 :: x ++ flat_map (fun c => 92 :: c) (y :: l)). f_equal.
    assert (Hx : forall r, replace_char 47 92 (x ++ 47 :: r) = x ++ 92 :: replace_char 47 92 r).
    { intros r. unfold replace_char at 1. rewrite map_app. f_equal.
      now apply (replace_char_notin 47 92 x). }
    rewrite Hx, IH by (auto; discriminate). reflexivity.
Qed.

Lemma uefi_round_trip esp rel s0 :
  rel <> [] -> Forall esp_component rel -> utf8_decode (join [47] rel) = Some s0 ->
  exists s, esp_relative_uefi_path esp (esp ++ rel) = Some s /\
    utf8_encode s = flat_map (fun c => 92 :: c) rel /\ ~ In 47 s /\
    resolve_efi_path esp (utf8_encode s) = Ok (esp ++ rel).
Proof.
  intros Hn F Hd.
  assert (F47 : Forall (fun x => ~ In 47 x) rel) by (eapply Forall_impl; [|exact F]; intros c Hc; apply Hc).
  destruct (utf8_encode_decode _ _ Hd) as [He Hs].
  exists (92 :: replace_char 47 92 s0).
  assert (Henc : utf8_encode (92 :: replace_char 47 92 s0) = 92 :: replace_char 47 92 (join [47] rel)).
  { change (92 :: replace_char 47 92 s0) with ([92] ++ replace_char 47 92 s0).
    rewrite utf8_encode_app, utf8_encode_replace, He by lia. reflexivity. }
  split; [|split; [|split]].
  - unfold esp_relative_uefi_path, uefi_path. now rewrite strip_prefix_app, Hd.
  - now rewrite Henc, flat_map_join.
  - intros [Hi|Hi]; [discriminate|]. unfold replace_char in Hi. apply in_map_iff in Hi as (x & Hx & _).
    destruct (N.eqb_spec x 47); lia.
  - rewrite Henc. unfold resolve_efi_path.
    assert (Hd' : utf8_decode (replace_char 47 92 (join [47] rel)) = Some (replace_char 47 92 s0)).
    { rewrite <- He, <- utf8_encode_replace by lia. apply utf8_decode_encode.
      unfold replace_char. rewrite Forall_map. eapply Forall_impl; [|exact Hs].
      intros c Hc. cbn beta. destruct (c =? 47); auto. }
    rewrite Hd'. f_equal.
    assert (N92 : ~ In 92 (join [47] rel)).
    { intros Hi. apply In_join in Hi as [|(x & Hx & Hc)]; [discriminate|].
      rewrite Forall_forall in F. now apply (F x Hx). }
    rewrite replace_char_inv.
    2: { intros Hi. apply N92. rewrite <- He. apply utf8_encode_In_ascii_conv; [lia|auto]. }
    rewrite He. unfold path_join.
    assert (Hcomp : components (join [47] rel) = rel).
    { unfold components. rewrite split_on_join by auto.
      clear - F. induction F as [|x l (H1 & H2 & _) _ IH]; cbn; auto.
      apply eqb_bytes_false in H1, H2. change (lit ".") with [46] in H2.
      rewrite H1, H2. cbn. now rewrite IH. }
    destruct (join [47] rel) as [|c t] eqn:Ej.
    { destruct rel as [|x [|y rel]]; [congruence| |]; cbn in Ej.
      - inversion F as [|? ? Hx]; subst. destruct Hx; congruence.
      - destruct x; discriminate. }
    destruct (N.eqb_spec c 47) as [->|_]; [|now rewrite Hcomp].
    exfalso. destruct rel as [|x rel]; [congruence|]. inversion F as [|? ? (Hx & _ & H47 & _)]; subst.
    destruct x as [|y x]; [congruence|]. destruct rel; cbn in Ej; injection Ej as -> _; apply H47; now left.
Qed.

(** ** Generation links *)

Lemma split_on_nth1 c s p :
  nth_error (split_on c s) 1 = Some p <->
  exists a, ~ In c a /\ ~ In c p /\ (s = a ++ c :: p \/ exists r, s = a ++ c :: p ++ c :: r).
Proof.
  split.
  - destruct (split_on c s) as [|a l] eqn:E; [discriminate|]. cbn.
    destruct l as [|p' l]; [discriminate|]. intros [= ->].
    apply split_on_cons_inv in E as [Ha [[E _]|(s' & E & ->)]]; [discriminate|].
    symmetry in E. apply split_on_cons_inv in E as [Hp Hc].
    exists a. repeat split; auto. destruct Hc as [[_ ->]|(r & _ & ->)]; eauto.
  - intros (a & Ha & Hp & [-> |(r & ->)]).
    + rewrite split_on_app by auto. cbn. now rewrite split_on_none.
    + rewrite split_on_app by auto. cbn. now rewrite split_on_app.
Qed.

Lemma link_version_spec n v :
  link_version n = Some v <->
  exists s a p, n = Some s /\ ~ In 45 a /\ ~ In 45 p /\
    (s = a ++ lit "-" ++ p \/ exists r, s = a ++ lit "-" ++ p ++ lit "-" ++ r) /\
    rust_unsigned p v /\ v < 2 ^ 64.
Proof.
  change (lit "-") with [45]. cbn [app]. split.
  - unfold link_version. destruct n as [s|]; [|discriminate].
    destruct (nth_error (split_on 45 s) 1) as [p|] eqn:E; [|discriminate].
    intros H. apply parse_unsigned_spec in H as [H1 H2]. unfold u64_max in H2.
    apply split_on_nth1 in E as (a & Ha & Hp & Hs).
    exists s, a, p. repeat split; auto. lia.
  - intros (s & a & p & -> & Ha & Hp & Hs & H & Hv). unfold link_version.
    assert (nth_error (split_on 45 s) 1 = Some p) as -> by (apply split_on_nth1; eauto).
    apply parse_unsigned_spec. split; auto. unfold u64_max. lia.
Qed.

(** ** Base32 as a number *)

Definition be (b : N) (l : list N) (acc : N) : N := fold_left (fun a d => a * b + d) l acc.

Lemma be_positional b l acc : be b l acc = acc * b ^ N.of_nat (length l) + positional b l.
Proof.
  revert acc; induction l as [|d l IH]; intros acc; cbn [be positional fold_left length].
  - cbn. lia.
  - unfold be in IH. rewrite IH. rewrite Nat2N.inj_succ, N.pow_succ_r'. lia.
Qed.

Definition b2n (b : bool) : N := if b then 1 else 0.

Lemma bits8_be x acc : x < 256 -> be 2 (map b2n (bits8 x)) acc = acc * 256 + x.
Proof.
  intros Hx. rewrite be_positional. f_equal.
  assert (G : forallb (fun n => positional 2 (map b2n (bits8 (N.of_nat n))) =? N.of_nat n) (seq 0 256) = true)
    by (vm_compute; reflexivity).
  rewrite forallb_forall in G. specialize (G (N.to_nat x)). rewrite N2Nat.id in G.
  apply N.eqb_eq, G. apply in_seq. lia.
Qed.

Lemma flat_bits_be l acc : Forall (fun x => x < 256) l -> be 2 (map b2n (flat_map bits8 l)) acc = be 256 l acc.
Proof.
  intros F. revert acc; induction F as [|x l Hx F IH]; intros acc; auto.
  cbn [flat_map]. rewrite map_app. unfold be. rewrite fold_left_app.
  fold (be 2 (map b2n (bits8 x)) acc). rewrite bits8_be by auto.
  cbn [fold_left]. apply IH.
Qed.

Lemma b32_value_char v : v < 32 -> base32_value (b32_char v) = v.
Proof.
  intros H. unfold base32_value, b32_char.
  destruct (N.ltb_spec v 26).
  - destruct (N.ltb_spec (97 + v) 97); lia.
  - destruct (N.ltb_spec (24 + v) 97); lia.
Qed.

Lemma b32_group_be a b c d e acc :
  acc * 32 + base32_value (b32_char (bits_value [a;b;c;d;e])) = be 2 (map b2n [a;b;c;d;e]) acc.
Proof.
  rewrite b32_value_char by exact (bits_value_range [a;b;c;d;e]).
  destruct a, b, c, d, e; unfold be; cbn [map fold_left bits_value b2n]; unfold bits_value; cbn [fold_left]; lia.
Qed.

Lemma b32_groups_be bits acc :
  be 32 (map base32_value (b32_groups bits)) acc =
  be 2 (map b2n bits) acc * 2 ^ (5 * N.of_nat (length (b32_groups bits)) - N.of_nat (length bits)).
Proof.
  remember (length bits) as n eqn:Hn. revert bits acc Hn.
  induction n as [n IH] using lt_wf_ind. intros bits acc Hn.
  destruct bits as [|a [|b [|c [|d [|e bits]]]]]; cbn [length] in Hn; subst n.
  - cbn. lia.
  - cbn [b32_groups map be fold_left length]. rewrite b32_group_be. unfold be. cbn [map fold_left b2n].
    change (2 ^ (5 * N.of_nat 1 - N.of_nat 1)) with 16. lia.
  - cbn [b32_groups map be fold_left length]. rewrite b32_group_be. unfold be. cbn [map fold_left b2n].
    change (2 ^ (5 * N.of_nat 1 - N.of_nat 2)) with 8. lia.
  - cbn [b32_groups map be fold_left length]. rewrite b32_group_be. unfold be. cbn [map fold_left b2n].
    change (2 ^ (5 * N.of_nat 1 - N.of_nat 3)) with 4. lia.
  - cbn [b32_groups map be fold_left length]. rewrite b32_group_be. unfold be. cbn [map fold_left b2n].
    change (2 ^ (5 * N.of_nat 1 - N.of_nat 4)) with 2. lia.
  - cbn [b32_groups map be fold_left length]. rewrite b32_group_be.
    specialize (IH (length bits) ltac:(lia) bits (be 2 (map b2n [a;b;c;d;e]) acc) eq_refl).
    unfold be in IH at 1. rewrite IH. unfold be. cbn [map fold_left b2n]. f_equal. f_equal. lia.
Qed.

Lemma base32_number l :
  is_bytes l ->
  positional 32 (map base32_value (base32 l)) =
  positional 256 l * 2 ^ (5 * N.of_nat (length (base32 l)) - 8 * N.of_nat (length l)).
Proof.
  intros H. pose proof (b32_groups_be (flat_map bits8 l) 0) as E.
  rewrite (flat_bits_be l 0 H) in E. rewrite !be_positional in E.
  rewrite !N.mul_0_l, !N.add_0_l in E. unfold base32. rewrite E. f_equal. f_equal.
  rewrite flat_bits_length. lia.
Qed.

(** ** Uniqueness of stub names *)

Lemma positional_snoc b l d : positional b (l ++ [d]) = positional b l * b + d.
Proof.
  induction l as [|x l IH]; cbn [positional app length].
  - cbn. lia.
  - rewrite IH, app_length. cbn [length]. rewrite Nat.add_1_r, Nat2N.inj_succ, N.pow_succ_r'. lia.
Qed.

(** 32 bytes leave a single bit for the last character, which therefore is
    ['a'] or ['q'] and never a digit. *)
Lemma name_hash_not_digits h k g :
  hash32 h -> ~ Forall (fun c => 48 <= c <= 57) (name_hash h k g).
Proof.
  intros Hh F. pose proof (name_hash_length h k g Hh) as L.
  pose proof (base32_number (h (utf8_encode (json_stub_inputs (bs_toplevel (g_spec g)) k))) (proj2 (Hh _))) as E.
  pose proof (base32_chars (h (utf8_encode (json_stub_inputs (bs_toplevel (g_spec g)) k)))) as B.
  fold (name_hash h k g) in E, B. rewrite L in E. rewrite (proj1 (Hh _)) in E.
  change (2 ^ (5 * N.of_nat 52 - 8 * N.of_nat 32)) with 16 in E.
  destruct (exists_last (l := name_hash h k g)) as (l & d & Ed); [intros E0; rewrite E0 in L; discriminate|].
  rewrite Ed in *. rewrite map_app in E. cbn [map] in E. rewrite positional_snoc in E.
  apply Forall_app in F as [_ F]. inversion F as [|? ? Fd]; subst.
  apply Forall_app in B as [_ B]. inversion B as [|? ? Bd]; subst.
  unfold base32_char in Bd. unfold base32_value in E at 2.
  destruct (N.ltb_spec d 97); lia.
Qed.

Lemma stub_regex_exclusive nd h k1 k2 g1 g2 s :
  digit_class nd -> hash32 h ->
  stub_regex nd (stub_prefix h k1 g1) s = true ->
  stub_regex nd (stub_prefix h k2 g2) s = true ->
  g_version g1 = g_version g2 /\ g_specname g1 = g_specname g2 /\
  ((bs_toplevel (g_spec g1) = bs_toplevel (g_spec g2) /\ k1 = k2) \/ collision h).
Proof.
  intros Hnd Hh R1 R2. apply stub_regex_spec in R1 as (c1 & C1 & ->); auto.
  apply stub_regex_spec in R2 as (c2 & C2 & E); auto.
  rewrite !app_assoc in E. apply app_inv_tail in E.
  pose proof (stub_prefix_stem h k1 g1 Hh) as S1. pose proof (stub_prefix_stem h k2 g2 Hh) as S2.
  destruct (stem_unique nd _ _ _ _ _ _ _ _ c1 c2 Hnd C1 C2 S1 S2 E) as [(Ev & En & Eh & _)|(n & [(En & Hp & Hd)|(En & Hp & Hd)])].
  - repeat split; auto. eapply name_hash_inj; eauto.
  - now apply name_hash_not_digits in Hd.
  - now apply name_hash_not_digits in Hd.
Qed.

Lemma counter_tries nd t : digit_class nd -> counter nd (if 0 <? t then lit "+" ++ dec t else []).
Proof.
  intros Hnd. destruct (0 <? t); constructor; auto using is_digit_class, dec_nonempty.
Qed.

Lemma stub_name_split h k t g :
  stub_name h k t g = stub_prefix h k g ++ (if 0 <? t then lit "+" ++ dec t else []) ++ lit ".efi".
Proof.
  unfold stub_name. cbv zeta. destruct (0 <? t); [|reflexivity]. now rewrite <- !app_assoc.
Qed.

Lemma stub_name_regex nd h k t g :
  digit_class nd -> stub_regex nd (stub_prefix h k g) (stub_name h k t g) = true.
Proof.
  intros Hnd. apply stub_regex_spec; auto. exists (if 0 <? t then lit "+" ++ dec t else []).
  split; [now apply counter_tries|]. apply stub_name_split.
Qed.

Lemma stub_name_inj h k1 k2 t1 t2 g1 g2 :
  hash32 h -> stub_name h k1 t1 g1 = stub_name h k2 t2 g2 ->
  g_version g1 = g_version g2 /\ g_specname g1 = g_specname g2 /\ t1 = t2 /\
  ((bs_toplevel (g_spec g1) = bs_toplevel (g_spec g2) /\ k1 = k2) \/ collision h).
Proof.
  intros Hh E.
  assert (Hnd : digit_class is_digit).
  { intros c Hc. unfold is_digit. lia. }
  rewrite !stub_name_split, !app_assoc in E. apply app_inv_tail in E.
  set (c1 := if 0 <? t1 then _ else _) in E. set (c2 := if 0 <? t2 then _ else _) in E.
  pose proof (stub_prefix_stem h k1 g1 Hh) as S1. pose proof (stub_prefix_stem h k2 g2 Hh) as S2.
  assert (Ht : c1 = c2 -> t1 = t2).
  { unfold c1, c2. destruct (N.ltb_spec 0 t1), (N.ltb_spec 0 t2); intros Et; try discriminate; try lia.
    injection Et as Et. now apply dec_inj. }
  destruct (stem_unique is_digit _ _ _ _ _ _ _ _ c1 c2 Hnd (counter_tries _ _ Hnd) (counter_tries _ _ Hnd) S1 S2 E)
    as [(Ev & En & Eh & Ec)|(n & [(En & Hp & Hd)|(En & Hp & Hd)])].
  - repeat split; auto. eapply name_hash_inj; eauto.
  - now apply name_hash_not_digits in Hd.
  - now apply name_hash_not_digits in Hd.
Qed.


(** ** UTF-8 *)

Lemma is_scalar_value c : is_scalar c = true <-> scalar_value c.
Proof. unfold is_scalar, scalar_value. lia. Qed.

Lemma utf8_decode_encode_spec s : Forall scalar_value s -> utf8_decode (utf8_encode s) = Some s.
Proof.
  intros H. apply utf8_decode_encode. eapply Forall_impl; [|exact H]. intros c. apply is_scalar_value.
Qed.

Lemma utf8_encode_decode_spec b s : utf8_decode b = Some s -> utf8_encode s = b /\ Forall scalar_value s.
Proof.
  intros H. apply utf8_encode_decode in H as [H F]. split; auto.
  eapply Forall_impl; [|exact F]. intros c. apply is_scalar_value.
Qed.
