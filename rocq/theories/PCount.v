(** Proofs for C70: boot counters. *)
From Coq Require Import List NArith ZArith Bool Lia.
From Verif Require Import Base MText MFs MGeneration MNames SCommon SMenu SNames SHistory
  PBase PText PVersion PNames POsRelease PHistory PMenu.
Import ListNotations.
Open Scope N_scope.

Lemma after_plus_none s : ~ In 43 s -> after_plus s = None.
Proof.
  induction s as [|c s IH]; intros H; [reflexivity|]. cbn [after_plus]. rewrite IH by (intros I; apply H; now right).
  destruct (N.eqb_spec c 43) as [->|]; [destruct H; now left|reflexivity].
Qed.

Lemma after_plus_app a r : ~ In 43 r -> after_plus (a ++ 43 :: r) = Some (a ++ [43], r).
Proof.
  intros H. induction a as [|c a IH]; cbn [app after_plus]; [now rewrite after_plus_none|]. now rewrite IH.
Qed.

Lemma after_plus_some s p r : after_plus s = Some (p, r) -> (exists q, p = q ++ [43]) /\ s = p ++ r /\ ~ In 43 r.
Proof.
  revert p r. induction s as [|c s IH]; intros p r H; [discriminate|]. cbn [after_plus] in H.
  destruct (after_plus s) as [[p' r']|] eqn:E.
  - injection H as <- <-. destruct (IH _ _ eq_refl) as ((q & ->) & -> & N). split; [|auto]. now exists (c :: q).
  - destruct (N.eqb_spec c 43) as [->|]; [|discriminate]. injection H as <- <-. split; [now exists []|]. split; [reflexivity|].
    intros I. apply in_split in I as (a & b & ->).
    clear IH. induction a as [|x a IH]; cbn [app after_plus] in E.
    + destruct (after_plus b) as [[? ?]|]; discriminate.
    + destruct (after_plus (a ++ 43 :: b)) as [[? ?]|]; [discriminate|]. now apply IH.
Qed.

(** [span] stops within or before what follows. *)
Lemma span_rest p x y : match y with c :: _ => p c = false | [] => True end -> exists z, snd (span p (x ++ y)) = z ++ y.
Proof.
  intros Y. induction x as [|c x [z IH]]; cbn [app span].
  - exists []. destruct y as [|c y]; [reflexivity|]. cbn [span]. now rewrite Y.
  - destruct (p c); [|now exists (c :: x)]. destruct (span p (x ++ y)) as [a b]. cbn [snd] in *. eauto.
Qed.

Lemma span_parts p s : s = fst (span p s) ++ snd (span p s) /\ forallb p (fst (span p s)) = true.
Proof.
  induction s as [|c s [IH1 IH2]]; [auto|]. cbn [span]. destruct (p c) eqn:E; [|auto].
  destruct (span p s) as [a b]. cbn [fst snd app forallb] in *. rewrite E, <- IH1. auto.
Qed.

Lemma number16_some s v r : number16 s = Some (v, r) ->
  r = snd (span ascii_digit s) /\ v = digits_of (fst (span ascii_digit s)) /\ v < 0x10000000000000000.
Proof.
  unfold number16. destruct (span ascii_digit s) as [d q]. destruct (nonempty d && (digits_of d <? 0x10000000000000000)) eqn:E; [|discriminate].
  intros [= <- <-]. apply andb_prop in E as [_ E]. apply N.ltb_lt in E. auto.
Qed.

Lemma lower_length s t : eqs (map lower s) t = true -> length s = length t.
Proof.
  unfold eqs. destruct (list_eq_dec N.eq_dec (map lower s) t) as [<-|]; [|discriminate]. now rewrite map_length.
Qed.

(** The hash at the end of a stem is no counter. *)
Lemma no_counters a h : length h = 52%nat -> Forall base32_char h -> counters (a ++ lit "-" ++ h ++ lit ".efi") = None.
Proof.
  intros L B. unfold counters. destruct (after_plus (a ++ lit "-" ++ h ++ lit ".efi")) as [[p s]|] eqn:P; [|reflexivity].
  assert (exists a', s = a' ++ lit "-" ++ h ++ lit ".efi") as (a' & ->).
  { apply after_plus_some in P as ((q & ->) & E & N).
    assert (~ In 43 (lit "-" ++ h ++ lit ".efi")) as NT.
    { rewrite !in_app_iff. intros [I|[I|I]]; [vm_compute in I; intuition discriminate| |vm_compute in I; intuition discriminate].
      rewrite Forall_forall in B. specialize (B _ I). unfold base32_char in B. lia. }
    remember (lit "-" ++ h ++ lit ".efi") as t. clear Heqt.
    rewrite <- app_assoc in E. cbn [app] in E. clear -E NT.
    revert q E. induction a as [|x a IH]; intros q E.
    - cbn [app] in E. destruct NT. rewrite E. apply in_or_app. right. now left.
    - destruct q as [|y q]; cbn [app] in E; injection E as E1 E2; [now exists a|]. eapply IH; eauto. }
  destruct (number16 (a' ++ lit "-" ++ h ++ lit ".efi")) as [[v r]|] eqn:E; [|reflexivity].
  apply number16_some in E as (-> & _ & _).
  destruct (span_rest ascii_digit a' (lit "-" ++ h ++ lit ".efi") eq_refl) as (z & ->).
  destruct (v <=? 0x7fffffff); [|reflexivity].
  assert (forall y, y <> [] -> eqs (map lower (y ++ lit ".efi")) (lit ".efi") = false) as LONG.
  { intros y Y. destruct (eqs (map lower (y ++ lit ".efi")) (lit ".efi")) eqn:Q; [|reflexivity].
    apply lower_length in Q. rewrite app_length in Q. destruct y; [now destruct Y|cbn [length] in Q; lia]. }
  assert (forall z, eqs (map lower (z ++ lit "-" ++ h ++ lit ".efi")) (lit ".efi") = false) as LZ.
  { intros x. rewrite !app_assoc. apply LONG. destruct x; discriminate. }
  destruct (starts 45 (z ++ lit "-" ++ h ++ lit ".efi")) eqn:S.
  - destruct z as [|c z].
    + cbn [app]. change (tl (lit "-" ++ h ++ lit ".efi")) with (h ++ lit ".efi").
      destruct (number16 (h ++ lit ".efi")) as [[w q]|] eqn:E; [|reflexivity].
      apply number16_some in E as (-> & W & WB). destruct (span_rest ascii_digit h (lit ".efi") eq_refl) as (y & Y). rewrite Y.
      destruct y as [|c y]; [exfalso|rewrite LONG by discriminate; now rewrite andb_false_r].
      destruct (span_parts ascii_digit (h ++ lit ".efi")) as [P1 P2]. rewrite Y in P1. cbn [app] in P1. apply app_inv_tail in P1.
      rewrite <- P1 in W, P2. clear -L B W WB P2.
      destruct h as [|c h]; [discriminate L|]. rewrite digits_of_cons in W. injection L as L. rewrite L in W.
      inversion B as [|? ? C _]. subst. cbn [forallb] in P2. apply andb_prop in P2 as [P2 _]. unfold ascii_digit in P2.
      apply andb_prop in P2 as [P2 P3]. apply N.leb_le in P2, P3. unfold base32_char in C.
      change (10 ^ N.of_nat 51) with 1000000000000000000000000000000000000000000000000000 in WB. lia.
    + change (tl ((c :: z) ++ lit "-" ++ h ++ lit ".efi")) with (z ++ lit "-" ++ h ++ lit ".efi").
      destruct (number16 (z ++ lit "-" ++ h ++ lit ".efi")) as [[w q]|] eqn:E; [|reflexivity].
      apply number16_some in E as (-> & _ & _).
      destruct (span_rest ascii_digit z (lit "-" ++ h ++ lit ".efi") eq_refl) as (y & ->). rewrite LZ. now rewrite andb_false_r.
  - rewrite LZ. now rewrite andb_false_r.
Qed.

Lemma digits_no_plus s : forallb ascii_digit s = true -> ~ In 43 s.
Proof. intros D I. rewrite forallb_forall in D. discriminate (D _ I). Qed.

Lemma number16_app a r : a <> [] -> forallb ascii_digit a = true -> match r with c :: _ => ascii_digit c = false | [] => True end ->
  number16 (a ++ r) = if digits_of a <? 0x10000000000000000 then Some (digits_of a, r) else None.
Proof.
  intros E D R. unfold number16. rewrite span_app by assumption. destruct a as [|c a]; [now destruct E|]. reflexivity.
Qed.

Lemma counters_left p a : a <> [] -> forallb ascii_digit a = true ->
  counters (p ++ lit "+" ++ a ++ lit ".efi") =
  if digits_of a <=? 0x7fffffff then Some (p ++ lit "+", digits_of a, 0) else None.
Proof.
  intros E D. unfold counters. change (lit "+" ++ a ++ lit ".efi") with (43 :: (a ++ lit ".efi")).
  rewrite after_plus_app.
  2:{ rewrite in_app_iff. intros [I|I]; [now apply digits_no_plus in I|vm_compute in I; intuition discriminate]. }
  rewrite number16_app by (assumption || reflexivity).
  destruct (N.ltb_spec (digits_of a) 0x10000000000000000).
  - destruct (N.leb_spec (digits_of a) 0x7fffffff); reflexivity.
  - destruct (N.leb_spec (digits_of a) 0x7fffffff); [lia|reflexivity].
Qed.

Lemma counters_both p a b : a <> [] -> b <> [] -> forallb ascii_digit a = true -> forallb ascii_digit b = true ->
  digits_of a <= 0x7fffffff -> digits_of b <= 0x7fffffff ->
  counters (p ++ lit "+" ++ a ++ lit "-" ++ b ++ lit ".efi") = Some (p ++ lit "+", digits_of a, digits_of b).
Proof.
  intros EA EB DA DB LA LB. unfold counters. change (lit "+" ++ a ++ lit "-" ++ b ++ lit ".efi") with (43 :: (a ++ lit "-" ++ b ++ lit ".efi")).
  rewrite after_plus_app.
  2:{ rewrite !in_app_iff. intros [I|[I|[I|I]]];
      [now apply digits_no_plus in I|vm_compute in I; intuition discriminate|now apply digits_no_plus in I|vm_compute in I; intuition discriminate]. }
  rewrite number16_app by (assumption || reflexivity).
  destruct (N.ltb_spec (digits_of a) 0x10000000000000000); [|lia].
  destruct (N.leb_spec (digits_of a) 0x7fffffff); [|lia].
  change (starts 45 (lit "-" ++ b ++ lit ".efi")) with true. change (tl (lit "-" ++ b ++ lit ".efi")) with (b ++ lit ".efi"). cbv iota.
  rewrite number16_app by (assumption || reflexivity).
  destruct (N.ltb_spec (digits_of b) 0x10000000000000000); [|lia].
  destruct (N.leb_spec (digits_of b) 0x7fffffff); [reflexivity|lia].
Qed.

Lemma stem_utf8 v n h s : stub_stem v n h s -> exists a, utf8_encode s = a ++ lit "-" ++ h.
Proof.
  intros (x & V & _ & B & ->).
  assert (utf8_encode h = h) as H by (apply utf8_ascii; eapply Forall_impl; [|exact B]; unfold base32_char; intros; lia).
  destruct n as [n|]; rewrite !utf8_encode_app, H.
  - eexists. change (utf8_encode (lit "-")) with (lit "-"). rewrite (app_assoc (utf8_encode n)). rewrite !app_assoc. reflexivity.
  - eexists. change (utf8_encode (lit "-")) with (lit "-"). rewrite !app_assoc. reflexivity.
Qed.

Lemma fresh_counters sha key tries g : hash32 sha ->
  exists hash stem, stub_stem (g_version g) (g_specname g) hash stem /\
    counters (utf8_encode (stub_name sha key tries g)) =
    if (0 <? tries) && (tries <=? 0x7fffffff) then Some (utf8_encode (stem ++ lit "+"), tries, 0) else None.
Proof.
  intros H. eexists _, _. split; [apply stub_prefix_stem, H|].
  pose proof (stub_prefix_stem sha key g H) as S. destruct (stem_utf8 _ _ _ _ S) as (a & A). unfold stub_name.
  destruct S as (_ & _ & L & B & _).
  destruct (N.ltb_spec 0 tries) as [T|T]; cbn [andb].
  - rewrite !utf8_encode_app. change (utf8_encode (lit "+")) with (lit "+"). change (utf8_encode (lit ".efi")) with (lit ".efi").
    pose proof (numeral_dec tries) as [D _]. pose proof (numeral_ascii _ _ D) as [D1 _]. rewrite D1.
    apply numeral_digits_of in D as (D2 & D3 & D4). rewrite counters_left by assumption. rewrite D2. reflexivity.
  - rewrite !utf8_encode_app. change (utf8_encode (lit ".efi")) with (lit ".efi"). rewrite A, <- !app_assoc. now apply no_counters.
Qed.

(** ** Counting *)

Lemma counted_step file file' : counted file file' -> exists p l d,
  counters file = Some (p, l, d) /\ 0 < l /\ counters file' = Some (p, l - 1, N.min (d + 1) 0x7fffffff).
Proof.
  intros (p & l & d & sfx & ls & ds & C & L & NL & ND & LO & _ & ->). exists p, l, d. split; [exact C|]. split; [exact L|].
  assert (l <= 0x7fffffff) as LB.
  { unfold counters in C. destruct (after_plus file) as [[q s]|]; [|discriminate]. destruct (number16 s) as [[v r]|]; [|discriminate].
    destruct (N.leb_spec v 0x7fffffff); [|discriminate]. destruct (if starts 45 r then number16 (tl r) else Some (0, r)) as [[w u]|]; [|discriminate].
    destruct ((w <=? 0x7fffffff) && eqs (map lower u) (lit ".efi")); [|discriminate]. injection C as <- <- <-. assumption. }
  assert (exists q, p = q ++ [43]) as (q & ->).
  { unfold counters in C. destruct (after_plus file) as [[q s]|] eqn:P; [|discriminate]. apply after_plus_some in P as ((z & Z) & _).
    destruct (number16 s) as [[v r]|]; [|discriminate].
    destruct (N.leb_spec v 0x7fffffff); [|discriminate]. destruct (if starts 45 r then number16 (tl r) else Some (0, r)) as [[w u]|]; [|discriminate].
    destruct ((w <=? 0x7fffffff) && eqs (map lower u) (lit ".efi")); [|discriminate]. injection C as <- <- <-. eauto. }
  destruct NL as [NL _], ND as [ND _]. apply numeral_digits_of in NL as (V1 & D1 & E1). apply numeral_digits_of in ND as (V2 & D2 & E2).
  assert (exists c r, sfx = c :: r /\ ascii_digit c = false /\ c <> 43 /\ ~ In 43 r) as (c & r & -> & CD & C43 & R43).
  { destruct sfx as [|c r]; [discriminate LO|]. exists c, r. split; [reflexivity|].
    assert (forall y t, map lower y = t -> ~ In 43 t -> ~ In 43 y) as NI.
    { intros y t <- N I. apply N. apply (in_map lower) in I. exact I. }
    cbn [map] in LO. injection LO as LO1 LO2.
    unfold lower in LO1. unfold ascii_digit. destruct ((65 <=? c) && (c <=? 90)) eqn:U.
    - apply andb_prop in U as [U _]. apply N.leb_le in U. lia.
    - subst c. split; [reflexivity|]. split; [discriminate|]. eapply NI; [exact LO2|]. vm_compute. intuition discriminate. }
  unfold counters. rewrite <- app_assoc. cbn [app]. rewrite after_plus_app.
  2:{ rewrite !in_app_iff. cbn [In]. intros [I|[I|[I|[I|I]]]];
      [now apply digits_no_plus in I|vm_compute in I; intuition discriminate|now apply digits_no_plus in I|congruence|contradiction]. }
  rewrite number16_app by (assumption || reflexivity). rewrite V1.
  destruct (N.ltb_spec (l - 1) 0x10000000000000000); [|lia]. destruct (N.leb_spec (l - 1) 0x7fffffff); [|lia].
  change (starts 45 (lit "-" ++ ds ++ c :: r)) with true. change (tl (lit "-" ++ ds ++ c :: r)) with (ds ++ c :: r). cbv iota.
  rewrite number16_app by assumption. rewrite V2.
  destruct (N.ltb_spec (N.min (d + 1) 0x7fffffff) 0x10000000000000000); [|lia].
  destruct (N.leb_spec (N.min (d + 1) 0x7fffffff) 0x7fffffff); [|lia]. cbn [andb].
  unfold eqs. rewrite LO. destruct (list_eq_dec N.eq_dec (lit ".efi") (lit ".efi")); [reflexivity|congruence].
Qed.

Lemma counter_text digit cnt : digit_class digit -> counter digit cnt -> cnt = [] \/ exists r, cnt = lit "+" ++ r /\ ~ In 43 r.
Proof.
  intros DC C. assert (forall a, forallb digit a = true -> ~ In 43 a) as NP.
  { intros a A I. rewrite forallb_forall in A. apply A in I. apply DC in I; lia. }
  destruct C as [|a A1 A2|a b A1 B1 A2 B2]; [now left|right; exists a; split; auto|right; exists (a ++ lit "-" ++ b); split; [reflexivity|]].
  rewrite !in_app_iff. intros [I|[I|I]]; [now apply NP in I|vm_compute in I; intuition discriminate|now apply NP in I].
Qed.

Lemma app_same_length {A} (a b c d : list A) : length b = length d -> a ++ b = c ++ d -> a = c /\ b = d.
Proof.
  intros L E. assert (length a = length c) as LA by (apply (f_equal (@length A)) in E; rewrite !app_length in E; lia).
  now apply app_eq_length.
Qed.

Lemma counted_named M key g n n' : sound M -> named M key g n -> counted n n' -> named M key g n'.
Proof.
  intros SD (cnt & C & E) (p & l & d & sfx & ls & ds & CN & L & NL & ND & LO & (x & X) & ->).
  apply utf8_encode_decode_spec in E as [E SC]. rewrite !utf8_encode_app in E. change (utf8_encode (lit ".efi")) with (lit ".efi") in E.
  pose proof (stub_prefix_stem (ma_sha M) key g (so_hash _ SD)) as ST. destruct (stem_utf8 _ _ _ _ ST) as (a & A).
  destruct ST as (_ & _ & HL & HB & _).
  destruct (counter_text _ _ (so_digit _ SD) C) as [-> | (r & -> & R)].
  { exfalso. rewrite <- E in CN. rewrite A in CN. cbn [utf8_encode flat_map app] in CN. rewrite <- !app_assoc in CN.
    rewrite no_counters in CN by assumption. discriminate. }
  rewrite utf8_encode_app in E. change (utf8_encode (lit "+")) with (lit "+") in E.
  assert (p = utf8_encode (stub_prefix (ma_sha M) key g) ++ lit "+") as ->.
  { unfold counters in CN. rewrite <- E in CN. rewrite <- !app_assoc in CN. cbn [app] in CN.
    change (lit "+" ++ utf8_encode r ++ lit ".efi") with (43 :: (utf8_encode r ++ lit ".efi")) in CN. rewrite after_plus_app in CN.
    2:{ rewrite in_app_iff. intros [I|I]; [apply utf8_encode_In_ascii in I; [contradiction|lia]|vm_compute in I; intuition discriminate]. }
    destruct (number16 (utf8_encode r ++ lit ".efi")) as [[v q]|]; [|discriminate]. destruct (v <=? 0x7fffffff); [|discriminate].
    destruct (if starts 45 q then number16 (tl q) else Some (0, q)) as [[w u]|]; [|discriminate].
    destruct ((w <=? 0x7fffffff) && eqs (map lower u) (lit ".efi")); [|discriminate]. injection CN as <- _ _. reflexivity. }
  assert (sfx = lit ".efi") as ->.
  { rewrite <- E in X. rewrite !app_assoc in X. apply app_same_length in X as [_ X]; [now symmetry|].
    rewrite <- LO. now rewrite map_length. }
  exists (lit "+" ++ ls ++ lit "-" ++ ds). destruct NL as [NL _], ND as [ND _].
  pose proof (numeral_ascii _ _ NL) as [AL _]. pose proof (numeral_ascii _ _ ND) as [AD _].
  assert (forall s, forallb ascii_digit s = true -> forallb (ma_digit M) s = true) as DG.
  { intros s D. apply forallb_forall. intros y I. rewrite forallb_forall in D. specialize (D _ I). unfold ascii_digit in D.
    apply andb_prop in D as [D1 D2]. apply N.leb_le in D1, D2. apply (so_digit _ SD); lia. }
  pose proof (numeral_digits_of _ _ NL) as (_ & L1 & L2). pose proof (numeral_digits_of _ _ ND) as (_ & D1 & D2).
  split.
  - apply counter_both; auto.
  - assert (forall s, forallb ascii_digit s = true -> Forall scalar_value s) as SV.
    { intros s D. apply Forall_forall. intros y I. rewrite forallb_forall in D. specialize (D _ I). unfold ascii_digit in D.
      apply andb_prop in D as [Q1 Q2]. apply N.leb_le in Q1, Q2. left. lia. }
    rewrite <- utf8_decode_encode_spec.
    + f_equal. rewrite !utf8_encode_app, AL, AD. rewrite <- !app_assoc. reflexivity.
    + apply Forall_app in SC as [SC _]. apply Forall_app. split; [exact SC|]. rewrite <- !app_assoc.
      repeat (apply Forall_app; split); try (apply SV; assumption);
        apply Forall_forall; intros y I; vm_compute in I; unfold scalar_value; intuition lia.
Qed.
