(** The default entry of the menu (C79). *)
From Coq Require Import List NArith Bool Lia.
From Verif Require Import Base PBase MText PText MGeneration MNames MFs MTool MInstall MOsRelease SCommon SOsRelease SNames SInstall SHistory SRepeat SExact SMenu SLoaderConf.
From Verif Require Import PNames PFs PHistory PHistories PMenu PExact.
Import ListNotations.
Open Scope N_scope.

Lemma after_plus_split s : forall p r, after_plus s = Some (p, r) -> exists q, p = q ++ [43] /\ s = q ++ 43 :: r.
Proof.
  induction s as [|c s IH]; intros p r; cbn [after_plus]; [discriminate|]. destruct (after_plus s) as [[p' r']|].
  - intros [= <- <-]. destruct (IH p' r' eq_refl) as (q & -> & ->). exists (c :: q). split; reflexivity.
  - destruct (N.eqb_spec c 43) as [->|]; [|discriminate]. intros [= <- <-]. exists []. split; reflexivity.
Qed.

Lemma prefix_before (a q r s : list N) x : ~ In x a -> q ++ x :: r = a ++ s -> exists t, q = a ++ t.
Proof.
  revert q. induction a as [|c a IH]; intros q NI E; [exists q; reflexivity|]. destruct q as [|d q].
  - cbn in E. injection E as -> _. destruct NI. left. reflexivity.
  - cbn in E. injection E as -> E. destruct (IH q) as (t & ->); [intros I; apply NI; right; exact I | exact E|]. exists t. reflexivity.
Qed.

Lemma glob_prefix (a t : list N) : ~ In 42 a -> ~ In 63 a -> glob (a ++ [42]) (a ++ t).
Proof.
  intros A B. induction a as [|c a IH]; cbn [app].
  - rewrite <- (app_nil_r t). apply gl_star. constructor.
  - apply gl_char; [intros ->; apply A; left; reflexivity | intros ->; apply B; left; reflexivity|].
    apply IH; intros I; [apply A | apply B]; right; exact I.
Qed.

Lemma counters_prefix n p l d : counters n = Some (p, l, d) -> exists q r, p = q ++ [43] /\ n = q ++ 43 :: r.
Proof.
  unfold counters. destruct (after_plus n) as [[p' s]|] eqn:E; [|discriminate]. destruct (number16 s) as [[v r]|]; [|discriminate].
  destruct (v <=? 0x7fffffff); [|discriminate]. destruct (if starts 45 r then _ else _) as [[v' r']|]; [|discriminate].
  destruct (_ && _); [|discriminate]. intros [= <- _ _]. destruct (after_plus_split n p' s E) as (q & -> & ->). eauto.
Qed.

Lemma id_matches n t : n = lit "nixos-" ++ t -> glob (lit "nixos-*") (fst (fst (seen_as n))).
Proof.
  intros E. assert (forall x, glob (lit "nixos-*") (map lower (lit "nixos-" ++ x))) as G.
  { intros x. rewrite map_app. change (map lower (lit "nixos-")) with (lit "nixos-"). change (lit "nixos-*") with (lit "nixos-" ++ [42]).
    apply glob_prefix; vm_compute; intuition discriminate. }
  unfold seen_as. destruct (counters n) as [[[p l] d]|] eqn:C; cbn [fst]; [|rewrite E; apply G].
  destruct (counters_prefix n p l d C) as (q & r & -> & E2). rewrite removelast_last.
  rewrite E2 in E. destruct (prefix_before (lit "nixos-") q r t 43) as (s & ->); [vm_compute; intuition discriminate | exact E|].
  rewrite <- app_assoc. apply G.
Qed.

Lemma menu_exhausted e f : exhausted e = false -> exhausted f = true -> above e f.
Proof. intros A B. unfold above, menu_cmp. rewrite A, B. reflexivity. Qed.

Section Entries.
Variables (M : machine) (key : bytes) (l : list (generation * name)) (m : fs).
Hypothesis EE : exact_entries M key l m.
Hypothesis ND : NoDup (map snd l).
Hypothesis ST : shown_together (map fst l).
Hypothesis NL : no_lookalikes M m.

Lemma named_bytes g n : named M key g n -> (exists t, n = lit "nixos-" ++ t) /\ exists r, n = r ++ lit ".efi".
Proof.
  intros (cnt & _ & D). apply utf8_encode_decode_spec in D as [D _]. split.
  - assert (exists t, stub_prefix (ma_sha M) key g = lit "nixos-" ++ t) as (t & E).
    { unfold stub_prefix. destruct (g_specname g); eexists; change (lit "nixos-generation-") with (lit "nixos-" ++ lit "generation-");
      rewrite <- app_assoc; reflexivity. }
    rewrite E, <- app_assoc, utf8_encode_app in D. exists (utf8_encode (t ++ cnt ++ lit ".efi")). rewrite <- D. reflexivity.
  - rewrite app_assoc, utf8_encode_app in D. exists (utf8_encode (stub_prefix (ma_sha M) key g ++ cnt)). rewrite <- D. reflexivity.
Qed.

Lemma entry_seen g n e : In (g, n) l -> sees M m n e ->
  exists text, menu_text g text /\
    entry_of (utf8_encode text) (fst (fst (seen_as n))) (snd (fst (seen_as n))) (snd (seen_as n)) = Some e.
Proof.
  intros I (y & b & o & _ & L & H & E). destruct (proj1 EE g n I) as (_ & y' & b' & L' & SF & _).
  rewrite L in L'. injection L' as <- <-.
  destruct SF as (? & ? & ? & ? & text & _ & _ & _ & T & _ & _ & _ & _ & _ & _ & _ & _ & _ & _ & O).
  exists text. split; [exact T|]. rewrite <- (has_section_fun _ _ _ _ _ H O). exact E.
Qed.

Lemma entry_sees g n : In (g, n) l -> exists e, sees M m n e.
Proof.
  intros I. destruct (proj1 EE g n I) as (NM & y & b & L & SF & _). pose proof (proj1 ST g (in_map fst l (g, n) I)) as MR.
  destruct SF as (? & ? & ? & ? & text & _ & _ & _ & T & _ & _ & _ & _ & _ & _ & _ & _ & _ & _ & O).
  destruct (entry_read g text (fst (fst (seen_as n))) (snd (fst (seen_as n))) (snd (seen_as n)) MR T) as (? & ? & ? & ? & ? & _ & _ & _ & _ & _ & E).
  eexists. exists y, b, (utf8_encode text). split; [|split; [exact L | split; [exact O | exact E]]].
  destruct (named_bytes g n NM) as [_ (r & ->)]. exists r, (lit ".efi"). split; reflexivity.
Qed.

Lemma entry_fields g n e : In (g, n) l -> sees M m n e -> en_id e = fst (fst (seen_as n)) /\ en_left e = snd (fst (seen_as n)).
Proof.
  intros I S. destruct (entry_seen g n e I S) as (text & T & E). pose proof (proj1 ST g (in_map fst l (g, n) I)) as MR.
  destruct (entry_read g text (fst (fst (seen_as n))) (snd (fst (seen_as n))) (snd (seen_as n)) MR T) as (? & ? & ? & ? & ? & _ & _ & _ & _ & _ & E').
  rewrite E' in E. injection E as <-. split; reflexivity.
Qed.

Lemma fresh_exhausted g n e : In (g, n) l -> sees M m n e -> (fresh n <-> exhausted e = false).
Proof.
  intros I S. destruct (entry_fields g n e I S) as [_ E]. unfold exhausted, fresh. rewrite E. unfold seen_as.
  destruct (counters n) as [[[p v] d]|]; cbn [fst snd].
  - split; [intros H; apply N.eqb_neq; intros ->; exact (H p d eq_refl) | intros H p' d' [= _ -> _]; discriminate H].
  - split; [reflexivity | intros _ p d; discriminate].
Qed.

Lemma default_entry g n : In (g, n) l -> fresh n ->
  (forall h n', In (h, n') l -> n' <> n -> fresh n' -> preferred g h) ->
  exists e, default_is M m (lit "nixos-*") n e.
Proof.
  intros I F P. destruct (entry_sees g n I) as (e & S). exists e. destruct (entry_fields g n e I S) as [ID _].
  split; [exact S|]. split.
  - rewrite ID. destruct (proj1 EE g n I) as (NM & _). destruct (named_bytes g n NM) as [(t & E) _]. exact (id_matches n t E).
  - intros n' e' S' G' NE. destruct (NL n' e' S' G') as (t & DN).
    assert (In n' (map snd l)) as I'.
    { apply (proj2 EE n' t DN). destruct S' as (y & b & o & _ & L & _). congruence. }
    apply in_map_iff in I' as ([h n2] & E2 & I'). cbn [snd] in E2. subst n2.
    pose proof (proj1 (fresh_exhausted g n e I S) F) as X. destruct (exhausted e') eqn:X'; [apply menu_exhausted; assumption|].
    apply (fresh_exhausted h n' e' I' S') in X'.
    destruct (entry_seen g n e I S) as (tg & Tg & Eg). destruct (entry_seen h n' e' I' S') as (th & Th & Eh).
    eapply (menu_order g h); [apply (proj1 ST), (in_map fst l (g, n) I) | apply (proj1 ST), (in_map fst l (h, n') I') | exact Tg | exact Th | | | exact Eg | exact Eh |].
    + apply (proj2 ST); [apply (in_map fst l (g, n) I) | apply (in_map fst l (h, n') I')].
    + eapply P; eassumption.
    + congruence.
Qed.
End Entries.
