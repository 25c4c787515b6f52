(** Proofs for C67. *)
From Coq Require Import List NArith Bool Lia Permutation Sorted ZifyBool ZifyNat ZifyN.
From Verif Require Import Base MText MGeneration MNames MFs MTool MInstall SInstall SOrder PGc.
Import ListNotations.
Open Scope N_scope.

Notation le_version := (fun a b : N * link => fst a <= fst b).

Lemma sorted_unique : forall a b : list (N * link),
  StronglySorted le_version a -> StronglySorted le_version b -> Permutation a b -> distinct_versions a -> a = b.
Proof.
  induction a as [|x a IH]; intros b SA SB P D.
  - apply Permutation_nil in P. congruence.
  - destruct b as [|y b]; [apply Permutation_sym, Permutation_nil in P; discriminate|].
    inversion SA as [|? ? SA1 SA2]; inversion SB as [|? ? SB1 SB2]; subst.
    assert (x = y).
    { assert (In y (x :: a)) as HY by (eapply Permutation_in; [apply Permutation_sym; exact P|left; reflexivity]).
      assert (In x (y :: b)) as HX by (eapply Permutation_in; [exact P|left; reflexivity]).
      destruct HY as [HY|HY]; [exact HY|]. destruct HX as [HX|HX]; [congruence|].
      rewrite Forall_forall in SA2, SB2. apply D; [left; reflexivity | right; exact HY|].
      specialize (SA2 y HY). specialize (SB2 x HX). cbn beta in *. lia. }
    subst y. f_equal. apply IH; [exact SA1 | exact SB1 | eapply Permutation_cons_inv; exact P|].
    intros u v U V. apply D; right; assumption.
Qed.

Lemma sorted_join : forall a b : list (N * link), StronglySorted le_version a -> StronglySorted le_version b ->
  Forall (fun x => Forall (fun y => fst x <= fst y) b) a -> StronglySorted le_version (a ++ b).
Proof.
  induction a as [|x a IH]; intros b SA SB F; [exact SB|]. inversion SA; inversion F; subst. cbn. constructor; [auto|].
  apply Forall_app; split; assumption.
Qed.

Lemma distinct_perm : forall a b, Permutation a b -> distinct_versions a -> distinct_versions b.
Proof.
  intros a b P D x y X Y. apply D; eapply Permutation_in; try apply Permutation_sym; eauto.
Qed.

(** The selection is unique. *)
Lemma newest_selected : forall n vs sel, distinct_versions vs -> newest n vs sel -> limit_links n (sort_links vs) = sel.
Proof.
  intros n vs sel D (skipped & P & SS & Z & L & F).
  assert (sort_links vs = sort_links skipped ++ sel) as E.
  { apply sorted_unique.
    - apply sort_links_sorted.
    - apply sorted_join; [apply sort_links_sorted | exact SS|].
      eapply Permutation_Forall; [apply Permutation_sym, sort_links_perm | exact F].
    - rewrite sort_links_perm, P. apply Permutation_app_tail. apply Permutation_sym, sort_links_perm.
    - eapply distinct_perm; [apply Permutation_sym, sort_links_perm | exact D]. }
  rewrite E. unfold limit_links. destruct (N.ltb_spec 0 n) as [Pos|Zero].
  - specialize (L ltac:(lia)). rewrite rev_app_distr.
    destruct (N.le_gt_cases n (N.of_nat (length vs))) as [Big|Small].
    + assert (N.to_nat n = length (rev sel)) as -> by (rewrite rev_length; lia).
      rewrite firstn_app, PeanoNat.Nat.sub_diag, firstn_all. cbn [firstn]. rewrite app_nil_r. apply rev_involutive.
    + assert (skipped = []) as ->.
      { apply Permutation_length in P. rewrite app_length in P. destruct skipped; [reflexivity|cbn in P; lia]. }
      cbn [sort_links fold_right rev]. rewrite app_nil_r. rewrite firstn_all2; [apply rev_involutive|].
      rewrite rev_length. lia.
  - rewrite Z by lia. reflexivity.
Qed.

Lemma run_links : forall e c c' m, same_but_links c c' -> forall vs vs',
  parse_links (c_links c) = Some vs -> parse_links (c_links c') = Some vs' ->
  limit_links (c_limit c) (sort_links vs) = limit_links (c_limit c') (sort_links vs') ->
  run_install e c m = run_install e c' m.
Proof.
  intros e [a es st sy cf li tr pl ls] [a' es' st' sy' cf' li' tr' pl' ls'] m (A & B & C & D & E & F & G & H) vs vs' P P' L.
  cbn in A, B, C, D, E, F, G, H. subst. cbn [c_links c_limit] in P, P', L. unfold run_install, install. cbn [c_links c_limit].
  rewrite P, P'. cbn [ok_or]. unfold ilift, ibind. rewrite L. reflexivity.
Qed.

Lemma selection_only : forall e c c' m vs vs' sel, same_but_links c c' ->
  links_versions (c_links c) vs -> links_versions (c_links c') vs' -> distinct_versions vs -> distinct_versions vs' ->
  newest (c_limit c) vs sel -> newest (c_limit c) vs' sel -> run_install e c m = run_install e c' m.
Proof.
  intros e c c' m vs vs' sel S L L' D D' N N'. apply parse_links_spec in L, L'. eapply run_links; eauto.
  assert (c_limit c' = c_limit c) as -> by (unfold same_but_links in S; intuition congruence).
  rewrite (newest_selected _ _ _ D N), (newest_selected _ _ _ D' N'). reflexivity.
Qed.

Lemma links_perm : forall ls ls', Permutation ls ls' -> forall vs, links_versions ls vs ->
  exists vs', links_versions ls' vs' /\ Permutation vs vs'.
Proof.
  unfold links_versions. induction 1 as [|x l l' P IH|x y l|l l1 l2 P1 IH1 P2 IH2]; intros vs H.
  - inversion H; subst. eauto.
  - inversion H as [|? a ? r]; subst. destruct (IH r) as (v' & F & P'); [assumption|]. exists (a :: v'). split; [constructor; assumption|constructor; assumption].
  - inversion H as [|? a ? r Ha Hr]; subst. inversion Hr as [|? b ? r' Hb Hr']; subst. exists (b :: a :: r').
    split; [repeat (constructor; [assumption|]); assumption | apply perm_swap].
  - destruct (IH1 _ H) as (v1 & F1 & Q1). destruct (IH2 _ F1) as (v2 & F2 & Q2). exists v2. split; [exact F2|]. etransitivity; eauto.
Qed.

Lemma order_irrelevant : forall e c c' m vs, same_but_links c c' -> Permutation (c_links c) (c_links c') ->
  links_versions (c_links c) vs -> distinct_versions vs -> run_install e c m = run_install e c' m.
Proof.
  intros e c c' m vs S P L D. destruct (links_perm _ _ P _ L) as (vs' & L' & P').
  pose proof (distinct_perm _ _ P' D) as D'.
  apply (selection_only e c c' m vs vs' (limit_links (c_limit c) (sort_links vs))); auto; [apply limit_links_newest|].
  destruct (limit_links_newest (c_limit c) vs) as (k & P1 & S1 & Z & Q & F). exists k.
  split; [rewrite <- P'; exact P1|]. split; [exact S1|]. split; [exact Z|]. split; [|exact F].
  intros NZ. rewrite <- (Permutation_length P'). auto.
Qed.

(** Links that cannot be parsed stop the run in any order. *)
Lemma parse_links_perm_none : forall ls ls', Permutation ls ls' -> parse_links ls = None -> parse_links ls' = None.
Proof.
  intros ls ls' P H. destruct (parse_links ls') as [vs'|] eqn:E; [|reflexivity].
  apply parse_links_spec in E. destruct (links_perm _ _ (Permutation_sym P) _ E) as (vs & L & _).
  apply parse_links_spec in L. congruence.
Qed.
