(** Reasoning about stub code ([MFirmware.M]). *)
From Coq Require Import List NArith Bool.
From Verif Require Import Base MPe MFirmware.
Import ListNotations.
Open Scope N_scope.

(** ** Inversion *)
Lemma mbind_inv : forall {A B} (m : M A) (k : A -> M B) h h' r,
  mbind m k h = (h', r) ->
  (exists h1 a, m h = (h1, Ok a) /\ k a h1 = (h', r)) \/
  (exists e, m h = (h', Err e) /\ r = Err e) \/
  (m h = (h', Panic) /\ r = Panic).
Proof.
  intros A B m k h h' r H; unfold mbind in H.
  destruct (m h) as [h1 [a|e|]] eqn:E.
  - left; eauto.
  - right; left; exists e; inversion H; auto.
  - right; right; inversion H; auto.
Qed.

Lemma attempt_inv : forall {A} (m : M A) h h' r,
  attempt m h = (h', r) ->
  (exists a, m h = (h', Ok a) /\ r = Ok (inl a)) \/
  (exists e, m h = (h', Err e) /\ r = Ok (inr e)) \/
  (m h = (h', Panic) /\ r = Panic).
Proof.
  intros A m h h' r H; unfold attempt in H.
  destruct (m h) as [h1 [a|e|]] eqn:E; inversion H; subst; eauto.
Qed.

Lemma call_inv : forall {A} (q : list event -> A) ev h h' r,
  call q ev h = (h', r) -> h' = h ++ [ev (q h)] /\ r = Ok (q h).
Proof. intros A q ev h h' r H; unfold call in H; inversion H; auto. Qed.

Lemma ret_inv : forall {A} (a : A) h h' r, ret a h = (h', r) -> h' = h /\ r = Ok a.
Proof. intros A a h h' r H; inversion H; auto. Qed.

Lemma lift_inv : forall {A} (a : res status A) h h' r, lift a h = (h', r) -> h' = h /\ r = a.
Proof. intros A a h h' r H; inversion H; auto. Qed.

Lemma panic_inv : forall {A} h h' (r : res status A), panic h = (h', r) -> h' = h /\ r = Panic.
Proof. intros A h h' r H; inversion H; auto. Qed.

Lemma fail_inv : forall {A} e h h' (r : res status A), fail e h = (h', r) -> h' = h /\ r = Err e.
Proof. intros A e h h' r H; inversion H; auto. Qed.

Lemma check_inv : forall o h h' r, check o h = (h', r) ->
  h' = h /\ (o = None /\ r = Ok tt \/ exists e, o = Some e /\ r = Err e).
Proof. intros [e|] h h' r H; inversion H; subst; eauto. Qed.

Lemma expect_inv : forall {A} (m : M A) h h' r,
  expect m h = (h', r) ->
  (exists a, m h = (h', Ok a) /\ r = Ok a) \/ (exists e, m h = (h', Err e) /\ r = Panic) \/
  (m h = (h', Panic) /\ r = Panic).
Proof.
  intros A m h h' r H; unfold expect in H; apply mbind_inv in H.
  destruct H as [(h1 & a & H1 & H2) | [(e & H1 & ->) | (H1 & ->)]].
  - apply attempt_inv in H1. destruct H1 as [(a' & H1 & E) | [(e & H1 & E) | (H1 & E)]];
      inversion E; subst.
    + apply ret_inv in H2; destruct H2; subst; eauto.
    + apply panic_inv in H2; destruct H2; subst; eauto.
  - apply attempt_inv in H1. destruct H1 as [(a' & H1 & E) | [(e' & H1 & E) | (H1 & E)]]; discriminate.
  - apply attempt_inv in H1. destruct H1 as [(a' & H1 & E) | [(e' & H1 & E) | (H1 & E)]]; try discriminate; auto.
Qed.

(** Decompose one step of a hypothesis about running a piece of code. *)
Ltac stepM H :=
  first
    [ apply mbind_inv in H;
      let h1 := fresh "h" in let a := fresh "a" in let H1 := fresh "S" in let e := fresh "e" in
      destruct H as [(h1 & a & H1 & H) | [(e & H1 & H) | (H1 & H)]]
    | apply ret_inv in H; destruct H as [-> H]
    | apply lift_inv in H; destruct H as [-> H]
    | apply fail_inv in H; destruct H as [-> H]
    | apply panic_inv in H; destruct H as [-> H] ].

(** ** Which events a piece of code emits *)
Definition emits {A} (P : event -> Prop) (m : M A) : Prop :=
  forall h h' r, m h = (h', r) -> exists es, h' = h ++ es /\ Forall P es.

Lemma emits_ret : forall {A} P (a : A), emits P (ret a).
Proof. intros A P a h h' r H; apply ret_inv in H; destruct H; subst. exists []; rewrite app_nil_r; auto. Qed.
Lemma emits_lift : forall {A} P (a : res status A), emits P (lift a).
Proof. intros A P a h h' r H; apply lift_inv in H; destruct H; subst. exists []; rewrite app_nil_r; auto. Qed.
Lemma emits_fail : forall {A} P e, emits (A := A) P (fail e).
Proof. intros A P a h h' r H; apply fail_inv in H; destruct H; subst. exists []; rewrite app_nil_r; auto. Qed.
Lemma emits_panic : forall {A} P, emits (A := A) P panic.
Proof. intros A P h h' r H; apply panic_inv in H; destruct H; subst. exists []; rewrite app_nil_r; auto. Qed.
Lemma emits_check : forall P o, emits P (check o).
Proof. intros P o h h' r H; apply check_inv in H; destruct H; subst. exists []; rewrite app_nil_r; auto. Qed.
Lemma emits_answer : forall {A} P (a : A + status), emits P (answer a).
Proof. intros A P [a|e]; [apply emits_ret | apply emits_fail]. Qed.
Lemma emits_call : forall {A} (P : event -> Prop) (q : list event -> A) ev,
  (forall h, P (ev (q h))) -> emits P (call q ev).
Proof. intros A P q ev HP h h' r H; apply call_inv in H; destruct H; subst. exists [ev (q h)]; auto. Qed.
Lemma emits_bind : forall {A B} P (m : M A) (k : A -> M B),
  emits P m -> (forall a, emits P (k a)) -> emits P (mbind m k).
Proof.
  intros A B P m k Hm Hk h h' r H; apply mbind_inv in H.
  destruct H as [(h1 & a & H1 & H2) | [(e & H1 & ->) | (H1 & ->)]].
  - destruct (Hm _ _ _ H1) as (e1 & -> & F1). destruct (Hk _ _ _ _ H2) as (e2 & -> & F2).
    exists (e1 ++ e2); rewrite app_assoc, Forall_app; auto.
  - eapply Hm; eauto.
  - eapply Hm; eauto.
Qed.
Lemma emits_attempt : forall {A} P (m : M A), emits P m -> emits P (attempt m).
Proof.
  intros A P m Hm h h' r H; apply attempt_inv in H.
  destruct H as [(a & H1 & ->) | [(e & H1 & ->) | (H1 & ->)]]; eapply Hm; eauto.
Qed.
Lemma emits_expect : forall {A} P (m : M A), emits P m -> emits P (expect m).
Proof.
  intros A P m Hm h h' r H; apply expect_inv in H.
  destruct H as [(a & H1 & ->) | [(e & H1 & ->) | (H1 & ->)]]; eapply Hm; eauto.
Qed.
Lemma emits_weaken : forall {A} (P Q : event -> Prop) (m : M A),
  (forall e, P e -> Q e) -> emits P m -> emits Q m.
Proof.
  intros A P Q m HPQ Hm h h' r H. destruct (Hm _ _ _ H) as (es & -> & F).
  exists es; split; auto. eapply Forall_impl; eauto.
Qed.

Create HintDb emits.
#[export] Hint Resolve emits_ret emits_lift emits_fail emits_panic emits_check : emits.

Ltac emitsM :=
  repeat first
    [ progress intros
    | solve [auto with emits]
    | progress cbv zeta
    | apply emits_ret | apply emits_lift | apply emits_fail | apply emits_panic | apply emits_check | apply emits_answer
    | apply emits_bind | apply emits_attempt | apply emits_expect
    | apply emits_call
    | match goal with |- emits _ (match ?x with _ => _ end) => destruct x end
    | match goal with |- emits _ (if ?x then _ else _) => destruct x end
    | match goal with |- emits _ (let '(_, _) := ?x in _) => destruct x end ].

(** ** Splitting traces *)
Lemma app_split_notin : forall {A} (P : A -> Prop) (es1 es2 pre post : list A) x,
  es1 ++ es2 = pre ++ x :: post -> Forall (fun y => ~ P y) es1 -> P x ->
  exists pre2, pre = es1 ++ pre2 /\ es2 = pre2 ++ x :: post.
Proof.
  intros A P es1; induction es1 as [|y es1 IH]; intros es2 pre post x E F Px; cbn in E.
  - exists pre; auto.
  - inversion F; subst. destruct pre as [|z pre]; cbn in E.
    + inversion E; subst. contradiction.
    + inversion E; subst. destruct (IH _ _ _ _ H3 H2 Px) as (pre2 & -> & E2).
      exists pre2; auto.
Qed.

Lemma app_split_notin_r : forall {A} (P : A -> Prop) (es1 es2 pre post : list A) x,
  es1 ++ es2 = pre ++ x :: post -> Forall (fun y => ~ P y) es2 -> P x ->
  exists post1, es1 = pre ++ x :: post1 /\ post = post1 ++ es2.
Proof.
  intros A P es1; induction es1 as [|y es1 IH]; intros es2 pre post x E F Px; cbn in E.
  - exfalso. rewrite E in F. apply Forall_app in F; destruct F as [_ F].
    inversion F; contradiction.
  - destruct pre as [|z pre]; cbn in E; inversion E; subst.
    + exists es1; auto.
    + destruct (IH _ _ _ _ H1 F Px) as (p1 & -> & ->). exists p1; auto.
Qed.
