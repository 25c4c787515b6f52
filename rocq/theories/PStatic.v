(** Proofs for C95. *)
From Coq Require Import List NArith Bool.
From Verif Require Import Base MText MNames MFs MHook MPolicy MStatic SStatic PBase PFs PPaths.
Import ListNotations.
Open Scope N_scope.

(** ** The shipped links *)

Definition f5 : bytes := lit "500-separator.pcrlock.d/300-0x00000000.pcrlock".
Definition f3 : bytes := lit "350-action-efi-application.pcrlock".
Definition f4 : bytes := lit "400-secureboot-separator.pcrlock.d/300-0x00000000.pcrlock".
Definition d5 : path := [lit "500-separator.pcrlock.d"].
Definition d4 : path := [lit "400-secureboot-separator.pcrlock.d"].
Definition q5 : path := [lit "500-separator.pcrlock.d"; lit "300-0x00000000.pcrlock"].
Definition q3 : path := [lit "350-action-efi-application.pcrlock"].
Definition q4 : path := [lit "400-secureboot-separator.pcrlock.d"; lit "300-0x00000000.pcrlock"].
Lemma c5 : components f5 = q5. Proof. reflexivity. Qed.
Lemma c3 : components f3 = q3. Proof. reflexivity. Qed.
Lemma c4 : components f4 = q4. Proof. reflexivity. Qed.

Definition chosen (a b c : bool) : list bytes := optionals a [f5] ++ optionals b [f3] ++ optionals c [f4].
Definition target (systemd f : bytes) : bytes := systemd ++ lit "/lib/pcrlock.d/" ++ f.

Definition tree_of (systemd : bytes) (a b c : bool) : tree := fun p =>
  if eqb_path p [] then Some Dir
  else if a && eqb_path p d5 then Some Dir
  else if a && eqb_path p q5 then Some (LinkTo (target systemd f5))
  else if b && eqb_path p q3 then Some (LinkTo (target systemd f3))
  else if c && eqb_path p d4 then Some Dir
  else if c && eqb_path p q4 then Some (LinkTo (target systemd f4))
  else None.

Lemma links_tree systemd a b c : exists t,
  upstream_links systemd (chosen a b c) (fun p => match p with [] => Some Dir | _ => None end) = Some t /\
  forall p, t p = tree_of systemd a b c p.
Proof.
  destruct a, b, c; (eexists; split; [reflexivity|]); intros p;
    (destruct (eqb_path p []) eqn:E0; [apply eqb_path_spec in E0; subst p; reflexivity|]);
    (destruct (eqb_path p d5) eqn:E1; [apply eqb_path_spec in E1; subst p; reflexivity|]);
    (destruct (eqb_path p q5) eqn:E2; [apply eqb_path_spec in E2; subst p; reflexivity|]);
    (destruct (eqb_path p q3) eqn:E3; [apply eqb_path_spec in E3; subst p; reflexivity|]);
    (destruct (eqb_path p d4) eqn:E4; [apply eqb_path_spec in E4; subst p; reflexivity|]);
    (destruct (eqb_path p q4) eqn:E5; [apply eqb_path_spec in E5; subst p; reflexivity|]);
    unfold tree_of; rewrite E0, E1, E2, E3, E4, E5; cbn [andb];
    unfold with_thing, ln, d5, d4, q5, q3, q4 in *;
    repeat match goal with |- context [if eqb_path p ?x then _ else _] =>
      first [change (eqb_path p x) with (eqb_path p [lit "500-separator.pcrlock.d"]); rewrite E1
            |change (eqb_path p x) with (eqb_path p [lit "500-separator.pcrlock.d"; lit "300-0x00000000.pcrlock"]); rewrite E2
            |change (eqb_path p x) with (eqb_path p [lit "350-action-efi-application.pcrlock"]); rewrite E3
            |change (eqb_path p x) with (eqb_path p [lit "400-secureboot-separator.pcrlock.d"]); rewrite E4
            |change (eqb_path p x) with (eqb_path p [lit "400-secureboot-separator.pcrlock.d"; lit "300-0x00000000.pcrlock"]); rewrite E5] end;
    (destruct p; [discriminate E0 | reflexivity]).
Qed.

Lemma chosen_static o : exists a b c, upstream_static o = chosen a b c.
Proof. unfold upstream_static. eexists _, _, _. reflexivity. Qed.

(** What the directory holds before the user's measurements. *)
Definition base (o : options) (t : tree) : Prop :=
  (forall p target, t p = Some (LinkTo target) <-> shipped o p target) /\
  (forall d, t d = Some Dir <-> there o d) /\
  (forall d, there o d -> d = [] \/ d = d5 \/ d = d4).

Lemma in_chosen a b c f : In f (chosen a b c) <-> a = true /\ f = f5 \/ b = true /\ f = f3 \/ c = true /\ f = f4.
Proof.
  unfold chosen. rewrite !in_app_iff. destruct a, b, c; cbn [optionals In]; intuition (congruence || discriminate || auto).
Qed.

Lemma upstream_base o : exists t,
  upstream_links (o_systemd o) (upstream_static o) (fun p => match p with [] => Some Dir | _ => None end) = Some t /\ base o t.
Proof.
  destruct (chosen_static o) as (a & b & c & US). rewrite US.
  destruct (links_tree (o_systemd o) a b c) as (t & E & P). exists t. split; [exact E|].
  assert (SH : forall p tg, shipped o p tg <->
    a = true /\ p = q5 /\ tg = target (o_systemd o) f5 \/ b = true /\ p = q3 /\ tg = target (o_systemd o) f3 \/
    c = true /\ p = q4 /\ tg = target (o_systemd o) f4).
  { intros p tg. unfold shipped. rewrite US. split.
    - intros (f & I & -> & ->). apply in_chosen in I as [[H ->]|[[H ->]|[H ->]]]; auto 10.
    - intros [(H & -> & ->)|[(H & -> & ->)|(H & -> & ->)]]; eexists; (split; [apply in_chosen; eauto 6|]); split; reflexivity. }
  assert (TH : forall d, there o d <-> d = [] \/ a = true /\ d = d5 \/ c = true /\ d = d4).
  { intros d. unfold there. split.
    - intros [->|(p & tg & S & ->)]; [auto|]. apply SH in S as [(H & -> & _)|[(H & -> & _)|(H & -> & _)]]; auto.
    - intros [->|[[H ->]|[H ->]]]; [auto| |]; right.
      + exists q5, (target (o_systemd o) f5). split; [apply SH; auto|reflexivity].
      + exists q4, (target (o_systemd o) f4). split; [apply SH; auto 6|reflexivity]. }
  split; [|split].
  - intros p tg. rewrite P, SH. unfold tree_of. split.
    + destruct (eqb_path p []); [discriminate|]. destruct (a && eqb_path p d5); [discriminate|].
      destruct (a && eqb_path p q5) eqn:E2.
      { apply andb_true_iff in E2 as [A X]. apply eqb_path_spec in X. intros T. injection T as <-. auto. }
      destruct (b && eqb_path p q3) eqn:E3.
      { apply andb_true_iff in E3 as [A X]. apply eqb_path_spec in X. intros T. injection T as <-. auto. }
      destruct (c && eqb_path p d4); [discriminate|]. destruct (c && eqb_path p q4) eqn:E5; [|discriminate].
      apply andb_true_iff in E5 as [A X]. apply eqb_path_spec in X. intros T. injection T as <-. auto 6.
    + intros [(A & -> & ->)|[(A & -> & ->)|(A & -> & ->)]]; destruct a, b, c; try discriminate A; reflexivity.
  - intros d. rewrite P, TH. unfold tree_of. split.
    + destruct (eqb_path d []) eqn:E0; [apply eqb_path_spec in E0; auto|].
      destruct (a && eqb_path d d5) eqn:E1; [apply andb_true_iff in E1 as [A X]; apply eqb_path_spec in X; auto|].
      destruct (a && eqb_path d q5); [discriminate|]. destruct (b && eqb_path d q3); [discriminate|].
      destruct (c && eqb_path d d4) eqn:E4; [apply andb_true_iff in E4 as [A X]; apply eqb_path_spec in X; auto|].
      destruct (c && eqb_path d q4); discriminate.
    + intros [->|[[A ->]|[A ->]]]; [reflexivity| |]; destruct a, b, c; try discriminate A; reflexivity.
  - intros d. rewrite TH. tauto.
Qed.

(** ** The user's links *)

Definition key (e : bytes * bytes) : path := components (fst e ++ lit ".pcrlock").

Lemma key_end e : exists cs x, key e = cs ++ [x ++ lit ".pcrlock"].
Proof.
  destruct (components_end (fst e) (lit ".pcrlock")) as (cs & x & E & _); [vm_compute; intuition discriminate | vm_compute; repeat constructor|].
  exists cs, x. exact E.
Qed.

Lemma ends_differ (x a : bytes) c d : x ++ [c] = a ++ [d] -> c = d.
Proof. intros E. apply app_inj_tail in E. apply E. Qed.

Lemma key_no_dir e d : d = [] \/ d = d5 \/ d = d4 -> key e <> d.
Proof.
  destruct (key_end e) as (cs & x & ->). intros D E.
  assert (Q : x ++ lit ".pcrlock" = last d []).
  { rewrite <- E. rewrite last_last. reflexivity. }
  change (lit ".pcrlock") with (lit ".pcrloc" ++ [107]) in Q. rewrite app_assoc in Q.
  destruct D as [->|[->| ->]]; cbn [last] in Q.
  - destruct (x ++ lit ".pcrloc"); discriminate Q.
  - unfold d5 in Q. cbn [last] in Q. change (lit "500-separator.pcrlock.d") with (lit "500-separator.pcrlock." ++ [100]) in Q.
    apply ends_differ in Q. discriminate Q.
  - unfold d4 in Q. cbn [last] in Q. change (lit "400-secureboot-separator.pcrlock.d") with (lit "400-secureboot-separator.pcrlock." ++ [100]) in Q.
    apply ends_differ in Q. discriminate Q.
Qed.

Lemma with_same t p x : with_thing t p x p = Some x.
Proof. unfold with_thing. rewrite eqb_path_refl. reflexivity. Qed.
Lemma with_other t p x q : q <> p -> with_thing t p x q = t q.
Proof. intros N. unfold with_thing. rewrite (proj2 (eqb_path_false q p) N). reflexivity. Qed.

(** One link that is made. *)
Lemma ln_made s p t : t p <> Some Dir ->
  (forall t1, ln false s p t = Some t1 <-> t (removelast p) = Some Dir /\ t p = None /\ t1 = with_thing t p (LinkTo s)).
Proof.
  intros ND t1. unfold ln. destruct (t p) as [[|tg]|] eqn:E.
  - congruence.
  - rewrite E. split; [destruct (t (removelast p)) as [[|]|]; discriminate | intros (_ & X & _); discriminate X].
  - rewrite E. destruct (t (removelast p)) as [[|]|]; split.
    + intros X. injection X as <-. auto.
    + intros (_ & _ & ->). reflexivity.
    + discriminate.
    + intros (X & _). discriminate X.
    + discriminate.
    + intros (X & _). discriminate X.
Qed.

Lemma own_result own : forall t, (forall e, t (key e) <> Some Dir) ->
  ((exists t1, own_links own t = Some t1) <->
   NoDup (map key own) /\ forall e, In e own -> t (removelast (key e)) = Some Dir /\ t (key e) = None) /\
  (forall t1, own_links own t = Some t1 -> forall p x, t1 p = Some x <-> t p = Some x \/ exists e, In e own /\ p = key e /\ x = LinkTo (snd e)).
Proof.
  induction own as [|[n s] own IH]; intros t ND.
  - split.
    + split; [intros _; split; [constructor | intros e []] | intros _; exists t; reflexivity].
    + intros t1 E p x. injection E as <-. split; [auto | intros [H|(e & [] & _)]; exact H].
  - pose proof (ln_made s (key (n, s)) t (ND (n, s))) as LN.
    change (own_links ((n, s) :: own) t) with
      (match ln false s (key (n, s)) t with None => None | Some t1 => own_links own t1 end).
    destruct (ln false s (key (n, s)) t) as [t2|] eqn:L.
    2:{ split; [split|].
        - intros (t1 & E). discriminate E.
        - intros (_ & A). destruct (A (n, s) (or_introl eq_refl)) as (A1 & A2).
          assert (X : None = Some (with_thing t (key (n, s)) (LinkTo s))) by (apply LN; auto). discriminate X.
        - intros t1 E. discriminate E. }
    destruct (proj1 (LN t2) eq_refl) as (PD & FR & ->).
    set (t2 := with_thing t (key (n, s)) (LinkTo s)) in *.
    assert (DIR : forall d, t2 d = Some Dir <-> t d = Some Dir).
    { intros d. destruct (eqb_path d (key (n, s))) eqn:Q.
      - apply eqb_path_spec in Q. subst d. unfold t2. rewrite with_same, FR. split; discriminate.
      - apply eqb_path_false in Q. unfold t2. rewrite with_other by exact Q. tauto. }
    destruct (IH t2) as (ITER & RES); [intros e X; apply DIR in X; exact (ND e X)|]. split.
    + rewrite ITER. split.
      * intros (NDP & A). split.
        -- constructor; [|exact NDP]. intros I. apply in_map_iff in I as (e & K & I). destruct (A e I) as (_ & X).
           rewrite K in X. unfold t2 in X. rewrite with_same in X. discriminate X.
        -- intros e [<-|I]; [auto|]. destruct (A e I) as (A1 & A2). split; [apply DIR, A1|].
           destruct (eqb_path (key e) (key (n, s))) eqn:Q; [apply eqb_path_spec in Q; rewrite Q; exact FR|].
           apply eqb_path_false in Q. unfold t2 in A2. rewrite with_other in A2 by exact Q. exact A2.
      * intros (NDP & A). inversion NDP as [|? ? NI NDP']; subst. split; [exact NDP'|].
        intros e I. destruct (A e (or_intror I)) as (A1 & A2). split; [apply DIR, A1|].
        unfold t2. rewrite with_other; [exact A2|]. intros Q. apply NI. rewrite <- Q. apply in_map. exact I.
    + intros t1 E p x. rewrite (RES t1 E p x). split.
      * intros [H|(e & I & H)]; [|right; exists e; split; [right; exact I | exact H]].
        destruct (eqb_path p (key (n, s))) eqn:Q.
        -- apply eqb_path_spec in Q. subst p. unfold t2 in H. rewrite with_same in H. injection H as <-.
           right. exists (n, s). split; [left; reflexivity|]. split; reflexivity.
        -- apply eqb_path_false in Q. unfold t2 in H. rewrite with_other in H by exact Q. left. exact H.
      * intros [H|(e & [<-|I] & -> & ->)].
        -- left. unfold t2. rewrite with_other; [exact H|]. intros ->. rewrite FR in H. discriminate H.
        -- left. unfold t2. apply with_same.
        -- right. exists e. auto.
Qed.

Lemma static_result o own :
  ((exists t, static_measurements o own = Some t) <-> linkable o own) /\
  forall t, static_measurements o own = Some t ->
    (forall p target, t p = Some (LinkTo target) <-> shipped o p target \/ users own p target) /\
    (forall d, t d = Some Dir <-> there o d).
Proof.
  destruct (upstream_base o) as (t0 & E & LK & DI & FEW). unfold static_measurements. rewrite E.
  assert (ND : forall e, t0 (key e) <> Some Dir).
  { intros e X. apply DI in X. exact (key_no_dir e _ (FEW _ X) eq_refl). }
  destruct (own_result own t0 ND) as (ITER & RES). split.
  - rewrite ITER. unfold linkable. split.
    + intros (NDP & A). split; [exact NDP|]. intros p tg (n & I & ->). destruct (A (n, tg) I) as (A1 & A2).
      split; [apply DI, A1|]. intros tg' S. apply LK in S. change (t0 (key (n, tg)) = Some (LinkTo tg')) in S. rewrite A2 in S. discriminate S.
    + intros (NDP & A). split; [exact NDP|]. intros [n tg] I. destruct (A (key (n, tg)) tg) as (A1 & A2); [exists n; auto|].
      split; [apply DI, A1|]. destruct (t0 (key (n, tg))) as [[|tg']|] eqn:Q; [destruct (ND _ Q) | | reflexivity].
      apply LK in Q. destruct (A2 _ Q).
  - intros t H. split.
    + intros p tg. rewrite (RES t H p (LinkTo tg)), LK. apply or_iff_compat_l. split.
      * intros ([n s] & I & -> & X). injection X as ->. exists n. auto.
      * intros (n & I & ->). exists (n, tg). auto.
    + intros d. rewrite (RES t H d Dir), DI. split; [intros [X|(e & _ & _ & X)]; [exact X | discriminate X] | auto].
Qed.
