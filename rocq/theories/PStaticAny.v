(** Proofs for C95: any list of measurements that ship with systemd. *)
From Coq Require Import List NArith Bool Lia.
From Verif Require Import Base PBase MText MNames MFs MHook MPolicy MStatic SStatic PStatic PFs.
Import ListNotations.
Open Scope N_scope.

Definition under (done p q : path) : Prop := exists a b, p = a ++ b /\ a <> [] /\ q = done ++ a.

Lemma mkdir_p_spec : forall p t done,
  (forall q, under done p q -> forall tg, t q <> Some (LinkTo tg)) ->
  exists t1, mkdir_p t done p = Some t1 /\ (forall q, under done p q -> t1 q = Some Dir) /\ (forall q, ~ under done p q -> t1 q = t q).
Proof.
  induction p as [|n r IH]; intros t done NL.
  - exists t. split; [reflexivity|]. split; [|reflexivity]. intros q (a & b & E & NE & _). symmetry in E. apply app_eq_nil in E as [E _]. contradiction.
  - assert (exists t', t' (done ++ [n]) = Some Dir /\ (forall q, q <> done ++ [n] -> t' q = t q) /\
      mkdir_p t done (n :: r) = mkdir_p t' (done ++ [n]) r) as (t' & T1 & T2 & E).
    { cbn [mkdir_p]. destruct (t (done ++ [n])) as [[|tg]|] eqn:Q.
      - exists t. auto.
      - destruct (NL (done ++ [n])) with (tg := tg); [|exact Q]. exists [n], r. split; [reflexivity|]. split; [discriminate | reflexivity].
      - exists (with_thing t (done ++ [n]) Dir). unfold with_thing. split; [|split; [|reflexivity]].
        + destruct (eqb_path (done ++ [n]) (done ++ [n])) eqn:B; [reflexivity|]. rewrite (proj2 (eqb_path_spec _ _) eq_refl) in B. discriminate B.
        + intros q NE. destruct (eqb_path q (done ++ [n])) eqn:B; [|reflexivity]. apply eqb_path_spec in B. contradiction. }
    assert (INC : forall q, under (done ++ [n]) r q -> under done (n :: r) q /\ q <> done ++ [n]).
    { intros q (a & b & -> & NE & ->). split.
      - exists (n :: a), b. split; [reflexivity|]. split; [discriminate|]. rewrite <- app_assoc. reflexivity.
      - intros X. rewrite <- (app_nil_r (done ++ [n])) in X at 2. apply app_inv_head in X. contradiction. }
    destruct (IH t' (done ++ [n])) as (t1 & M & D & K).
    { intros q U tg. destruct (INC q U) as [U' NE]. rewrite (T2 q NE). apply NL, U'. }
    exists t1. split; [rewrite E; exact M|]. split.
    + intros q (a & b & E' & NE & ->). destruct a as [|x a]; [contradiction|]. cbn in E'. injection E' as <- E'. destruct a as [|y a].
      * rewrite K; [exact T1|]. intros U. destruct (INC _ U) as [_ X]. apply X. reflexivity.
      * apply D. exists (y :: a), b. split; [exact E'|]. split; [discriminate|]. rewrite <- app_assoc. reflexivity.
    + intros q NU. rewrite K; [|intros U; apply NU, INC, U]. apply T2. intros ->. apply NU. exists [n], r.
      split; [reflexivity|]. split; [discriminate | reflexivity].
Qed.

Lemma under_dec p q : {under [] p q} + {~ under [] p q}.
Proof.
  destruct q as [|x q]; [right; intros (a & b & _ & NE & E); exact (NE (eq_sym E))|].
  destruct (eqb_path (x :: q) (firstn (length (x :: q)) p)) eqn:B.
  - left. apply eqb_path_spec in B. exists (x :: q), (skipn (length (x :: q)) p). split; [|split; [discriminate | reflexivity]].
    transitivity (firstn (length (x :: q)) p ++ skipn (length (x :: q)) p); [symmetry; apply firstn_skipn | f_equal; symmetry; exact B].
  - right. intros (a & b & -> & _ & E). cbn [app] in E. rewrite E in B. rewrite firstn_app, firstn_all, PeanoNat.Nat.sub_diag, firstn_O, app_nil_r in B.
    rewrite (proj2 (eqb_path_spec _ _) eq_refl) in B. discriminate B.
Qed.

Lemma under_above p q : p <> [] -> (under [] (removelast p) q <-> q <> [] /\ above q p).
Proof.
  intros NE. pose proof (app_removelast_last (A := name) [] NE) as E. split.
  - intros (a & b & E' & NA & ->). split; [exact NA|]. rewrite E' in E. rewrite <- app_assoc in E. cbn [app]. unfold above.
    destruct (b ++ [last p []]) as [|n r] eqn:Q; [destruct b; discriminate Q|]. exists n, r. exact E.
  - intros (NA & n & r & E'). exists q, (removelast (n :: r)). split; [|split; [exact NA | reflexivity]].
    rewrite E'. apply removelast_app. discriminate.
Qed.

Section Any.
Variable systemd : bytes.

Definition holds (files : list bytes) (t : tree) : Prop :=
  (forall p target, t p = Some (LinkTo target) <-> ships systemd files p target) /\
  (forall d, t d = Some Dir <-> d = [] \/ exists f, In f files /\ above d (components f)).

Lemma one_more done f t : separate (done ++ [f]) -> holds done t ->
  exists t1 t2, mkdir_p t [] (removelast (components f)) = Some t1 /\
    ln true (systemd ++ lit "/lib/pcrlock.d/" ++ f) (components f) t1 = Some t2 /\ holds (done ++ [f]) t2.
Proof.
  intros SEP (LK & DI). set (c := components f). set (target := systemd ++ lit "/lib/pcrlock.d/" ++ f).
  assert (IF : In f (done ++ [f])) by (apply in_or_app; right; left; reflexivity).
  assert (ID : forall g, In g done -> In g (done ++ [f])) by (intros g I; apply in_or_app; left; exact I).
  assert (NC : c <> []) by apply (SEP f f IF IF).
  assert (NA : forall g, In g (done ++ [f]) -> ~ above (components g) c /\ ~ above c (components g)).
  { intros g I. split; [apply (SEP g f I IF) | apply (SEP f g IF I)]. }
  destruct (mkdir_p_spec (removelast c) t []) as (t1 & M & D & K).
  { intros q U tg X. apply (under_above c q NC) in U as [_ U]. apply LK in X as (g & I & -> & _). exact (proj1 (NA g (ID g I)) U). }
  exists t1, (with_thing t1 c (LinkTo target)). split; [exact M|].
  assert (NU : ~ under [] (removelast c) c).
  { intros U. apply (under_above c c NC) in U as [_ U]. exact (proj1 (NA f IF) U). }
  assert (TC : t1 c = t c) by (apply K, NU).
  assert (ND : t c <> Some Dir).
  { intros X. apply DI in X as [X|(g & I & X)]; [exact (NC X) | exact (proj2 (NA g (ID g I)) X)]. }
  assert (UP : t1 (removelast c) = Some Dir).
  { destruct (under_dec (removelast c) (removelast c)) as [U|U]; [apply D, U|]. rewrite K by exact U. apply DI. left.
    destruct (removelast c) as [|x q] eqn:Q; [reflexivity|]. destruct U. exists (x :: q), []. rewrite app_nil_r. split; [reflexivity|].
    split; [discriminate | reflexivity]. }
  split.
  { unfold ln. destruct (t1 c) as [[|tg]|] eqn:Q; [congruence | |]; rewrite UP, Q; reflexivity. }
  unfold holds, with_thing. split.
  - intros p tg. destruct (eqb_path p c) eqn:B.
    + apply eqb_path_spec in B. subst p. split.
      * intros X. injection X as <-. exists f. auto.
      * intros (g & I & E & ->). unfold target. rewrite (proj1 (proj2 (SEP f g IF I)) E). reflexivity.
    + assert (NE : p <> c) by (intros ->; rewrite (proj2 (eqb_path_spec _ _) eq_refl) in B; discriminate B).
      destruct (under_dec (removelast c) p) as [U|U].
      * rewrite (D p U). apply (under_above c p NC) in U as [_ U]. split; [discriminate|]. intros (g & I & -> & _).
        destruct (proj1 (NA g I) U).
      * rewrite (K p U), LK. split; intros (g & I & E & T).
        -- exists g. auto.
        -- exists g. apply in_app_or in I as [I|[<-|[]]]; [auto | contradiction].
  - intros d. destruct (eqb_path d c) eqn:B.
    + apply eqb_path_spec in B. subst d. split; [discriminate|]. intros [X|(g & I & X)]; [contradiction | destruct (proj2 (NA g I) X)].
    + destruct (under_dec (removelast c) d) as [U|U].
      * rewrite (D d U). apply (under_above c d NC) in U as [_ U]. split; [|reflexivity]. intros _. right. exists f. auto.
      * rewrite (K d U), DI. split; (intros [X|(g & I & A)]; [left; exact X|]).
        -- right. exists g. auto.
        -- apply in_app_or in I as [I|[<-|[]]]; [right; exists g; auto|]. left.
           destruct d as [|x d]; [reflexivity|]. destruct U. apply (under_above c _ NC). split; [discriminate | exact A].
Qed.

Lemma links_any : forall rest done t, separate (done ++ rest) -> holds done t ->
  exists t2, upstream_links systemd rest t = Some t2 /\ holds (done ++ rest) t2.
Proof.
  induction rest as [|f r IH]; intros done t SEP H.
  - exists t. rewrite app_nil_r. split; [reflexivity | exact H].
  - assert (E : done ++ f :: r = (done ++ [f]) ++ r) by (rewrite <- app_assoc; reflexivity). rewrite E in SEP |- *.
    destruct (one_more done f t) as (t1 & t2 & M & L & H2); [|exact H|].
    { intros a b IA IB. apply SEP; apply in_or_app; left; assumption. }
    cbn [upstream_links]. rewrite M, L. exact (IH (done ++ [f]) t2 SEP H2).
Qed.

Lemma any_shipped files : separate files ->
  exists t, upstream_links systemd files (fun p => match p with [] => Some Dir | _ => None end) = Some t /\ holds files t.
Proof.
  intros SEP. apply (links_any files []); [exact SEP|]. split.
  - intros p tg. split; [destruct p; discriminate|]. intros (f & [] & _).
  - intros d. split; [destruct d; [left; reflexivity | discriminate]|]. intros [->|(f & [] & _)]. reflexivity.
Qed.
End Any.
