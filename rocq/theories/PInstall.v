(** Reasoning about installer code ([MInstall.I]): which changes a piece of
    code makes, and what holds afterwards. *)
From Coq Require Import List NArith Bool Lia.
From Verif Require Import Base MNames MFs PFs MTool MInstall.
Import ListNotations.
Open Scope N_scope.

(** Every change of a sequence satisfies [G] in the state it is made in. *)
Fixpoint steps (G : fs -> op -> Prop) (m : fs) (os : list op) : Prop :=
  match os with
  | [] => True
  | o :: os' => G m o /\ steps G (apply o m) os'
  end.

Lemma steps_app G m a b : steps G m (a ++ b) <-> steps G m a /\ steps G (apply_all a m) b.
Proof.
  revert m; induction a as [|o a IH]; intros m; cbn; [tauto|]. rewrite IH. tauto.
Qed.

Lemma steps_weaken (G G' : fs -> op -> Prop) m os :
  (forall m o, G m o -> G' m o) -> steps G m os -> steps G' m os.
Proof. intros H. revert m; induction os as [|o os IH]; intros m; cbn; [auto|]. intros []; auto. Qed.

(** Induction on the states a sequence of changes goes through. *)
Lemma steps_invariant (G : fs -> op -> Prop) (J : fs -> Prop) :
  (forall m o, G m o -> J m -> J (apply o m)) ->
  forall os m, steps G m os -> J m -> J (apply_all os m).
Proof.
  intros H. induction os as [|o os IH]; intros m HS HJ; cbn in *; [exact HJ|].
  destruct HS as [HG HS]. apply IH; auto.
Qed.

(** [s'] comes from [s] by changes satisfying [G]; roots and broken
    generations are only added. *)
Definition reach (G : fs -> op -> Prop) (s s' : st) : Prop :=
  (exists os, s_trace s' = s_trace s ++ os /\ s_fs s' = apply_all os (s_fs s) /\ steps G (s_fs s) os)
  /\ incl (s_roots s) (s_roots s') /\ incl (s_broken s) (s_broken s').

Lemma reach_refl G s : reach G s s.
Proof.
  split; [exists []; rewrite app_nil_r; cbn; auto | split; apply incl_refl].
Qed.

Lemma reach_trans G a b c : reach G a b -> reach G b c -> reach G a c.
Proof.
  intros [(o1 & T1 & F1 & S1) [R1 B1]] [(o2 & T2 & F2 & S2) [R2 B2]]. split.
  - exists (o1 ++ o2). rewrite T2, T1, app_assoc, F2, F1, apply_all_app. repeat split; auto.
    rewrite F1 in S2. apply steps_app; auto.
  - split; eapply incl_tran; eauto.
Qed.

Lemma reach_weaken (G G' : fs -> op -> Prop) s s' :
  (forall m o, G m o -> G' m o) -> reach G s s' -> reach G' s s'.
Proof. intros H [(o & T & F & S) R]. split; [exists o; repeat split; eauto using steps_weaken | exact R]. Qed.

Lemma reach_invariant (G : fs -> op -> Prop) (J : fs -> Prop) s s' :
  (forall m o, G m o -> J m -> J (apply o m)) -> reach G s s' -> J (s_fs s) -> J (s_fs s').
Proof. intros H [(o & T & F & S) R] HJ. rewrite F. eapply steps_invariant; eauto. Qed.

(** Running [m] from [s] makes only changes satisfying [G], and [Q] holds of
    the outcome. *)
Definition sat {A} (G : fs -> op -> Prop) (m : I A) (s : st) (Q : res unit A -> st -> Prop) : Prop :=
  reach G s (fst (m s)) /\ Q (snd (m s)) (fst (m s)).

Lemma sat_mono {A} G (m : I A) s (Q Q' : res unit A -> st -> Prop) :
  sat G m s Q -> (forall r s', reach G s s' -> Q r s' -> Q' r s') -> sat G m s Q'.
Proof. intros [R HQ] H. split; auto. Qed.

Lemma sat_weaken {A} (G G' : fs -> op -> Prop) (m : I A) s Q :
  (forall m o, G m o -> G' m o) -> sat G m s Q -> sat G' m s Q.
Proof. intros H [R HQ]. split; [eapply reach_weaken; eauto | exact HQ]. Qed.

(** What [ibind] does with the postcondition. *)
Definition after {A B} (G : fs -> op -> Prop) (k : A -> I B) (Q : res unit B -> st -> Prop)
    (r : res unit A) (s : st) : Prop :=
  match r with
  | Ok a => sat G (k a) s Q
  | Err x => Q (Err x) s
  | Panic => Q Panic s
  end.

Lemma sat_bind {A B} G (m : I A) (k : A -> I B) s Q :
  sat G m s (after G k Q) -> sat G (ibind m k) s Q.
Proof.
  unfold sat, ibind. destruct (m s) as [s1 [a|x|]]; cbn [fst snd after]; intros [R HQ].
  - destruct HQ as [R2 HQ]. split; [eapply reach_trans; eauto | exact HQ].
  - split; assumption.
  - split; assumption.
Qed.

Lemma sat_ret {A} G (a : A) s (Q : res unit A -> st -> Prop) : Q (Ok a) s -> sat G (iret a) s Q.
Proof. intros H; split; [apply reach_refl | exact H]. Qed.

Lemma sat_fail {A} G s (Q : res unit A -> st -> Prop) : Q (Err tt) s -> sat G ifail s Q.
Proof. intros H; split; [apply reach_refl | exact H]. Qed.

Lemma sat_panic {A} G s (Q : res unit A -> st -> Prop) : Q Panic s -> sat G ipanic s Q.
Proof. intros H; split; [apply reach_refl | exact H]. Qed.

Lemma sat_lift {A} G (r : res unit A) s (Q : res unit A -> st -> Prop) : Q r s -> sat G (ilift r) s Q.
Proof. intros H; split; [apply reach_refl | exact H]. Qed.

Lemma sat_get {A} G (f : st -> A) s (Q : res unit A -> st -> Prop) : Q (Ok (f s)) s -> sat G (iget f) s Q.
Proof. intros H; split; [apply reach_refl | exact H]. Qed.

Lemma sat_attempt {A} G (m : I A) s (Q : res unit (option A) -> st -> Prop) :
  sat G m s (fun r s' => Q (match r with Ok a => Ok (Some a) | Err _ => Ok None | Panic => Panic end) s') ->
  sat G (iattempt m) s Q.
Proof.
  unfold sat, iattempt. destruct (m s) as [s1 [a|x|]]; cbn; auto.
Qed.

(** States that differ from [s] only in the number of steps. *)
Definition same (s s' : st) : Prop :=
  s_fs s' = s_fs s /\ s_trace s' = s_trace s /\ s_roots s' = s_roots s /\ s_broken s' = s_broken s.

Lemma same_refl s : same s s.
Proof. repeat split. Qed.

Lemma same_trans a b c : same a b -> same b c -> same a c.
Proof. intros (A1 & A2 & A3 & A4) (B1 & B2 & B3 & B4). repeat split; congruence. Qed.

Lemma same_reach G s s' : same s s' -> reach G s s'.
Proof.
  intros (F & T & R & B). split; [exists []; rewrite app_nil_r; cbn; auto|].
  rewrite R, B. split; apply incl_refl.
Qed.

Definition emitted (o : op) (s : st) : st :=
  St (apply o (s_fs s)) (s_trace s ++ [o]) (s_roots s) (s_broken s) (s_tick s).

Lemma sat_emit (G : fs -> op -> Prop) o s (Q : res unit unit -> st -> Prop) :
  G (s_fs s) o -> Q (Ok tt) (emitted o s) -> sat G (iemit o) s Q.
Proof.
  intros HG HQ. split; [|exact HQ]. split; [|split; apply incl_refl].
  exists [o]; cbn; auto.
Qed.

Definition rooted (l : list path) (s : st) : st :=
  St (s_fs s) (s_trace s) (l ++ s_roots s) (s_broken s) (s_tick s).

Lemma sat_roots G l s (Q : res unit unit -> st -> Prop) : Q (Ok tt) (rooted l s) -> sat G (iroots l) s Q.
Proof.
  intros HQ. split; [|exact HQ]. split; [exists []; rewrite app_nil_r; cbn; auto|].
  split; [apply incl_appr, incl_refl | apply incl_refl].
Qed.

Definition with_broken (v : N) (s : st) : st :=
  St (s_fs s) (s_trace s) (s_roots s) (v :: s_broken s) (s_tick s).

Lemma sat_broken G v s (Q : res unit unit -> st -> Prop) : Q (Ok tt) (with_broken v s) -> sat G (ibroken v) s Q.
Proof.
  intros HQ. split; [|exact HQ]. split; [exists []; rewrite app_nil_r; cbn; auto|].
  split; [apply incl_refl | apply incl_tl, incl_refl].
Qed.

Definition ticked (s : st) : st :=
  St (s_fs s) (s_trace s) (s_roots s) (s_broken s) (S (s_tick s)).

Lemma same_ticked s : same s (ticked s).
Proof. repeat split. Qed.

Lemma sat_fault e G s (Q : res unit fault -> st -> Prop) :
  Q (Ok (e_fault e (s_tick s))) (ticked s) -> sat G (ifault e) s Q.
Proof. intros HQ. split; [apply same_reach, same_ticked | exact HQ]. Qed.

(** Loops: an assertion [P] about the elements done so far. *)
Lemma sat_for {A} G (f : A -> I unit) (P : list A -> st -> Prop) (Q : res unit unit -> st -> Prop) :
  forall todo done s,
  P done s ->
  (forall x done s, P done s -> sat G (f x) s (fun r s' =>
     match r with Ok _ => P (done ++ [x]) s' | Err x => Q (Err x) s' | Panic => Q Panic s' end)) ->
  (forall s, P (done ++ todo) s -> Q (Ok tt) s) ->
  sat G (ifor todo f) s Q.
Proof.
  induction todo as [|x todo IH]; intros done s HP Hf HQ; cbn [ifor].
  - apply sat_ret. apply HQ. rewrite app_nil_r. exact HP.
  - apply sat_bind. eapply sat_mono; [apply (Hf x done s HP)|].
    intros [u|u|] s' _ H; cbn [after]; auto.
    apply (IH (done ++ [x])); auto. intros s2. rewrite <- app_assoc. apply HQ.
Qed.

(** ** std::fs *)
Section Env.
Variable e : env.
Variable G : fs -> op -> Prop.

Lemma sat_guard s (Q : res unit unit -> st -> Prop) :
  Q (Err tt) (ticked s) -> (Q (Ok tt) (ticked s)) -> sat G (iguard e) s Q.
Proof.
  intros H1 H2. unfold iguard. apply sat_bind, sat_fault; cbn [after].
  destruct (e_fault e (s_tick s)); [apply sat_ret | apply sat_fail]; assumption.
Qed.

(** Without errors a guard passes. *)
Lemma sat_guard_ok s (Q : res unit unit -> st -> Prop) :
  (forall t, e_fault e t = NoFault) -> Q (Ok tt) (ticked s) -> sat G (iguard e) s Q.
Proof.
  intros H H2. unfold iguard. apply sat_bind, sat_fault; cbn [after]. rewrite H. apply sat_ret; exact H2.
Qed.

Lemma sat_exists p s (Q : res unit bool -> st -> Prop) :
  (forall b, (b = true -> present (s_fs s) p = true) ->
             ((forall t, e_fault e t = NoFault) -> b = present (s_fs s) p) -> Q (Ok b) (ticked s)) ->
  sat G (iexists e p) s Q.
Proof.
  intros H. unfold iexists. apply sat_bind, sat_fault; cbn [after].
  destruct (e_fault e (s_tick s)) eqn:E; [apply sat_get | apply sat_ret]; apply H; cbn; auto.
  - discriminate.
  - intros N. rewrite N in E. discriminate.
Qed.

Lemma sat_is_dir p s (Q : res unit bool -> st -> Prop) :
  (forall b, (b = true -> is_dir (s_fs s) p = true) ->
             ((forall t, e_fault e t = NoFault) -> b = is_dir (s_fs s) p) -> Q (Ok b) (ticked s)) ->
  sat G (iis_dir e p) s Q.
Proof.
  intros H. unfold iis_dir. apply sat_bind, sat_fault; cbn [after].
  destruct (e_fault e (s_tick s)) eqn:E; [apply sat_get | apply sat_ret]; apply H; cbn; auto.
  - discriminate.
  - intros N. rewrite N in E. discriminate.
Qed.

Lemma sat_read p s (Q : res unit bytes -> st -> Prop) :
  (((forall t, e_fault e t = NoFault) -> forall c b, lookup (s_fs s) p <> Some (NFile c b)) -> Q (Err tt) (ticked s)) ->
  (forall c b, lookup (s_fs s) p = Some (NFile c b) -> Q (Ok c) (ticked s)) ->
  sat G (iread e p) s Q.
Proof.
  intros H1 H2. unfold iread, iguard. apply sat_bind, sat_bind, sat_fault; cbn [after].
  destruct (e_fault e (s_tick s)) eqn:E.
  - apply sat_ret; cbn [after]. apply sat_bind, sat_get; cbn [after]. cbn [ticked s_fs].
    destruct (lookup (s_fs s) p) as [[|c b]|] eqn:L.
    + apply sat_fail, H1. intros _ c b. discriminate.
    + apply sat_ret. eapply H2; eauto.
    + apply sat_fail, H1. intros _ c b. discriminate.
  - apply sat_fail; cbn [after]. apply H1. intros N. rewrite N in E. discriminate.
Qed.

Lemma sat_source o s (Q : res unit bytes -> st -> Prop) :
  (((forall t, e_fault e t = NoFault) -> o = None) -> Q (Err tt) (ticked s)) ->
  (forall c, o = Some c -> Q (Ok c) (ticked s)) ->
  sat G (isource e o) s Q.
Proof.
  intros H1 H2. unfold isource, iguard. apply sat_bind, sat_bind, sat_fault; cbn [after].
  destruct (e_fault e (s_tick s)) eqn:E.
  - apply sat_ret; cbn [after]. apply sat_lift. destruct o as [c|]; cbn [ok_or].
    + apply H2; reflexivity.
    + apply H1; reflexivity.
  - apply sat_fail; cbn [after]. apply H1. intros N. rewrite N in E. discriminate.
Qed.
End Env.
