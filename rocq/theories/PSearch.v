(** Proofs for C96. *)
From Coq Require Import List NArith Bool.
From Verif Require Import Base PBase MText MHook MSearch SSearch.
Import ListNotations.
Open Scope N_scope.

Lemma split_more : forall a v, ~ In 58 a -> split_path (a ++ [58] ++ v) = a :: split_path v.
Proof.
  induction a as [|c a IH]; intros v N; [reflexivity|]. cbn [app split_path]. cbn [In] in N.
  destruct (c =? 58) eqn:E; [apply N.eqb_eq in E; destruct N; auto|]. change (a ++ 58 :: v) with (a ++ [58] ++ v). rewrite IH by auto. reflexivity.
Qed.
Lemma split_last : forall a, ~ In 58 a -> split_path a = [a].
Proof.
  induction a as [|c a IH]; intros N; [reflexivity|]. cbn [split_path]. cbn [In] in N.
  destruct (c =? 58) eqn:E; [apply N.eqb_eq in E; destruct N; auto|]. rewrite IH by auto. reflexivity.
Qed.
Lemma split_joined : forall v, joined (split_path v) v.
Proof.
  induction v as [|c v IH]; [apply jo_last; intros []|]. cbn [split_path]. destruct (c =? 58) eqn:E.
  - apply N.eqb_eq in E. subst c. exact (jo_more [] _ v (fun X => X) IH).
  - apply N.eqb_neq in E. inversion IH as [d N ED EV | d ds w N J ED EV].
    + apply jo_last. intros [X|X]; [exact (E X) | exact (N X)].
    + apply (jo_more (c :: d) ds w); [intros [X|X]; [exact (E X) | exact (N X)] | exact J].
Qed.
Lemma joined_split ds v : joined ds v -> ds = split_path v.
Proof.
  induction 1 as [d N | d ds v N J IH]; [symmetry; apply split_last, N|]. rewrite split_more by exact N. rewrite <- IH. reflexivity.
Qed.

Lemma place_in d name : in_directory d name = place d name.
Proof. destruct d; reflexivity. Qed.

Lemma first_finds exec name p : forall ds, first_in exec ds name = Some p <->
  exists before d after, ds = before ++ d :: after /\ p = place d name /\ exec p = true /\ forall b, In b before -> exec (place b name) = false.
Proof.
  induction ds as [|d ds IH]; cbn [first_in].
  - split; [discriminate|]. intros (b & d & a & E & _). destruct b; discriminate E.
  - rewrite place_in. destruct (exec (place d name)) eqn:X.
    + split.
      * intros E. injection E as <-. exists [], d, ds. split; [reflexivity|]. split; [reflexivity|]. split; [exact X | intros b []].
      * intros (b & d' & a & E & -> & X' & NB). destruct b as [|b0 b]; cbn in E; injection E as <- E; [reflexivity|].
        rewrite (NB d (or_introl eq_refl)) in X. discriminate X.
    + rewrite IH. split; intros (b & d' & a & E & P & X' & NB).
      * exists (d :: b), d', a. rewrite E. split; [reflexivity|]. split; [exact P|]. split; [exact X'|]. intros y [<-|I]; auto.
      * destruct b as [|b0 b]; cbn in E; injection E as <- E; [subst p; congruence|]. exists b, d', a.
        split; [exact E|]. split; [exact P|]. split; [exact X'|]. intros y I. apply NB. right. exact I.
Qed.

Lemma search_finds exec e v name p : e (lit "PATH") = Some v -> ~ In 47 name -> (search exec e name = Some p <-> finds exec v name p).
Proof.
  intros E N. unfold search. assert (existsb (N.eqb 47) name = false) as ->.
  { destruct (existsb (N.eqb 47) name) eqn:X; [|reflexivity]. apply existsb_exists in X as (c & I & Q). apply N.eqb_eq in Q. subst c. contradiction. }
  rewrite E, first_finds. unfold finds. split; intros (b & d & a & J & R); exists b, d, a; (split; [|exact R]).
  - rewrite <- J. apply split_joined.
  - symmetry. apply joined_split, J.
Qed.

Section Call.
Variables (exec : bytes -> bool) (k : packages) (o : options).
Hypothesis FP : fit_packages exec k (o_systemd o).

Lemma no_colon p s : In p [p_binutils k; p_sbsigntool k; o_systemd o] -> ~ In 58 s -> ~ In 58 (p ++ s).
Proof. intros I N X. apply in_app_or in X as [X|X]; [exact (proj2 (proj1 FP p I) X) | exact (N X)]. Qed.

Lemma place_below p s name : In p [p_binutils k; p_sbsigntool k; o_systemd o] -> place (p ++ s) name = p ++ s ++ [47] ++ name.
Proof.
  intros I. unfold place. destruct p as [|c p]; [destruct (proj1 (proj1 FP [] I) eq_refl)|]. cbn [app eqb_bytes]. rewrite <- app_assoc. reflexivity.
Qed.

(** PATH of lzbt begins with the two packages. *)
Lemma wrapped_path e : exists v, wrapped k e (lit "PATH") = Some v /\
  (exists r, joined ([p_binutils k ++ lit "/bin"; p_sbsigntool k ++ lit "/bin"] ++ r) v /\
     match e (lit "PATH") with Some w => r = split_path w | None => r = [] end) /\
  wrapped k e (lit "LANZABOOTE_STUB") = Some (p_stub k ++ lit "/bin/lanzaboote_stub.efi").
Proof.
  assert (N1 : ~ In 58 (p_binutils k ++ lit "/bin")) by (apply no_colon; [left; reflexivity | vm_compute; intuition discriminate]).
  assert (N2 : ~ In 58 (p_sbsigntool k ++ lit "/bin")) by (apply no_colon; [right; left; reflexivity | vm_compute; intuition discriminate]).
  assert (B : bin_path k = (p_binutils k ++ lit "/bin") ++ [58] ++ p_sbsigntool k ++ lit "/bin") by (rewrite <- app_assoc; reflexivity).
  eexists. split; [reflexivity|]. split; [|reflexivity]. destruct (e (lit "PATH")) as [w|].
  - exists (split_path w). split; [|reflexivity]. rewrite B.
    replace (((p_binutils k ++ lit "/bin") ++ [58] ++ p_sbsigntool k ++ lit "/bin") ++ lit ":" ++ w)
      with ((p_binutils k ++ lit "/bin") ++ [58] ++ (p_sbsigntool k ++ lit "/bin") ++ [58] ++ w) by (rewrite <- !app_assoc; reflexivity).
    apply jo_more; [exact N1|]. apply jo_more; [exact N2 | apply split_joined].
  - exists []. split; [|reflexivity]. rewrite B. apply jo_more; [exact N1 | apply jo_last; exact N2].
Qed.

Lemma tools e : exists v, wrapped k e (lit "PATH") = Some v /\
  finds exec v (lit "objcopy") (p_binutils k ++ lit "/bin/objcopy") /\
  finds exec v (lit "sbsign") (p_sbsigntool k ++ lit "/bin/sbsign") /\
  finds exec v (lit "sbverify") (p_sbsigntool k ++ lit "/bin/sbverify") /\
  wrapped k e (lit "LANZABOOTE_STUB") = Some (p_stub k ++ lit "/bin/lanzaboote_stub.efi").
Proof.
  destruct (wrapped_path e) as (v & E & (r & J & _) & S). exists v. split; [exact E|].
  pose proof FP as (_ & OB & SB & _).
  assert (SIG : forall n, In n [lit "sbsign"; lit "sbverify"] -> finds exec v n (p_sbsigntool k ++ lit "/bin/" ++ n)).
  { intros n I. destruct (SB n I) as [S1 S2]. exists [p_binutils k ++ lit "/bin"], (p_sbsigntool k ++ lit "/bin"), r.
    split; [exact J|]. split; [|split; [exact S2|]].
    - rewrite place_below by (right; left; reflexivity). reflexivity.
    - intros b [<-|[]]. rewrite place_below by (left; reflexivity). exact S1. }
  split; [|split; [exact (SIG _ (or_introl eq_refl)) | split; [exact (SIG _ (or_intror (or_introl eq_refl))) | exact S]]].
  exists [], (p_binutils k ++ lit "/bin"), ((p_sbsigntool k ++ lit "/bin") :: r). split; [exact J|]. split; [|split; [exact OB | intros b []]].
  rewrite place_below by (left; reflexivity). reflexivity.
Qed.

Lemma assigned_path e n : e (lit "PATH") <> None -> exists w, assigned o e n (lit "PATH") = Some (o_systemd o ++ lit "/lib/systemd:" ++ w).
Proof.
  intros NE. induction n as [|n (w & IH)]; cbn [assigned]; unfold assign_path, with_variable; rewrite (proj2 (eqb_bytes_spec _ _) eq_refl).
  - destruct (e (lit "PATH")) as [v|]; [exists v; reflexivity | destruct (NE eq_refl)].
  - rewrite IH. eexists. reflexivity.
Qed.

Lemma finds_pcrlock e n : e (lit "PATH") <> None -> exists v, call_environment k o e n (lit "PATH") = Some v /\
  finds exec v (lit "systemd-pcrlock") (o_systemd o ++ lit "/lib/systemd/systemd-pcrlock").
Proof.
  intros NE. destruct (assigned_path e n NE) as (w & A). destruct (wrapped_path (assigned o e n)) as (v & E & (r & J & R) & _).
  exists v. split; [exact E|]. rewrite A in R.
  replace (o_systemd o ++ lit "/lib/systemd:" ++ w) with ((o_systemd o ++ lit "/lib/systemd") ++ [58] ++ w) in R by (rewrite <- app_assoc; reflexivity).
  rewrite split_more in R by (apply no_colon; [right; right; left; reflexivity | vm_compute; intuition discriminate]). subst r.
  destruct FP as (_ & _ & _ & P1 & P2 & P3).
  exists [p_binutils k ++ lit "/bin"; p_sbsigntool k ++ lit "/bin"], (o_systemd o ++ lit "/lib/systemd"), (split_path w).
  split; [exact J|]. split; [|split; [exact P3|]].
  - rewrite place_below by (right; right; left; reflexivity). reflexivity.
  - intros b [<-|[<-|[]]]; rewrite place_below by (cbn [In]; auto); assumption.
Qed.

Lemma assigned_unset e n : e (lit "PATH") = None -> assigned o e n (lit "PATH") = None.
Proof.
  intros NE. induction n as [|n IH]; cbn [assigned]; unfold assign_path, with_variable; rewrite (proj2 (eqb_bytes_spec _ _) eq_refl).
  - rewrite NE. reflexivity.
  - rewrite IH. reflexivity.
Qed.

(** Without PATH it is never found. *)
Lemma unset_pcrlock e n : e (lit "PATH") = None -> search exec (call_environment k o e n) (lit "systemd-pcrlock") = None.
Proof.
  intros NE. destruct (wrapped_path (assigned o e n)) as (v & E & (r & J & R) & _). rewrite (assigned_unset e n NE) in R. subst r.
  destruct (search exec (call_environment k o e n) (lit "systemd-pcrlock")) as [p|] eqn:S; [|reflexivity].
  apply (search_finds exec _ v) in S; [|exact E | vm_compute; intuition discriminate].
  destruct S as (b & d & a & J' & -> & X & _). pose proof (eq_trans (joined_split _ _ J) (eq_sym (joined_split _ _ J'))) as Q.
  destruct FP as (_ & _ & _ & P1 & P2 & _).
  assert (I : In d ([p_binutils k ++ lit "/bin"; p_sbsigntool k ++ lit "/bin"] ++ [])) by (rewrite Q; apply in_or_app; right; left; reflexivity).
  destruct I as [<-|[<-|[]]]; rewrite place_below in X by (cbn [In]; auto); cbn [app] in X.
  - change (exec (p_binutils k ++ lit "/bin/systemd-pcrlock") = true) in X. congruence.
  - change (exec (p_sbsigntool k ++ lit "/bin/systemd-pcrlock") = true) in X. congruence.
Qed.
End Call.

Lemma others k o e n x : x <> lit "PATH" -> x <> lit "LANZABOOTE_STUB" -> call_environment k o e n x = e x.
Proof.
  intros N1 N2. assert (F : forall e' m v, x <> m -> with_variable e' m v x = e' x).
  { intros e' m v N. unfold with_variable. destruct (eqb_bytes x m) eqn:E; [apply eqb_bytes_spec in E; contradiction | reflexivity]. }
  unfold call_environment, wrapped. rewrite !F by assumption. induction n as [|n IH]; cbn [assigned]; unfold assign_path; rewrite F by assumption; auto.
Qed.
