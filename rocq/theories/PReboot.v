(** Proofs for C89. *)
From Coq Require Import List NArith Bool Lia.
From Verif Require Import Base PBase MText MGeneration MNames MFs MTool MInstall MCli MHook MEnroll MCryptenroll MReboot
  SNames SInstall SHistory SCli SHook SEnroll SReboot.
From Verif Require Import PFs PInstall PFiles POwned PHistory PCli PHook PEnroll PCryptenroll PProvision.
Import ListNotations.
Open Scope N_scope.

(** ** The watched files stay *)

Definition stay (esp : path) (m m1 : fs) : Prop := forall p, watched esp p -> lookup m p <> None -> lookup m1 p <> None.

Lemma stay_refl esp m : stay esp m m.
Proof. intros p _ H. exact H. Qed.

Lemma stay_trans esp m1 m2 m3 : stay esp m1 m2 -> stay esp m2 m3 -> stay esp m1 m3.
Proof. intros A B p W H. apply (B p W), (A p W), H. Qed.

Section Stay.
Variables (esp : path) (u : surroundings) (o : options).
Hypothesis LW : leaves_watched esp u o.

Lemma lzbt_stay i e m : mount_point o i e -> stay esp m (fst (fst (lzbt (u_world u i) (install_args o (u_links u i) e) m))).
Proof.
  intros MP p W H. destruct LW as (_ & L & _). rewrite lzbt_fs.
  destruct (lzbt_point (u_world u i) (install_args o (u_links u i) e) m _ [] (eq_sym (app_nil_r _))) as [->|(sg & c & AS & AC & P)]; [exact H|].
  destruct (L i e _ sg c MP (wanted_args _ _ _) AS AC) as [HL NO].
  destruct (foreign_untouched (w_env (u_world u i) sg) c m _ p HL P (NO p W)) as [X|(X & _)]; [|contradiction].
  intros N. rewrite N in X. destruct (lookup m p) as [[|]|]; try contradiction.
Qed.

Lemma commands_stay esps : forall i m st, (forall k e, nth_error esps k = Some e -> mount_point o (i + k)%nat e) ->
  stay esp m (fst (script (install_commands u o i esps) m st)).
Proof.
  induction esps as [|e esps IH]; intros i m st MP; cbn [install_commands script]; [apply stay_refl|].
  pose proof (lzbt_stay i e m) as ST. destruct (lzbt (u_world u i) (install_args o (u_links u i) e) m) as [[m' tr] n]. cbn [fst] in ST.
  eapply stay_trans; [apply ST; specialize (MP O e eq_refl); rewrite PeanoNat.Nat.add_0_r in MP; exact MP|].
  apply IH. intros k e' E. specialize (MP (S k) e' E). rewrite PeanoNat.Nat.add_succ_r in MP. exact MP.
Qed.

Lemma hook_stay m : stay esp m (fst (hook u o m)).
Proof.
  unfold hook. rewrite script_app.
  pose proof (commands_stay (mount_points o) 0 m 0) as ST.
  destruct (script (install_commands u o 0 (mount_points o)) m 0) as [m1 n]. cbn [fst] in ST.
  assert (stay esp m m1) as S1. { apply ST. intros k e E. apply mount_point_nth. exact E. }
  destruct (o_measured o); [|exact S1]. cbn [script].
  destruct LW as (_ & _ & LP). specialize (LP m1). destruct (u_policy u m1) as [m2 n2]. cbn [fst] in *.
  eapply stay_trans; [exact S1|]. intros p W H. exact (LP p W H).
Qed.
End Stay.

Lemma change_stay dir op m p : key_change dir op -> lookup m p <> None -> lookup (apply op m) p <> None.
Proof.
  intros K H. rewrite lookup_apply. destruct op as [q|q|q x|q|d|a b|q|q]; try contradiction;
    try (destruct (eqb_path q p); [discriminate | exact H]); exact H.
Qed.

Lemma changes_stay dir os : Forall (key_change dir) os -> forall m p, lookup m p <> None -> lookup (apply_all os m) p <> None.
Proof.
  induction 1 as [|op os K _ IH]; intros m p H; [exact H|]. change (apply_all (op :: os) m) with (apply_all os (apply op m)).
  apply IH. eapply change_stay; eassumption.
Qed.

Lemma keys_there m esp auth n : In n auth_names -> lookup (apply_all (key_ops m esp auth) m) (auth_file esp n) <> None.
Proof.
  intros Hn. unfold key_ops. rewrite apply_all_app.
  destruct (install_armed (apply_all (missing_dirs m [] (esp ++ keys_suffix)) m) (esp ++ keys_suffix) auth n Hn) as (x & b & L).
  rewrite <- app_assoc in L. change (keys_suffix ++ [n]) with [lit "loader"; lit "keys"; lit "auto"; n] in L.
  unfold auth_file. rewrite L. discriminate.
Qed.

(** ** The services *)

Section Units.
Variables (esp : path) (u : surroundings) (o : options).
Hypothesis LW : leaves_watched esp u o.

Lemma prepare_stay s auth stop t : stay esp (k_fs t) (k_fs (fst (prepare_unit s auth stop u o t))).
Proof.
  unfold prepare_unit. destruct (r_enroll s && _); [|apply stay_refl].
  assert (stay esp (k_fs t) (fst (prepare auth stop u o (k_fs t)))) as S1.
  { unfold prepare. destruct auth as [auth|]; [|apply stay_refl]. destruct (way_free _ _ _); [|apply stay_refl].
    pose proof (key_changes (k_fs t) (components (o_esp o)) auth) as KC. destruct stop as [k|].
    - intros p _ H. eapply changes_stay; [apply Forall_firstn; exact KC | exact H].
    - eapply stay_trans; [|apply hook_stay; exact LW]. intros p _ H. eapply changes_stay; [exact KC | exact H]. }
  destruct (prepare auth stop u o (k_fs t)) as [m1 n]. exact S1.
Qed.

(** After a success that reboots, the keys' files are there; before, none was. *)
Lemma prepare_reboots s auth stop t : snd (prepare_unit s auth stop u o t) = true ->
  forall n, In n auth_names -> lookup (k_fs t) (auth_file esp n) = None /\
    lookup (k_fs (fst (prepare_unit s auth stop u o t))) (auth_file esp n) <> None.
Proof.
  unfold prepare_unit. destruct (r_enroll s && _) eqn:C; [|discriminate]. apply andb_prop in C as [_ C].
  destruct LW as (EE & _). rewrite EE in C. intros Z n Hn. split.
  - unfold may_start in C. rewrite forallb_forall in C. specialize (C n Hn). apply negb_true_iff in C.
    destruct (lookup (k_fs t) (auth_file esp n)) eqn:L; [|reflexivity].
    assert (present (k_fs t) (esp ++ keys_suffix ++ [n]) = true) as X; [|congruence].
    apply present_lookup; [intros E; apply app_eq_nil in E as [_ E]; discriminate E|].
    unfold auth_file in L. change ([lit "loader"; lit "keys"; lit "auto"; n]) with (keys_suffix ++ [n]) in L. congruence.
  - unfold prepare in *. rewrite EE in *. destruct auth as [auth|].
    + destruct (way_free _ _ _).
      * destruct stop as [k|]; [cbn in Z; rewrite andb_false_r in Z; discriminate Z|].
        pose proof (hook_stay esp u o LW (apply_all (key_ops (k_fs t) esp auth) (k_fs t))) as ST.
        destruct (hook u o (apply_all (key_ops (k_fs t) esp auth) (k_fs t))) as [m1 k]. cbn [fst k_fs] in *.
        apply ST; [right; exists n; split; [exact Hn | reflexivity]|]. apply keys_there. exact Hn.
      * cbn in Z. rewrite andb_false_r in Z. discriminate Z.
    + cbn in Z. rewrite andb_false_r in Z. discriminate Z.
Qed.

Lemma hook_policy_stay t : stay esp (k_fs t) (k_fs (fst (hook_policy u o t))).
Proof. destruct (hook_policy_fs u o t) as (F & _). rewrite F. apply hook_stay. exact LW. Qed.

Lemma touch_stay t : stay esp (k_fs t) (k_fs (touch_marker t)).
Proof. intros p _ H. cbn [touch_marker k_fs]. change touched with marker. rewrite lookup_apply. destruct (eqb_path marker p); [discriminate | exact H]. Qed.

Lemma service_stay ok t t2 : In t2 (fst (auto_cryptenroll u o ok t)) -> stay esp (k_fs t) (k_fs t2).
Proof.
  unfold auto_cryptenroll. destruct (present (k_fs t) marker); [intros []|].
  pose proof (hook_policy_stay t) as ST. destruct (hook_policy u o t) as [t1 n]. cbn [fst] in ST.
  destruct (n =? 0); [|intros [<-|[]]; exact ST].
  unfold cryptenroll. destruct (k_policy t1); [|intros [<-|[]]; exact ST]. destruct ok; [|intros [<-|[]]; exact ST].
  intros [<-|[<-|[<-|[]]]]; [exact ST | exact ST |]. eapply stay_trans; [exact ST|]. apply (touch_stay (Kept _ _ _ _)).
Qed.

Lemma crypt_stay s secure ok t t2 : In t2 (fst (cryptenroll_unit s secure u o ok t)) -> stay esp (k_fs t) (k_fs t2).
Proof.
  unfold cryptenroll_unit. destruct (_ || _); [|intros []]. pose proof (service_stay ok t t2) as S.
  destruct (auto_cryptenroll u o ok t) as [ts d]. exact S.
Qed.

Lemma crypt_reboots s secure ok t : snd (cryptenroll_unit s secure u o ok t) = true ->
  lookup (k_fs t) marker = None /\ lookup (k_fs (last (fst (cryptenroll_unit s secure u o ok t)) t)) marker <> None.
Proof.
  unfold cryptenroll_unit. destruct (_ || _); [|discriminate]. destruct (auto_cryptenroll u o ok t) as [ts d] eqn:E. cbn [fst snd].
  intros Z. apply andb_prop in Z as [_ Z]. subst d. destruct (service_done u o ok t ts E) as (P & _ & _ & ->). split.
  - destruct (lookup (k_fs t) marker) eqn:L; [|reflexivity]. assert (present (k_fs t) marker = true) by (apply present_marker; congruence). congruence.
  - cbn [last touch_marker k_fs]. change touched with marker. rewrite lookup_apply, (proj2 (eqb_path_spec _ _) eq_refl). discriminate.
Qed.

Lemma boot_stay log t : stay esp (k_fs t) (k_fs (boot u o log t)).
Proof.
  unfold boot. destruct (o_measured o); [|apply stay_refl]. destruct LW as (_ & _ & LP). specialize (LP (k_fs t)).
  destruct (u_policy u (k_fs t)) as [m n]. intros p W H. exact (LP p W H).
Qed.
End Units.

Lemma last_in {A} (l : list A) d : last l d = d \/ In (last l d) l.
Proof.
  induction l as [|a l IH]; [left; reflexivity|]. right. destruct l as [|b l]; [left; reflexivity|].
  change (last (a :: b :: l) d) with (last (b :: l) d). destruct IH as [E|I]; [|right; exact I].
  clear -l. right. revert b. induction l as [|c l IH]; intros b; [left; reflexivity | right; apply IH].
Qed.

(** Once there, always there. *)
Lemma runs_stay esp i j t t1 : runs esp i j t t1 -> stay esp (k_fs t) (k_fs t1).
Proof.
  induction 1 as [t|i j t t1 s auth stop u o R IH L|i j t t1 s sec u o ok R IH L|i j t t1 s sec u o ok t2 R IH L I|i j t t1 u o R IH L|i j t t1 u o log R IH L|i j t t1 m R IH L].
  - apply stay_refl.
  - eapply stay_trans; [exact IH | apply prepare_stay; exact L].
  - eapply stay_trans; [exact IH|]. destruct (last_in (fst (cryptenroll_unit s sec u o ok t1)) t1) as [->|I]; [apply stay_refl|].
    eapply crypt_stay; eassumption.
  - eapply stay_trans; [exact IH | eapply crypt_stay; eassumption].
  - eapply stay_trans; [exact IH | apply hook_policy_stay; exact L].
  - eapply stay_trans; [exact IH | apply boot_stay; exact L].
  - eapply stay_trans; [exact IH|]. intros p W H. exact (L p W H).
Qed.

(** Each service reboots the machine at most once, and leaves its files. *)
Lemma runs_bound esp i j t t1 : runs esp i j t t1 ->
  (i = 0 \/ i = 1 /\ forall n, In n auth_names -> lookup (k_fs t) (auth_file esp n) = None /\ lookup (k_fs t1) (auth_file esp n) <> None)%nat /\
  (j = 0 \/ j = 1 /\ lookup (k_fs t) marker = None /\ lookup (k_fs t1) marker <> None)%nat.
Proof.
  assert (forall n, In n auth_names -> watched esp (auth_file esp n)) as WA by (intros n Hn; right; exists n; auto).
  assert (watched esp marker) as WM by (left; reflexivity).
  assert (forall i j t t1 t2, stay esp (k_fs t1) (k_fs t2) ->
    (i = 0 \/ i = 1 /\ forall n, In n auth_names -> lookup (k_fs t) (auth_file esp n) = None /\ lookup (k_fs t1) (auth_file esp n) <> None)%nat /\
    (j = 0 \/ j = 1 /\ lookup (k_fs t) marker = None /\ lookup (k_fs t1) marker <> None)%nat ->
    (i = 0 \/ i = 1 /\ forall n, In n auth_names -> lookup (k_fs t) (auth_file esp n) = None /\ lookup (k_fs t2) (auth_file esp n) <> None)%nat /\
    (j = 0 \/ j = 1 /\ lookup (k_fs t) marker = None /\ lookup (k_fs t2) marker <> None)%nat) as MONO.
  { clear i j t t1. intros i j t t1 t2 S [A B]. split.
    - destruct A as [A|[A F]]; [left; exact A|]. right. split; [exact A|]. intros n Hn. destruct (F n Hn) as [F1 F2].
      split; [exact F1 | exact (S _ (WA n Hn) F2)].
    - destruct B as [B|(B & F1 & F2)]; [left; exact B|]. right. split; [exact B|]. split; [exact F1 | exact (S _ WM F2)]. }
  induction 1 as [t|i j t t1 s auth stop u o R IH L|i j t t1 s sec u o ok R IH L|i j t t1 s sec u o ok t2 R IH L I|i j t t1 u o R IH L|i j t t1 u o log R IH L|i j t t1 m R IH L].
  - auto.
  - pose proof (prepare_stay esp u o L s auth stop t1) as ST. apply (MONO i j t t1 _ ST) in IH as IH'.
    destruct (snd (prepare_unit s auth stop u o t1)) eqn:Z; [|exact IH'].
    split; [|exact (proj2 IH')]. pose proof (prepare_reboots esp u o L s auth stop t1 Z) as PR.
    destruct IH as [[->|[_ F]] _].
    + right. split; [reflexivity|]. intros n Hn. destruct (PR n Hn) as [P1 P2]. split; [|exact P2].
      destruct (lookup (k_fs t) (auth_file esp n)) eqn:E; [|reflexivity]. destruct (runs_stay _ _ _ _ _ R (auth_file esp n) (WA n Hn)); [congruence | exact P1].
    + destruct (F (lit "PK.auth") (or_introl eq_refl)) as [_ X]. destruct (PR (lit "PK.auth") (or_introl eq_refl)) as [Y _]. contradiction.
  - assert (stay esp (k_fs t1) (k_fs (last (fst (cryptenroll_unit s sec u o ok t1)) t1))) as ST.
    { destruct (last_in (fst (cryptenroll_unit s sec u o ok t1)) t1) as [->|I]; [apply stay_refl | eapply crypt_stay; eassumption]. }
    apply (MONO i j t t1 _ ST) in IH as IH'. destruct (snd (cryptenroll_unit s sec u o ok t1)) eqn:Z; [|exact IH'].
    split; [exact (proj1 IH')|]. destruct (crypt_reboots u o s sec ok t1 Z) as [P1 P2].
    destruct IH as [_ [->|(_ & _ & F)]]; [|contradiction]. right. split; [reflexivity|]. split; [|exact P2].
    destruct (lookup (k_fs t) marker) eqn:E; [|reflexivity]. destruct (runs_stay _ _ _ _ _ R marker WM); [congruence | exact P1].
  - apply (MONO i j t t1 _ (crypt_stay esp u o L s sec ok t1 t2 I) IH).
  - apply (MONO i j t t1 _ (hook_policy_stay esp u o L t1) IH).
  - apply (MONO i j t t1 _ (boot_stay esp u o L log t1) IH).
  - apply (MONO i j t t1 (Kept m (k_policy t1) (k_slot t1) (k_log t1))); [|exact IH]. intros p W H. exact (L p W H).
Qed.

(** Then nothing starts any more. *)
Lemma provisioned_idle esp t : provisioned esp t -> forall s auth stop secure u o ok, components (o_esp o) = esp ->
  prepare_unit s auth stop u o t = (t, false) /\ cryptenroll_unit s secure u o ok t = ([], false).
Proof.
  intros PV s auth stop secure u o ok EE. split.
  - unfold prepare_unit. rewrite EE. replace (may_start (k_fs t) esp) with false; [rewrite andb_false_r; reflexivity|]. symmetry.
    apply not_true_iff_false. intros H. unfold may_start in H. rewrite forallb_forall in H. specialize (H (lit "PK.auth") (or_introl eq_refl)).
    apply negb_true_iff, not_true_iff_false in H. apply H.
    apply present_lookup; [intros E; apply app_eq_nil in E as [_ E]; discriminate E|].
    apply (PV (auth_file esp (lit "PK.auth"))). right. exists (lit "PK.auth"). split; [left; reflexivity | reflexivity].
  - unfold cryptenroll_unit, auto_cryptenroll. rewrite (proj2 (present_marker (k_fs t))); [|apply PV; left; reflexivity].
    destruct (_ || _); [rewrite andb_false_r|]; reflexivity.
Qed.
