(** Keys put on the ESP for enrolment (C77). *)
From Coq Require Import List NArith Bool Lia.
From Verif Require Import Base PBase MText MGeneration MNames MFs MTool MInstall MCli MHook MEnroll SNames SInstall SHistory SCli SHook SSigned SRepeat SEnroll.
From Verif Require Import PFs PInstall PFiles POwned PHistory PHistories PCli PHook PSigned.
Import ListNotations.
Open Scope N_scope.

(** ** What the keys' files change *)

Definition key_change (dir : path) (op : op) : Prop :=
  match op with
  | OMkdir p => at_or_above p dir
  | OCreate p | OWrite p _ | OChmod p => exists n, In n auth_names /\ p = dir ++ [n]
  | _ => False
  end.

Lemma missing_changes m rest : forall done dir, dir = done ++ rest -> Forall (key_change dir) (missing_dirs m done rest).
Proof.
  induction rest as [|n r IH]; intros done dir E; cbn; [constructor|]. apply Forall_app. split.
  - destruct (present m (done ++ [n])); constructor; [|constructor]. exists r. rewrite E, <- app_assoc. reflexivity.
  - apply IH. rewrite E, <- app_assoc. reflexivity.
Qed.

Lemma key_changes m esp auth : Forall (key_change (esp ++ keys_suffix)) (key_ops m esp auth).
Proof.
  unfold key_ops. apply Forall_app. split; [apply missing_changes; reflexivity|].
  unfold install_ops. apply Forall_forall. intros o H. apply in_flat_map in H as (n & Hn & H).
  destruct H as [<-|[<-|[<-|[]]]]; exists n; (split; [exact Hn | reflexivity]).
Qed.

Lemma Forall_firstn {A} (P : A -> Prop) l : Forall P l -> forall k, Forall P (firstn k l).
Proof. induction 1; intros [|k]; cbn; constructor; auto. Qed.

Lemma changes_elsewhere dir p : ~ at_or_above p dir -> (forall n, In n auth_names -> p <> dir ++ [n]) ->
  forall os m, Forall (key_change dir) os -> lookup (apply_all os m) p = lookup m p.
Proof.
  intros NA NF. induction os as [|o os IH]; intros m F; [reflexivity|]. inversion F as [|? ? C F']; subst.
  change (apply_all (o :: os) m) with (apply_all os (apply o m)). rewrite (IH _ F').
  rewrite lookup_apply. destruct o as [q|q|q x|q|d|a b|q|q]; cbn in C; try contradiction; try reflexivity.
  - destruct (eqb_path q p) eqn:E; [|reflexivity]. apply eqb_path_spec in E as ->. contradiction.
  - destruct (eqb_path q p) eqn:E; [|reflexivity]. apply eqb_path_spec in E as ->. destruct C as (n & I1 & I2). destruct (NF n I1 I2).
  - destruct (eqb_path q p) eqn:E; [|reflexivity]. apply eqb_path_spec in E as ->. destruct C as (n & I1 & I2). destruct (NF n I1 I2).
Qed.

(** What is below EFI stays. *)
Lemma keys_below_efi m esp auth r k : lookup (apply_all (firstn k (key_ops m esp auth)) m) (esp ++ lit "EFI" :: r) = lookup m (esp ++ lit "EFI" :: r).
Proof.
  apply changes_elsewhere with (dir := esp ++ keys_suffix); [| |apply Forall_firstn, key_changes].
  - intros [t E]. rewrite <- app_assoc in E. apply app_inv_head in E. discriminate E.
  - intros n _ E. rewrite <- app_assoc in E. apply app_inv_head in E. discriminate E.
Qed.

Lemma all_of_them {A} (l : list A) : firstn (length l) l = l.
Proof. apply firstn_all. Qed.

(** ** The tree *)

Lemma missing_tree rest : forall m m1 done, (forall p, (exists r, p = done ++ r /\ r <> []) -> lookup m1 p = lookup m p) ->
  tree_ok m -> tree_ok m1 -> is_dir m1 done = true -> way_free m done rest = true ->
  tree_ok (apply_all (missing_dirs m done rest) m1) /\ is_dir (apply_all (missing_dirs m done rest) m1) (done ++ rest) = true.
Proof.
  induction rest as [|n r IH]; intros m m1 done SM T T1 D W.
  - cbn. rewrite app_nil_r. auto.
  - cbn [missing_dirs way_free] in *. apply andb_true_iff in W as [W1 W2].
    assert (done ++ [n] <> []) as NE by (destruct done; discriminate).
    assert (lookup m1 (done ++ [n]) = lookup m (done ++ [n])) as L by (apply SM; exists [n]; split; [reflexivity | discriminate]).
    replace (done ++ n :: r) with ((done ++ [n]) ++ r) by (rewrite <- app_assoc; reflexivity).
    assert (forall m2, (forall p, p <> done ++ [n] -> lookup m2 p = lookup m1 p) ->
              forall p, (exists r, p = (done ++ [n]) ++ r /\ r <> []) -> lookup m2 p = lookup m p) as SM2.
    { intros m2 H p (s & -> & NS). rewrite H; [|intros X; rewrite <- (app_nil_r (done ++ [n])) in X at 2; apply app_inv_head in X; contradiction].
      apply SM. exists (n :: s). split; [rewrite <- app_assoc; reflexivity | discriminate]. }
    destruct (present m (done ++ [n])) eqn:P.
    + cbn [app]. apply IH; auto. cbn [negb orb] in W1. apply is_dir_lookup in W1; [|exact NE]. apply is_dir_lookup; [exact NE | congruence].
    + change ([OMkdir (done ++ [n])] ++ missing_dirs m (done ++ [n]) r) with (OMkdir (done ++ [n]) :: missing_dirs m (done ++ [n]) r).
      change (apply_all (OMkdir (done ++ [n]) :: missing_dirs m (done ++ [n]) r) m1) with
        (apply_all (missing_dirs m (done ++ [n]) r) (apply (OMkdir (done ++ [n])) m1)).
      assert (lookup m (done ++ [n]) = None) as LN.
      { destruct (lookup m (done ++ [n])) eqn:X; [|reflexivity].
        assert (present m (done ++ [n]) = true) by (apply present_lookup; [exact NE | congruence]). congruence. }
      apply IH; auto.
      * apply SM2. intros p NP. rewrite lookup_apply. destruct (eqb_path (done ++ [n]) p) eqn:E; [|reflexivity].
        apply eqb_path_spec in E. congruence.
      * apply posix_tree_ok; [discriminate | | exact T1]. cbn [posix]. split; [exact NE|]. unfold parent. rewrite removelast_last. split; [exact D | congruence].
      * apply is_dir_lookup; [exact NE|]. rewrite lookup_apply. rewrite (proj2 (eqb_path_spec _ _) eq_refl). reflexivity.
Qed.

Lemma keys_tree m esp auth : tree_ok m -> way_free m [] (esp ++ keys_suffix) = true -> may_start m esp = true ->
  tree_ok (apply_all (key_ops m esp auth) m).
Proof.
  intros T W ST. unfold key_ops. rewrite apply_all_app.
  destruct (missing_tree (esp ++ keys_suffix) m m []) as [T1 D1]; auto. cbn [app] in D1.
  set (m1 := apply_all (missing_dirs m [] (esp ++ keys_suffix)) m) in *.
  set (dir := esp ++ keys_suffix) in *.
  assert (forall n, In n auth_names -> lookup m1 (dir ++ [n]) = None) as LN.
  { intros n Hn. unfold m1. unfold may_start in ST. rewrite forallb_forall in ST. specialize (ST n Hn).
    assert (dir ++ [n] <> []) as NE by (destruct dir; discriminate).
    assert (forall os m2, Forall (fun o => exists q, o = OMkdir q /\ at_or_above q dir) os -> lookup (apply_all os m2) (dir ++ [n]) = lookup m2 (dir ++ [n])) as X.
    { induction os as [|o os IH]; intros m2 F; [reflexivity|]. inversion F as [|? ? (q & -> & [s A]) F']; subst.
      change (apply_all (OMkdir q :: os) m2) with (apply_all os (apply (OMkdir q) m2)). rewrite (IH _ F'), lookup_apply.
      destruct (eqb_path q (dir ++ [n])) eqn:E; [|reflexivity]. apply eqb_path_spec in E. subst q. exfalso.
      apply (f_equal (@length name)) in A. rewrite !app_length in A. cbn in A. lia. }
    rewrite X.
    - destruct (lookup m (dir ++ [n])) eqn:L; [|reflexivity].
      assert (present m (dir ++ [n]) = true) as PR by (apply present_lookup; [exact NE | congruence]).
      unfold dir in PR. rewrite <- app_assoc in PR. rewrite PR in ST. discriminate ST.
    - pose proof (missing_changes m dir [] dir eq_refl) as F.
      assert (forall o, In o (missing_dirs m [] dir) -> exists q, o = OMkdir q) as OM.
      { generalize (@nil name) at 1 as d0. intros d0. revert d0. generalize dir. induction dir0 as [|a r IH]; intros d0 o; cbn; [contradiction|].
        intros H. apply in_app_or in H as [H|H]; [|eapply IH; exact H].
        destruct (present m (d0 ++ [a])); [contradiction|]. destruct H as [<-|[]]. eauto. }
      apply Forall_forall. intros o Ho. rewrite Forall_forall in F. specialize (F o Ho). destruct (OM o Ho) as (q & ->). exists q. auto. }
  clearbody m1. unfold install_ops.
  assert (forall ns m2, incl ns auth_names -> NoDup ns -> tree_ok m2 -> is_dir m2 dir = true ->
    (forall n, In n ns -> lookup m2 (dir ++ [n]) = None) ->
    tree_ok (apply_all (flat_map (fun n => [OCreate (dir ++ [n]); OWrite (dir ++ [n]) (auth n); OChmod (dir ++ [n])]) ns) m2)) as G.
  { induction ns as [|n ns IH]; intros m2 IN ND T2 D2 L2; [exact T2|]. inversion ND as [|? ? NI ND']; subst.
    cbn [flat_map app]. set (p := dir ++ [n]) in *. assert (p <> []) as NE by (unfold p; destruct dir; discriminate).
    match goal with |- tree_ok (apply_all (?a :: ?b :: ?c :: ?r) m2) => change (tree_ok (apply_all r (apply c (apply b (apply a m2))))) end.
    assert (forall q, q <> p -> lookup (apply (OChmod p) (apply (OWrite p (auth n)) (apply (OCreate p) m2))) q = lookup m2 q) as SQ.
    { intros q NQ. rewrite !lookup_apply. destruct (eqb_path p q) eqn:E; [apply eqb_path_spec in E; congruence | reflexivity]. }
    assert (dir <> p) as DP by (unfold p; intros X; rewrite <- (app_nil_r dir) in X at 1; apply app_inv_head in X; discriminate X).
    apply IH; [intros x Hx; apply IN; right; exact Hx | exact ND' | | |].
    - apply posix_tree_ok; [discriminate | |].
      { cbn [posix]. apply present_lookup; [exact NE|]. rewrite lookup_apply, (proj2 (eqb_path_spec _ _) eq_refl). discriminate. }
      apply posix_tree_ok; [discriminate | |].
      { cbn [posix]. exists [], false. rewrite lookup_apply, (proj2 (eqb_path_spec _ _) eq_refl). reflexivity. }
      apply posix_tree_ok; [discriminate | | exact T2]. cbn [posix]. unfold p at 1. unfold parent. rewrite removelast_last. split; [exact D2|].
      destruct (is_dir m2 p) eqn:E; [|reflexivity]. apply is_dir_lookup in E; [|exact NE]. unfold p in E. rewrite L2 in E by (left; reflexivity). discriminate E.
    - destruct dir as [|a r] eqn:ED; [reflexivity|]. rewrite <- ED in *. assert (dir <> []) as ND0 by (rewrite ED; discriminate).
      apply is_dir_lookup; [exact ND0|]. apply is_dir_lookup in D2; [|exact ND0]. rewrite SQ; [exact D2 | exact DP].
    - intros n' Hn'. rewrite SQ; [apply L2; right; exact Hn'|]. unfold p. intros X. apply app_inv_head in X. injection X as ->. contradiction. }
  apply G; auto; [apply incl_refl|]. vm_compute. repeat constructor; cbn [In]; intuition discriminate.
Qed.

(** ** The service *)

Section Service.
Variables (M : machine) (key : bytes) (verifies : bytes -> bool) (u : surroundings) (o : options).
Hypothesis SO : sound M.
Hypothesis KK : ma_keys M key.
Hypothesis EN : enrolling M key verifies u o.
Let w := u_world u 0.
Let esp := components (o_esp o).

Lemma hook_one m : exists a, installation u o m 0 (o_esp o) m a /\
  hook u o m = (fst (fst (lzbt w a m)), snd (lzbt w a m)).
Proof.
  destruct (hook_runs u o m) as (e & m1 & a & IN & H & _). pose proof (en_single _ _ _ _ _ EN) as NX. rewrite NX in IN, H.
  cbn [length] in *. specialize (H (en_plain _ _ _ _ _ EN)). destruct IN as (MP & BE & WA).
  assert (m1 = m) as -> by (inversion BE; reflexivity).
  assert (e = o_esp o) as -> by (destruct MP as [[_ E]|(j & E & _)]; [exact E | discriminate]).
  exists a. split; [split; [left; auto | split; [constructor | exact WA]] | exact H].
Qed.

Lemma asked_key a sg : wanted o (u_links u 0) (o_esp o) a -> asked_signer w a sg -> sg_key sg = Some key.
Proof.
  intros WA (pub & priv & P1 & P2 & _ & A). destruct WA as (_ & _ & _ & _ & W1 & _).
  rewrite W1 in P1. injection P1 as <-. destruct (en_key _ _ _ _ _ EN) as [K1 K2].
  destruct A as [A _]; [intros (_ & X & _); apply X; exact K1|]. rewrite A. exact K2.
Qed.

Lemma asked_same a c c' : asked_config w a c -> asked_config w a c' -> c_arch c = c_arch c' /\ c_esp c = c_esp c'.
Proof.
  intros (A1 & _ & E1 & _) (A2 & _ & E2 & _). split; [|congruence].
  destruct A1 as [[X1 ->]|[X1 ->]], A2 as [[X2 ->]|[X2 ->]]; try reflexivity; rewrite X1 in X2; discriminate X2.
Qed.

Lemma asked_paths a c c' : asked_config w a c -> asked_config w a c' -> boot_paths c = boot_paths c'.
Proof.
  intros A1 A2. destruct (asked_same a c c' A1 A2) as [X1 X2]. unfold boot_paths, in_esp. rewrite X1, X2. reflexivity.
Qed.

Lemma asked_fits a sg c : wanted o (u_links u 0) (o_esp o) a -> asked_signer w a sg -> asked_config w a c -> fits M (w_env w sg) c.
Proof.
  intros WA AS AC. destruct (en_serves _ _ _ _ _ EN) as [SV _].
  apply (proj1 (SV 0%nat (o_esp o) a sg c (or_introl (conj eq_refl eq_refl)) WA AS AC)). reflexivity.
Qed.

Lemma asked_nolock a c : wanted o (u_links u 0) (o_esp o) a -> asked_config w a c -> c_pcrlock c = None /\ c_esp c = esp.
Proof.
  intros WA AC. destruct WA as (_ & _ & _ & _ & _ & _ & _ & _ & _ & _ & NP & W2 & _).
  destruct AC as (_ & _ & E & _ & _ & _ & _ & _ & _ & _ & PN & _). split.
  - apply PN, NP. left. apply (en_plain _ _ _ _ _ EN).
  - rewrite E, W2. reflexivity.
Qed.

(** A successful hook signs everything. *)
Lemma hook_signed m a c : since_key M key verifies m -> tree_ok m -> snd (hook u o m) = 0 ->
  wanted o (u_links u 0) (o_esp o) a -> asked_config w a c ->
  starts_enrolled M verifies c (fst (hook u o m)) /\ since_key M key verifies (fst (hook u o m)).
Proof.
  intros SK TO Z WA AC. destruct (hook_one m) as (a' & (_ & _ & WA') & H). rewrite H in *. cbn [fst snd] in *.
  apply wanted_eq in WA, WA'. assert (a' = a) as -> by congruence. clear WA'.
  apply cli_exit in Z as (sg & c' & AS & AC' & L & OK). rewrite L. cbn [fst].
  assert (wanted o (u_links u 0) (o_esp o) a) as WA' by (rewrite WA; apply wanted_args).
  destruct (en_run _ _ _ _ _ EN a sg c' WA' AS AC') as (SE & TR & NF & CL & AR & DC).
  pose proof (asked_fits a sg c' WA' AS AC') as FI. destruct (asked_nolock a c' WA' AC') as [NL _].
  assert (settled M c' m) as ST by (intros d g k n y b X; rewrite NL in X; discriminate X).
  assert (sg_key (e_signer (w_env w sg)) = Some key) as KE by (exact (eq_trans (f_equal sg_key SE) (asked_key a sg WA' AS))).
  destruct (all_signed_after M key verifies SO KK (w_env w sg) c' m FI TR KE SK TO NF CL AR DC ST OK) as (L1 & L2 & _).
  split; [split; [|exact L2]|].
  - unfold loaders_signed in *. rewrite (asked_paths a c c' AC AC'). exact L1.
  - rewrite final_fs. eapply sk_run; [exact SK | exact FI | exact TR | apply final_point].
Qed.

Variable auth : name -> bytes.

Lemma esp_is a sg c : wanted o (u_links u 0) (o_esp o) a -> asked_signer w a sg -> asked_config w a c -> esp = ma_esp M.
Proof. intros WA AS AC. destruct (asked_nolock a c WA AC) as [_ E]. rewrite <- E. apply (fi_esp _ _ _ (asked_fits a sg c WA AS AC)). Qed.

Lemma keys_ours k m : esp = ma_esp M -> forall p, ours M p -> lookup (apply_all (firstn k (key_ops m esp auth)) m) p = lookup m p.
Proof.
  intros E p [(n & ->)|(n & ->)]; unfold nixos_file, linux_file; rewrite <- E; apply keys_below_efi.
Qed.

Lemma keys_since k m : esp = ma_esp M -> since_key M key verifies m -> since_key M key verifies (apply_all (firstn k (key_ops m esp auth)) m).
Proof. intros E SK. eapply sk_other; [exact SK | apply keys_ours; exact E]. Qed.

Lemma boot_below c p : In p (boot_paths c) -> exists r, p = c_esp c ++ lit "EFI" :: r.
Proof.
  unfold boot_paths, in_esp. destruct (c_arch c); cbn [In]; intros [<-|[<-|[]]]; eexists; reflexivity.
Qed.

Lemma keys_enrolled k m c : esp = ma_esp M -> c_esp c = esp -> starts_enrolled M verifies c m ->
  starts_enrolled M verifies c (apply_all (firstn k (key_ops m esp auth)) m).
Proof.
  intros E EC [L1 L2]. split.
  - intros p Hp. destruct (boot_below c p Hp) as (r & ->). rewrite EC, keys_below_efi, <- EC. apply L1. exact Hp.
  - intros n t y b DN L. apply (L2 n t y b DN). rewrite <- L. symmetry. unfold linux_file. rewrite <- E. apply keys_below_efi.
Qed.

(** The service's success. *)
Lemma service_signed stop m a c : esp = ma_esp M -> since_key M key verifies m -> tree_ok m -> may_start m esp = true ->
  wanted o (u_links u 0) (o_esp o) a -> asked_config w a c ->
  snd (prepare (Some auth) stop u o m) = 0 -> starts_enrolled M verifies c (fst (prepare (Some auth) stop u o m)).
Proof.
  intros E SK TO MS WA AC. unfold prepare. fold esp. destruct (way_free m [] (esp ++ keys_suffix)) eqn:W; [|discriminate].
  destruct stop; [discriminate|]. intros Z. eapply hook_signed; [| |exact Z | exact WA | exact AC].
  - rewrite <- (firstn_all (key_ops m esp auth)). apply keys_since; assumption.
  - apply keys_tree; assumption.
Qed.

(** At every moment the ESP is in a state of a history. *)
Lemma service_history m m1 : esp = ma_esp M -> history M m -> preparing auth u o m m1 -> history M m1.
Proof.
  intros E HI. assert (forall k, history M (apply_all (firstn k (key_ops m esp auth)) m)) as H.
  { intros k. eapply hi_other; [exact HI | apply keys_ours; exact E]. }
  intros [(k & ->)|MW]; [apply H|].
  eapply (hook_history M SO u o 0); [apply (en_serves _ _ _ _ _ EN) | | exact MW].
  specialize (H (length (key_ops m esp auth))). rewrite firstn_all in H. exact H.
Qed.

(** While the hook runs, the keys' files are neither made nor removed. *)
Lemma auth_foreign c n : c_pcrlock c = None -> c_esp c = esp -> In n auth_names ->
  forall q, owned c q -> ~ at_or_above (auth_file esp n) q.
Proof.
  intros NL EC Hn q OW [r A]. unfold auth_file in A. rewrite <- EC in A.
  destruct OW as [n0 r0|a0 y r0|p Hp| |p Hp|d n0 r0 PL|d n0 r0 PL]; try congruence.
  - unfold in_esp in A. rewrite <- app_assoc in A. apply app_inv_head in A. discriminate A.
  - unfold in_esp in A. rewrite <- app_assoc in A. apply app_inv_head in A. discriminate A.
  - destruct (boot_below c p Hp) as (s & ->). rewrite <- app_assoc in A. apply app_inv_head in A. discriminate A.
  - unfold conf_path, in_esp in A. rewrite <- app_assoc in A. apply app_inv_head in A. discriminate A.
  - unfold temporary_paths in Hp. cbn [map In] in Hp.
    destruct (c_arch c); repeat (destruct Hp as [Hp|Hp]; [subst p; unfold in_esp in A; rewrite <- app_assoc in A; apply app_inv_head in A; discriminate A|]);
    destruct Hp.
Qed.

Lemma hook_unarmed m m1 n : may_start m esp = true -> In n auth_names -> meanwhile u o m m1 -> lookup m1 (auth_file esp n) = None.
Proof.
  intros MS Hn MW.
  assert (lookup m (auth_file esp n) = None) as LN.
  { unfold may_start in MS. rewrite forallb_forall in MS. specialize (MS n Hn). apply negb_true_iff in MS.
    change (esp ++ keys_suffix ++ [n]) with (auth_file esp n) in MS.
    destruct (lookup m (auth_file esp n)) eqn:L; [|reflexivity].
    assert (present m (auth_file esp n) = true) by (apply present_lookup; [unfold auth_file; destruct esp; discriminate | congruence]). congruence. }
  assert (forall a os rest, wanted o (u_links u 0) (o_esp o) a -> snd (fst (lzbt w a m)) = os ++ rest ->
            lookup (apply_all os m) (auth_file esp n) = None) as PT.
  { intros a os rest WA E. destruct (lzbt_point w a m os rest E) as [->|(sg & c & AS & AC & P)]; [exact LN|].
    pose proof (asked_fits a sg c WA AS AC) as FI. destruct (asked_nolock a c WA AC) as [NL EC].
    assert (forall q, owned c q -> ~ at_or_above (auth_file esp n) q) as NO by (apply auth_foreign; assumption).
    destruct (foreign_untouched (w_env w sg) c m os (auth_file esp n) (fi_listings _ _ _ FI) P) as [X|(_ & _ & q & O & A)].
    - intros O. apply (NO _ O). exists []. rewrite app_nil_r. reflexivity.
    - rewrite LN in X. destruct (lookup (apply_all os m) (auth_file esp n)) as [[|]|]; [contradiction | contradiction | reflexivity].
    - destruct (NO q O A). }
  destruct MW as [(i & e & m2 & a & os & rest & (MP & BE & WA) & E & ->)| ->].
  - pose proof (en_single _ _ _ _ _ EN) as NX. destruct MP as [[-> ->]|(j & -> & X)]; [|rewrite NX in X; destruct j; discriminate X].
    inversion BE; subst. eapply PT; eassumption.
  - destruct (hook_one m) as (a & (_ & _ & WA) & H). rewrite H. cbn [fst]. rewrite lzbt_fs.
    apply (PT a _ [] WA). rewrite app_nil_r. reflexivity.
Qed.

(** Keys after the hook are never ready too early. *)
Lemma late_signed m m1 a c : esp = ma_esp M -> since_key M key verifies m -> tree_ok m -> may_start m esp = true ->
  wanted o (u_links u 0) (o_esp o) a -> asked_config w a c ->
  preparing_late auth u o m m1 -> armed esp m1 -> starts_enrolled M verifies c m1.
Proof.
  intros E SK TO MS WA AC [MW|(Z & k & ->)] AR.
  - exfalso. destruct (AR (lit "PK.auth")) as (x & b & L); [left; reflexivity|].
    rewrite (hook_unarmed m m1 (lit "PK.auth") MS (or_introl eq_refl) MW) in L. discriminate L.
  - fold esp. apply keys_enrolled; [exact E | apply (asked_nolock a c WA AC) |]. eapply hook_signed; eassumption.
Qed.
End Service.
