(** Proofs for C88. *)
From Coq Require Import List NArith Bool Lia.
From Verif Require Import Base PBase MText MNames MPe MGeneration MFirmware MStub MFs MTool MInstall MCli MHook MEnroll MProvision
  SFirmware SCommon SNames SInstall SHistory SImage SUse SStub SGate SCli SHook SSigned SRepeat SExact SMenu SLoaderConf SSwitch SEnroll SProvision.
From Verif Require Import PFs PInstall PFiles POwned PHistory PHistories PCli PHook PSigned PEnroll Properties_Switch.
Import ListNotations.
Open Scope N_scope.

(** ** The keys' files through the hook *)

Lemma eqb_path_last d a b : eqb_path (d ++ [a]) (d ++ [b]) = eqb_path [a] [b].
Proof.
  destruct (eqb_path [a] [b]) eqn:E.
  - apply eqb_path_spec in E. injection E as ->. apply eqb_path_spec. reflexivity.
  - destruct (eqb_path (d ++ [a]) (d ++ [b])) eqn:F; [|reflexivity]. apply eqb_path_spec, app_inv_head in F. rewrite F in E.
    rewrite (proj2 (eqb_path_spec _ _) eq_refl) in E. discriminate.
Qed.

Lemma install_armed m dir auth : forall n, In n auth_names -> exists x b, lookup (apply_all (install_ops dir auth) m) (dir ++ [n]) = Some (NFile x b).
Proof.
  intros n Hn. unfold install_ops, auth_names in *. cbn [flat_map app]. unfold apply_all. cbn [fold_left].
  rewrite !lookup_apply, !eqb_path_last. cbn [In] in Hn.
  destruct Hn as [<-|[<-|[<-|[]]]]; eexists _, _; reflexivity.
Qed.

Section Provision.
Variables (M : machine) (key : bytes) (verifies : bytes -> bool) (u : surroundings) (o : options).
Hypothesis SO : sound M.
Hypothesis GOOD : forall z, ma_good M z -> loads_well (ma_parse M) z.
Hypothesis KK : ma_keys M key.
Hypothesis EN : enrolling M key verifies u o.

(** A successful hook: the machine boots with the keys. *)
Lemma hook_boots m : since_key M key verifies m -> tree_ok m -> snd (hook u o m) = 0 -> no_lookalikes M (fst (hook u o m)) ->
  exists a c, wanted o (u_links u 0) (o_esp o) a /\ asked_config (u_world u 0) a c /\ boots_enrolled M verifies c (fst (hook u o m)).
Proof.
  intros SK TO Z NL. destruct (hook_one M key verifies u o EN m) as (a & (_ & _ & WA) & H). rewrite H in *. cbn [fst snd] in *.
  apply cli_exit in Z as (sg & c & AS & AC & L & OK). rewrite L in *. cbn [fst] in *. exists a, c. split; [exact WA|]. split; [exact AC|].
  destruct (en_run _ _ _ _ _ EN a sg c WA AS AC) as (SE & TR & NF & CL & AR & DC).
  pose proof (asked_fits M key verifies u o EN a sg c WA AS AC) as FI. destruct (asked_nolock M key verifies u o EN a c WA AC) as [NLK _].
  assert (settled M c m) as ST by (intros d g k n y b X; rewrite NLK in X; discriminate X).
  assert (sg_key (e_signer (w_env (u_world u 0) sg)) = Some key) as KE
    by (exact (eq_trans (f_equal sg_key SE) (asked_key M key verifies u o EN a sg WA AS))).
  exact (C80_switch M key verifies (w_env (u_world u 0) sg) c m SO GOOD KK FI TR KE SK TO NF CL AR DC ST OK NL).
Qed.

(** The files that systemd-boot enrols stay through the hook. *)
Lemma hook_keeps m n x b : In n auth_names -> lookup m (auth_file (ma_esp M) n) = Some (NFile x b) ->
  exists b', lookup (fst (hook u o m)) (auth_file (ma_esp M) n) = Some (NFile x b').
Proof.
  intros Hn L. pose proof (en_esp _ _ _ _ _ EN) as EE. rewrite <- EE in *.
  destruct (hook_one M key verifies u o EN m) as (a & (_ & _ & WA) & H). rewrite H. cbn [fst]. rewrite lzbt_fs.
  destruct (lzbt_point (u_world u 0) a m (snd (fst (lzbt (u_world u 0) a m))) [] (eq_sym (app_nil_r _))) as [->|(sg & c & AS & AC & P)]; [eauto|].
  pose proof (asked_fits M key verifies u o EN a sg c WA AS AC) as FI. destruct (asked_nolock M key verifies u o EN a c WA AC) as [NLK EC].
  assert (forall q, owned c q -> ~ at_or_above (auth_file (MNames.components (o_esp o)) n) q) as NO by (apply (auth_foreign o); assumption).
  destruct (foreign_untouched (w_env (u_world u 0) sg) c m _ (auth_file (MNames.components (o_esp o)) n) (fi_listings _ _ _ FI) P) as [X|(_ & _ & q & O & A)].
  - intros O. apply (NO _ O). exists []. rewrite app_nil_r. reflexivity.
  - rewrite L in X. destruct (lookup (apply_all _ _) (auth_file (MNames.components (o_esp o)) n)) as [[|x' b']|]; cbn in X; [contradiction | | contradiction]. subst x'. eauto.
  - destruct (NO q O A).
Qed.

Lemma prepare_boots auth m : since_key M key verifies m -> tree_ok m -> may_start m (ma_esp M) = true ->
  snd (prepare (Some auth) None u o m) = 0 -> no_lookalikes M (fst (prepare (Some auth) None u o m)) ->
  armed (ma_esp M) (fst (prepare (Some auth) None u o m)) /\
  exists a c, wanted o (u_links u 0) (o_esp o) a /\ asked_config (u_world u 0) a c /\
    boots_enrolled M verifies c (fst (prepare (Some auth) None u o m)).
Proof.
  intros SK TO MS. pose proof (en_esp _ _ _ _ _ EN) as EE. unfold prepare. rewrite EE.
  destruct (way_free m [] (ma_esp M ++ keys_suffix)) eqn:W; [|discriminate]. intros Z NL. split.
  - intros n Hn. destruct (install_armed (apply_all (missing_dirs m [] (ma_esp M ++ keys_suffix)) m) (ma_esp M ++ keys_suffix) auth n Hn) as (x & b & L).
    rewrite <- apply_all_app, <- app_assoc in L. change (keys_suffix ++ [n]) with [lit "loader"; lit "keys"; lit "auto"; n] in L.
    destruct (hook_keeps (apply_all (key_ops m (ma_esp M) auth) m) n x b Hn L) as (b' & L'). eauto.
  - apply hook_boots; [| |exact Z | exact NL].
    + rewrite <- (firstn_all (key_ops m (ma_esp M) auth)). rewrite <- EE. apply (keys_since M key verifies o auth); [exact EE | exact SK].
    + apply keys_tree; assumption.
Qed.

Lemma services_boot (pki : path) create enroll auth m : since_key M key verifies m -> tree_ok m -> may_start m (ma_esp M) = true ->
  (present m (pki ++ [lit "keys"]) = true \/ creates M pki create m) -> enroll (generate pki create None m) = Some auth ->
  snd (boot_services pki create enroll u o (None, None) m) = 0 -> no_lookalikes M (fst (boot_services pki create enroll u o (None, None) m)) ->
  armed (ma_esp M) (fst (boot_services pki create enroll u o (None, None) m)) /\
  exists a c, wanted o (u_links u 0) (o_esp o) a /\ asked_config (u_world u 0) a c /\
    boots_enrolled M verifies c (fst (boot_services pki create enroll u o (None, None) m)).
Proof.
  intros SK TO MS CR E. unfold boot_services. cbn [fst snd]. rewrite (en_esp _ _ _ _ _ EN), E.
  assert (since_key M key verifies (generate pki create None m) /\ tree_ok (generate pki create None m) /\
          may_start (generate pki create None m) (ma_esp M) = true) as (SK1 & TO1 & MS1).
  { unfold generate. destruct (present m (pki ++ [lit "keys"])) eqn:PR; [split; [exact SK|]; split; [exact TO | exact MS]|].
    destruct CR as [CR|(_ & T & O & A)]; [discriminate CR|].
    split; [eapply sk_other; [exact SK | exact O]|]. split; [exact T | rewrite A; exact MS]. }
  rewrite MS1. apply prepare_boots; assumption.
Qed.
End Provision.

(** ** Incomplete keys *)

Lemma boots_stuck (pki : path) create enroll u o : needs_keys pki enroll -> forall m f, present m (pki ++ [lit "keys"]) = true -> In f key_files ->
  lookup m (pki ++ lit "keys" :: f) = None -> forall stops, boots pki create enroll u o stops m = m.
Proof.
  intros NK m f P I L. assert (enroll m = None) as E.
  { destruct (enroll m) as [auth|] eqn:E; [|reflexivity]. destruct (NK m auth E f I L). }
  induction stops as [|st stops IH]; cbn [boots]; [reflexivity|].
  assert (fst (boot_services pki create enroll u o st m) = m) as ->; [|exact IH].
  unfold boot_services, generate. rewrite P. destruct (may_start m (MNames.components (o_esp o))); [|reflexivity].
  unfold prepare. rewrite E. reflexivity.
Qed.
