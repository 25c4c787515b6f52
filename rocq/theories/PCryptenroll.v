(** Proofs about auto-cryptenroll (C85). *)
From Coq Require Import List NArith Bool Lia.
From Verif Require Import Base PBase MText MGeneration MNames MPe MCpio MFirmware MStub MFs MTool MInstall MCli MHook MPolicy MCryptenroll
  SCommon SNames SFirmware SStub SInstall SHistory SImage SUse SExact SCli SHook SRepeat SPcr SPolicy SCryptenroll.
From Verif Require Import PFs PLoader PHistory PPolicy PCli PHook.
Import ListNotations.
Open Scope N_scope.

Lemma present_marker m : present m marker = true <-> lookup m marker <> None.
Proof. apply present_lookup. discriminate. Qed.

(** ** The service *)

Lemma hook_policy_fs u o t : k_fs (fst (hook_policy u o t)) = fst (hook u o (k_fs t)) /\ snd (hook_policy u o t) = snd (hook u o (k_fs t)) /\
  k_slot (fst (hook_policy u o t)) = k_slot t /\
  k_policy (fst (hook_policy u o t)) =
    if o_measured o && (snd (hook u o (k_fs t)) =? 0) then Some (installed u o (k_fs t), k_log t) else k_policy t.
Proof. unfold hook_policy. destruct (hook u o (k_fs t)) as [m n]. cbn. auto. Qed.

(** What a successful service did. *)
Lemma service_done u o ok t ts : auto_cryptenroll u o ok t = (ts, true) ->
  let t1 := fst (hook_policy u o t) in
  present (k_fs t) marker = false /\ snd (hook u o (k_fs t)) = 0 /\ k_policy t1 <> None /\
  ts = [t1; Kept (k_fs t1) (k_policy t1) Pcrlock (k_log t1); touch_marker (Kept (k_fs t1) (k_policy t1) Pcrlock (k_log t1))].
Proof.
  unfold auto_cryptenroll. destruct (present (k_fs t) marker); [discriminate|].
  pose proof (hook_policy_fs u o t) as (_ & SN & _ & _). destruct (hook_policy u o t) as [t1 n]. cbn [fst snd] in *. rewrite <- SN.
  destruct (n =? 0) eqn:E; [|discriminate]. unfold cryptenroll. destruct (k_policy t1) eqn:P; [|discriminate].
  destruct ok; [|discriminate]. intros [= <-]. apply N.eqb_eq in E. split; [reflexivity|]. split; [exact E|].
  split; [discriminate | reflexivity].
Qed.

(** A marker means that the slot is bound to a policy. *)
Definition bound (t : machine_state) : Prop := k_slot t = Pcrlock /\ k_policy t <> None.

Lemma hook_bound u o t : bound t -> bound (fst (hook_policy u o t)).
Proof.
  intros [B1 B2]. destruct (hook_policy_fs u o t) as (_ & _ & S & P). split; [congruence|]. rewrite P.
  destruct (_ && _); [discriminate | exact B2].
Qed.

Lemma lives_bound t0 t : lookup (k_fs t0) marker = None -> lives t0 t -> lookup (k_fs t) marker <> None -> bound t.
Proof.
  intros N0 L. induction L as [t|t t1 u o L IH [LM _]|t t1 u o ok t2 L IH [LM _] IN|t t1 u o log L IH [_ LM]|t t1 m L IH LM]; intros MA.
  - contradiction.
  - destruct (hook_policy_fs u o t1) as (F & _). rewrite F in MA. apply hook_bound, IH; [exact N0 | apply LM; exact MA].
  - unfold auto_cryptenroll in IN. destruct (present (k_fs t1) marker) eqn:P; [destruct IN|].
    assert (lookup (k_fs (fst (hook_policy u o t1))) marker = None) as NM.
    { destruct (hook_policy_fs u o t1) as (F & _). rewrite F. destruct (lookup (fst (hook u o (k_fs t1))) marker) eqn:E; [|reflexivity].
      assert (present (k_fs t1) marker = true) by (apply present_marker, LM; congruence). congruence. }
    destruct (hook_policy u o t1) as [t' n]. cbn [fst] in NM. destruct (n =? 0).
    + unfold cryptenroll in IN. destruct (k_policy t') as [q|] eqn:Q; [destruct ok|]; cbn [fst In] in IN.
      * destruct IN as [<-|[<-|[<-|[]]]]; [contradiction | contradiction | split; cbn; [reflexivity | rewrite ?Q; discriminate]].
      * destruct IN as [<-|[]]. contradiction.
      * destruct IN as [<-|[]]. contradiction.
    + destruct IN as [<-|[]]. contradiction.
  - unfold boot in *. destruct (o_measured o); [|exact (IH N0 MA)].
    specialize (LM (k_fs t1)). destruct (u_policy u (k_fs t1)) as [m1 n]. cbn [fst k_fs] in *.
    destruct (IH N0 (LM MA)) as [B1 B2]. split; cbn; [exact B1|]. destruct (n =? 0); [discriminate | exact B2].
  - exact (IH N0 (LM MA)).
Qed.

(** ** What it opens for *)

Section One.
Variables (u : surroundings) (o : options) (m : fs).
Hypothesis NX : o_extra o = [].

Lemma installed_one : installed u o m = fst (fst (lzbt (u_world u 0) (install_args o (u_links u 0) (o_esp o)) m)).
Proof.
  unfold installed, mount_points. rewrite NX. cbn [install_commands script].
  destruct (lzbt (u_world u 0) (install_args o (u_links u 0) (o_esp o)) m) as [[m' tr] n]. reflexivity.
Qed.

Lemma hook_one_policy : o_measured o = true -> hook u o m = u_policy u (installed u o m).
Proof.
  intros MO. rewrite installed_one. unfold hook, mount_points. rewrite NX, MO. cbn [install_commands script app].
  destruct (lzbt (u_world u 0) (install_args o (u_links u 0) (o_esp o)) m) as [[m' tr] n]. cbn [fst]. destruct (u_policy u m'). reflexivity.
Qed.
End One.

Section Opens.
Variable digest : bytes -> bytes.
Variable allows : bytes -> bytes -> Prop.
Variables act sep : bytes.
Variable hash : bytes -> bytes.
Variable M : machine.
Hypothesis SO : sound M.
Hypothesis NR : no_reuse M.
Variables Sign Lock : bytes -> bytes -> Prop.
Hypothesis DO : digests_ok digest allows Sign Lock.
Variables (u : surroundings) (o : options).
Hypothesis ME : measuring M Sign Lock u o.
Variable m : fs.
Hypothesis MH : SRepeat.measured_history M Sign Lock (lock_dir o) m.
Hypothesis LS : lzbt_succeeds u o m.

Lemma lzbt_run : exists a sg c, wanted o (u_links u 0) (o_esp o) a /\ asked_signer (u_world u 0) a sg /\ asked_config (u_world u 0) a c /\
  installed u o m = s_fs (fst (run_install (w_env (u_world u 0) sg) c m)) /\ snd (run_install (w_env (u_world u 0) sg) c m) = Ok tt.
Proof.
  pose proof (wanted_args o (u_links u 0) (o_esp o)) as W. pose proof (LS _ W) as Z.
  apply cli_exit in Z as (sg & c & AS & AC & L & OK). exists (install_args o (u_links u 0) (o_esp o)), sg, c.
  split; [exact W|]. split; [exact AS|]. split; [exact AC|]. split; [|exact OK].
  rewrite installed_one by apply (me_single _ _ _ _ _ ME). rewrite L. reflexivity.
Qed.

(** The hook binds the policy so that every selected generation opens the disk. *)
Lemma hook_opens t : k_slot t = Pcrlock -> (exists cur, k_policy t = Some (installed u o m, cur)) ->
  exists a c, wanted o (u_links u 0) (o_esp o) a /\ asked_config (u_world u 0) a c /\
    forall p, In p (boot_paths c) -> loader_measured u o m p ->
    exists l b, lookup (installed u o m) p = Some (NFile l b) /\
    forall g, always_selected c g -> exists key n y b', ma_keys M key /\ named M key g n /\
      lookup (installed u o m) (linux_file M n) = Some (NFile y b') /\ bootable M (installed u o m) y /\
      opens allows act sep o t [act; sep; digest l; digest y].
Proof.
  intros SL (cur & PO). destruct lzbt_run as (a & sg & c & W & AS & AC & IE & OK). exists a, c. split; [exact W|]. split; [exact AC|].
  intros p HP LM. destruct (me_run _ _ _ _ _ ME a sg c W AS AC) as (FI & MB & (_ & PL & _ & SP & HL & LK) & NF & CL & DI & AR).
  destruct (boot_admitted digest allows act sep M SO Sign Lock DO o (lock_dir o) (me_pcr4 _ _ _ _ _ ME) _ c FI MB PL NF CL DI NR m MH OK SP HL LK p HP
    (LM a sg W AS)) as (l & b & L & A).
  rewrite IE. exists l, b. split; [exact L|]. intros g G. destruct (A g G) as (key & n & y & b' & KK & NM & L2 & BO & AD).
  exists key, n, y, b'. split; [exact KK|]. split; [exact NM|]. split; [exact L2|]. split; [exact BO|].
  split; [exact SL|]. exists (installed u o m), cur. split; [exact PO|]. intros _. rewrite IE. exact AD.
Qed.

Lemma from_dir_same m1 m2 d n l : (forall r, r <> [] -> lookup m1 (d ++ r) = lookup m2 (d ++ r)) ->
  from_dir allows m1 (d ++ [n]) l -> from_dir allows m2 (d ++ [n]) l.
Proof.
  intros E. assert (forall k, lookup m1 ((d ++ [n]) ++ [k]) = lookup m2 ((d ++ [n]) ++ [k])) as E'.
  { intros k. rewrite <- !app_assoc. apply E. discriminate. }
  intros [(k & lo & b & t & L & A & ->)|[N ->]].
  - left. exists k, lo, b, t. rewrite <- E'. auto.
  - right. split; [|reflexivity]. intros k lo b. rewrite <- E'. apply N.
Qed.

Lemma admitted_same files m1 m2 log : same_components o m1 m2 ->
  admitted allows act sep files m1 (lock_dir o) log -> admitted allows act sep files m2 (lock_dir o) log.
Proof.
  intros E (a & s & b & v & A & S & B & V & ->). exists a, s, b, v. split; [exact A|]. split; [exact S|].
  split; [eapply from_dir_same; [exact E | exact B]|]. split; [eapply from_dir_same; [exact E | exact V] | reflexivity].
Qed.

(** After a boot that the components explain, only the selected generations
    open the disk. *)
Lemma boot_opens_only u' t log : (forall z, ma_good M z -> loads_well (ma_parse M) z) ->
  same_components o (k_fs t) (installed u o m) ->
  admitted allows act sep (upstream_static o) (installed u o m) (lock_dir o) log ->
  snd (u_policy u' (k_fs t)) = 0 ->
  exists a c vs sel, wanted o (u_links u 0) (o_esp o) a /\ asked_config (u_world u 0) a c /\
    links_versions (c_links c) vs /\ newest (c_limit c) vs sel /\
    forall l y image pm parse fw path h r before img entry,
      faithful digest M (installed u o m) y -> in_memory M y image pm -> tpm_present fw ->
      stub_main fw (ma_sha M) pm parse image path [] = (h, r) -> started h before img entry ->
      opens allows act sep o (boot u' o log t) (boot_log digest act sep hash l y before) ->
      from_dir allows (installed u o m) (lock_dir o ++ [lit "630-bootloader.pcrlock.d"]) [digest l] /\
      exists g, In g (flat_map link_generations sel) /\ stub_for M g y /\
        (usable g -> starts_own M g parse before img entry).
Proof.
  intros LW SC AD Z. destruct lzbt_run as (a & sg & c & W & AS & AC & IE & OK).
  destruct (me_run _ _ _ _ _ ME a sg c W AS AC) as (FI & MB & (_ & PL & _ & SP & HL & LK) & NF & CL & DI & AR).
  rewrite IE in *.
  destruct (released digest allows act sep hash M Sign Lock o (lock_dir o) _ c m SO LW NR DO (me_pcr4 _ _ _ _ _ ME) FI MB PL NF CL DI AR MH OK)
    as (vs & sel & LV & NW & ONLY).
  exists a, c, vs, sel. split; [exact W|]. split; [exact AC|]. split; [exact LV|]. split; [exact NW|].
  intros l y image pm parse fw path h r before img entry FA IM TP RUN STA (_ & m' & cur & PO & AO).
  eapply ONLY; try eassumption. unfold boot in PO. rewrite (me_measured _ _ _ _ _ ME) in PO.
  destruct (u_policy u' (k_fs t)) as [m2 n]. cbn [snd] in Z. subst n. cbn in PO. injection PO as <- <-.
  intros _. eapply admitted_same; [exact SC|]. apply AO. eapply admitted_same; [|exact AD].
  intros q Hq. symmetry. apply SC. exact Hq.
Qed.
End Opens.

(** After the service the components are those that lzbt left. *)
Lemma service_components u o ok t ts : auto_cryptenroll u o ok t = (ts, true) -> o_measured o = true -> o_extra o = [] ->
  (forall r, marker <> lock_dir o ++ r) -> (forall m, same_components o (fst (u_policy u m)) m) ->
  let t1 := last ts t in
  k_slot t1 = Pcrlock /\ k_policy t1 = Some (installed u o (k_fs t), k_log t) /\
    lookup (k_fs t1) marker <> None /\ same_components o (k_fs t1) (installed u o (k_fs t)).
Proof.
  intros S MO NX NM KP. apply service_done in S as (_ & Z & _ & ->). cbv zeta.
  destruct (hook_policy_fs u o t) as (F & _ & _ & P). rewrite Z, MO in P.
  unfold touch_marker. change touched with marker. cbn [last k_slot k_policy k_fs]. split; [reflexivity|]. split; [exact P|].
  rewrite F, hook_one_policy by assumption. split.
  - rewrite lookup_apply. rewrite eqb_path_refl. discriminate.
  - intros r Hr. rewrite <- (KP (installed u o (k_fs t)) r Hr), lookup_apply. destruct (eqb_path marker (lock_dir o ++ r)) eqn:E; [|reflexivity].
    apply eqb_path_spec in E. destruct (NM _ E).
Qed.
