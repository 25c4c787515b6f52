(** Proofs about the install hook (C71). *)
From Coq Require Import List NArith Bool Lia.
From Verif Require Import Base PBase MText MGeneration MNames MPe MFs MTool MInstall MCli MHook SCommon SNames SInstall SHistory SCli SHook.
From Verif Require Import PFs PInstall PRun POwned PHistory PHistories PCli.
Import ListNotations.
Open Scope N_scope.

(** ** The arguments *)

Lemma wanted_args o links esp : wanted o links esp (install_args o links esp).
Proof.
  unfold wanted, install_args, configuration_limit. cbn.
  repeat match goal with |- _ /\ _ => split end; try reflexivity.
  - intros n ->. reflexivity.
  - intros ->. reflexivity.
  - intros -> H. cbn. replace (existsb (N.eqb 4) (o_pcrs o)) with true; [reflexivity|]. symmetry.
    apply existsb_exists. exists 4. auto.
  - intros [-> |H]; [reflexivity|]. destruct (existsb (N.eqb 4) (o_pcrs o)) eqn:E; [|rewrite andb_false_r; reflexivity].
    exfalso. apply H. apply existsb_exists in E as (x & I & E). apply N.eqb_eq in E as <-. exact I.
Qed.

Lemma wanted_eq o links esp a : wanted o links esp a -> a = install_args o links esp.
Proof.
  pose proof (wanted_args o links esp) as W. set (b := install_args o links esp) in *. clearbody b.
  destruct a, b. unfold wanted in *. cbn in *.
  destruct W as (-> & -> & -> & -> & -> & -> & L1 & L2 & -> & P1 & P2 & -> & ->).
  intros (-> & -> & -> & -> & -> & -> & K1 & K2 & -> & Q1 & Q2 & -> & ->).
  assert (a_limit = a_limit0) as ->.
  { destruct (o_limit o); [rewrite (K1 n), (L1 n) by reflexivity | rewrite K2, L2 by reflexivity]; reflexivity. }
  assert (a_pcrlock = a_pcrlock0) as ->; [|reflexivity].
  destruct (o_measured o); [|rewrite Q2, P2 by (left; reflexivity); reflexivity].
  destruct (in_dec N.eq_dec 4 (o_pcrs o)) as [I|I].
  - rewrite Q1, P1 by auto. reflexivity.
  - rewrite Q2, P2 by (right; exact I). reflexivity.
Qed.

Lemma mount_point_nth o i esp : mount_point o i esp <-> nth_error (mount_points o) i = Some esp.
Proof.
  unfold mount_point, mount_points. split.
  - intros [[-> ->]|(j & -> & H)]; [reflexivity | exact H].
  - destruct i as [|j]; cbn; intros H; [left; injection H as <-; auto | right; eauto].
Qed.

(** ** The script *)

Section Hook.
Variables (u : surroundings) (o : options) (m0 : fs).
Notation before := (before u o m0).
Notation installation := (installation u o m0).

Lemma script_app a b m st : script (a ++ b) m st = let '(m', n) := script a m st in script b m' n.
Proof.
  revert m st. induction a as [|c a IH]; intros m st; cbn; [reflexivity|]. destruct (c m) as [m' n]. apply IH.
Qed.

Lemma before_next i m esp : before i m -> nth_error (mount_points o) i = Some esp ->
  before (S i) (fst (fst (lzbt (u_world u i) (install_args o (u_links u i) esp) m))).
Proof.
  intros B H. apply (be_next u o m0 i m esp); [exact B | apply mount_point_nth; exact H | apply wanted_args].
Qed.

Lemma runs_from esps : forall pre m st, mount_points o = pre ++ esps -> before (length pre) m -> esps <> [] ->
  exists i esp m1 a, installation i esp m1 a /\ S i = length (mount_points o) /\
    script (install_commands u o (length pre) esps) m st = (fst (fst (lzbt (u_world u i) a m1)), snd (lzbt (u_world u i) a m1)).
Proof.
  induction esps as [|esp r IH]; intros pre m st E B NE; [congruence|].
  assert (nth_error (mount_points o) (length pre) = Some esp) as NTH.
  { rewrite E, nth_error_app2, PeanoNat.Nat.sub_diag by lia. reflexivity. }
  pose proof (before_next _ _ _ B NTH) as B'. cbn [install_commands script].
  set (a := install_args o (u_links u (length pre)) esp) in *.
  destruct (lzbt (u_world u (length pre)) a m) as [[m' os] n] eqn:L. cbn [fst] in B'.
  destruct r as [|esp' r].
  - exists (length pre), esp, m, a. cbn [install_commands script]. rewrite L. split; [|split].
    + split; [apply mount_point_nth; exact NTH|]. split; [exact B|]. apply wanted_args.
    + rewrite E, app_length. cbn. lia.
    + reflexivity.
  - specialize (IH (pre ++ [esp]) m' n). rewrite app_length, PeanoNat.Nat.add_comm in IH. cbn [length Nat.add] in IH.
    apply IH; [rewrite <- app_assoc; exact E | exact B' | discriminate].
Qed.

Lemma hook_runs : exists esp m a, installation (length (o_extra o)) esp m a /\
  (o_measured o = false -> hook u o m0 = (fst (fst (lzbt (u_world u (length (o_extra o))) a m)), snd (lzbt (u_world u (length (o_extra o))) a m))) /\
  (o_measured o = true -> hook u o m0 = u_policy u (fst (fst (lzbt (u_world u (length (o_extra o))) a m)))).
Proof.
  destruct (runs_from (mount_points o) [] m0 0 eq_refl (be_first u o m0) ltac:(discriminate)) as (i & esp & m & a & IN & L & E).
  assert (i = length (o_extra o)) as -> by (unfold mount_points in L; cbn in L; lia).
  exists esp, m, a. split; [exact IN|]. unfold hook. rewrite script_app. cbn [length] in E. rewrite E.
  split; intros ->; [reflexivity|]. cbn [script]. destruct (u_policy u _). reflexivity.
Qed.

Lemma every_mount_point i esp : mount_point o i esp -> exists m a, installation i esp m a.
Proof.
  intros MP. assert (forall j, (j <= i)%nat -> exists m, before j m) as B.
  { induction j as [|j IH]; intros H; [exists m0; constructor|]. destruct IH as [m B]; [lia|].
    apply mount_point_nth in MP. destruct (nth_error (mount_points o) j) as [e|] eqn:N.
    - eexists. apply (before_next j m e); assumption.
    - exfalso. apply nth_error_None in N. apply (PeanoNat.Nat.lt_irrefl i). transitivity (length (mount_points o)); [|lia].
      apply nth_error_Some. congruence. }
  destruct (B i (PeanoNat.Nat.le_refl i)) as [m Bi]. exists m, (install_args o (u_links u i) esp).
  split; [exact MP|]. split; [exact Bi | apply wanted_args].
Qed.

Lemma before_fun i m : before i m -> forall m', before i m' -> m = m'.
Proof.
  induction 1 as [|i m esp a B IH MP W]; intros m' B'; inversion B' as [|i' m1 esp1 a1 B1 MP1 W1]; subst; [reflexivity|].
  apply IH in B1 as <-. apply mount_point_nth in MP. apply mount_point_nth in MP1. rewrite MP in MP1. injection MP1 as <-.
  apply wanted_eq in W as ->. apply wanted_eq in W1 as ->. reflexivity.
Qed.
End Hook.

(** ** Runs on other mount points *)

(** Files stay, with their content, and on the disk if they were. *)
Definition stays (m m' : fs) (p : path) : Prop :=
  match lookup m p with
  | Some (NFile x b) => exists b', lookup m' p = Some (NFile x b') /\ (b = true -> b' = true)
  | n => lookup m' p = n
  end.

Lemma stays_refl m p : stays m m p.
Proof. unfold stays. destruct (lookup m p) as [[|x b]|]; eauto. Qed.

Lemma stays_trans m1 m2 m3 p : stays m1 m2 p -> stays m2 m3 p -> stays m1 m3 p.
Proof.
  unfold stays. destruct (lookup m1 p) as [[|x b]|].
  - intros ->. auto.
  - intros (b' & -> & H) (b2 & -> & H2). eauto.
  - intros ->. auto.
Qed.

Lemma stays_same m m' p : lookup m' p = lookup m p -> stays m m' p.
Proof. intros E. unfold stays. rewrite E. destruct (lookup m p) as [[|x b]|]; eauto. Qed.

Lemma stays_durable m m' p : lookup m' p = option_map durable (lookup m p) -> stays m m' p.
Proof. intros E. unfold stays. rewrite E. destruct (lookup m p) as [[|x b]|]; cbn; eauto. Qed.

Lemma comparable (a b x y : path) : a ++ x = b ++ y -> at_or_above a b \/ at_or_above b a.
Proof.
  revert b. induction a as [|n a IH]; intros b E; [left; exists b; reflexivity|].
  destruct b as [|n' b]; [right; exists (n :: a); reflexivity|].
  injection E as <- E. destruct (IH b E) as [[r ->]|[r ->]]; [left | right]; exists r; reflexivity.
Qed.

Section Elsewhere.
Variables (e : env) (c : config) (esp : path).
Hypothesis HL : honest_listings e.
Hypothesis AE : apart esp (c_esp c).
Hypothesis AP : forall d, c_pcrlock c = Some d -> apart esp d.

Lemma owned_elsewhere p : owned c p -> (exists r, p = c_esp c ++ r) \/ exists d r, c_pcrlock c = Some d /\ p = d ++ r.
Proof.
  intros H. destruct H as [n r|a y r|p H| |p H|d n r H|d n r H]; eauto.
  - left. unfold in_esp. eauto.
  - left. unfold in_esp. eauto.
  - left. unfold boot_paths, in_esp in H. destruct (c_arch c); cbn in H; destruct H as [<-|[<-|[]]]; eauto.
  - left. unfold conf_path, in_esp. eauto.
  - left. unfold temporary_paths, in_esp in H. destruct (c_arch c); cbn in H; destruct H as [<-|[<-|[<-|[]]]]; eauto.
Qed.

Lemma not_above_owned p q : at_or_above esp p -> owned c q -> ~ at_or_above p q.
Proof.
  intros [r ->] O [s ->]. rewrite <- app_assoc in O. apply owned_elsewhere in O as [(t & E)|(d & t & PL & E)].
  - destruct AE. apply comparable in E as [A|A]; contradiction.
  - destruct (AP d PL). apply comparable in E as [A|A]; contradiction.
Qed.

Lemma step_stays m1 op p : at_or_above esp p -> GR e c m1 op -> stays m1 (apply op m1) p.
Proof.
  intros A GO. apply run_allowed in GO as [A1 A2]; [|exact HL].
  assert (forall q, touch op q -> eqb_path q p = false) as NE.
  { intros q T. apply eqb_path_false. intros ->. apply (not_above_owned p p A (A1 p T)). exists []. rewrite app_nil_r. reflexivity. }
  pose proof (lookup_apply op m1 p) as L.
  destruct op as [q|q|q x|q|d|a b|q|q]; cbn [touch] in NE.
  - destruct (eqb_path q p) eqn:E; [|apply stays_same; exact L]. apply eqb_path_spec in E; subst.
    destruct (A2 p eq_refl) as [_ (q & O & AQ)]. destruct (not_above_owned p q A O AQ).
  - rewrite NE in L by reflexivity. apply stays_same, L.
  - rewrite NE in L by reflexivity. apply stays_same, L.
  - destruct (eqb_path q p); [apply stays_durable | apply stays_same]; exact L.
  - destruct (below d p); [apply stays_durable | apply stays_same]; exact L.
  - apply stays_same. rewrite L. destruct (lookup m1 a); [|reflexivity]. rewrite !NE by auto. reflexivity.
  - apply stays_same, L.
  - rewrite NE in L by reflexivity. apply stays_same, L.
Qed.

Lemma run_stays m os p : at_or_above esp p -> point e c m os -> stays m (apply_all os m) p.
Proof.
  intros A PT. apply point_steps in PT.
  apply (steps_invariant (GR e c) (fun m1 => stays m m1 p)) with (2 := PT); [|apply stays_refl].
  intros m1 op GO J. eapply stays_trans; [exact J | apply step_stays; assumption].
Qed.
End Elsewhere.

(** ** Machines *)

Section Machine.
Variable M : machine.
Hypothesis SO : sound M.

Definition all_stays (m m' : fs) : Prop := forall p, at_or_above (ma_esp M) p -> stays m m' p.

Lemma all_stays_refl m : all_stays m m.
Proof. intros p _. apply stays_refl. Qed.

Lemma all_stays_trans m1 m2 m3 : all_stays m1 m2 -> all_stays m2 m3 -> all_stays m1 m3.
Proof. intros A B p H. eapply stays_trans; [apply A | apply B]; exact H. Qed.

Lemma stays_history m m' : all_stays m m' -> history M m -> history M m'.
Proof.
  intros ST H. destruct (history_ok M m SO H) as [CO EO]. apply hi_start.
  - intros n x. specialize (CO n x). specialize (ST (nixos_file M (n ++ lit "-" ++ base32 (ma_sha M x) ++ lit ".efi"))).
    unfold stays in ST. specialize (ST ltac:(eexists; reflexivity)).
    destruct (lookup m _) as [[|y b]|]; [contradiction| |rewrite ST; exact Logic.I].
    destruct ST as (b' & -> & B). destruct CO as [CO ->]. auto.
  - intros g key n y b Gg Kk NM L. apply (EO g key n y (match lookup m (linux_file M n) with Some (NFile _ b) => b | _ => b end) Gg Kk NM).
    specialize (ST (linux_file M n) ltac:(eexists; reflexivity)). unfold stays in ST.
    destruct (lookup m (linux_file M n)) as [[|y0 b0]|]; [congruence| |congruence].
    destruct ST as (b' & E & _). rewrite E in L. injection L as -> _. reflexivity.
Qed.

Lemma stays_file m m' p x b : all_stays m m' -> at_or_above (ma_esp M) p -> lookup m p = Some (NFile x b) ->
  exists b', lookup m' p = Some (NFile x b').
Proof. intros ST A L. specialize (ST p A). unfold stays in ST. rewrite L in ST. destruct ST as (b' & E & _). eauto. Qed.

Lemma stays_section m m' y n h : all_stays m m' -> section_file M m y n h -> section_file M m' y n h.
Proof.
  intros ST (k & hash & p & x & b & S1 & S2 & EP & L & H).
  destruct (stays_file m m' p x b ST) as (b' & L'); [|exact L|].
  { destruct EP as (rel & _ & _ & _ & ->). exists rel. reflexivity. }
  exists k, hash, p, x, b'. auto.
Qed.

Lemma stays_boots m m' g : all_stays m m' -> boots M m g -> boots M m' g.
Proof.
  intros ST (key & n & y & b & Kk & NM & L & B1 & B2).
  destruct (stays_file m m' (linux_file M n) y b ST) as (b' & L'); [eexists; reflexivity | exact L |].
  exists key, n, y, b'. split; [exact Kk|]. split; [exact NM|]. split; [exact L'|].
  split; eapply stays_section; eauto.
Qed.

(** Part of an installation, by the command line. *)
Lemma lzbt_point w a m os rest : snd (fst (lzbt w a m)) = os ++ rest ->
  os = [] \/ exists sg c, asked_signer w a sg /\ asked_config w a c /\ point (w_env w sg) c m os.
Proof.
  intros E. destruct os as [|o1 os1]; [left; reflexivity|]. right. set (os := o1 :: os1) in *.
  destruct (w_stub w) as [st|] eqn:WS; [|unfold lzbt, cli_install in E; rewrite WS in E; discriminate E].
  assert (starts w a) as SW.
  { unfold lzbt, cli_install in E. rewrite WS in E. split; [congruence|].
    destruct (a_public_key a); [|discriminate E]. split; [discriminate|].
    destruct (a_private_key a); [|discriminate E]. split; [discriminate|].
    destruct (from_nixos_system (a_system a)) as [ar|] eqn:F; [|discriminate E].
    apply system_cases in F as [[F _]|[F _]]; auto. }
  destruct (cli_runs w a m SW) as (sg & c & AS & AC & L). exists sg, c. split; [exact AS|]. split; [exact AC|].
  exists rest. rewrite L in E. cbn [fst snd] in E. exact E.
Qed.

Lemma lzbt_fs w a m : fst (fst (lzbt w a m)) = apply_all (snd (fst (lzbt w a m))) m.
Proof.
  unfold lzbt, cli_install. destruct (w_stub w); [|reflexivity]. destruct (a_public_key a); [|reflexivity].
  destruct (a_private_key a); [|reflexivity]. destruct (from_nixos_system _); [|reflexivity].
  match goal with |- context[run_install ?e ?c m] => pose proof (proj2 (run_steps e c m)) as R; destruct (run_install e c m) as [s r] end.
  exact R.
Qed.

Variables (u : surroundings) (o : options) (k : nat) (m0 : fs).
Hypothesis SV : serves u o k M.

Lemma other_stays i esp m a os rest : i <> k -> installation u o m0 i esp m a ->
  snd (fst (lzbt (u_world u i) a m)) = os ++ rest -> all_stays m (apply_all os m).
Proof.
  intros NE (MP & _ & W) E p A. apply lzbt_point in E as [-> |(sg & c & AS & AC & PT)]; [apply stays_refl|].
  destruct SV as [SV1 _]. destruct (SV1 i esp a sg c MP W AS AC) as [_ H]. destruct (H NE) as (HL & AE & AP).
  apply (run_stays (w_env (u_world u i) sg) c (ma_esp M)); assumption.
Qed.

Lemma own_history i esp m a os rest : history M m -> installation u o m0 i esp m a ->
  snd (fst (lzbt (u_world u i) a m)) = os ++ rest -> history M (apply_all os m).
Proof.
  intros H IN E. destruct (PeanoNat.Nat.eq_dec i k) as [-> |NE].
  - destruct IN as (MP & _ & W). apply lzbt_point in E as [-> |(sg & c & AS & AC & PT)]; [exact H|].
    destruct SV as [SV1 _]. destruct (SV1 k esp a sg c MP W AS AC) as [F _]. eapply hi_run; [exact H | apply F; reflexivity | exact PT].
  - eapply stays_history; [|exact H]. eapply other_stays; eauto.
Qed.

Lemma before_history i m : history M m0 -> before u o m0 i m -> history M m.
Proof.
  intros H B. induction B as [|i m esp a B IH MP W]; [exact H|]. rewrite lzbt_fs.
  eapply (own_history i esp m a); [exact IH | split; auto | rewrite app_nil_r; reflexivity].
Qed.

Lemma hook_end : exists esp m a, installation u o m0 (length (o_extra o)) esp m a /\
  all_stays (fst (fst (lzbt (u_world u (length (o_extra o))) a m))) (fst (hook u o m0)).
Proof.
  destruct (hook_runs u o m0) as (esp & m & a & IN & H1 & H2). exists esp, m, a. split; [exact IN|].
  destruct (o_measured o).
  - rewrite H2 by reflexivity. intros p A. apply stays_same. destruct SV as [_ SV2]. apply SV2, A.
  - rewrite H1 by reflexivity. apply all_stays_refl.
Qed.

Lemma hook_history m : history M m0 -> meanwhile u o m0 m -> history M m.
Proof.
  intros H [(i & esp & m1 & a & os & rest & IN & E & ->)| ->].
  - eapply own_history; [|exact IN | exact E]. apply (before_history i); [exact H | apply IN].
  - destruct hook_end as (esp & m & a & IN & ST). eapply stays_history; [exact ST|]. rewrite lzbt_fs.
    eapply own_history; [|exact IN | rewrite app_nil_r; reflexivity]. apply (before_history (length (o_extra o))); [exact H | apply IN].
Qed.

(** After the k-th installation the ESP stays as it left it. *)
Lemma before_stays esp m a : installation u o m0 k esp m a -> forall i m1, before u o m0 i m1 -> (k < i)%nat ->
  all_stays (fst (fst (lzbt (u_world u k) a m))) m1.
Proof.
  intros (MP & B & W) i m1 B1. induction B1 as [|i m1 esp1 a1 B1 IH MP1 W1]; intros LT; [lia|].
  destruct (PeanoNat.Nat.eq_dec i k) as [-> |NE].
  - rewrite (before_fun u o m0 k m B m1 B1). apply mount_point_nth in MP. apply mount_point_nth in MP1.
    rewrite MP in MP1. injection MP1 as <-. apply wanted_eq in W as ->. apply wanted_eq in W1 as ->. apply all_stays_refl.
  - eapply all_stays_trans; [apply IH; lia|]. rewrite (lzbt_fs (u_world u i)).
    apply (other_stays i esp1 m1 a1 _ []); [exact NE | split; auto | rewrite app_nil_r; reflexivity].
Qed.

Lemma later_stays esp m a m1 : installation u o m0 k esp m a -> later u o m0 k m1 ->
  all_stays (fst (fst (lzbt (u_world u k) a m))) m1.
Proof.
  intros IN [(j & esp1 & m2 & a1 & os & rest & LT & IN1 & E & ->)| ->].
  - eapply all_stays_trans; [eapply before_stays; [exact IN | apply IN1 | exact LT]|].
    eapply other_stays; [|exact IN1 | exact E]. lia.
  - destruct hook_end as (esp1 & m2 & a1 & IN1 & ST). eapply all_stays_trans; [|exact ST].
    apply (before_stays esp m a IN (S (length (o_extra o)))).
    + destruct IN1 as (MP1 & B1 & W1). apply (be_next u o m0 (length (o_extra o)) m2 esp1 a1 B1 MP1 W1).
    + destruct IN as (MP & _ & _). apply mount_point_nth in MP.
      assert (k < length (mount_points o))%nat as L by (apply nth_error_Some; congruence). unfold mount_points in L. cbn in L. exact L.
Qed.

Lemma hook_boots esp m a : history M m0 -> installation u o m0 k esp m a ->
  (forall sg, asked_signer (u_world u k) a sg -> no_faults (w_env (u_world u k) sg)) ->
  snd (lzbt (u_world u k) a m) = 0 ->
  exists c vs sel, asked_config (u_world u k) a c /\ links_versions (c_links c) vs /\ newest (c_limit c) vs sel /\
    forall m1 g, m1 = fst (fst (lzbt (u_world u k) a m)) \/ later u o m0 k m1 ->
      In g (flat_map link_generations sel) -> boots M m1 g.
Proof.
  intros H IN NF EX. pose proof IN as (MP & B & W). apply cli_exit in EX as (sg & c & AS & AC & E & OK).
  destruct SV as [SV1 _]. destruct (SV1 k esp a sg c MP W AS AC) as [F _]. specialize (F eq_refl).
  destruct (all_boot M (w_env (u_world u k) sg) c m SO F (before_history k m H B) (NF sg AS) OK) as (vs & sel & LV & NW & BT).
  exists c, vs, sel. split; [exact AC|]. split; [exact LV|]. split; [exact NW|].
  intros m1 g LA Ig. specialize (BT g Ig).
  assert (boots M (fst (fst (lzbt (u_world u k) a m))) g) as BT' by (rewrite E; exact BT).
  destruct LA as [-> |LA]; [exact BT'|].
  eapply stays_boots; [|exact BT']. eapply later_stays; eauto.
Qed.
End Machine.
