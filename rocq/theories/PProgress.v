(** A run succeeds if nothing is in its way (C59). *)
From Coq Require Import List NArith Bool Lia.
From Verif Require Import Base PBase MText PText MVersion MGeneration MNames PNames MPe MFs PFs MTool MInstall PInstall SCommon SNames SInstall
  SImage SHistory SPanic SProgress SRepeat PFiles PPaths PGen PBoot PGc PSelect PRun PTrace POwned PLoader PEntry PImage PHistory PHistories PRepeat PPanic.
Import ListNotations.
Open Scope N_scope.

(** ** Places *)

Section Places.
Variable c : config.
Hypothesis SP : separate c.

Definition target (p : path) : Prop := exists d n, In d (base_dirs c) /\ reserved n /\ p = d ++ [n].

Lemma base_cases d : In d (base_dirs c) <->
  (exists r, d = c_esp c ++ r /\ In r [[lit "EFI"; lit "nixos"]; [lit "EFI"; lit "Linux"]; [lit "EFI"; lit "systemd"]; [lit "EFI"; lit "BOOT"]; [lit "loader"]]) \/
  (exists l x, c_pcrlock c = Some l /\ d = l ++ [x] /\ In x [lit "635-lanzaboote.pcrlock.d"; lit "630-bootloader.pcrlock.d"]).
Proof.
  unfold base_dirs. rewrite in_app_iff, in_map_iff. unfold in_esp. split.
  - intros [(r & <- & H)|H]; [left; eauto|]. right. destruct (c_pcrlock c) as [l|]; [|destruct H].
    destruct H as [<-|[<-|[]]]; eexists l, _; (split; [reflexivity|]); (split; [reflexivity|]); cbn; auto.
  - intros [(r & -> & H)|(l & x & -> & -> & H)]; [left; eauto|]. right. destruct H as [<-|[<-|[]]]; cbn; auto.
Qed.

Lemma target_not_above p d : target p -> In d (base_dirs c) -> ~ at_or_above p d.
Proof.
  intros (d' & n & B' & _ & ->) B [t E]. rewrite <- app_assoc in E. cbn [app] in E.
  apply base_cases in B as [(r & -> & R)|(l & x & PL & -> & X)]; apply base_cases in B' as [(r' & -> & R')|(l' & x' & PL' & -> & X')].
  - rewrite <- app_assoc in E. apply app_inv_head in E.
    assert (length r' <= 2)%nat by (destruct R' as [<-|[<-|[<-|[<-|[<-|[]]]]]]; cbn; lia).
    destruct R' as [<-|[<-|[<-|[<-|[<-|[]]]]]]; destruct R as [<-|[<-|[<-|[<-|[<-|[]]]]]]; discriminate.
  - rewrite <- app_assoc in E. eapply not_both; [exact SP | exact PL' | exact E | reflexivity].
  - rewrite <- app_assoc in E. eapply not_both; [exact SP | exact PL | reflexivity | exact E].
  - assert (l' = l) as -> by congruence. rewrite <- app_assoc in E. apply app_inv_head in E. discriminate.
Qed.

Lemma target_not_esp p : target p -> p <> c_esp c.
Proof.
  intros T ->. refine (target_not_above _ (c_esp c ++ [lit "loader"]) T _ _); [|eexists; reflexivity].
  apply base_cases. left. eexists. split; [reflexivity|]. cbn; auto 10.
Qed.

Lemma reserved_tmp n : reserved (tmp_name n).
Proof. destruct (tmp_name_ends n) as [a ->]. exists (a ++ lit "."), (lit ".tmp"). split; [cbn; auto 10|]. rewrite <- app_assoc. reflexivity. Qed.

Lemma target_tmp p : target p -> target (tmp_path p).
Proof. intros (d & n & B & _ & ->). rewrite tmp_path_snoc. exists d, (tmp_name n). split; [exact B|]. split; [apply reserved_tmp | reflexivity]. Qed.

Lemma target_ne p : target p -> p <> [].
Proof. intros (d & n & _ & _ & ->). destruct d; discriminate. Qed.

Lemma target_parent p : target p -> In (parent p) (base_dirs c).
Proof. intros (d & n & B & _ & ->). unfold parent. rewrite removelast_last. exact B. Qed.

(** ** Changes that keep the places clear *)

Definition tame (m : fs) (o : op) : Prop :=
  match o with
  | OMkdir q => lookup m q = None /\ exists d, In d (base_dirs c) /\ at_or_above q d
  | OCreate p | OWrite p _ => target p
  | ORename a b => target a /\ target b /\ exists x y, lookup m a = Some (NFile x y)
  | OSync _ | OSyncAll _ | OChmod _ => True
  | ORemove p => p <> c_esp c
  end.

Lemma durable_dir n : durable n = NDir <-> n = NDir.
Proof. destruct n; cbn; split; congruence. Qed.

Lemma clear_tame m o : tame m o -> clear c m -> clear c (apply o m).
Proof.
  intros T [CE CD CF].
  assert (forall p x b, target p -> clear c (fs_insert p (NFile x b) m)) as FILE.
  { intros p x b TP. constructor.
    - destruct CE as [CE|CE]; [auto|]. right. rewrite lookup_insert.
      destruct (eqb_path p (c_esp c)) eqn:E; [|exact CE]. apply eqb_path_spec in E. destruct (target_not_esp p TP E).
    - intros d q y z B A. rewrite lookup_insert. destruct (eqb_path p q) eqn:E; [|eauto]. apply eqb_path_spec in E as ->.
      destruct (target_not_above _ _ TP B A).
    - intros d n B R. rewrite lookup_insert. destruct (eqb_path p (d ++ [n])); [discriminate | auto]. }
  assert (forall f : path -> bool, (forall q, lookup (apply o m) q = if f q then option_map durable (lookup m q) else lookup m q) -> clear c (apply o m)) as SYNC.
  { intros f H. constructor.
    - destruct CE as [CE|CE]; [auto|]. right. rewrite H, CE. destruct (f (c_esp c)); reflexivity.
    - intros d q y z B A. rewrite H. pose proof (CD d q) as C1. destruct (f q); [|auto].
      destruct (lookup m q) as [[|x b]|]; cbn; try discriminate. destruct (C1 x b B A eq_refl).
    - intros d n B R. rewrite H. pose proof (CF d n B R) as C1. destruct (f (d ++ [n])); [|auto].
      destruct (lookup m (d ++ [n])) as [[|x b]|]; cbn; try discriminate. congruence. }
  destruct o as [q|p|p x|p|d|a b|p|p]; cbn [tame] in T.
  - destruct T as (L & d0 & B0 & A0). cbn [apply]. constructor.
    + destruct CE as [CE|CE]; [auto|]. right. rewrite lookup_insert. destruct (eqb_path q (c_esp c)); auto.
    + intros d q' y z B A. rewrite lookup_insert. destruct (eqb_path q q'); [discriminate | eauto].
    + intros d n B R. rewrite lookup_insert. destruct (eqb_path q (d ++ [n])) eqn:E; [|auto]. apply eqb_path_spec in E.
      intros _. apply (target_not_above q d0); [exists d, n; auto | exact B0 | exact A0].
  - apply FILE. exact T.
  - apply FILE. exact T.
  - apply (SYNC (eqb_path p)). intros q. apply (lookup_apply (OSync p)).
  - apply (SYNC (below d)). intros q. apply (lookup_apply (OSyncAll d)).
  - destruct T as (TA & TB & x & y & L). constructor.
    + destruct CE as [CE|CE]; [auto|]. right. rewrite lookup_apply, L.
      destruct (eqb_path b (c_esp c)) eqn:E; [apply eqb_path_spec in E; destruct (target_not_esp b TB E)|].
      destruct (eqb_path a (c_esp c)) eqn:E2; [apply eqb_path_spec in E2; destruct (target_not_esp a TA E2) | exact CE].
    + intros d q u v B A. rewrite lookup_apply, L.
      destruct (eqb_path b q) eqn:E; [apply eqb_path_spec in E as ->; destruct (target_not_above _ _ TB B A)|].
      destruct (eqb_path a q); [discriminate | eauto].
    + intros d n B R. rewrite lookup_apply, L. destruct (eqb_path b (d ++ [n])); [discriminate|].
      destruct (eqb_path a (d ++ [n])); [discriminate | auto].
  - exact (Build_clear _ _ CE CD CF).
  - constructor.
    + destruct CE as [CE|CE]; [auto|]. right. rewrite lookup_apply. destruct (eqb_path p (c_esp c)) eqn:E; [|exact CE].
      apply eqb_path_spec in E. congruence.
    + intros d q u v B A. rewrite lookup_apply. destruct (eqb_path p q); [discriminate | eauto].
    + intros d n B R. rewrite lookup_apply. destruct (eqb_path p (d ++ [n])); [discriminate | auto].
Qed.
End Places.

(** ** The changes of a run *)

Section Steps.
Variable M : machine.
Variable e : env.
Variable c : config.
Hypothesis SO : sound M.
Hypothesis FI : fits M e c.
Let SP : separate c := fi_separate _ _ _ FI.

Lemma sel_plain g : selected c g -> plain_names g.
Proof. intros H. apply (so_names _ SO), (fi_gens _ _ _ FI), H. Qed.

Lemma base_nixos : In (d_nixos c) (base_dirs c).
Proof. apply base_cases. left. exists [lit "EFI"; lit "nixos"]. split; [|cbn; auto 10]. unfold d_nixos, d_efi. rewrite <- app_assoc. reflexivity. Qed.
Lemma base_linux : In (d_linux c) (base_dirs c).
Proof. apply base_cases. left. exists [lit "EFI"; lit "Linux"]. split; [|cbn; auto 10]. unfold d_linux, d_efi. rewrite <- app_assoc. reflexivity. Qed.
Lemma base_esp a b : In [lit "EFI"; a] [[lit "EFI"; lit "nixos"]; [lit "EFI"; lit "Linux"]; [lit "EFI"; lit "systemd"]; [lit "EFI"; lit "BOOT"]; [lit "loader"]] ->
  reserved b -> target c (c_esp c ++ [lit "EFI"; a; b]).
Proof.
  intros H R. exists (c_esp c ++ [lit "EFI"; a]), b. split; [apply base_cases; left; eauto|]. split; [exact R|]. rewrite <- app_assoc. reflexivity.
Qed.

Lemma ends_reserved t n : In t [lit ".efi"; lit ".EFI"; lit ".conf"; lit ".tmp"; lit ".pcrlock"] -> ends t n -> reserved n.
Proof. intros H [a ->]. exists a, t. auto. Qed.

Lemma gen_target g p : plain_names g -> gen_file e c g p -> target c p.
Proof.
  intros PN [label x LB|key K].
  - apply ca_label_slash in LB. rewrite ca_path_shape by exact LB. exists (d_nixos c). eexists. split; [apply base_nixos|]. split; [|reflexivity].
    apply (ends_reserved (lit ".efi")); [cbn; auto | eexists; reflexivity].
  - pose proof (stub_path_single e c key g PN) as E. rewrite E. exists (d_linux c). eexists. split; [apply base_linux|]. split; [|reflexivity].
    destruct (stub_name_efi (e_sha e) key (c_tries c) g) as (a & E2 & _). rewrite E2, utf8_encode_app. change (utf8_encode (lit ".efi")) with (lit ".efi").
    apply (ends_reserved (lit ".efi")); [cbn; auto | eexists; reflexivity].
Qed.

Lemma lock_target g p : plain_names g -> gen_lock c g p -> target c p.
Proof.
  intros PN (d & PL & ->). rewrite component_eq by exact PN.
  unfold component. exists (d ++ [lit "635-lanzaboote.pcrlock.d"]). eexists. split; [apply base_cases; right; exists d; eexists; split; [exact PL|]; split; [reflexivity | cbn; auto]|].
  split; [|rewrite <- app_assoc; reflexivity].
  rewrite app_assoc, utf8_encode_app. change (utf8_encode (lit ".pcrlock")) with (lit ".pcrlock").
  apply (ends_reserved (lit ".pcrlock")); [cbn; auto 10 | eexists; reflexivity].
Qed.

Lemma boot_target p : is_boot c p \/ p = p_conf c -> target c p.
Proof.
  intros [H| ->].
  - apply boot_paths_is in H. unfold boot_paths, in_esp in H.
    destruct (c_arch c); destruct H as [<-|[<-|[]]]; (apply base_esp; [cbn; auto 10|]);
      ((apply (ends_reserved (lit ".efi")); [cbn; tauto | eexists ?[a]; instantiate (a := lit "systemd-bootx64"); reflexivity]) ||
       (apply (ends_reserved (lit ".efi")); [cbn; tauto | eexists ?[a]; instantiate (a := lit "systemd-bootaa64"); reflexivity]) ||
       (apply (ends_reserved (lit ".EFI")); [cbn; tauto | eexists ?[a]; instantiate (a := lit "BOOTX64"); reflexivity]) ||
       (apply (ends_reserved (lit ".EFI")); [cbn; tauto | eexists ?[a]; instantiate (a := lit "BOOTAA64"); reflexivity])).
  - rewrite <- conf_path_is. unfold conf_path, in_esp. exists (c_esp c ++ [lit "loader"]), (lit "loader.conf").
    split; [apply base_cases; left; eexists; split; [reflexivity | cbn; auto 10]|]. split; [|rewrite <- app_assoc; reflexivity].
    exists (lit "loader"), (lit ".conf"). split; [cbn; auto | reflexivity].
Qed.

Lemma boot_lock_target d n : c_pcrlock c = Some d -> target c (p_lock_bootloader d n).
Proof.
  intros PL. rewrite lock_shape. exists (d ++ [lit "630-bootloader.pcrlock.d"]), (n ++ lit ".pcrlock").
  split; [apply base_cases; right; exists d; eexists; split; [exact PL|]; split; [reflexivity | cbn; auto]|].
  split; [|rewrite <- app_assoc; reflexivity]. apply (ends_reserved (lit ".pcrlock")); [cbn; auto 10 | eexists; reflexivity].
Qed.

Lemma target_mkdir m q p : posix m (OMkdir q) -> target c p -> below q (parent p) = true -> tame c m (OMkdir q).
Proof.
  intros (_ & _ & L) T B. split; [exact L|]. exists (parent p). split; [apply target_parent; exact T|].
  apply below_spec in B as [r B]. exists r. exact B.
Qed.

Lemma GR_tame m o : GR e c m o -> tame c m o.
Proof.
  intros [(U & HU & PX & CH)|[(m0 & PX & CH)|(roots & _ & GC)]].
  - destruct CH as [g p q Ug H B | g p Ug H | g p x Ug H | g p Ug H | g label x Ug H L | p | g p Ug H | g p x Ug H | g kver kd id image key out Ug BU K SG L _ _ | ];
      try (apply HU, sel_plain in Ug).
    + apply (target_mkdir m q p PX); [|exact B]. destruct H as [H|H]; [eapply gen_target | eapply lock_target]; eauto.
    + apply target_tmp. eapply gen_target; eauto.
    + apply target_tmp. eapply gen_target; eauto.
    + exact Logic.I.
    + assert (target c (ca_path e c label x)) as T by (eapply gen_target; [exact Ug | constructor; exact H]).
      split; [apply target_tmp; exact T|]. split; [exact T|]. eauto.
    + exact Logic.I.
    + eapply lock_target; eauto.
    + eapply lock_target; eauto.
    + assert (target c (stub_path e c key g)) as T by (eapply gen_target; [exact Ug | constructor; exact K]).
      split; [apply target_tmp; exact T|]. split; [exact T|]. eauto.
    + exact Logic.I.
  - destruct CH as [p0 q H BQ | d q PL BQ | p0 H | p0 z H | | p0 x out H ND SH SG LT NX | x ST LT | | d PL KP | d z PL KP | d x out PL SH SG BB LN].
    + apply (target_mkdir m q p0 PX); [apply boot_target; exact H | exact BQ].
    + apply (target_mkdir m q (p_lock_bootloader d (lit "next")) PX); [apply boot_lock_target; exact PL|].
      rewrite lock_shape. unfold parent. rewrite removelast_app by discriminate. exact BQ.
    + apply target_tmp, boot_target, H.
    + apply target_tmp, boot_target, H.
    + exact Logic.I.
    + split; [apply target_tmp, boot_target; auto|]. split; [apply boot_target; auto | eauto].
    + split; [apply target_tmp, boot_target; auto|]. split; [apply boot_target; auto | eauto].
    + exact Logic.I.
    + apply boot_lock_target. exact PL.
    + apply boot_lock_target. exact PL.
    + destruct LN as (lo & b & _ & LN). split; [apply boot_lock_target; exact PL|]. split; [apply boot_lock_target; exact PL | eauto].
  - destruct GC as [(p & ->) GC]. cbn [tame]. intros ->.
    assert (gen_area c (c_esp c)) as GA0.
    { apply (gc_writes e c roots m (ORemove (c_esp c))); [apply (fi_listings _ _ _ FI) | split; [eauto | exact GC] | reflexivity]. }
    destruct GA0 as [[r E]|[[r E]|(d & r & PL & E)]].
    + destruct (d_nixos_esp c r) as [b E']. rewrite E' in E. symmetry in E. rewrite <- (app_nil_r (c_esp c)) in E at 2. apply app_inv_head in E. discriminate.
    + destruct (d_linux_esp c r) as [b E']. rewrite E' in E. symmetry in E. rewrite <- (app_nil_r (c_esp c)) in E at 2. apply app_inv_head in E. discriminate.
    + unfold d_lock_lanzaboote in E. rewrite <- app_assoc in E.
      eapply not_both; [exact SP | exact PL | exact E | symmetry; apply app_nil_r].
Qed.

Lemma clear_point m os : point e c m os -> clear c m -> clear c (apply_all os m).
Proof.
  intros PT. apply point_steps in PT. apply (steps_invariant (GR e c) (clear c)) with (2 := PT).
  intros m1 o G1. apply clear_tame; [exact SP | apply GR_tame; exact G1].
Qed.
End Steps.

(** ** Programs that do not fail *)

(** [m] does not fail from [s]; if it does not panic, [Q] holds of its result
    and the files it leaves. *)
Definition goes {A} (m : I A) (s : st) (Q : A -> fs -> Prop) : Prop :=
  match m s with
  | (s', Ok a) => Q a (s_fs s')
  | (_, Err _) => False
  | (_, Panic) => True
  end.

Lemma goes_bind {A B} (m : I A) (k : A -> I B) s Q :
  goes m s (fun a f => forall s', s_fs s' = f -> goes (k a) s' Q) -> goes (ibind m k) s Q.
Proof. unfold goes at 1 3, ibind. destruct (m s) as [s' [a| |]]; auto. intros H. exact (H s' eq_refl). Qed.
Lemma goes_mono {A} (m : I A) s (Q Q' : A -> fs -> Prop) : goes m s Q -> (forall a f, Q a f -> Q' a f) -> goes m s Q'.
Proof. unfold goes. destruct (m s) as [s' [a| |]]; auto. Qed.
Lemma goes_ret {A} (a : A) s (Q : A -> fs -> Prop) : Q a (s_fs s) -> goes (iret a) s Q.
Proof. intros H. exact H. Qed.
Lemma goes_get {A} (f : st -> A) s (Q : A -> fs -> Prop) : Q (f s) (s_fs s) -> goes (iget f) s Q.
Proof. intros H. exact H. Qed.
Lemma goes_lift {A} (r : res unit A) a s (Q : A -> fs -> Prop) : r = Ok a -> Q a (s_fs s) -> goes (ilift r) s Q.
Proof. intros -> H. exact H. Qed.
Lemma goes_emit o s (Q : unit -> fs -> Prop) : Q tt (apply o (s_fs s)) -> goes (iemit o) s Q.
Proof. intros H. exact H. Qed.
Lemma goes_roots l s (Q : unit -> fs -> Prop) : Q tt (s_fs s) -> goes (iroots l) s Q.
Proof. intros H. exact H. Qed.
Lemma goes_for {A} (l : list A) f (J : fs -> Prop) :
  (forall x s, In x l -> J (s_fs s) -> goes (f x) s (fun _ m => J m)) ->
  forall s, J (s_fs s) -> goes (ifor l f) s (fun _ m => J m).
Proof.
  induction l as [|x l IH]; intros H s JS; cbn [ifor]; [apply goes_ret; exact JS|].
  apply goes_bind. eapply goes_mono; [apply H; [left; reflexivity | exact JS]|]. intros _ m JM s' <-.
  apply IH; [|exact JM]. intros y t HY. apply H. right. exact HY.
Qed.

Section Go.
Variable e : env.
Variable c : config.
Hypothesis SP : separate c.
Hypothesis NF : no_faults e.

Lemma goes_fault s (Q : fault -> fs -> Prop) : Q NoFault (s_fs s) -> goes (ifault e) s Q.
Proof. intros H. unfold goes, ifault. cbn. rewrite NF. exact H. Qed.
Lemma goes_guard s (Q : unit -> fs -> Prop) : Q tt (s_fs s) -> goes (iguard e) s Q.
Proof. intros H. apply goes_bind, goes_fault. intros s' E. apply goes_ret. rewrite E. exact H. Qed.
Lemma goes_source x s (Q : bytes -> fs -> Prop) : Q x (s_fs s) -> goes (isource e (Some x)) s Q.
Proof. intros H. apply goes_bind, goes_guard. intros s' E. apply (goes_lift _ x); [reflexivity | rewrite E; exact H]. Qed.
Lemma goes_exists p s (Q : bool -> fs -> Prop) : Q (present (s_fs s) p) (s_fs s) -> goes (iexists e p) s Q.
Proof. intros H. apply goes_bind, goes_fault. intros s' E. apply goes_get. rewrite E. exact H. Qed.
Lemma goes_is_dir p s (Q : bool -> fs -> Prop) : Q (is_dir (s_fs s) p) (s_fs s) -> goes (iis_dir e p) s Q.
Proof. intros H. apply goes_bind, goes_fault. intros s' E. apply goes_get. rewrite E. exact H. Qed.
Lemma goes_read p x b s (Q : bytes -> fs -> Prop) : lookup (s_fs s) p = Some (NFile x b) -> Q x (s_fs s) -> goes (iread e p) s Q.
Proof.
  intros L H. apply goes_bind, goes_guard. intros s' E. apply goes_bind, goes_get. intros s2 E2. rewrite E, L.
  apply goes_ret. rewrite E2, E. exact H.
Qed.

Lemma is_dir_insert m r n d : r <> d -> is_dir (fs_insert r n m) d = is_dir m d.
Proof. intros N. destruct d as [|a d]; [reflexivity|]. unfold is_dir. rewrite lookup_insert, (proj2 (eqb_path_false _ _) N). reflexivity. Qed.

(** *** Writing one file *)

Section File.
Variable p : path.
Hypothesis T : target c p.

Definition okop (o : op) : Prop :=
  match o with
  | OMkdir _ => True
  | OCreate q | OWrite q _ => q = p \/ q = tmp_path p
  | OSync q => q = tmp_path p
  | ORename a b => a = tmp_path p /\ b = p
  | OChmod q => q = p
  | OSyncAll _ | ORemove _ => False
  end.

Variable K : fs -> Prop.
Hypothesis KC : forall m, K m -> clear c m.
Hypothesis KS : forall m o, okop o -> tame c m o -> K m -> K (apply o m).

Lemma near r : r = p \/ r = tmp_path p -> target c r /\ parent r = parent p /\ r <> parent p /\ r <> [].
Proof.
  intros H. assert (target c r) as TR by (destruct H as [-> | ->]; [exact T | apply target_tmp; exact T]).
  split; [exact TR|]. split; [destruct H as [-> | ->]; [reflexivity | apply parent_tmp]|].
  split; [|apply (target_ne c); exact TR]. intros E. apply (target_not_above c SP r (parent p) TR); [apply target_parent; exact T|].
  exists []. rewrite app_nil_r, E. reflexivity.
Qed.

Lemma not_a_dir m r : K m -> r = p \/ r = tmp_path p -> is_dir m r = false.
Proof.
  intros H R. destruct (near r R) as ((d & n & B & RS & E) & _ & _ & NE). pose proof (cl_files _ _ (KC m H) d n B RS) as X.
  rewrite <- E in X. destruct r as [|a r]; [congruence|]. unfold is_dir. destruct (lookup m (a :: r)) as [[|]|]; congruence.
Qed.

Lemma goes_ensure r s (Q : unit -> fs -> Prop) : parent r = parent p -> K (s_fs s) ->
  (forall m, K m -> is_dir m (parent p) = true -> Q tt m) -> goes (ensure_parent_dir e r) s Q.
Proof.
  intros PR KM H.
  pose proof (sat_ensure_parent_dir e (fun m o => exists q, o = OMkdir q /\ below q (parent r) = true /\ posix m o) r s) as [RE (R & _ & _ & D)].
  { intros m q B PX. exists q. auto. }
  destruct (ensure_parent_dir e r s) as [s' r0] eqn:E. cbn [fst snd] in *. subst r0.
  unfold goes. rewrite E. apply H.
  - apply (reach_invariant _ K) in RE; [exact RE | | exact KM]. intros m o (q & -> & B & PX). apply KS; [exact Logic.I|].
    rewrite PR in B. exact (target_mkdir c m q p PX T B).
  - rewrite <- PR. apply D; [exact NF|]. intros q B F. unfold PFiles.is_file in F. rewrite PR in B.
    apply below_spec in B as [t B]. destruct F as (x & b & F).
    refine (cl_dirs _ _ (KC _ KM) (parent p) q x b (target_parent c p T) _ F). exists t. exact B.
Qed.

Lemma goes_create r s (Q : unit -> fs -> Prop) : r = p \/ r = tmp_path p -> K (s_fs s) -> is_dir (s_fs s) (parent p) = true ->
  (forall m, K m -> is_dir m (parent p) = true -> Q tt m) -> goes (icreate e r) s Q.
Proof.
  intros R KM D H. destruct (near r R) as (TR & PR & NE & _). apply goes_bind, goes_guard. intros s1 E1.
  apply goes_bind, goes_get. intros s2 E2. rewrite E1, PR, D, (not_a_dir _ r KM R). cbn [negb andb].
  apply goes_emit. rewrite E2, E1. apply H.
  - apply KS; [exact R | exact TR | exact KM].
  - cbn [apply]. rewrite is_dir_insert by exact NE. exact D.
Qed.

Lemma goes_write r x s (Q : unit -> fs -> Prop) : r = p \/ r = tmp_path p -> K (s_fs s) -> is_dir (s_fs s) (parent p) = true ->
  (forall m, K m -> is_dir m (parent p) = true -> (exists b, lookup m r = Some (NFile x b)) -> Q tt m) -> goes (iwrite e r x) s Q.
Proof.
  intros R KM D H. destruct (near r R) as (TR & PR & NE & _). apply goes_bind, goes_fault. intros s1 E1.
  apply goes_emit. rewrite E1. apply H.
  - apply KS; [exact R | exact TR | exact KM].
  - cbn [apply]. rewrite is_dir_insert by exact NE. exact D.
  - exists false. cbn [apply]. rewrite lookup_insert, eqb_path_refl. reflexivity.
Qed.

Lemma goes_rename s x b (Q : unit -> fs -> Prop) : K (s_fs s) -> is_dir (s_fs s) (parent p) = true -> lookup (s_fs s) (tmp_path p) = Some (NFile x b) ->
  (forall m, K m -> is_dir m (parent p) = true -> lookup m p = Some (NFile x b) -> Q tt m) -> goes (irename e (tmp_path p) p) s Q.
Proof.
  intros KM D L H. destruct (near p (or_introl eq_refl)) as (TR & _ & NE & _). destruct (near _ (or_intror eq_refl)) as (TT & _ & NT & _).
  apply goes_bind, goes_guard. intros s1 E1. apply goes_bind, goes_get. intros s2 E2. rewrite E1, L, D, (not_a_dir _ p KM (or_introl eq_refl)). cbn [negb andb].
  apply goes_emit. rewrite E2, E1. apply H.
  - apply KS; [cbn; auto | cbn; eauto | exact KM].
  - destruct (parent p) as [|a d] eqn:PP; [reflexivity|]. unfold is_dir in *. rewrite lookup_apply, L.
    rewrite (proj2 (eqb_path_false _ _) NE), (proj2 (eqb_path_false _ _) NT). exact D.
  - rewrite lookup_apply, L, eqb_path_refl. reflexivity.
Qed.

Lemma goes_install_signed x out s (Q : unit -> fs -> Prop) : sg_sign (e_signer e) x = Some out -> K (s_fs s) ->
  (forall m, K m -> Q tt m) -> goes (install_signed e (Some x) p) s Q.
Proof.
  intros SG KM H. apply goes_bind, (goes_ensure _ s); [apply parent_tmp | exact KM|]. intros m KM1 D s1 <-.
  apply goes_bind. apply goes_bind, goes_source. intros s2 E2. rewrite SG. rewrite <- E2 in KM1, D.
  apply goes_bind, goes_create; [auto | exact KM1 | exact D|]. intros m KM3 D3 s3 <-.
  apply goes_write; [auto | exact KM3 | exact D3|]. intros m KM4 D4 [b L] s4 <-.
  eapply goes_rename; eauto.
Qed.

Lemma goes_install_file x s (Q : unit -> fs -> Prop) : K (s_fs s) -> (forall m, K m -> Q tt m) -> goes (install_file e (Some x) p) s Q.
Proof.
  intros KM H. apply goes_bind, goes_exists. intros s1 E1. apply goes_bind.
  assert (goes (if present (s_fs s) p then let* a := isource e (Some x) in let* b := iread e p in iret (negb (eqb_bytes (e_sha e a) (e_sha e b))) else iret true)
            s1 (fun _ m => m = s_fs s)) as G1.
  { destruct (present (s_fs s) p) eqn:PR; [|apply goes_ret; exact E1].
    apply goes_bind, goes_source. intros s2 E2. apply goes_bind.
    unfold present in PR. pose proof (not_a_dir _ p KM (or_introl eq_refl)) as ND.
    destruct (near p (or_introl eq_refl)) as (_ & _ & _ & NE). destruct p as [|a0 p0] eqn:EP; [congruence|]. unfold is_dir in ND.
    destruct (lookup (s_fs s) (a0 :: p0)) as [[|y b]|] eqn:L; try discriminate.
    apply (goes_read _ y b); [rewrite E2, E1; exact L|]. intros s3 E3. apply goes_ret. congruence. }
  eapply goes_mono; [exact G1|]. intros differs m -> s2 E2. rewrite <- E2 in KM.
  destruct differs; [|apply goes_ret; auto].
  apply goes_bind, goes_ensure; [reflexivity | exact KM|]. intros m KM3 D3 s3 <-.
  apply goes_bind. apply goes_bind, goes_source. intros s4 E4. rewrite <- E4 in KM3, D3.
  apply goes_bind, goes_create; [auto | exact KM3 | exact D3|]. intros m KM5 D5 s5 <-.
  apply goes_bind, goes_write; [auto | exact KM5 | exact D5|]. intros m KM6 D6 [b L6] s6 <-.
  apply goes_bind. apply goes_bind, goes_guard. intros s7 E7. apply goes_emit. rewrite E7. intros s8 E8.
  assert (K (s_fs s8)) as KM8 by (rewrite E8; apply KS; [reflexivity | exact Logic.I | exact KM6]).
  assert (lookup (s_fs s8) (tmp_path p) = Some (NFile x true)) as L8.
  { rewrite E8, lookup_apply, eqb_path_refl, L6. reflexivity. }
  assert (is_dir (s_fs s8) (parent p) = true) as D8.
  { destruct (near _ (or_intror eq_refl)) as (_ & _ & NE & _). rewrite E8. destruct (parent p) as [|a d]; [reflexivity|].
    unfold is_dir in *. rewrite lookup_apply, (proj2 (eqb_path_false _ _) NE). exact D6. }
  apply (goes_rename _ x true); [exact KM8 | exact D8 | exact L8|]. intros m KM9 D9 L9 s9 <-.
  apply goes_bind, goes_guard. intros s10 E10. apply goes_bind, goes_guard. intros s11 E11. apply goes_bind, goes_get. intros s12 E12.
  assert (present (s_fs s11) p = true) as PR.
  { unfold present. destruct p; [reflexivity|]. rewrite E11, E10, L9. reflexivity. }
  rewrite PR. apply goes_emit. apply H. apply KS; [reflexivity | exact Logic.I|]. congruence.
Qed.

Lemma goes_lock_pe x out s (Q : unit -> fs -> Prop) : e_lock e x = Some out -> K (s_fs s) ->
  (forall m, K m -> is_dir m (parent p) = true -> (exists b, lookup m p = Some (NFile out b)) -> Q tt m) -> goes (lock_pe e (Some x) p) s Q.
Proof.
  intros LK KM H. apply goes_bind, goes_source. intros s1 E1. rewrite LK. rewrite <- E1 in KM.
  apply goes_bind, goes_ensure; [reflexivity | exact KM|]. intros m KM2 D2 s2 <-.
  apply goes_bind, goes_create; [auto | exact KM2 | exact D2|]. intros m KM3 D3 s3 <-.
  apply goes_write; auto.
Qed.
End File.
End Go.

(** *** The installer *)

Section Run.
Variable M : machine.
Variable e : env.
Variable c : config.
Hypothesis SO : sound M.
Hypothesis FI : fits M e c.
Hypothesis NF : no_faults e.
Hypothesis RE : ready e c.
Let SP : separate c := fi_separate _ _ _ FI.

Lemma clear_ok p m o : okop p o -> tame c m o -> clear c m -> clear c (apply o m).
Proof. intros _ T. exact (clear_tame c SP m o T). Qed.

Lemma goes_register g s (Q : bool -> fs -> Prop) : (forall b, Q b (s_fs s)) -> goes (register_installed_generation e c g) s Q.
Proof.
  intros H. destruct (sat_register e c (fun _ _ => True) g s (fun r s' => match r with Ok b => Q b (s_fs s') | Err _ => False | Panic => True end)) as [_ X].
  - intros s' _ N. exact (ry_key _ _ RE (N NF)).
  - exact (fun _ _ _ _ _ _ => Logic.I).
  - intros s' (F & _) _. rewrite F. apply H.
  - intros s' key (F & _) _. rewrite F. apply H.
  - unfold goes. destruct (register_installed_generation e c g s) as [s' [b| |]]; exact X.
Qed.

Lemma goes_ca g label x s (Q : path -> fs -> Prop) : selected c g -> ca_label g label -> clear c (s_fs s) ->
  (forall m, clear c m -> Q (ca_path e c label x) m) -> goes (install_nixos_ca e c (Some x) label) s Q.
Proof.
  intros SE CL C H. apply goes_bind, goes_source; [exact NF|]. intros s1 E1. cbv zeta. fold (ca_path e c label x).
  apply goes_bind, goes_roots. intros s2 E2. apply goes_bind.
  apply (goes_install_file e c SP NF (ca_path e c label x)) with (K := clear c); auto.
  - apply (gen_target e c g); [eapply sel_plain; eauto | constructor; exact CL].
  - apply clear_ok.
  - congruence.
  - intros m CM s3 <-. apply goes_ret. apply H. exact CM.
Qed.

Lemma uefi_some g label x : selected c g -> ca_label g label -> exists s, esp_relative_uefi_path (c_esp c) (ca_path e c label x) = Some s.
Proof.
  intros SE (kver & KV & LB). pose proof (fi_gens _ _ _ FI g SE) as GG.
  pose proof (kernel_version_slash _ _ KV) as N47.
  assert (~ In 92 kver) as N92.
  { intros X. apply (kernel_version_in _ _ 92 ltac:(lia) KV) in X. destruct (so_names _ SO g GG) as [_ N]. contradiction. }
  assert (~ In 47 label) as LS by (destruct LB as [-> | ->]; apply notin_app; try apply lit_slash_tac; exact N47).
  rewrite (ca_path_file M e c FI) by exact LS.
  destruct (section_content M label kver x N47 N92 (kernel_version_scalar _ _ KV) LB) as (F & _ & s0 & D).
  destruct (uefi_round_trip (c_esp c) [lit "EFI"; lit "nixos"; content_name M label x] s0 ltac:(discriminate) F D) as (s' & E & _).
  exists s'. unfold nixos_file. rewrite <- (fi_esp _ _ _ FI). exact E.
Qed.

Lemma kernel_version_ready g : selected c g -> exists kver, kernel_version (bs_kernel (g_spec g)) = Some kver.
Proof.
  intros SE. destruct (ry_kernel _ _ RE g SE) as (x & rest & dir & file & t & _ & E & ND & U).
  unfold kernel_version. rewrite E, rev_app_distr. cbn [rev app]. rewrite U.
  destruct (eqb_bytes dir (lit "..")) eqn:X; [apply eqb_bytes_spec in X; contradiction | eauto].
Qed.

Lemma goes_generation g s : selected c g -> clear c (s_fs s) -> goes (install_generation e c g) s (fun _ m => clear c m).
Proof.
  intros SE C. pose proof (sel_plain M e c SO FI g SE) as PN.
  apply goes_bind, goes_register. intros b s1 E1. rewrite <- E1 in C. clear s E1. destruct b; [apply goes_ret; exact C|].
  apply goes_bind, goes_guard; [exact NF|]. intros s2 E2. rewrite <- E2 in C. clear s1 E2.
  destruct (kernel_version_ready g SE) as [kver KV]. cbv zeta. rewrite KV. cbn [ok_or].
  apply goes_bind, (goes_lift _ kver); [reflexivity|]. intros s1 E1. rewrite <- E1 in C. clear s2 E1.
  destruct (ry_kernel _ _ RE g SE) as (kd & _ & _ & _ & _ & KD & _). rewrite KD.
  destruct (ry_initrd _ _ RE g SE) as (ip & d & IP & ID & SC).
  assert (ca_label g (lit "kernel-" ++ kver)) as LK by (exists kver; auto).
  assert (ca_label g (lit "initrd-" ++ kver)) as LI by (exists kver; auto).
  apply goes_bind, (goes_ca g); auto. clear s1 C. intros m C s1 <-.
  assert (exists id, match bs_initrd_secrets (g_spec g) with
                     | None => e_store e (components ip) = Some id
                     | Some script => exists d, e_store e (components ip) = Some d /\ e_secrets e script d = Some id
                     end /\ goes (initrd_location e (g_spec g)) s1 (fun r m => r = Some id /\ m = s_fs s1)) as (id & IDD & GI).
  { unfold initrd_location. rewrite IP. destruct (bs_initrd_secrets (g_spec g)) as [script|].
    - specialize (SC script eq_refl). destruct (e_secrets e script d) as [id|] eqn:SD; [|contradiction]. exists id. split; [eauto|].
      rewrite ID. apply goes_bind, goes_source; [exact NF|]. intros s2 E2. apply goes_bind, goes_guard; [exact NF|]. intros s3 E3.
      rewrite SD. apply goes_bind, goes_source; [exact NF|]. intros s4 E4. apply goes_ret. split; [reflexivity | congruence].
    - exists d. split; [exact ID|]. apply goes_ret. auto. }
  apply goes_bind. eapply goes_mono; [exact GI|]. intros r m [-> ->] s2 E2. rewrite <- E2 in C. clear s1 E2 GI.
  apply goes_bind, (goes_ca g); auto. clear s2 C. intros m C s1 <-.
  pose proof (ry_init _ _ RE g SE) as INI. destruct (utf8_decode (bs_init (g_spec g))) as [init|] eqn:IN; [|contradiction].
  unfold assemble_kernel_cmdline. rewrite IN.
  apply goes_bind, (goes_lift _ ((lit "init=" ++ init) :: bs_params (g_spec g))); [reflexivity|]. intros s2 E2. rewrite <- E2 in C. clear s1 E2.
  destruct (uefi_some g _ kd SE LK) as [kpath KP]. destruct (uefi_some g _ id SE LI) as [ipath IPP]. rewrite KP, IPP. cbn [ok_or].
  apply goes_bind, (goes_lift _ kpath); [reflexivity|]. intros s1 E1. rewrite <- E1 in C. clear s2 E1.
  apply goes_bind, (goes_lift _ ipath); [reflexivity|]. intros s2 E1. rewrite <- E1 in C. clear s1 E1.
  apply goes_bind, goes_source; [exact NF|]. intros s1 E1. rewrite <- E1 in C. clear s2 E1.
  apply goes_bind, goes_source; [exact NF|]. intros s2 E1. rewrite <- E1 in C. clear s1 E1.
  destruct (ry_stub _ _ RE) as (stub & pe & ST & PE & _ & _ & OB). rewrite ST.
  apply goes_bind, goes_source; [exact NF|]. intros s1 E1. rewrite <- E1 in C. clear s2 E1.
  apply goes_bind, goes_guard; [exact NF|]. intros s2 E1. rewrite <- E1 in C. clear s1 E1.
  set (sp := StubParameters _ _ kpath _ ipath _).
  assert (arguments e c g sp) as AR.
  { exists init, kver, kd, ip, id, kpath, ipath. cbv zeta. repeat (split; [assumption|]). reflexivity. }
  apply goes_bind. unfold lanzaboote_image. rewrite PE. destruct (stub_offset pe) as [offs|u|] eqn:SOF; cbn [bind].
  2: { exfalso. destruct u. unfold stub_offset in SOF. destruct (pe_image_base pe), (rev (pe_sections pe)); discriminate. }
  2: exact Logic.I.
  destruct (OB g sp (image_sections sp offs) SE AR (image_contents sp offs)) as (image & OC & SG & LO). rewrite OC. cbn [ok_or].
  apply (goes_lift _ image); [reflexivity|]. intros s1 E1. rewrite <- E1 in C. clear s2 E1.
  apply goes_bind.
  assert (goes (match c_pcrlock c with
                | Some d => let m := p_lock_generation d (version_tag g) in let* _ := lock_pe e (Some image) m in iroots [m]
                | None => iret tt
                end) s1 (fun _ m => clear c m)) as GL.
  { destruct (c_pcrlock c) as [dl|] eqn:PL; [|apply goes_ret; exact C]. cbv zeta.
    assert (e_lock e image <> None) as LN by (apply LO; discriminate). destruct (e_lock e image) as [out|] eqn:EL; [|contradiction].
    apply goes_bind. apply (goes_lock_pe e c SP NF (p_lock_generation dl (version_tag g))) with (K := clear c) (out := out); auto.
    - apply (lock_target c g); [exact PN|]. exists dl. auto.
    - apply clear_ok.
    - intros m CM _ _ s2 <-. apply goes_roots. exact CM. }
  eapply goes_mono; [exact GL|]. clear GL C s1. cbn beta. intros _ m C s1 <-.
  pose proof (ry_key _ _ RE) as KY. destruct (sg_key (e_signer e)) as [key|] eqn:KE; [|contradiction].
  unfold get_public_key. rewrite KE. apply goes_bind, goes_source; [exact NF|]. intros s2 E1. rewrite <- E1 in C. clear s1 E1.
  cbv zeta. fold (stub_path e c key g). apply goes_bind, goes_roots. intros s1 E1. rewrite <- E1 in C. clear s2 E1.
  destruct (sg_sign (e_signer e) image) as [out|] eqn:SE2; [|contradiction].
  apply (goes_install_signed e c SP NF (stub_path e c key g)) with (K := clear c) (out := out); auto.
  - apply (gen_target e c g); [exact PN | constructor; exact KE].
  - apply clear_ok.
Qed.

Lemma goes_newer p x v s (Q : bool -> fs -> Prop) : is_boot c p -> shipped_systemd_boot e c = Some x -> systemd_boot_version (e_parse e) x = Ok v ->
  (forall b, Q b (s_fs s)) -> goes (newer_systemd_boot e (Some x) p) s Q.
Proof.
  intros BP SH V H.
  pose proof (sat_newer e c (fun _ _ => True) p s (fun r s' => match r with Ok b => Q b (s_fs s') | Err _ => False | Panic => True end)) as X.
  rewrite SH in X. destruct X as [_ X].
  - apply (boot_ne c). left; exact BP.
  - intros s' _ N. exact (N NF x v eq_refl V).
  - exact (fun _ _ _ => Logic.I).
  - intros s' b (F & _) _ _. rewrite F. apply H.
  - unfold goes. destruct (newer_systemd_boot e (Some x) p s) as [s' [b| |]]; exact X.
Qed.

Lemma goes_verify p s (Q : bool -> fs -> Prop) : (forall b, Q b (s_fs s)) -> goes (verify_path e p) s Q.
Proof. intros H. apply goes_bind, goes_guard; [exact NF|]. intros s1 E1. apply goes_get. rewrite E1. apply H. Qed.

Lemma goes_collect d f s (Q : unit -> fs -> Prop) : (forall m, Q tt m) -> goes (collect_garbage_with_filter e d f) s Q.
Proof.
  intros H. apply goes_bind, goes_get. intros s1 E1.
  eapply goes_mono; [apply (goes_for _ _ (fun _ => True)); [|exact Logic.I] | intros [] m _; apply H].
  intros p s2 _ _. destruct (existsb _ _); [exact Logic.I|]. destruct (negb _); [exact Logic.I|].
  apply goes_bind, goes_is_dir; [exact NF|]. intros s3 E3. destruct (is_dir (s_fs s2) p).
  - apply goes_bind, goes_get. intros s4 E4. apply goes_for; [|exact Logic.I]. intros q s5 _ _.
    apply goes_bind, goes_guard; [exact NF|]. intros s6 E6. apply goes_emit. exact Logic.I.
  - apply goes_bind, goes_fault; [exact NF|]. intros s4 E4. apply goes_bind, goes_get. intros s5 E5.
    destruct (match lookup (s_fs s4) p with Some (NFile _ _) => true | _ => false end); exact Logic.I.
Qed.

Lemma goes_collect_all s : goes (collect_all e c) s (fun _ _ => True).
Proof.
  apply goes_bind, goes_get. intros s1 E1. destruct (s_broken s); [|exact Logic.I].
  apply goes_bind, goes_collect. intros m s2 _. apply goes_bind, goes_collect. intros m' s3 _.
  destruct (c_pcrlock c); [apply goes_collect; auto | exact Logic.I].
Qed.

(** The next measurement of the boot loader is in place. *)
Definition locked (d : path) (m : fs) : Prop :=
  clear c m /\ is_dir m (parent (p_lock_bootloader d (lit "next"))) = true /\
  exists x b, lookup m (p_lock_bootloader d (lit "next")) = Some (NFile x b).

Lemma locked_ok d p m o : c_pcrlock c = Some d -> is_boot c p -> okop p o -> tame c m o -> locked d m -> locked d (apply o m).
Proof.
  intros PL BP OK T (C & D & x & b & L). split; [exact (clear_tame c SP m o T C)|].
  set (n := p_lock_bootloader d (lit "next")) in *.
  pose proof (boot_lock_target c d (lit "next") PL) as TN. fold n in TN.
  assert (forall r, r = p \/ r = tmp_path p -> r <> n /\ r <> parent n) as NE.
  { intros r R. assert (exists t, r = c_esp c ++ t) as [t E].
    { destruct (boot_shape c p BP) as (a & z & E & _). destruct R as [-> | ->]; [eauto|]. rewrite E.
      change [lit "EFI"; a; z] with ([lit "EFI"; a] ++ [z]). rewrite app_assoc, tmp_path_snoc, <- app_assoc. eauto. }
    split; intros X; [apply (not_both c SP d [lit "630-bootloader.pcrlock.d"; lit "next" ++ lit ".pcrlock"] t r PL); [|exact E];
                      rewrite X; apply lock_shape
                     |apply (not_both c SP d [lit "630-bootloader.pcrlock.d"] t r PL); [|exact E]].
    rewrite X. unfold n. rewrite lock_shape. change [lit "630-bootloader.pcrlock.d"; lit "next" ++ lit ".pcrlock"] with
      ([lit "630-bootloader.pcrlock.d"] ++ [lit "next" ++ lit ".pcrlock"]). rewrite app_assoc, parent_app. reflexivity. }
  assert (parent n <> []) as PN.
  { unfold n. rewrite lock_shape. change [lit "630-bootloader.pcrlock.d"; lit "next" ++ lit ".pcrlock"] with
      ([lit "630-bootloader.pcrlock.d"] ++ [lit "next" ++ lit ".pcrlock"]). rewrite app_assoc, parent_app. destruct d; discriminate. }
  assert (lookup m (parent n) = Some NDir) as LD by (apply is_dir_lookup; assumption).
  enough (lookup (apply o m) (parent n) = Some NDir /\ exists x b, lookup (apply o m) n = Some (NFile x b)) as [A B].
  { split; [apply is_dir_lookup; assumption | exact B]. }
  rewrite !lookup_apply.
  destruct o as [q|q|q y|q|q|q1 q2|q|q]; cbn [okop] in OK.
  - destruct T as [LQ [b0 [IB AB]]]. split.
    + destruct (eqb_path q (parent n)) eqn:X; [reflexivity | exact LD].
    + assert (q <> n) as NQ by (intros ->; exact (target_not_above c SP n b0 TN IB AB)).
      rewrite (proj2 (eqb_path_false _ _) NQ). eauto.
  - destruct (NE q OK) as [N1 N2]. rewrite (proj2 (eqb_path_false _ _) N1), (proj2 (eqb_path_false _ _) N2). eauto.
  - destruct (NE q OK) as [N1 N2]. rewrite (proj2 (eqb_path_false _ _) N1), (proj2 (eqb_path_false _ _) N2). eauto.
  - destruct (NE q (or_intror OK)) as [N1 N2]. rewrite (proj2 (eqb_path_false _ _) N1), (proj2 (eqb_path_false _ _) N2). eauto.
  - destruct OK.
  - destruct OK as [-> ->]. destruct (NE p (or_introl eq_refl)) as [N1 N2]. destruct (NE _ (or_intror eq_refl)) as [N3 N4].
    destruct T as (_ & _ & x0 & y0 & ->).
    rewrite (proj2 (eqb_path_false _ _) N1), (proj2 (eqb_path_false _ _) N2), (proj2 (eqb_path_false _ _) N3), (proj2 (eqb_path_false _ _) N4). eauto.
  - eauto.
  - destruct OK.
Qed.

Lemma goes_boot s : clear c (s_fs s) -> goes (install_systemd_boot e c) s (fun _ _ => True).
Proof.
  intros C. destruct (ry_loader _ _ RE) as (x & v & SH & V & SG & LO). rewrite <- shipped_is in SH.
  destruct (sg_sign (e_signer e) x) as [out|] eqn:SX; [|contradiction].
  assert (is_boot c (p_fallback c)) as B1 by (left; reflexivity). assert (is_boot c (p_systemd c)) as B2 by (right; reflexivity).
  unfold install_systemd_boot. cbv zeta. rewrite SH.
  apply goes_bind, (goes_newer _ x v); auto. intros n1 s1 E1. rewrite <- E1 in C. clear s E1.
  apply goes_bind. assert (goes (if n1 then iret true else newer_systemd_boot e (Some x) (p_systemd c)) s1 (fun _ m => m = s_fs s1)) as G1.
  { destruct n1; [apply goes_ret; reflexivity | apply (goes_newer _ x v); auto]. }
  eapply goes_mono; [exact G1|]. intros n2 m -> s2 E2. rewrite <- E2 in C. clear s1 E2 G1.
  apply goes_bind, goes_verify. intros g1 s1 E1. rewrite <- E1 in C. clear s2 E1.
  apply goes_bind. assert (goes (if g1 then verify_path e (p_systemd c) else iret false) s1 (fun _ m => m = s_fs s1)) as G1.
  { destruct g1; [apply goes_verify; reflexivity | apply goes_ret; reflexivity]. }
  eapply goes_mono; [exact G1|]. intros g2 m -> s2 E2. rewrite <- E2 in C. clear s1 E2 G1.
  apply goes_bind. assert (goes match c_pcrlock c with Some d => iexists e (p_lock_bootloader d (lit "current")) | None => iret true end s2 (fun _ m => m = s_fs s2)) as G1.
  { destruct (c_pcrlock c); [apply goes_exists; auto | apply goes_ret; reflexivity]. }
  eapply goes_mono; [exact G1|]. intros g3 m -> s1 E2. rewrite <- E2 in C. clear s2 E2 G1.
  apply goes_bind.
  match goal with |- goes ?a s1 _ => assert (goes a s1 (fun _ m => clear c m)) as G1 end.
  { destruct (n2 || negb g2 || negb g3); [|apply goes_ret; exact C].
    destruct (c_pcrlock c) as [d|] eqn:PL.
    - assert (e_lock e x <> None) as LN by (apply LO; discriminate). destruct (e_lock e x) as [lk|] eqn:LX; [|contradiction].
      apply goes_bind. apply (goes_lock_pe e c SP NF (p_lock_bootloader d (lit "next"))) with (K := clear c) (out := lk); auto.
      + apply boot_lock_target; exact PL.
      + apply clear_ok.
      + clear s1 C. intros m C D [b L] s1 <-.
        apply goes_bind. eapply goes_mono; [apply (goes_for _ _ (locked d)) |].
        * intros p s2 IN LK. assert (is_boot c p) as BP by (destruct IN as [<-|[<-|[]]]; assumption).
          apply (goes_install_signed e c SP NF p) with (K := locked d) (out := out); auto.
          -- apply boot_target. left. exact BP.
          -- intros m LM. exact (proj1 LM).
          -- intros m o. apply locked_ok; assumption.
        * split; [exact C|]. split; [exact D|]. eauto.
        * clear s1 C D L. intros [] m (C & D & y & z & L) s1 <-.
          apply goes_bind, goes_guard; [exact NF|]. intros s2 E2. apply goes_bind, goes_get. intros s3 E3. rewrite E2.
          rewrite L. assert (is_dir (s_fs s1) (parent (p_lock_bootloader d (lit "current"))) = true) as D2.
          { assert (forall n, parent (p_lock_bootloader d n) = d ++ [lit "630-bootloader.pcrlock.d"]) as PP.
            { intros n. rewrite lock_shape. change [lit "630-bootloader.pcrlock.d"; n ++ lit ".pcrlock"] with
                ([lit "630-bootloader.pcrlock.d"] ++ [n ++ lit ".pcrlock"]). rewrite app_assoc. apply parent_app. }
            rewrite PP in *. exact D. }
          pose proof (boot_lock_target c d (lit "current") PL) as TC. pose proof (boot_lock_target c d (lit "next") PL) as TN.
          assert (is_dir (s_fs s1) (p_lock_bootloader d (lit "current")) = false) as ND.
          { destruct (is_dir (s_fs s1) (p_lock_bootloader d (lit "current"))) eqn:X; [|reflexivity]. exfalso.
            apply is_dir_lookup in X; [|apply (target_ne c); exact TC]. destruct TC as (d0 & n0 & IB & RS & E).
            rewrite E in X. exact (cl_files _ _ C d0 n0 IB RS X). }
          rewrite D2, ND. cbn [negb andb]. apply goes_emit. rewrite E3, E2. apply (clear_tame c SP); [|exact C].
          cbn. eauto.
    - apply goes_bind, goes_ret. intros s2 E2. rewrite <- E2 in C. clear s1 E2.
      apply goes_bind. eapply goes_mono; [apply (goes_for _ _ (clear c)); [|exact C]|].
      + intros p s3 IN CP. assert (is_boot c p) as BP by (destruct IN as [<-|[<-|[]]]; assumption).
        apply (goes_install_signed e c SP NF p) with (K := clear c) (out := out); auto; [|apply clear_ok].
        apply boot_target. left. exact BP.
      + intros [] m CM s3 <-. apply goes_ret. exact CM. }
  eapply goes_mono; [exact G1|]. cbn beta. clear G1 C s1. intros [] m C s1 <-.
  pose proof (ry_conf _ _ RE) as RC. destruct (e_store e (components (c_conf c))) as [cf|]; [|contradiction].
  apply (goes_install_file e c SP NF (p_conf c)) with (K := clear c); auto; [|apply clear_ok].
  apply boot_target. right. reflexivity.
Qed.

Lemma run_goes m : clear c m -> goes (install e c) (start c m) (fun _ _ => True).
Proof.
  intros C.
  assert (exists vs, links_versions (c_links c) vs) as [vs LV].
  { pose proof (ry_links _ _ RE) as RL. induction (c_links c) as [|l ls IH]; [exists []; constructor|].
    destruct IH as [vs IH]; [intros l' H; apply RL; right; exact H|].
    specialize (RL l (or_introl eq_refl)). destruct (link_version (l_name l)) as [v|] eqn:LE; [|contradiction].
    exists ((v, l) :: vs). constructor; auto. }
  destruct (install_selected e c m vs NF LV) as (sel & s0 & NW & UN & E).
  unfold run_install in E. unfold goes. rewrite E.
  pose proof (ry_some _ _ RE vs sel LV NW) as NE. destruct (flat_map link_generations sel) as [|g0 gs0] eqn:FG; [contradiction|].
  match goal with |- match ?a s0 with _ => _ end => change (goes a s0 (fun _ _ => True)) end.
  rewrite <- FG. destruct UN as (F0 & _).
  apply goes_bind. eapply goes_mono; [apply (goes_for _ _ (clear c)) |].
  - intros g s IN CS. apply goes_generation; [|exact CS]. exists vs, sel. auto.
  - rewrite F0. exact C.
  - intros [] m1 C1 s1 <-. unfold finish.
    apply goes_bind. apply goes_bind, goes_guard; [exact NF|]. intros s2 E2.
    apply goes_bind, goes_get. intros s3 E3.
    assert (is_dir (s_fs s2) (c_esp c) = true) as DE.
    { rewrite E2. destruct (cl_esp _ _ C1) as [X|X]; [rewrite X; reflexivity|].
      unfold is_dir. destruct (c_esp c); [reflexivity|]. rewrite X. reflexivity. }
    rewrite DE. cbn [negb]. apply goes_bind, goes_guard; [exact NF|]. intros s4 E4. apply goes_emit. intros s5 E5.
    apply goes_bind. eapply goes_mono; [apply goes_boot|].
    + rewrite E5. apply (clear_tame c SP); [exact Logic.I|]. congruence.
    + intros _ m2 _ s6 _. apply goes_collect_all.
Qed.

(** C59. *)
Lemma no_error m : clear c m -> snd (run_install e c m) <> Err tt.
Proof.
  intros C. pose proof (run_goes m C) as G. unfold goes in G. unfold run_install.
  destruct (install e c (start c m)) as [s' [a|u|]]; cbn [snd]; [discriminate | contradiction | discriminate].
Qed.

Lemma progress m : history M m -> clear c m -> ~ bad_loader e c m -> ~ bad_signed e c -> snd (run_install e c m) = Ok tt.
Proof.
  intros HI C BL BS. pose proof (no_error m C) as NE.
  destruct (snd (run_install e c m)) as [[]|[]|] eqn:E; [reflexivity | congruence |]. exfalso.
  destruct (history_panic M e c m SO FI HI E) as [X|[X|[X|[X|[X|X]]]]]; try contradiction.
  - destruct X as (g & SE & X). destruct (ry_initrd _ _ RE g SE) as (p & x & P & _). unfold no_initrd in X. intuition congruence.
  - destruct X as (g & SE & X). exact (ry_init _ _ RE g SE X).
  - destruct X as (stub & p & ST & PE & X). destruct (ry_stub _ _ RE) as (stub' & p' & ST' & PE' & N1 & N2 & _).
    intuition congruence.
  - destruct (ry_loader _ _ RE) as (x & v & SH & V & _). destruct X as (x' & SH' & U). rewrite SH in SH'. injection SH' as <-.
    apply version_panic in U. congruence.
Qed.
End Run.

(** *** After interrupted runs *)

Lemma same_base c1 c2 : same_places c1 c2 -> base_dirs c2 = base_dirs c1.
Proof. intros (A & B & _). unfold base_dirs, in_esp. rewrite A, B. reflexivity. Qed.

Lemma same_clear c1 c2 m : same_places c1 c2 -> clear c1 m <-> clear c2 m.
Proof.
  intros S. pose proof (same_base _ _ S) as B. destruct S as (E & _).
  split; intros [H1 H2 H3]; constructor; rewrite ?E, ?B in *; assumption.
Qed.

Lemma same_loader M e1 c1 e2 c2 m : fits M e1 c1 -> fits M e2 c2 -> same_places c1 c2 -> bad_loader e2 c2 m -> bad_loader e1 c1 m.
Proof.
  intros F1 F2 (E & _ & A) (p & y & b & IN & L & U). exists p, y, b.
  unfold boot_paths, in_esp in *. rewrite E, A in IN. split; [exact IN|]. split; [exact L|].
  unfold unusable_section, section_panics, section_empty in *. rewrite (fi_parse _ _ _ F1). rewrite (fi_parse _ _ _ F2) in U. exact U.
Qed.

Lemma attempts_ok M e c m m' : sound M -> fits M e c -> attempts M c m m' ->
  history M m -> clear c m -> ~ bad_loader e c m -> history M m' /\ clear c m' /\ ~ bad_loader e c m'.
Proof.
  intros SO FI AT HI C BL. induction AT as [|m1 e1 c1 os AT IH F1 SP BS PT]; [auto|].
  destruct IH as (H1 & C1 & B1). split; [eapply hi_run; eauto|]. split.
  - apply (same_clear c c1 _ SP). apply (clear_point M e1 c1 SO F1 m1 os PT). apply (same_clear c c1 _ SP). exact C1.
  - intros X. assert (same_places c1 c) as SP' by (destruct SP as (A & B & D); repeat split; congruence).
    apply (same_loader M e1 c1 e c _ F1 FI SP') in X. apply (loader_point e1 c1 m1 os PT) in X as [X|X]; [|contradiction].
    apply B1. exact (same_loader M e c e1 c1 _ FI F1 SP X).
Qed.

Lemma retry M e c m m' : sound M -> fits M e c -> no_faults e -> ready e c -> ~ bad_signed e c ->
  history M m -> clear c m -> ~ bad_loader e c m -> attempts M c m m' -> snd (run_install e c m') = Ok tt.
Proof.
  intros SO FI NF RE BS HI C BL AT. destruct (attempts_ok M e c m m' SO FI AT HI C BL) as (H1 & C1 & B1).
  exact (progress M e c SO FI NF RE m' H1 C1 B1 BS).
Qed.
