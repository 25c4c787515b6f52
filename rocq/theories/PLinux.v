(** Proofs for C65 and C66. *)
From Coq Require Import List NArith Bool Lia.
From Verif Require Import Base PBase MText MPe SPe MCpio MFirmware MStub PMonad SFirmware SStub SLinux PFirmware PStub PStubRun.
Import ListNotations.
Open Scope N_scope.

Lemma path_is_linux : linux_initrd_path device_path_protocol.
Proof.
  exists (firstn 16 (skipn 4 device_path_protocol)). split.
  - apply (dp_more 4 3 20 0 (firstn 16 (skipn 4 device_path_protocol)) [0x7f; 0xff; 4; 0] []);
      [discriminate|reflexivity|constructor].
  - exists [0x27; 0xe4; 0x68; 0x55], [0xfc; 0x68], [0x3d; 0x4f]. vm_compute. repeat split.
Qed.

Lemma raw_loads : forall initrd, linux_loads (raw_load_file initrd) initrd.
Proof.
  intros initrd path. exists (len initrd). split; [reflexivity|]. intros mem E. unfold raw_load_file, load_file.
  rewrite N.ltb_irrefl. rewrite skipn_all2, app_nil_r; [reflexivity|]. unfold len in E. lia.
Qed.

Lemma linux_finds : forall fw sha pm parse image path h' r before img entry,
  stub_main fw sha pm parse image path [] = (h', r) -> started h' before img entry ->
  exists p dp initrd cs served,
    offers before PDevicePath dp /\ linux_initrd_path dp /\
    offers before PLoadFile2 served /\ linux_loads (raw_load_file served) served /\
    pm image = Some p /\ section_contents image (pe_sections p) (lit ".initrdh") (sha initrd) /\
    layout4 (initrd :: map co_cpio cs) served /\ Forall measured_kind cs.
Proof.
  intros fw sha pm parse image path h' r before img entry HR HS.
  destruct (stub_started _ _ _ _ _ _ _ _ _ _ _ HR HS) as [[]].
  exists bs_p, device_path_protocol, bs_initrd, bs_cs, (assemble_initrd bs_initrd (map co_cpio bs_cs)).
  split; [|split; [exact path_is_linux|split; [|split; [apply raw_loads|
    split; [exact bs_parsed|split; [exact bs_initrdh|split; [apply assemble_layout|exact bs_kinds]]]]]]].
  - rewrite bs_before.
    match goal with |- offers (?a ++ ?b ++ ?c ++ ?d ++ ?e ++ [?u; ?v; ?w; ?x; ?y; ?z]) _ _ =>
        replace (a ++ b ++ c ++ d ++ e ++ [u; v; w; x; y; z]) with ((a ++ b ++ c ++ d ++ e ++ [u]) ++ v :: [w; x; y; z])
          by (rewrite <- !app_assoc; reflexivity) end.
    apply last_such_app; [reflexivity|]. repeat (constructor; [cbn; solve [discriminate|tauto]|]). constructor.
  - rewrite bs_before.
    match goal with |- offers (?a ++ ?b ++ ?c ++ ?d ++ ?e ++ [?u; ?v; ?w; ?x; ?y; ?z]) _ _ =>
        replace (a ++ b ++ c ++ d ++ e ++ [u; v; w; x; y; z]) with ((a ++ b ++ c ++ d ++ e ++ [u; v]) ++ w :: [x; y; z])
          by (rewrite <- !app_assoc; reflexivity) end.
    apply last_such_app; [reflexivity|]. repeat (constructor; [cbn; tauto|]). constructor.
Qed.

(** ** C66 *)

(** Never an error (but maybe a panic). *)
Definition noerr {A} (m : M A) : Prop := forall h h' e, m h <> (h', Err e).
Lemma noerr_ret : forall {A} (a : A), noerr (ret a). Proof. discriminate. Qed.
Lemma noerr_panic : forall {A}, noerr (A := A) panic. Proof. discriminate. Qed.
Lemma noerr_call : forall {A} (q : list event -> A) ev, noerr (call q ev). Proof. discriminate. Qed.
Lemma noerr_attempt : forall {A} (m : M A), noerr (attempt m).
Proof. intros A m h h' e H. apply attempt_inv in H. destruct H as [(a & _ & H)|[(x & _ & H)|(_ & H)]]; discriminate. Qed.
Lemma noerr_expect : forall {A} (m : M A), noerr (expect m).
Proof. intros A m h h' e H. apply expect_inv in H. destruct H as [(a & _ & H)|[(x & _ & H)|(_ & H)]]; discriminate. Qed.
Lemma noerr_bind : forall {A B} (m : M A) (k : A -> M B), noerr m -> (forall a, noerr (k a)) -> noerr (mbind m k).
Proof.
  intros A B m k Hm Hk h h' e H. apply mbind_inv in H. destruct H as [(h1 & a & _ & H)|[(x & H & E)|(_ & H)]].
  - exact (Hk _ _ _ _ H).
  - exact (Hm _ _ _ H).
  - discriminate.
Qed.
Ltac noerrM := repeat first
  [ progress intros | apply noerr_ret | apply noerr_panic | apply noerr_call | apply noerr_attempt | apply noerr_expect
  | apply noerr_bind | match goal with |- noerr (match ?x with _ => _ end) => destruct x end ].

(** [m] does something with events in [P] and then [T], or panics before. *)
Definition ends {A} (P : event -> Prop) (T : list event -> res status A -> Prop) (m : M A) : Prop :=
  forall h h' r, m h = (h', r) -> exists a b, h' = h ++ a ++ b /\ Forall P a /\ (r = Panic \/ T b r).
Lemma ends_bind : forall {A B} P T (m : M A) (k : A -> M B),
  emits P m -> noerr m -> (forall a, ends P T (k a)) -> ends P T (mbind m k).
Proof.
  intros A B P T m k Hm Nm Hk h h' r H. apply mbind_inv in H. destruct H as [(h1 & a & H1 & H2)|[(x & H & _)|(H & ->)]].
  - destruct (Hm _ _ _ H1) as (e1 & -> & F1). destruct (Hk _ _ _ _ H2) as (x & y & -> & Fx & D).
    exists (e1 ++ x), y. rewrite <- !app_assoc. split; [reflexivity|]. split; [|exact D]. apply Forall_app; auto.
  - destruct (Nm _ _ _ H).
  - destruct (Hm _ _ _ H) as (e1 & -> & F1). exists e1, []. rewrite app_nil_r. auto.
Qed.

(** How [boot_linux_unchecked] returns. *)
Definition boot_end (b : list event) (r : res status unit) : Prop :=
  (exists n e, r = Err e /\ b = [EvAlloc n None; EvInstall PDevicePath device_path_protocol (Some e)]) \/
  (exists n i e, r = Err e /\
     b = [EvAlloc n None; EvInstall PDevicePath device_path_protocol None; EvInstall PLoadFile2 i (Some e)]) \/
  (exists n i img o entry st, r = match st with None => Ok tt | Some e => Err e end /\
     b = [EvAlloc n None; EvInstall PDevicePath device_path_protocol None; EvInstall PLoadFile2 i None;
          EvOpenImage None; EvSetImage (Some img); EvSetOptions (Some o); EvStart img entry st;
          EvFree n true; EvSetImage None; EvSetOptions None; EvUninstall PDevicePath None;
          EvUninstall PLoadFile2 None]).

Lemma loader_new_fails : forall fw initrd h h' e,
  initrd_loader_new fw initrd h = (h', Err e) ->
  h' = h ++ [EvInstall PDevicePath device_path_protocol (Some e)] \/
  h' = h ++ [EvInstall PDevicePath device_path_protocol None; EvInstall PLoadFile2 initrd (Some e)].
Proof.
  intros fw initrd h h' e H. unfold initrd_loader_new, mbind, call, check in H.
  destruct (fw_install fw h PDevicePath) as [x|] eqn:E1.
  - inversion H; subst. left; reflexivity.
  - unfold ret at 1 in H. destruct (fw_install fw (h ++ _) PLoadFile2) as [x|] eqn:E2; inversion H; subst.
    rewrite <- app_assoc. right; reflexivity.
Qed.

Lemma boot_unchecked_ends : forall fw parse kernel cmdline initrd,
  ends (fun e => ~ changes_boot_state e) boot_end (boot_linux_unchecked fw parse kernel cmdline initrd).
Proof.
  intros fw parse kernel cmdline initrd h h' r H.
  destruct (boot_unchecked_run _ _ _ _ _ _ _ _ H) as (es & Eh & D). exists [], es. split; [exact Eh|]. split; [constructor|].
  destruct r as [[]|e|]; [| |left; reflexivity]; right.
  - destruct D as [D|(img & entry & st & f & rest & IL & -> & _ & [R|(R & -> & ->)])]; [exfalso|discriminate|].
    + destruct (boot_unchecked_ok _ _ _ _ _ _ _ _ H) as (pre & img & entry & st & post & X). rewrite Eh in X.
      unfold boot_linux_unchecked in H. stepM H; try discriminate.
      apply expect_inv in S. destruct S as [(x & S & E) | [(x & S & E) | (S & E)]]; try discriminate.
      destruct (load_kernel_run _ _ _ _ _ _ S) as (e1 & -> & F1 & _). clear S E.
      stepM H; try discriminate. destruct (loader_new_run _ _ _ _ _ S) as (e2 & -> & F2 & _). clear S.
      stepM H; try discriminate.
      destruct (start_kernel_run _ _ _ _ _ _ _ S) as (e3 & -> & [[F3 R]|(st' & f & -> & R)]); [discriminate|].
      clear S. stepM H; try discriminate. destruct (uninstall_run _ _ _ _ S) as (e4 & -> & F4 & _).
      apply check_inv in H. destruct H as [H _]. rewrite Eh in H. rewrite <- !app_assoc in H.
      apply app_inv_head in H. subst es. rewrite !Forall_app in D. destruct D as (_ & _ & D & _).
      rewrite Forall_forall in D. eapply (D (EvStart _ _ st')); [|exact I]. do 3 right. left. reflexivity.
    + right; right. destruct st as [x|]; [discriminate|]. eexists _, _, _, _, _, None. split; [reflexivity|]. reflexivity.
  - destruct D as [D|(img & entry & st & f & rest & IL & -> & _ & [R|(R & -> & ->)])]; [|discriminate|].
    + unfold boot_linux_unchecked in H. stepM H.
      2: { apply expect_inv in S. destruct S as [(x & S & E) | [(x & S & E) | (S & E)]]; discriminate. }
      2: { discriminate. }
      apply expect_inv in S. destruct S as [(x & S & E) | [(x & S & E) | (S & E)]]; try discriminate.
      destruct a as [img entry]. assert (x = (img, entry)) by congruence. subst x.
      destruct (load_kernel_run _ _ _ _ _ _ S) as (e1 & -> & F1 & L). destruct (L _ _ eq_refl) as [IL ->]. clear S E L.
      stepM H.
      2: { assert (e0 = e) by congruence. subst e0. destruct (loader_new_fails _ _ _ _ _ S) as [X|X]; rewrite X in Eh; rewrite <- app_assoc in Eh;
           apply app_inv_head in Eh; subst es.
           - left. eexists _, _. split; reflexivity.
           - right; left. eexists _, _, _. split; reflexivity. }
      2: { discriminate. }
      destruct (loader_new_run _ _ _ _ _ S) as (e2 & -> & F2 & _). clear S.
      exfalso. stepM H; try discriminate.
      2: { destruct (start_kernel_run _ _ _ _ _ _ _ S) as (e3 & -> & [[F3 R] | (st & f & -> & R)]); [discriminate|].
           destruct f; discriminate. }
      destruct (start_kernel_run _ _ _ _ _ _ _ S) as (e3 & -> & [[F3 R]|(st' & f & -> & R)]); [discriminate|].
      clear S.
      assert (X : exists e4, h' = ((((h ++ [EvAlloc (bytes_to_pages (len img)) None]) ++ e2) ++
          [EvOpenImage None; EvSetImage (Some img); EvSetOptions (Some cmdline); EvStart img entry st';
           EvFree (bytes_to_pages (len img)) f] ++ (if f then [EvSetImage None; EvSetOptions None] else [])) ++ e4)).
      { cbn [fst snd] in H. stepM H.
        - destruct (uninstall_run _ _ _ _ S) as (e4 & -> & _). apply check_inv in H. destruct H as [-> _]. eauto.
        - destruct (uninstall_run _ _ _ _ S) as (e4 & -> & _). eauto.
        - destruct (uninstall_run _ _ _ _ S) as (e4 & -> & _). eauto. }
      destruct X as (e4 & X). rewrite Eh in X. rewrite <- !app_assoc in X. apply app_inv_head in X. subst es.
      rewrite !Forall_app in D. destruct D as (_ & _ & D & _).
      rewrite Forall_forall in D. eapply (D (EvStart _ _ st')); [|exact I]. do 3 right. left. reflexivity.
    + right; right. destruct st as [x|]; [|discriminate]. eexists _, _, _, _, _, (Some x). split; [exact R|]. reflexivity.
Qed.

Lemma prep_keeps : forall e, preparatory e -> ~ changes_boot_state e.
Proof. intros [] H; cbn in *; tauto. Qed.

Lemma emits_keeps : forall {A} (m : M A), emits preparatory m -> emits (fun e => ~ changes_boot_state e) m.
Proof. intros A m. apply emits_weaken. exact prep_keeps. Qed.

Lemma emits_keeps_load : forall fw sha image p, emits (fun e => ~ changes_boot_state e) (load_from_pe fw sha image p).
Proof.
  intros. eapply emits_weaken; [|apply emits_load_from_pe].
  intros e [H|H]; [apply prep_keeps; auto|]. destruct e; cbn in *; tauto.
Qed.

Lemma noerr_cmdline : forall fw e, noerr (get_cmdline fw e).
Proof. intros. unfold get_cmdline, get_secure_boot_status, get_load_options, get_variable. noerrM. Qed.
Lemma noerr_companions : forall fw t p, noerr (companions_block fw t p).
Proof. intros. unfold companions_block. noerrM. Qed.

Lemma stub_ends : forall fw sha pm parse image path,
  ends (fun e => ~ changes_boot_state e) boot_end (stub_main fw sha pm parse image path).
Proof.
  intros. unfold stub_main, boot_linux, tpm_available, open_capable_tpm2.
  apply ends_bind; [apply emits_call; intros; cbn; tauto|apply noerr_call|intros t].
  apply ends_bind; [apply emits_call; intros; cbn; tauto|apply noerr_call|intros o].
  apply ends_bind; [destruct o; [apply emits_panic|apply emits_ret]|noerrM|intros _].
  apply ends_bind; [apply emits_expect, emits_keeps_load|apply noerr_expect|intros k].
  apply ends_bind; [apply emits_keeps; emitsM|noerrM|intros _].
  apply ends_bind; [apply emits_keeps, emits_attempt, prep_features|apply noerr_attempt|intros _].
  apply ends_bind; [apply emits_keeps, emits_attempt, prep_export|apply noerr_attempt|intros _].
  apply ends_bind; [apply emits_keeps, prep_companions_block|apply noerr_companions|intros cs].
  apply ends_bind; [apply emits_keeps, prep_cmdline|apply noerr_cmdline|intros c].
  apply boot_unchecked_ends.
Qed.

Lemma keeps_alloc : forall a, Forall (fun e => ~ changes_boot_state e) a -> allocated_pages a = [] /\ freed_pages a = [].
Proof.
  induction 1 as [|e a He _ [IH1 IH2]]; [split; reflexivity|]. unfold allocated_pages, freed_pages in *. cbn [flat_map].
  rewrite IH1, IH2. destruct e; cbn in *; tauto.
Qed.

Lemma stub_returns : forall fw sha pm parse image path h r,
  stub_main fw sha pm parse image path [] = (h, r) -> r <> Panic ->
  (leaves_nothing h /\ exists before img entry, started h before img entry) \/
  (exists a n e dp, r = Err e /\ Forall (fun x => ~ changes_boot_state x) a /\
     (h = a ++ [EvAlloc n None; EvInstall PDevicePath dp (Some e)] \/
      exists i, h = a ++ [EvAlloc n None; EvInstall PDevicePath dp None; EvInstall PLoadFile2 i (Some e)])).
Proof.
  intros fw sha pm parse image path h r H R.
  destruct (stub_ends _ _ _ _ _ _ _ _ _ H) as (a & b & Eh & Fa & [D|[(n & e & -> & ->)|[(n & i & e & -> & ->)|D]]]);
    [destruct (R D)| | |]; cbn [app] in Eh; subst h.
  - right. exists a, n, e, device_path_protocol. auto.
  - right. exists a, n, e, device_path_protocol. split; [reflexivity|]. split; [exact Fa|]. right. eauto.
  - left. destruct D as (n & i & img & o & entry & st & -> & ->). split.
    + destruct (keeps_alloc a Fa) as [A1 A2]. split.
      * unfold allocated_pages, freed_pages in *. rewrite !flat_map_app, A1, A2. reflexivity.
      * intros p d (_ & x & y & E & Fy).
        match type of E with a ++ ?l = _ =>
          assert (E' : rev (x ++ EvInstall p d None :: y) = rev (a ++ l)) by (rewrite E; reflexivity) end.
        clear E. rewrite !rev_app_distr in E'. cbn [rev app] in E'. rewrite <- !app_assoc in E'. cbn [app] in E'.
        rewrite <- (rev_involutive y) in Fy. rewrite rev_involutive in Fy.
        assert (Fr : Forall (fun z => ~ concerns p z) (rev y)).
        { rewrite Forall_forall in *. intros z Hz. apply Fy. rewrite in_rev. exact Hz. }
        destruct (rev y) as [|z1 [|z2 ry]]; cbn [app] in E'; [discriminate|discriminate|].
        injection E' as -> -> _. inversion Fr as [|? ? Q1 Fr2]. inversion Fr2 as [|? ? Q2 _].
        destruct p; [apply Q2; reflexivity|apply Q1; reflexivity].
    + eexists _, img, entry, st, _.
      match goal with |- a ++ [?e1; ?e2; ?e3; ?e4; ?e5; ?e6; ?s; ?f1; ?f2; ?f3; ?f4; ?f5] = _ =>
        change (a ++ [e1; e2; e3; e4; e5; e6; s; f1; f2; f3; f4; f5])
          with (a ++ [e1; e2; e3; e4; e5; e6] ++ s :: [f1; f2; f3; f4; f5]) end.
      rewrite app_assoc. reflexivity.
Qed.
