(** Proofs about an attacker who can write to the ESP (C92). *)
From Coq Require Import List NArith Bool Lia Permutation Sorted.
From Verif Require Import Base PBase MText MGeneration MNames MPe MCpio MFirmware MStub MFs MInstall SCommon SNames SFirmware SStub SInstall
  SImage SHistory SUse SCpio SAttack PCpio PMonad PStub PStubRun PUse.
Import ListNotations.
Open Scope N_scope.

(** ** The archives *)

Definition extra_dir (prefix : bytes) : Prop :=
  exists d, In d [lit "credentials"; lit "global_credentials"; lit "sysext"] /\ prefix = lit ".extra/" ++ d.

Lemma extra_split prefix : extra_dir prefix ->
  exists d, In d [lit "credentials"; lit "global_credentials"; lit "sysext"] /\ prefix = lit ".extra/" ++ d /\
    split_on 47 prefix = [lit ".extra"; d].
Proof.
  intros (d & I & ->). exists d. split; [exact I|]. split; [reflexivity|]. cbn [In] in I.
  repeat (destruct I as [<-|I]; [reflexivity|]). contradiction.
Qed.

Lemma adds_files ino prefix am ps ms : adds_all ino (map (fun nd => RFile (fst nd) (snd nd) prefix am) ps) ms ->
  forall m, In m ms -> exists nd, In nd ps /\ mb_name m = full_name prefix (fst nd).
Proof.
  revert ino ms. induction ps as [|nd ps IH]; cbn [map]; intros ino ms A m I.
  - inversion A; subst. destruct I.
  - inversion A as [|? ? ? ms1 ms2 A1 A2]; subst. inversion A1; subst. cbn [app In] in I. destruct I as [<-|I].
    + exists nd. split; [left; reflexivity | reflexivity].
    + destruct (IH _ _ A2 m I) as (x & J & E). exists x. split; [right; exact J | exact E].
Qed.

Lemma suffix_not_dots suffix n : In suffix [lit ".cred"; lit ".raw"] -> (exists stem, n = stem ++ suffix) -> n <> lit "." /\ n <> lit "..".
Proof.
  intros I (stem & ->). cbn [In] in I.
  repeat (destruct I as [<-|I]; [split; intros E; apply (f_equal (@length N)) in E; rewrite app_length in E; cbn in E; lia|]). contradiction.
Qed.

Lemma read_in {A B} (R : A -> B -> Prop) ns ds n d : Forall2 R ns ds -> In (n, d) (combine ns ds) -> R n d.
Proof.
  induction 1 as [|a c la lc FA _ IH]; cbn [combine]; [intros []|].
  intros [J|J]; [injection J as -> ->; exact FA | exact (IH J)].
Qed.

Lemma companion_confined fs dir suffix t prefix dm am r :
  companion_of fs dir suffix t prefix dm am = Ok r ->
  (forall es e, fs_dir fs dir = Some es -> In (Some e) es -> ~ In 92 (de_name e) /\ ~ In 0 (de_name e)) ->
  (forall p, In 47 p -> fs_read fs p = None) ->
  In suffix [lit ".cred"; lit ".raw"] -> extra_dir prefix -> dm < 2 ^ 32 -> am < 2 ^ 32 ->
  Forall confined (map co_cpio r).
Proof.
  intros E HN HS SF ED DM AM. destruct (extra_split prefix ED) as (d & ID & EP & SP).
  assert (prefix <> [] /\ ~ In 0 prefix /\ In 47 prefix) as (P1 & P2 & P3).
  { subst prefix. split; [discriminate|]. split; [|cbn; tauto]. cbn [In] in ID.
    repeat (destruct ID as [<-|ID]; [vm_compute; intuition discriminate|]). contradiction. }
  destruct (companion_contents fs dir suffix t prefix dm am r E HN P1 P2 P3 DM AM) as (es & names & D & P & _ & H).
  destruct names as [|n0 names]; [subst r; constructor|].
  destruct H as (b & ds & ms & -> & F2 & A & R). cbn [map co_cpio]. constructor; [|constructor].
  exists ms. eexists. split; [|split; [|exact R]; reflexivity].
  intros m I. inversion A as [|? ? ? ms1 ms2 A1 A2]; subst ino r rs ms. apply in_app_or in I as [I|I].
  - inversion A1 as [| |p m' comps PC]; subst p m' ms1. apply path_components_split in PC. rewrite SP in PC. subst comps.
    cbn in I. destruct I as [<-|[<-|[]]]; [left; reflexivity|]. right. exists d. split; [exact ID|]. left. reflexivity.
  - destruct (adds_files _ _ _ _ _ A2 m I) as ([n dd] & J & EN). cbn [fst] in EN. right. exists d. split; [exact ID|]. right.
    exists n. unfold full_name in EN. destruct (list_eq_dec N.eq_dec prefix []) as [X|_]; [contradiction|].
    split; [rewrite EN, EP, <- !app_assoc; reflexivity|]. split.
    + intros X. assert (fs_read fs (dir ++ lit "\" ++ n) = Some dd) as RD.
      { exact (read_in _ _ _ _ _ F2 J). }
      rewrite HS in RD; [discriminate|]. apply in_or_app. right. apply in_or_app. right. exact X.
    + apply (suffix_not_dots suffix); [exact SF|].
      assert (In n (map de_name (filter (picks suffix) es))) as IN.
      { eapply Permutation_in; [exact P|]. exact (in_combine_l (n0 :: names) ds n dd J). }
      apply in_map_iff in IN as (e & <- & IE). apply filter_In in IE as [_ PK]. apply picks_spec in PK as (_ & _ & ST). exact ST.
Qed.

Lemma credentials_confined fw h dropin r : uefi_names fw -> discover_credentials (fw_files fw h) dropin = Ok r ->
  Forall confined (map co_cpio r).
Proof.
  intros U E. destruct (U h) as [HN HS]. unfold discover_credentials in E.
  destruct (match fs_exists (fw_files fw h) _ with Some true => _ | _ => _ end) as [rg|u|] eqn:Eg; cbn [bind] in E; try discriminate.
  destruct (match dropin with Some _ => _ | None => _ end) as [rl|u|] eqn:El; cbn [bind] in E; try discriminate.
  assert (r = rg ++ rl) as -> by congruence. rewrite map_app. apply Forall_app. split.
  - destruct (fs_exists (fw_files fw h) _) as [[]|]; [|assert (rg = []) as -> by congruence; constructor|discriminate].
    destruct (fs_isdir (fw_files fw h) _) as [[]|]; [|assert (rg = []) as -> by congruence; constructor|discriminate].
    apply (companion_confined _ _ _ _ _ _ _ _ Eg); [apply HN | exact HS | left; reflexivity | | reflexivity | reflexivity].
    exists (lit "global_credentials"). split; [right; left; reflexivity | reflexivity].
  - destruct dropin as [d|]; [|assert (rl = []) as -> by congruence; constructor].
    apply (companion_confined _ _ _ _ _ _ _ _ El); [apply HN | exact HS | left; reflexivity | | reflexivity | reflexivity].
    exists (lit "credentials"). split; [left; reflexivity | reflexivity].
Qed.

Lemma extensions_confined fw h dropin r : uefi_names fw -> discover_system_extensions (fw_files fw h) dropin = Ok r ->
  Forall confined (map co_cpio r).
Proof.
  intros U E. destruct (U h) as [HN HS]. unfold discover_system_extensions in E.
  apply (companion_confined _ _ _ _ _ _ _ _ E); [apply HN | exact HS | right; left; reflexivity | | reflexivity | reflexivity].
  exists (lit "sysext"). split; [do 2 right; left; reflexivity | reflexivity].
Qed.

Lemma block_confined fw t path h h' cs : uefi_names fw -> companions_block fw t path h = (h', Ok cs) ->
  Forall confined (map co_cpio cs).
Proof.
  intros U H. unfold companions_block in H.
  stepM H; [|discriminate|discriminate]. apply call_inv in S; destruct S as [-> S]. destruct a.
  2: { apply ret_inv in H. destruct H as [_ H]. assert (cs = []) by congruence; subst cs. constructor. }
  stepM H; [|discriminate|discriminate]. clear S0. rename a into dropin.
  stepM H; [|discriminate|discriminate].
  assert (D1 : Forall confined (map co_cpio (match a with inl l => l | inr _ => [] end))).
  { apply attempt_inv in S0. destruct S0 as [(x & S1 & E)|[(x & S1 & E)|(S1 & E)]]; [| |discriminate].
    - assert (a = inl x) by congruence; subst a. apply discover_ok in S1. destruct S1 as [S1 _]. eapply credentials_confined; eassumption.
    - assert (a = inr x) by congruence; subst a. constructor. }
  clear S0. set (creds := match a with inl l => l | inr _ => [] end) in *. clearbody creds.
  stepM H; [|discriminate|discriminate].
  assert (D2 : Forall confined (map co_cpio a0)).
  { destruct dropin as [d|].
    - stepM S0; [|discriminate|discriminate]. apply ret_inv in S0; destruct S0 as [_ S0].
      apply attempt_inv in S1. destruct S1 as [(x & S1 & E)|[(x & S1 & E)|(S1 & E)]]; [| |discriminate].
      + assert (a1 = inl x) by congruence; subst a1. apply discover_ok in S1. destruct S1 as [S1 _].
        assert (a0 = x) by congruence; subst a0. eapply extensions_confined; eassumption.
      + assert (a1 = inr x) by congruence; subst a1. assert (a0 = []) by congruence; subst a0. constructor.
    - apply ret_inv in S0. destruct S0 as [_ S0]. assert (a0 = []) by congruence; subst a0. constructor. }
  clear S0. stepM H; [|discriminate|discriminate]. apply ret_inv in H. destruct H as [_ H].
  assert (cs = creds ++ a0) by congruence. subst cs. rewrite map_app. apply Forall_app. split; assumption.
Qed.

(** ** The initrd that is served *)

Lemma started_served fw sha pm parse image path h' r before img entry :
  stub_main fw sha pm parse image path [] = (h', r) -> started h' before img entry -> uefi_names fw ->
  exists kn kernel inn initrd archives served,
    reads_of before = [(kn, Some kernel); (inn, Some initrd)] /\
    last_such serves_initrd before (EvInstall PLoadFile2 served None) /\
    layout4 (initrd :: archives) served /\ Forall confined archives.
Proof.
  intros HR HS U. destruct (stub_started _ _ _ _ _ _ _ _ _ _ _ HR HS) as [[]].
  destruct bs_block as (t & pa & h1 & h2 & BL).
  exists bs_kn, bs_kernel, bs_in, bs_initrd, (map co_cpio bs_cs), (assemble_initrd bs_initrd (map co_cpio bs_cs)).
  split; [|split; [|split; [apply assemble_layout | eapply block_confined; eassumption]]].
  - assert (Fp := bs_prep). apply prep_reads in Fp. rewrite !reads_app in Fp. rewrite bs_before, !reads_app.
    rewrite (app_assoc (reads_of bs_ces)), (app_assoc (reads_of bs_mid)), (app_assoc (reads_of bs_mes)), Fp. reflexivity.
  - rewrite bs_before.
    match goal with |- last_such _ (?a ++ ?b ++ ?c ++ ?d ++ ?e ++ [?u; ?v; ?w; ?x; ?y; ?z]) _ =>
      replace (a ++ b ++ c ++ d ++ e ++ [u; v; w; x; y; z]) with ((a ++ b ++ c ++ d ++ e ++ [u; v]) ++ w :: [x; y; z])
        by (rewrite <- !app_assoc; reflexivity) end.
    apply last_such_app; [exact Logic.I|]. repeat constructor; intros [].
Qed.

Lemma reads_of_in h n x : In (n, Some x) (reads_of h) -> In (EvRead n (Some x)) h.
Proof.
  unfold reads_of. rewrite in_flat_map. intros (e & I & J). destruct e; try (destruct J).
  - injection H as -> ->. exact I.
  - destruct H.
Qed.

Lemma in_reads_of h n x : In (EvRead n (Some x)) h -> In (n, Some x) (reads_of h).
Proof. intros I. unfold reads_of. apply in_flat_map. exists (EvRead n (Some x)). split; [exact I | left; reflexivity]. Qed.

Lemma last_such_in P h e : last_such P h e -> In e h.
Proof. intros (_ & a & b & -> & _). apply in_or_app. right. left. reflexivity. Qed.

Lemma only_generations M : sound M -> (forall z, ma_good M z -> loads_well (ma_parse M) z) ->
  (forall g, ma_gens M g -> usable g) ->
  forall accepts others, unforged M accepts others ->
  forall y image pm fw parse path h' r before img entry,
  accepts y -> in_memory M y image pm -> uefi_names fw ->
  stub_main fw (ma_sha M) pm parse image path [] = (h', r) -> started h' before img entry -> unsubstituted M before ->
  others y \/ exists g, ma_gens M g /\ runs_generation M parse before img entry g.
Proof.
  intros SO GOOD US accepts others UF y image pm fw parse path h' r before img entry AC IM UN HR HS NS.
  destruct (UF y AC) as [O|(g & m & key & n & b & HI & HG & HK & ND & L)]; [left; exact O|right]. exists g. split; [exact HG|].
  destruct (history_starts M m SO GOOD HI g key n y b image pm fw parse path h' r before img entry HG (US g HG) HK ND L IM HR HS)
    as (kn & inn & kernel & initrd & cmd & kd & id & rest & chosen & a & b' & options & MF & EK & EI & RD & IL & SV & EB & CC & SO').
  destruct (started_served _ _ _ _ _ _ _ _ _ _ _ HR HS UN) as (kn' & kd' & inn' & id' & ar & served & RD' & SV' & LA & CF).
  assert (id' = id /\ kd' = kd) as [-> ->] by (split; congruence).
  assert (kd = kernel) as ->.
  { destruct MF as (v & _ & SK & _). apply (NS kn kd kernel); [|exists g; split; [exact HG | left; exact SK] | exact EK].
    apply reads_of_in. rewrite RD. left. reflexivity. }
  exists kn, inn, kernel, initrd, cmd, id, ar, served, options.
  split; [exact MF|]. split; [exact IL|]. split; [exact SV'|]. split; [exact LA|]. split; [exact EI|]. split.
  { intros NSE. destruct MF as (v & _ & _ & SI & _). destruct (SI NSE) as (p & BP & SP).
    apply (NS inn id initrd); [|exists g; split; [exact HG | right; exists p; split; assumption] | exact EI].
    apply reads_of_in. rewrite RD. right. left. reflexivity. }
  split; [exact CF|]. split; [exact SO'|].
  destruct CC as (sb & CC). cbv zeta in CC.
  assert (forall e, In e chosen -> In e before) as G.
  { intros e He. rewrite EB. apply in_or_app; right. apply in_or_app; left. exact He. }
  destruct CC as [(_ & E & _)|[(_ & E & _)|[(_ & E & _)|(passed & Off & Hp & D)]]]; [left; exact E | left; exact E | left; exact E |].
  right. exists sb. split; [|exact Off]. apply G. destruct D as [(_ & ->)|(x & _ & ->)]; left; reflexivity.
Qed.
