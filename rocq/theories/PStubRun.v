(** Proofs of C28, C30, C33, C34, C41 (freeing), C42 (whole stub), C43, C55. *)
From Coq Require Import List NArith Bool Lia Permutation.
From Coq Require Import ZifyBool ZifyNat ZifyN.
From Verif Require Import Base MText PText PBase MPe SPe PPe MCpio MFirmware MStub PMonad SFirmware SStub PFirmware PStub.
Import ListNotations.
Open Scope N_scope.

Lemma extract_string_text : forall image secs n t,
  extract_string image secs n = Ok t -> section_text image secs n t.
Proof.
  intros image secs n t H. unfold extract_string in H. apply bind_ok in H. destruct H as ([d|] & H1 & H2); [|discriminate].
  destruct (utf8_decode d) as [s|] eqn:E; [|discriminate]. unfold cstr16 in H2.
  destruct (forallb _ s) eqn:F; [|discriminate]. cbn [ok_or] in H2. assert (s = t) by congruence. subst s.
  exists d. split; [apply section_data_contents; exact H1|]. split; [exact E|].
  rewrite forallb_forall in F. apply Forall_forall. intros c Hc. specialize (F c Hc). lia.
Qed.
Lemma extract_hash_contents : forall image secs n d,
  extract_hash image secs n = Ok d -> section_contents image secs n d.
Proof.
  intros image secs n d H. unfold extract_hash in H. apply bind_ok in H. destruct H as ([x|] & H1 & H2); [|discriminate].
  destruct (len x =? 32); [|discriminate]. assert (x = d) by congruence. subst x.
  apply section_data_contents; exact H1.
Qed.

Lemma cstr16_bytes_text : forall t, Forall (fun c => 0 < c < 65536) t -> cstr16_bytes t = text16z t.
Proof.
  intros t F. unfold cstr16_bytes. induction F as [|c t Hc F IH]; [reflexivity|].
  cbn [app le16 flat_map text16z]. unfold le16 in *. cbn [flat_map app]. rewrite IH.
  reflexivity.
Qed.

(** ** The run that starts a kernel *)
Record boot_shape (fw : firmware) (sha : bytes -> bytes) (pm parse : bytes -> option pe) (image : bytes)
  (h' : list event) (r : res status unit) (before : list event) (img : bytes) (entry : N) : Type := {
  bs_p : pe; bs_kn : str; bs_in : str; bs_kernel : bytes; bs_initrd : bytes; bs_cmd : str;
  bs_cs : list companion; bs_sb : gres; bs_opts : bytes;
  bs_mes : list event; bs_mid : list event; bs_ces : list event; bs_cmds : list event;
  bs_st : option status; bs_freed : bool; bs_rest : list event;
  bs_parsed : pm image = Some bs_p;
  bs_linux : section_text image (pe_sections bs_p) (lit ".linux") bs_kn;
  bs_initrdt : section_text image (pe_sections bs_p) (lit ".initrd") bs_in;
  bs_cmdt : section_text image (pe_sections bs_p) (lit ".cmdline") bs_cmd;
  bs_linuxh : section_contents image (pe_sections bs_p) (lit ".linuxh") (sha bs_kernel);
  bs_initrdh : section_contents image (pe_sections bs_p) (lit ".initrdh") (sha bs_initrd);
  bs_load : image_load (fun _ => None) (parse bs_kernel) bs_kernel = Ok (img, entry);
  bs_before : before =
    [EvTpm (fw_tpm fw []); EvOpenImage None; EvFs true; EvRead bs_kn (Some bs_kernel);
     EvRead bs_in (Some bs_initrd); EvGet (lit "SecureBoot") global_vendor 1 bs_sb] ++
    bs_mes ++ bs_mid ++ bs_ces ++ bs_cmds ++
    [EvAlloc (bytes_to_pages (len img)) None;
     EvInstall PDevicePath device_path_protocol None;
     EvInstall PLoadFile2 (assemble_initrd bs_initrd (map co_cpio bs_cs)) None;
     EvOpenImage None; EvSetImage (Some img); EvSetOptions (Some bs_opts)];
  bs_prep : Forall preparatory (bs_mes ++ bs_mid ++ bs_ces ++ bs_cmds);
  bs_measured : tpm_present fw -> exists data,
    extends_of bs_mes = pcr11_log (pe_sections bs_p) data /\
    (forall n, In n canonical_sections -> (0 < occurrences (pe_sections bs_p) n)%nat ->
       measured_data image (pe_sections bs_p) bs_kernel bs_initrd n (data n));
  bs_companions : tpm_present fw -> extends_of bs_ces = flat_map companion_log bs_cs;
  bs_kinds : Forall measured_kind bs_cs;
  bs_quiet : extends_of bs_mid = [];
  bs_parts : exists creds exts, bs_cs = creds ++ exts /\ Forall pcr12_kind creds /\
    Forall (fun c => co_type c = SystemExtension) exts;
  bs_choice : cmdline_choice (text16z bs_cmd) bs_cmds bs_opts;
  bs_all : h' = before ++ EvStart img entry bs_st :: EvFree (bytes_to_pages (len img)) bs_freed :: bs_rest;
  bs_after : Forall not_start bs_rest;
  bs_result : r = Panic \/
    r = match bs_st with None => Ok tt | Some e => Err e end /\ bs_freed = true /\
    bs_rest = [EvSetImage None; EvSetOptions None; EvUninstall PDevicePath None; EvUninstall PLoadFile2 None];
  bs_block : exists t path h1 h2, companions_block fw t path h1 = (h2, Ok bs_cs)
}.

Lemma stub_started : forall fw sha pm parse image path h' r before img entry,
  stub_main fw sha pm parse image path [] = (h', r) -> started h' before img entry ->
  inhabited (boot_shape fw sha pm parse image h' r before img entry).
Proof.
  intros fw sha pm parse image path h' r before img entry H (st & after & Eh).
  destruct (stub_main_run _ _ _ _ _ _ _ _ _ H) as [(es & E & F & _)|[B]].
  { exfalso. cbn [app] in E. subst es. rewrite Eh in F. apply Forall_app in F. destruct F as [_ F].
    inversion F as [|? ? X _]. apply X. exact I. }
  destruct B as [k h2 h3 h4 h5 h6 cs c Ho Hl Hm Hmid Hc Hcmd Hb].
  destruct (load_from_pe_ok _ _ _ _ _ _ _ Hl) as (p & kn & inn & sb & Ep & E1 & E2 & E3 & E4 & E5 & Eh2).
  destruct Hmid as (mid & Eh4 & Fmid0).
  assert (Fmid : Forall preparatory mid) by (eapply Forall_impl; [|exact Fmid0]; intros x X; exact (proj1 X)).
  assert (Qmid : extends_of mid = []).
  { clear - Fmid0. induction Fmid0 as [|x l [_ X] _ IH]; [reflexivity|]. cbn [extends_of flat_map]. fold (extends_of l). rewrite IH.
    destruct x; try reflexivity. destruct X. }
  destruct (companions_block_run _ _ _ _ _ _ Hc) as (Parts & ces & Eh5 & Fces & Lces).
  assert (Kinds : Forall measured_kind cs).
  { destruct Parts as (x & y & -> & Fx & Fy). apply Forall_app. split.
    - eapply Forall_impl; [|exact Fx]. intros z [Z|Z]; [left; exact Z|right; left; exact Z].
    - eapply Forall_impl; [|exact Fy]. intros z Z. right; right. exact Z. }
  destruct (get_cmdline_run _ _ _ _ _ Hcmd) as (c' & cmds & Ec & Eh6 & Ch).
  assert (c' = c) by congruence. subst c'. clear Ec.
  assert (M0 : exists mes, h3 = h2 ++ mes /\ Forall preparatory mes /\
     (tpm_present fw -> exists data, extends_of mes = pcr11_log (pe_sections p) data /\
      (forall n, In n canonical_sections -> (0 < occurrences (pe_sections p) n)%nat ->
         measured_data image (pe_sections p) (k_kernel k) (k_initrd k) n (data n)))).
  { rewrite Ep in Hm. destruct (fw_tpm fw []) eqn:T.
    - destruct Hm as (x & Hm & Hx).
      destruct (prep_measure_image _ _ _ _ _ _ _ _ Hm) as (mes & -> & Fm). exists mes.
      split; [reflexivity|]. split; [exact Fm|]. intros Tp.
      destruct (measure_image_run _ _ _ _ _ _ _ _ Tp Hm Hx) as (es & log & sets & data & E & _ & X & Y & _).
      apply app_inv_head in E. subst es. exists data. split; [exact X|exact Y].
    - exists []. rewrite app_nil_r. split; [exact Hm|]. split; [constructor|]. intros Tp.
      specialize (Tp []). congruence. }
  destruct M0 as (mes & Eh3 & Fmes & Lmes).
  assert (Fcmds : Forall preparatory cmds).
  { destruct (prep_cmdline _ _ _ _ _ Hcmd) as (es & E & F). rewrite Eh6 in E. apply app_inv_head in E.
    subst es; exact F. }
  assert (Fp : Forall preparatory (mes ++ mid ++ ces ++ cmds)) by (rewrite !Forall_app; auto).
  destruct (boot_unchecked_run _ _ _ _ _ _ _ _ Hb) as (es & Eh' & D).
  subst h2 h3 h4 h5 h6.
  set (head := [EvTpm (fw_tpm fw []); EvOpenImage None; EvFs true; EvRead kn (Some (k_kernel k));
     EvRead inn (Some (k_initrd k)); EvGet (lit "SecureBoot") global_vendor 1 sb]).
  assert (Eh'2 : h' = (head ++ mes ++ mid ++ ces ++ cmds) ++ es).
  { rewrite Eh'. subst head. cbn [app]. rewrite <- !app_assoc. reflexivity. }
  clear Eh'.
  assert (Fns : Forall (fun y => ~ is_start y) (head ++ mes ++ mid ++ ces ++ cmds)).
  { apply Forall_app. split; [subst head; repeat constructor; intros []|].
    eapply Forall_impl; [|exact Fp]. intros e. apply prep_not_start. }
  rewrite Eh in Eh'2. symmetry in Eh'2.
  destruct (app_split_notin is_start _ _ _ _ _ Eh'2 Fns I) as (pre2 & Eb & Ees).
  destruct D as [D | (img' & entry' & st' & f & rest & IL & Etr & Frest & Res)].
  { exfalso. rewrite Ees in D. apply Forall_app in D. destruct D as [_ D]. inversion D as [|? ? X _]. apply X; exact I. }
  rewrite Ees in Etr. unfold boot_trace in Etr. cbn [app] in Etr.
  set (A := [EvAlloc (bytes_to_pages (len img')) None; EvInstall PDevicePath device_path_protocol None;
     EvInstall PLoadFile2 (assemble_initrd (k_initrd k) (map co_cpio cs)) None; EvOpenImage None;
     EvSetImage (Some img'); EvSetOptions (Some c)]).
  assert (Etr2 : A ++ EvStart img' entry' st' :: EvFree (bytes_to_pages (len img')) f :: rest
                 = pre2 ++ EvStart img entry st :: after) by (symmetry; exact Etr).
  clear Etr.
  assert (FA : Forall (fun y => ~ is_start y) A) by (subst A; repeat constructor; intros []).
  destruct (app_split_notin is_start _ _ _ _ _ Etr2 FA I) as (pre3 & Ep2 & Etr).
  assert (Fr : Forall not_start (EvFree (bytes_to_pages (len img')) f :: rest)).
  { constructor; [intros []|exact Frest]. }
  destruct pre3 as [|e0 pre3].
  2: { exfalso. cbn [app] in Etr. injection Etr as E0 Etr. rewrite Etr in Fr. apply Forall_app in Fr.
       destruct Fr as [_ Fr]. inversion Fr as [|? ? X _]. apply X; exact I. }
  cbn [app] in Etr. rewrite app_nil_r in Ep2. subst pre2.
  assert (EE : img' = img /\ entry' = entry /\ st' = st /\ after = EvFree (bytes_to_pages (len img')) f :: rest).
  { inversion Etr; auto. }
  destruct EE as (-> & -> & -> & ->). clear Etr Etr2.
  constructor. econstructor; try (apply extract_string_text; eassumption);
    try (apply extract_hash_contents; eassumption); try eassumption.
  - rewrite Eb. subst head A. rewrite <- !app_assoc. reflexivity.
  - intros Tp. apply Lces; auto.
  - rewrite <- cstr16_bytes_text; [exact Ch|].
    apply extract_string_text in E5. destruct E5 as (d & _ & _ & X). exact X.
  - eexists _, _, _, _. exact Hc.
Qed.

Lemma last_such_app : forall (P : event -> Prop) a e b, P e -> Forall (fun x => ~ P x) b -> last_such P (a ++ e :: b) e.
Proof. intros P a e b He Hb. split; [exact He|]. exists a, b. auto. Qed.

Lemma prep_reads : forall l, Forall preparatory l -> reads_of l = [].
Proof.
  induction 1 as [|e l He _ IH]; [reflexivity|]. cbn [reads_of flat_map]. fold (reads_of l). rewrite IH.
  destruct e; try reflexivity. destruct He.
Qed.
Lemma reads_app : forall a b, reads_of (a ++ b) = reads_of a ++ reads_of b.
Proof. intros; apply flat_map_app. Qed.

Lemma layout4_head : forall d ds x, layout4 (d :: ds) x -> exists rest, x = d ++ rest.
Proof.
  intros d ds x L. inversion L as [|? p ? rest (k & _ & E & _)]; subst.
  exists (repeat 0 k ++ rest). apply app_assoc_reverse.
Qed.

Lemma prep_none : forall (P : event -> Prop) l, (forall e, P e -> ~ preparatory e) ->
  Forall preparatory l -> Forall (fun x => ~ P x) l.
Proof. intros P l H F. eapply Forall_impl; [|exact F]. intros e He Pe. exact (H e Pe He). Qed.

Lemma log_entry : forall h p d s, In (p, d, s) (extends_of h) <-> exists r, In (EvExtend p d s r) h.
Proof.
  intros h p d s. unfold extends_of. rewrite in_flat_map. split.
  - intros (e & He & Hi). destruct e; try destruct Hi. 
    + inversion H; subst. eauto.
    + destruct H.
  - intros (x & Hx). eexists; split; [exact Hx|]. left; reflexivity.
Qed.

Definition good_extend (fw : firmware) (e : event) : Prop :=
  match e with EvExtend _ _ _ x => (forall h p d, fw_extend fw h p d = None) -> x = None | _ => True end.
Lemma nice_good_extend : forall fw, nice fw (good_extend fw).
Proof.
  intros fw. constructor.
  - intros [] H; try exact I; destruct H.
  - intros h p d s W. apply W.
  - intros; exact I.
  - intros; exact I.
Qed.

Lemma nth_error_ext_eq : forall {A} (l m : list A), (forall i, nth_error l i = nth_error m i) -> l = m.
Proof.
  intros A; induction l as [|x l IH]; intros [|y m] H; [reflexivity|discriminate (H 0%nat)|discriminate (H 0%nat)|].
  pose proof (H 0%nat) as H0. cbn in H0. injection H0 as ->. f_equal. apply IH. intros i. exact (H (S i)).
Qed.

Section Started.
  Variables (fw : firmware) (sha : bytes -> bytes) (pm parse : bytes -> option pe) (image : bytes) (path : option str).
  Variables (h' : list event) (r : res status unit) (before : list event) (img : bytes) (entry : N).
  Hypothesis HR : stub_main fw sha pm parse image path [] = (h', r).
  Hypothesis HS : started h' before img entry.

  Lemma started_verified : exists p kn kernel inn initrd rest,
    pm image = Some p /\
    section_text image (pe_sections p) (lit ".linux") kn /\
    section_text image (pe_sections p) (lit ".initrd") inn /\
    section_contents image (pe_sections p) (lit ".linuxh") (sha kernel) /\
    section_contents image (pe_sections p) (lit ".initrdh") (sha initrd) /\
    reads_of before = [(kn, Some kernel); (inn, Some initrd)] /\
    image_load (fun _ => None) (parse kernel) kernel = Ok (img, entry) /\
    last_such sets_image before (EvSetImage (Some img)) /\
    last_such serves_initrd before (EvInstall PLoadFile2 (initrd ++ rest) None).
  Proof.
    destruct (stub_started _ _ _ _ _ _ _ _ _ _ _ HR HS) as [[]].
    destruct (layout4_head _ _ _ (assemble_layout bs_initrd0 (map co_cpio bs_cs0))) as (rest & Er).
    rewrite Er in bs_before0.
    exists bs_p0, bs_kn0, bs_kernel0, bs_in0, bs_initrd0, rest.
    do 5 (split; [assumption|]).
    assert (Fp := bs_prep0). apply prep_reads in Fp. rewrite !reads_app in Fp.
    split; [|split; [assumption|split]]; rewrite bs_before0.
    - rewrite !reads_app. 
      rewrite (app_assoc (reads_of bs_ces0)), (app_assoc (reads_of bs_mid0)), (app_assoc (reads_of bs_mes0)), Fp. reflexivity.
    - match goal with |- last_such _ (?a ++ ?b ++ ?c ++ ?d ++ ?e ++ [?u; ?v; ?w; ?x; ?y; ?z]) _ =>
        replace (a ++ b ++ c ++ d ++ e ++ [u; v; w; x; y; z]) with ((a ++ b ++ c ++ d ++ e ++ [u; v; w; x]) ++ y :: [z])
          by (rewrite <- !app_assoc; reflexivity) end.
      apply last_such_app; [exact I|]. repeat constructor. intros [].
    - match goal with |- last_such _ (?a ++ ?b ++ ?c ++ ?d ++ ?e ++ [?u; ?v; ?w; ?x; ?y; ?z]) _ =>
        replace (a ++ b ++ c ++ d ++ e ++ [u; v; w; x; y; z]) with ((a ++ b ++ c ++ d ++ e ++ [u; v]) ++ w :: [x; y; z])
          by (rewrite <- !app_assoc; reflexivity) end.
      apply last_such_app; [exact I|]. repeat constructor; intros [].
  Qed.

  Lemma started_cmdline : exists p cmd chosen a b options,
    pm image = Some p /\
    section_text image (pe_sections p) (lit ".cmdline") cmd /\
    before = a ++ chosen ++ b /\
    cmdline_choice (text16z cmd) chosen options /\
    last_such sets_options before (EvSetOptions (Some options)).
  Proof.
    destruct (stub_started _ _ _ _ _ _ _ _ _ _ _ HR HS) as [[]].
    eexists bs_p0, bs_cmd0, bs_cmds0, _, _, bs_opts0.
    do 2 (split; [assumption|]). split; [|split; [assumption|]]; rewrite bs_before0.
    - match goal with |- ?a ++ ?b ++ ?c ++ ?d ++ ?e ++ ?z = _ =>
        transitivity ((a ++ b ++ c ++ d) ++ e ++ z); [rewrite <- !app_assoc; reflexivity | reflexivity] end.
    - match goal with |- last_such _ (?a ++ ?b ++ ?c ++ ?d ++ ?e ++ [?u; ?v; ?w; ?x; ?y; ?z]) _ =>
        replace (a ++ b ++ c ++ d ++ e ++ [u; v; w; x; y; z]) with ((a ++ b ++ c ++ d ++ e ++ [u; v; w; x; y]) ++ z :: [])
          by (rewrite <- !app_assoc; reflexivity) end.
      apply last_such_app; [exact I|]. constructor.
  Qed.

  (** Only one set of load options can be the last. *)
  Lemma last_such_unique : forall P h e1 e2, last_such P h e1 -> last_such P h e2 -> e1 = e2.
  Proof.
    intros P h e1 e2 (P1 & a1 & b1 & E1 & F1) (P2 & a2 & b2 & E2 & F2).
    rewrite E1 in E2. clear E1. revert a2 E2. induction a1 as [|x a1 IH]; intros [|y a2] E2; cbn [app] in E2.
    - congruence.
    - injection E2 as -> ->. exfalso. rewrite Forall_app in F1. destruct F1 as [_ F1].
      inversion F1; subst. contradiction.
    - injection E2 as -> E2. subst b2. exfalso. rewrite Forall_app in F2. destruct F2 as [_ F2].
      inversion F2; subst. contradiction.
    - injection E2 as _ E2. eauto.
  Qed.

  Lemma started_custom_cmdline : forall p cmd options,
    pm image = Some p -> section_text image (pe_sections p) (lit ".cmdline") cmd ->
    last_such sets_options before (EvSetOptions (Some options)) -> options <> text16z cmd ->
    (exists sb, In (EvGet (lit "SecureBoot") global_vendor 1 sb) before /\ (sb = GOk [0] \/ sb = GErr NOT_FOUND)) /\
    In (EvLoadOptions (Some options)) before /\
    (In (EvExtend 4 options (lit "Custom user provided kernel cmdline") None) before \/
     In (EvTpm false) before).
  Proof.
    intros p cmd options Ep Et Hl Hne.
    destruct started_cmdline as (p' & cmd' & ch & a & b & o' & Ep' & Et' & Eb & Ch & Hl').
    assert (p' = p) by congruence. subst p'.
    assert (EvSetOptions (Some o') = EvSetOptions (Some options)) as E by (eapply last_such_unique; eauto).
    injection E as ->.
    assert (cmd' = cmd).
    { destruct Et as (d1 & C1 & D1 & _), Et' as (d2 & C2 & D2 & _). assert (d1 = d2); [|congruence].
      clear D1 D2. destruct C1 as (b1 & s1 & a1 & E1 & N1 & H1 & L1 & R1 & Z1), C2 as (b2 & s2 & a2 & E2 & N2 & H2 & L2 & R2 & Z2).
      assert (s1 = s2).
      { rewrite E1 in E2. clear E1. revert b2 E2 H2. induction b1 as [|x b1 IH]; intros [|y b2] E2 H2; cbn [app] in E2.
        - congruence.
        - injection E2 as -> ->. exfalso. apply (H2 y); auto. left; auto.
        - injection E2 as -> E2. exfalso. apply (H1 s2); auto. left; auto.
        - injection E2 as _ E2. eapply IH; eauto.
          + intros s' Hs'. apply H1. right; auto.
          + intros s' Hs'. apply H2. right; auto. }
      subst s2. apply nth_error_ext_eq. intros i.
      destruct (Compare_dec.le_lt_dec (length d1) i) as [Hi|Hi].
      1: { rewrite (proj2 (nth_error_None d1 i)) by lia. rewrite (proj2 (nth_error_None d2 i)) by lia. reflexivity. }
      replace i with (N.to_nat (N.of_nat i)) by lia.
      destruct (N.lt_ge_cases (N.of_nat i) (s_rawsize s1)) as [Hr|Hr].
      - destruct (R1 (N.of_nat i)) as [-> _]; [lia|lia|]. destruct (R2 (N.of_nat i)) as [-> _]; [lia|lia|]. reflexivity.
      - rewrite Z1, Z2 by lia. reflexivity. }
    subst cmd'. rewrite Eb. destruct Ch as (sb & Ch). cbv zeta in Ch.
    assert (G : forall e, In e ch -> In e (a ++ ch ++ b)).
    { intros e He. apply in_or_app; right. apply in_or_app; left. exact He. }
    destruct Ch as [(_ & E & _)|[(_ & E & _)|[(_ & E & _)|(passed & Off & Hp & D)]]]; try contradiction.
    destruct D as [(-> & ->)|(x & Eo & ->)].
    - split; [exists sb; split; [apply G; cbn; auto|exact Off]|]. split; [apply G; cbn; auto|].
      right. apply G; cbn; auto.
    - destruct x; [contradiction|]. subst passed.
      split; [exists sb; split; [apply G; cbn; auto|exact Off]|]. split; [apply G; cbn; auto|].
      left. apply G; cbn; auto 10.
  Qed.

  Lemma started_measured : tpm_works fw -> exists p cs initrd kernel served,
    pm image = Some p /\
    image_load (fun _ => None) (parse kernel) kernel = Ok (img, entry) /\
    last_such serves_initrd before (EvInstall PLoadFile2 served None) /\
    layout4 (initrd :: map co_cpio cs) served /\
    In (EvExtend 11 kernel (lit ".linux") None) before /\
    In (EvExtend 11 initrd (lit ".initrd") None) before /\
    (forall n, In n canonical_sections -> (0 < occurrences (pe_sections p) n)%nat ->
       exists d, measured_data image (pe_sections p) kernel initrd n d /\
         In (EvExtend 11 (n ++ [0]) n None) before /\ In (EvExtend 11 d n None) before) /\
    (forall c, In c cs ->
       exists s, In (EvExtend (match co_type c with SystemExtension => 13 | _ => 12 end) (co_cpio c) s None) before).
  Proof.
    intros [Tp Tw].
    pose proof (nice_stub_main fw (good_extend fw) (nice_good_extend fw) (fun _ _ _ _ => I) sha pm parse image path
      _ _ _ HR) as (es & Ees & Fes). cbn [app] in Ees. subst es.
    destruct (stub_started _ _ _ _ _ _ _ _ _ _ _ HR HS) as [[]].
    assert (Lg : forall p d s, In (p, d, s) (extends_of before) -> In (EvExtend p d s None) before).
    { intros p d s Hi. apply log_entry in Hi. destruct Hi as (x & Hx).
      assert (X : good_extend fw (EvExtend p d s x)).
      { rewrite Forall_forall in Fes. apply Fes. rewrite bs_all0. apply in_or_app; left; exact Hx. }
      rewrite (X Tw) in Hx. exact Hx. }
    destruct (bs_measured0 Tp) as (data & Ld & Dd). specialize (bs_companions0 Tp).
    assert (L1 : forall x, In x (extends_of bs_mes0) -> In x (extends_of before)).
    { intros x Hx. rewrite bs_before0, !extends_app, !in_app_iff. tauto. }
    assert (L2 : forall x, In x (extends_of bs_ces0) -> In x (extends_of before)).
    { intros x Hx. rewrite bs_before0, !extends_app, !in_app_iff. tauto. }
    assert (Sec : forall n, In n canonical_sections -> (0 < occurrences (pe_sections bs_p0) n)%nat ->
       exists d, measured_data image (pe_sections bs_p0) bs_kernel0 bs_initrd0 n d /\
         In (EvExtend 11 (n ++ [0]) n None) before /\ In (EvExtend 11 d n None) before).
    { intros n Hn Ho. exists (data n). split; [auto|].
      assert (X : forall x, In x [(11, n ++ [0], n); (11, data n, n)] -> In x (extends_of before)).
      { intros x Hx. apply L1. rewrite Ld. unfold pcr11_log. apply in_flat_map. exists n. split; [exact Hn|].
        destruct (occurrences (pe_sections bs_p0) n); [lia|]. cbn [repeat concat]. apply in_or_app; left; exact Hx. }
      split; apply Lg; apply X; cbn; auto. }
    assert (Occ : forall n t, section_text image (pe_sections bs_p0) n t -> (0 < occurrences (pe_sections bs_p0) n)%nat).
    { intros n t (d & (b & s & a & E & Hs & _) & _). rewrite E. unfold occurrences. rewrite filter_app, app_length.
      cbn [filter]. rewrite Hs. destruct (str_dec n n); [cbn [length]; lia|congruence]. }
    exists bs_p0, bs_cs0, bs_initrd0, bs_kernel0, (assemble_initrd bs_initrd0 (map co_cpio bs_cs0)).
    do 2 (split; [assumption|]). split; [|split; [apply assemble_layout|split; [|split; [|split; [exact Sec|]]]]].
    - rewrite bs_before0.
      match goal with |- last_such _ (?a ++ ?b ++ ?c ++ ?d ++ ?e ++ [?u; ?v; ?w; ?x; ?y; ?z]) _ =>
        replace (a ++ b ++ c ++ d ++ e ++ [u; v; w; x; y; z]) with ((a ++ b ++ c ++ d ++ e ++ [u; v]) ++ w :: [x; y; z])
          by (rewrite <- !app_assoc; reflexivity) end.
      apply last_such_app; [exact I|]. repeat constructor; intros [].
    - destruct (Sec (lit ".linux")) as (d & Hd & _ & Hi); [cbn; auto|eapply Occ; eauto|].
      unfold measured_data in Hd. destruct (str_dec (lit ".linux") (lit ".linux")); [|congruence]. subst d. exact Hi.
    - destruct (Sec (lit ".initrd")) as (d & Hd & _ & Hi); [cbn; auto|eapply Occ; eauto|].
      unfold measured_data in Hd. destruct (str_dec (lit ".initrd") (lit ".linux")); [discriminate|].
      destruct (str_dec (lit ".initrd") (lit ".initrd")); [|congruence]. subst d. exact Hi.
    - intros c Hc. pose proof (proj1 (Forall_forall _ _) bs_kinds0 c Hc) as K. unfold measured_kind in K.
      assert (X : forall x, In x (companion_log c) -> In x (extends_of before)).
      { intros x Hx. apply L2. rewrite bs_companions0. apply in_flat_map. eauto. }
      unfold companion_log in X.
      destruct K as [K|[K|K]]; rewrite K in X |- *; eexists; apply Lg; apply X; left; reflexivity.
  Qed.

  Lemma started_initrd : exists p cs initrd,
    pm image = Some p /\ section_contents image (pe_sections p) (lit ".initrdh") (sha initrd) /\
    exists served, last_such serves_initrd before (EvInstall PLoadFile2 served None) /\
      layout4 (initrd :: map co_cpio cs) served /\ Forall measured_kind cs.
  Proof.
    destruct (stub_started _ _ _ _ _ _ _ _ _ _ _ HR HS) as [[]].
    exists bs_p0, bs_cs0, bs_initrd0. do 2 (split; [assumption|]).
    exists (assemble_initrd bs_initrd0 (map co_cpio bs_cs0)). split; [|split; [apply assemble_layout|assumption]].
    rewrite bs_before0.
      match goal with |- last_such _ (?a ++ ?b ++ ?c ++ ?d ++ ?e ++ [?u; ?v; ?w; ?x; ?y; ?z]) _ =>
        replace (a ++ b ++ c ++ d ++ e ++ [u; v; w; x; y; z]) with ((a ++ b ++ c ++ d ++ e ++ [u; v]) ++ w :: [x; y; z])
          by (rewrite <- !app_assoc; reflexivity) end.
      apply last_such_app; [exact I|]. repeat constructor; intros [].
  Qed.

End Started.

(** ** After the kernel returns *)
Lemma started_freed : forall fw sha pm parse image path h' r before img entry,
  stub_main fw sha pm parse image path [] = (h', r) -> started h' before img entry ->
  N.of_nat (length img) < 2 ^ 64 ->
  exists st n freed after,
    h' = before ++ EvStart img entry st :: EvFree n freed :: after /\
    least_pages (N.of_nat (length img)) n /\
    last_such allocates before (EvAlloc n None) /\
    length (filter (fun e => match e with EvAlloc _ _ => true | _ => false end) before) = 1%nat /\
    Forall (fun e => ~ is_start e) after.
Proof.
  intros fw sha pm parse image path h' r before img entry HR HS HL.
  destruct (stub_started _ _ _ _ _ _ _ _ _ _ _ HR HS) as [[]].
  exists bs_st0, (bytes_to_pages (len img)), bs_freed0, bs_rest0.
  split; [exact bs_all0|]. split; [apply bytes_to_pages_least; exact HL|].
  split; [|split; [|exact bs_after0]].
  - rewrite bs_before0.
    match goal with |- last_such _ (?a ++ ?b ++ ?c ++ ?d ++ ?e ++ [?u; ?v; ?w; ?x; ?y; ?z]) _ =>
        replace (a ++ b ++ c ++ d ++ e ++ [u; v; w; x; y; z]) with ((a ++ b ++ c ++ d ++ e) ++ u :: [v; w; x; y; z])
          by (rewrite <- !app_assoc; reflexivity) end.
    apply last_such_app; [exact I|]. repeat constructor; intros [].
  - assert (NA : forall l, Forall preparatory l ->
      filter (fun e => match e with EvAlloc _ _ => true | _ => false end) l = []).
    { induction 1 as [|e l He _ IH]; [reflexivity|]. cbn [filter]. rewrite IH. destruct e; try reflexivity; destruct He. }
    rewrite bs_before0.
    match goal with |- context[?a ++ ?b ++ ?c ++ ?d ++ ?e ++ [?u; ?v; ?w; ?x; ?y; ?z]] =>
        replace (a ++ b ++ c ++ d ++ e ++ [u; v; w; x; y; z]) with (a ++ (b ++ c ++ d ++ e) ++ [u; v; w; x; y; z])
          by (rewrite <- !app_assoc; reflexivity) end.
    rewrite filter_app. rewrite (filter_app _ (bs_mes0 ++ _)). rewrite (NA _ bs_prep0). reflexivity.
Qed.

Lemma started_restored : forall fw sha pm parse image path h' r before img entry,
  stub_main fw sha pm parse image path [] = (h', r) -> started h' before img entry ->
  r = Panic \/
  exists st n, r = match st with None => Ok tt | Some e => Err e end /\
    h' = before ++ [EvStart img entry st; EvFree n true; EvSetImage None; EvSetOptions None;
                    EvUninstall PDevicePath None; EvUninstall PLoadFile2 None].
Proof.
  intros fw sha pm parse image path h' r before img entry HR HS.
  destruct (stub_started _ _ _ _ _ _ _ _ _ _ _ HR HS) as [[]].
  destruct bs_result0 as [->|(-> & -> & ->)]; [left; reflexivity|]. right. eauto.
Qed.

(** ** Variables written by the whole stub *)
Definition not_loader_set (e : event) : Prop :=
  match e with EvSet n _ _ _ _ => ~ In n loader_variables | _ => True end.
Lemma nice_not_loader : forall fw, nice fw not_loader_set.
Proof.
  intros fw. constructor.
  - intros [] H; try exact I; destruct H.
  - intros; exact I.
  - intros n d r H. cbn [not_loader_set]. apply not_loader.
    cbn [In stub_sets] in H. repeat (destruct H as [H|H]; [injection H as <- _; reflexivity|]). destruct H.
  - intros; exact I.
Qed.

Lemma guarded_not_loader : forall es, Forall not_loader_set es -> guarded es.
Proof.
  intros es F pre n a d r post E Hn. exfalso. subst es. apply Forall_app in F. destruct F as [_ F].
  inversion F as [|? ? X _]. exact (X Hn).
Qed.
Lemma guardedM_not_loader : forall {A} (m : M A), emits not_loader_set m -> guardedM m.
Proof.
  intros A m Hm h h' r H. destruct (Hm _ _ _ H) as (es & -> & F). exists es. split; auto using guarded_not_loader.
Qed.
Lemma keeps_not_loader : forall st n d {A} (m : M A), In n loader_variables -> emits not_loader_set m -> keeps st n d m.
Proof.
  intros st n d A m Hn Hm h h' r H K. destruct (Hm _ _ _ H) as (es & -> & F). clear H.
  rewrite store_after_app. revert K. generalize (store_after st h). clear h.
  induction F as [|e es He F IH]; intros s K; [exact K|]. cbn [store_after fold_left]. apply IH.
  destruct e; try exact K. cbn [not_loader_set] in He. rewrite store_set_other; [exact K|congruence].
Qed.

Lemma stub_main_pieces : forall fw,
  emits not_loader_set (tpm_available fw) /\
  (forall sha image p, emits not_loader_set (load_from_pe fw sha image p)) /\
  (forall image p k i, emits not_loader_set (measure_image fw image p k i)) /\
  emits not_loader_set (get_loader_features fw) /\
  (forall t p, emits not_loader_set (companions_block fw t p)) /\
  (forall parse k ds, emits not_loader_set (boot_linux fw parse k ds)).
Proof.
  intros fw. pose proof (nice_not_loader fw) as N. repeat split; intros.
  - unfold tpm_available, open_capable_tpm2. emitsM; exact I.
  - apply nice_load_from_pe; auto.
  - apply nice_measure_image; auto.
  - apply nice_features; auto.
  - apply nice_companions_block; auto.
  - apply nice_boot_linux; auto.
Qed.

Lemma guardedM_stub_main : forall fw sha pm parse image path,
  guardedM (stub_main fw sha pm parse image path).
Proof.
  intros. destruct (stub_main_pieces fw) as (P1 & P2 & P3 & P4 & P5 & P6). unfold stub_main.
  apply guardedM_bind; [apply guardedM_not_loader, P1|intros t].
  apply guardedM_bind; [apply guardedM_no_set; emitsM; intros h []|intros o].
  apply guardedM_bind; [apply guardedM_no_set; destruct o; emitsM|intros _].
  apply guardedM_bind; [apply guardedM_expect, guardedM_not_loader, P2|intros k].
  apply guardedM_bind; [destruct t; [apply guardedM_bind; [apply guardedM_attempt, guardedM_not_loader, P3|intros; apply guardedM_no_set; emitsM]|apply guardedM_no_set; emitsM]|intros _].
  apply guardedM_bind; [apply guardedM_attempt, guardedM_not_loader, P4|intros _].
  apply guardedM_bind; [apply guardedM_attempt, guardedM_export|intros _].
  apply guardedM_bind; [apply guardedM_not_loader, P5|intros cs].
  apply guardedM_not_loader, P6.
Qed.

Lemma keeps_stub_main : forall st n d fw sha pm parse image path,
  answers_from st fw -> In n loader_variables -> keeps st n d (stub_main fw sha pm parse image path).
Proof.
  intros st n d fw sha pm parse image path HA Hn. destruct (stub_main_pieces fw) as (P1 & P2 & P3 & P4 & P5 & P6). unfold stub_main.
  apply keeps_bind; [apply keeps_not_loader; auto|intros t].
  apply keeps_bind; [apply keeps_no_set; emitsM; intros h []|intros o].
  apply keeps_bind; [apply keeps_no_set; destruct o; emitsM|intros _].
  apply keeps_bind; [apply keeps_expect, keeps_not_loader; auto|intros k].
  apply keeps_bind; [destruct t; [apply keeps_bind; [apply keeps_attempt, keeps_not_loader; auto|intros; apply keeps_no_set; emitsM]|apply keeps_no_set; emitsM]|intros _].
  apply keeps_bind; [apply keeps_attempt, keeps_not_loader; auto|intros _].
  apply keeps_bind; [apply keeps_attempt, keeps_export; auto|intros _].
  apply keeps_bind; [apply keeps_not_loader; auto|intros cs].
  apply keeps_not_loader; auto.
Qed.

(** The PCR variables. *)
Lemma stub_pcr_values : forall fw sha pm parse image path h' r,
  stub_main fw sha pm parse image path [] = (h', r) -> Forall pcr_variable_value h'.
Proof.
  intros fw sha pm parse image path h' r H.
  assert (N : nice fw pcr_variable_value).
  { constructor.
    - intros [] X; try exact I; destruct X.
    - intros; exact I.
    - intros n d x X. cbn [In stub_sets] in X.
      repeat (destruct X as [X|X]; [apply pair_equal_spec in X; destruct X as [<- <-];
        cbn [pcr_variable_value]; repeat split; intros E; try reflexivity; exfalso; revert E; vm_compute; discriminate|]).
      destruct X.
    - intros; exact I. }
  destruct (nice_stub_main fw _ N) with (sha := sha) (pm := pm) (parse := parse) (image := image) (path := path) (h := @nil event) (h' := h') (r := r)
    as (es & -> & F); [|exact H|exact F].
  intros n d x X. cbn [In loader_variables] in X.
  repeat (destruct X as [X|X]; [subst n; cbn [pcr_variable_value]; repeat split; intros E; exfalso; revert E; vm_compute; discriminate|]).
  destruct X.
Qed.

(** All variables written, and how. *)
Lemma stub_writes : forall fw sha pm parse image path h' r,
  stub_main fw sha pm parse image path [] = (h', r) -> Forall stub_write h'.
Proof.
  intros fw sha pm parse image path h' r H.
  assert (N : nice fw stub_write).
  { constructor.
    - intros [] X; try exact I; destruct X.
    - intros; exact I.
    - intros n d x X. cbn [stub_write]. repeat split. apply in_or_app; right.
      apply (in_map fst) in X. exact X.
    - intros; exact I. }
  destruct (nice_stub_main fw _ N) with (sha := sha) (pm := pm) (parse := parse) (image := image) (path := path) (h := @nil event) (h' := h') (r := r)
    as (es & -> & F); [|exact H|exact F].
  intros n d x X. cbn [stub_write]. repeat split. apply in_or_app; left; exact X.
Qed.

(** ** C31: the order of sections does not matter *)
Lemma section_contents_unique : forall image secs n d1 d2,
  section_contents image secs n d1 -> section_contents image secs n d2 -> d1 = d2.
Proof.
  intros image secs n d1 d2 C1 C2.
  destruct C1 as (b1 & s1 & a1 & E1 & N1 & H1 & L1 & R1 & Z1), C2 as (b2 & s2 & a2 & E2 & N2 & H2 & L2 & R2 & Z2).
  assert (s1 = s2).
  { rewrite E1 in E2. clear E1. revert b2 E2 H2. induction b1 as [|x b1 IH]; intros [|y b2] E2 H2; cbn [app] in E2.
    - congruence.
    - injection E2 as -> ->. exfalso. apply (H2 y); auto. left; auto.
    - injection E2 as -> E2. exfalso. apply (H1 s2); auto. left; auto.
    - injection E2 as _ E2. eapply IH; eauto.
      + intros s' Hs'. apply H1. right; auto.
      + intros s' Hs'. apply H2. right; auto. }
  subst s2. apply nth_error_ext_eq. intros i.
  destruct (Compare_dec.le_lt_dec (length d1) i) as [Hi|Hi].
  1: { rewrite (proj2 (nth_error_None d1 i)) by lia. rewrite (proj2 (nth_error_None d2 i)) by lia. reflexivity. }
  replace i with (N.to_nat (N.of_nat i)) by lia.
  destruct (N.lt_ge_cases (N.of_nat i) (s_rawsize s1)) as [Hr|Hr].
  - destruct (R1 (N.of_nat i)) as [-> _]; [lia|lia|]. destruct (R2 (N.of_nat i)) as [-> _]; [lia|lia|]. reflexivity.
  - rewrite Z1, Z2 by lia. reflexivity.
Qed.


Lemma section_contents_perm : forall image secs secs' n d,
  NoDup secs -> Permutation secs secs' -> distinct_names secs ->
  section_contents image secs n d -> section_contents image secs' n d.
Proof.
  intros image secs secs' n d ND P D (b & s & a & E & Hn & Hb & Rest).
  assert (Hs : In s secs') by (apply (Permutation_in _ P); rewrite E; apply in_or_app; right; left; auto).
  apply in_split in Hs. destruct Hs as (b' & a' & E'). exists b', s, a'. split; [exact E'|]. split; [exact Hn|].
  split; [|exact Rest]. intros s' Hs' N'.
  assert (s' = s).
  { apply D; [| |congruence|congruence]; apply (Permutation_in _ (Permutation_sym P)); rewrite E'; apply in_or_app;
      [left; auto|right; left; auto]. }
  subst s'. apply (Permutation_NoDup P) in ND. rewrite E' in ND. apply NoDup_remove_2 in ND. apply ND.
  apply in_or_app; left; exact Hs'.
Qed.

Lemma occurrences_perm : forall secs secs' n, Permutation secs secs' -> occurrences secs n = occurrences secs' n.
Proof.
  intros secs secs' n P. unfold occurrences.
  match goal with |- length (filter ?f _) = _ => generalize f; intros g end.
  induction P; cbn [filter].
  - reflexivity.
  - destruct (g x); cbn [length]; congruence.
  - destruct (g x), (g y); reflexivity.
  - congruence.
Qed.

Lemma measure_order_independent : forall fw fw' image p p' kernel initrd h1 h1' h2 h2' r1 r2 es1 es2,
  tpm_present fw -> tpm_present fw' ->
  NoDup (pe_sections p) -> distinct_names (pe_sections p) -> Permutation (pe_sections p) (pe_sections p') ->
  measure_image fw image (Some p) kernel initrd h1 = (h1', r1) -> r1 <> Panic -> h1' = h1 ++ es1 ->
  measure_image fw' image (Some p') kernel initrd h2 = (h2', r2) -> r2 <> Panic -> h2' = h2 ++ es2 ->
  extends_of es1 = extends_of es2.
Proof.
  intros fw fw' image p p' kernel initrd h1 h1' h2 h2' r1 r2 es1 es2 T T' ND D P H1 R1 E1 H2 R2 E2.
  destruct (measure_image_run _ _ _ _ _ _ _ _ T H1 R1) as (x1 & _ & _ & data1 & X1 & _ & L1 & D1 & _).
  destruct (measure_image_run _ _ _ _ _ _ _ _ T' H2 R2) as (x2 & _ & _ & data2 & X2 & _ & L2 & D2 & _).
  assert (x1 = es1) by (subst h1'; apply app_inv_head in X1; auto).
  assert (x2 = es2) by (subst h2'; apply app_inv_head in X2; auto). subst x1 x2.
  rewrite L1, L2. unfold pcr11_log.
  assert (G : forall l, (forall n, In n l -> In n canonical_sections) ->
    flat_map (fun n => concat (repeat [(11, n ++ [0], n); (11, data1 n, n)] (occurrences (pe_sections p) n))) l =
    flat_map (fun n => concat (repeat [(11, n ++ [0], n); (11, data2 n, n)] (occurrences (pe_sections p') n))) l).
  { induction l as [|n l IH]; intros Hl; [reflexivity|]. cbn [flat_map]. rewrite IH by (intros; apply Hl; right; auto).
    f_equal. rewrite <- (occurrences_perm _ _ n P).
    destruct (occurrences (pe_sections p) n) eqn:O; [reflexivity|].
    replace (data2 n) with (data1 n); [reflexivity|].
    assert (M1 : measured_data image (pe_sections p) kernel initrd n (data1 n)) by (apply D1; [apply Hl; left; auto|lia]).
    assert (M2 : measured_data image (pe_sections p') kernel initrd n (data2 n)).
    { apply D2; [apply Hl; left; auto|]. rewrite <- (occurrences_perm _ _ n P). lia. }
    unfold measured_data in M1, M2.
    destruct (str_dec n (lit ".linux")); [congruence|]. destruct (str_dec n (lit ".initrd")); [congruence|].
    eapply section_contents_unique; [|exact M2]. eapply section_contents_perm; eauto. }
  apply G. auto.
Qed.

Lemma boot_unchecked_ok : forall fw parse kernel cmdline initrd h h' a,
  boot_linux_unchecked fw parse kernel cmdline initrd h = (h', Ok a) ->
  exists pre img entry st post, h' = pre ++ EvStart img entry st :: post.
Proof.
  intros fw parse kernel cmdline initrd h h' a H. unfold boot_linux_unchecked in H.
  stepM H; [|discriminate|discriminate]. clear S. rename a0 into k.
  stepM H; [|discriminate|discriminate]. clear S.
  stepM H; [|discriminate|discriminate]. rename a0 into u.
  assert (X : exists pre img entry st post, h2 = pre ++ EvStart img entry st :: post).
  { destruct (start_kernel_run _ _ _ _ _ _ _ S) as (es & -> & [(_ & D)|(st & f & -> & _)]); [discriminate|].
    eexists (_ ++ [_; _; _]), _, _, _, _. rewrite <- app_assoc. cbn [app]. reflexivity. }
  stepM H; [|discriminate|discriminate].
  assert (Y : exists es, h' = h2 ++ es).
  { destruct (uninstall_run _ _ _ _ S0) as (es & -> & _). exists es.
    destruct a1; [discriminate|]. apply ret_inv in H. tauto. }
  destruct Y as (es & ->), X as (pre & img & entry & st & post & ->).
  eexists pre, img, entry, st, _. rewrite <- app_assoc. cbn [app]. reflexivity.
Qed.

Lemma layout4_length : forall ds x, layout4 ds x -> (exists q, length x = 4 * q)%nat.
Proof.
  induction 1 as [|d p ds rest (k & _ & _ & (q & Hq)) L (q' & IH)]; [exists 0%nat; reflexivity|].
  exists (q + q')%nat. rewrite app_length. lia.
Qed.
Lemma layout4_split : forall before d after x,
  layout4 (before ++ d :: after) x ->
  exists a z rest, x = a ++ d ++ z ++ rest /\ layout4 before a /\ layout4 after rest /\
    (exists q, length a = 4 * q)%nat /\ (length z < 4)%nat /\ Forall (eq 0) z.
Proof.
  induction before as [|b before IH]; intros d after x L; cbn [app] in L; inversion L as [|? p ? rest Hp L']; subst.
  - destruct Hp as (k & Hk & -> & _). exists [], (repeat 0 k), rest.
    split; [cbn [app]; rewrite <- app_assoc; reflexivity|]. split; [constructor|]. split; [exact L'|].
    split; [exists 0%nat; reflexivity|]. rewrite repeat_length. split; [exact Hk|].
    clear. induction k; constructor; auto.
  - destruct (IH _ _ _ L') as (a & z & r & -> & La & Lr & _ & Hz & Fz).
    assert (L2 : layout4 (b :: before) (p ++ a)) by (constructor; auto).
    exists (p ++ a), z, r. rewrite <- app_assoc. pose proof (layout4_length _ _ L2). repeat (split; [auto|]). auto.
Qed.
