(** Proofs for C68. *)
From Coq Require Import List NArith Bool Lia.
From Verif Require Import Base PBase MText MPe SPe MCpio MFirmware MStub PMonad SFirmware SStub SPcr PFirmware PNames PStub PStubRun.
Import ListNotations.
Open Scope N_scope.

(** ** Chains of hashes *)
Lemma hashed_app : forall H ds v ds', hashed H v (ds ++ ds') = hashed H v ds ++ hashed H (fold_left (extend H) ds v) ds'.
Proof. induction ds as [|d ds IH]; intros v ds'; [reflexivity|]. cbn. rewrite IH. reflexivity. Qed.

Lemma chain_length : forall H v ds, (forall x, length (H x) = length v) -> length (fold_left (extend H) ds v) = length v.
Proof.
  intros H v ds L. destruct ds as [|d ds] using rev_ind; [reflexivity|]. rewrite fold_left_app. cbn. apply L.
Qed.

Lemma chain_inj : forall H v (S : bytes -> Prop),
  (forall x, length (H x) = length v) -> (forall x y, S x -> S y -> H x = H y -> x = y) -> (forall x, S x -> H x <> v) ->
  forall ds ds', (forall x, In x (hashed H v ds) -> S x) -> (forall x, In x (hashed H v ds') -> S x) ->
  fold_left (extend H) ds v = fold_left (extend H) ds' v -> ds = ds'.
Proof.
  intros H v S L C Z ds. induction ds as [|d ds IH] using rev_ind; intros ds' I1 I2 E.
  - destruct ds' as [|d' ds' _] using rev_ind; [reflexivity|]. exfalso. rewrite fold_left_app in E. cbn in E.
    eapply Z; [|symmetry; exact E]. apply I2. rewrite hashed_app. apply in_or_app. right; right; left; reflexivity.
  - destruct ds' as [|d' ds' _] using rev_ind.
    + exfalso. rewrite fold_left_app in E. cbn in E.
      eapply Z; [|exact E]. apply I1. rewrite hashed_app. apply in_or_app. right; right; left; reflexivity.
    + rewrite hashed_app in I1, I2. rewrite !fold_left_app in E. cbn [fold_left] in E. unfold extend at 1 3 in E.
      apply C in E; [|apply I1, in_or_app; right; right; left; reflexivity|apply I2, in_or_app; right; right; left; reflexivity].
      apply app_eq_length in E; [|rewrite !chain_length by exact L; reflexivity].
      destruct E as [E1 E2].
      assert (d = d').
      { apply C; [apply I1, in_or_app; right; left; reflexivity|apply I2, in_or_app; right; left; reflexivity|exact E2]. }
      subst d'. f_equal. apply IH; [| |exact E1]; intros x X; [apply I1|apply I2]; apply in_or_app; left; exact X.
Qed.

Lemma same_pcr_data : forall H init p h h', same_pcr H init p h h' -> measured_into p h = measured_into p h'.
Proof.
  intros H init p h h' ((L & C & Z) & E). unfold pcr_value in E.
  eapply (chain_inj H (init p) (fun x => In x (hashed H (init p) (measured_into p h) ++ hashed H (init p) (measured_into p h'))));
    eauto; intros x X; apply in_or_app; auto.
Qed.

(** ** The logs of a run *)
Definition of_pcr (p : N) (l : list (N * bytes * str)) : list bytes :=
  flat_map (fun x => if fst (fst x) =? p then [snd (fst x)] else []) l.
Lemma of_pcr_app : forall p a b, of_pcr p (a ++ b) = of_pcr p a ++ of_pcr p b.
Proof. intros. apply flat_map_app. Qed.

Lemma measured_all : forall p h, Forall (fun e => match e with EvExtend _ _ _ x => x = None | _ => True end) h ->
  measured_into p h = of_pcr p (extends_of h).
Proof.
  induction 1 as [|e h He _ IH]; [reflexivity|]. unfold measured_into in *. cbn [flat_map]. rewrite IH.
  destruct e; try reflexivity. cbn [extends_of flat_map]. subst. rewrite of_pcr_app. f_equal. cbn. rewrite app_nil_r. reflexivity.
Qed.

(** Pairs of name and data, flattened. *)
Definition pairs_log (l : list (str * bytes)) : list bytes := flat_map (fun x => [fst x ++ [0]; snd x]) l.
Lemma pairs_inj : forall l l', pairs_log l = pairs_log l' -> l = l'.
Proof.
  induction l as [|[n d] l IH]; intros [|[n' d'] l'] E; try discriminate; [reflexivity|].
  cbn in E. injection E as E1 E2 E3. apply app_inj_tail in E1. destruct E1 as [-> _]. subst d'. f_equal. auto.
Qed.

Definition sections_list (secs : list section) (data : str -> bytes) (names : list str) : list (str * bytes) :=
  flat_map (fun n => repeat (n, data n) (occurrences secs n)) names.

Lemma of_pcr11 : forall secs data, of_pcr 11 (pcr11_log secs data) = pairs_log (sections_list secs data canonical_sections).
Proof.
  intros secs data. unfold pcr11_log, sections_list. induction canonical_sections as [|n l IH]; [reflexivity|].
  cbn [flat_map]. rewrite of_pcr_app, IH. unfold pairs_log at 2. rewrite flat_map_app. f_equal.
  induction (occurrences secs n) as [|k IHk]; [reflexivity|]. cbn [repeat concat flat_map]. rewrite of_pcr_app, IHk. reflexivity.
Qed.
Lemma of_pcr_not11 : forall p secs data, p <> 11 -> of_pcr p (pcr11_log secs data) = [].
Proof.
  intros p secs data Hp. unfold pcr11_log. apply N.neq_sym, N.eqb_neq in Hp.
  induction canonical_sections as [|n l IH]; [reflexivity|]. cbn [flat_map]. rewrite of_pcr_app, IH, app_nil_r.
  induction (occurrences secs n) as [|k IHk]; [reflexivity|]. cbn [repeat concat]. rewrite of_pcr_app, IHk.
  unfold of_pcr. cbn [flat_map fst snd]. rewrite Hp. reflexivity.
Qed.

Lemma list_filter : forall secs data names n, NoDup names -> In n names ->
  filter (fun x => if str_dec (fst x) n then true else false) (sections_list secs data names) =
    repeat (n, data n) (occurrences secs n).
Proof.
  intros secs data names n ND. 
  assert (R0 : forall m k, m <> n -> filter (fun x => if str_dec (fst x) n then true else false) (repeat (m, data m) k) = []).
  { intros m k Hm. induction k as [|k IH]; [reflexivity|]. cbn [repeat filter fst]. destruct (str_dec m n); [congruence|exact IH]. }
  assert (R1 : forall k, filter (fun x => if str_dec (fst x) n then true else false) (repeat (n, data n) k) = repeat (n, data n) k).
  { induction k as [|k IH]; [reflexivity|]. cbn [repeat filter fst]. destruct (str_dec n n); [f_equal; exact IH|congruence]. }
  assert (R2 : forall l, ~ In n l -> filter (fun x => if str_dec (fst x) n then true else false) (sections_list secs data l) = []).
  { induction l as [|m l IH]; intros Hl; [reflexivity|]. unfold sections_list in *. cbn [flat_map]. rewrite filter_app, R0, IH; [reflexivity| |].
    - intros X. apply Hl. right; exact X.
    - intros ->. apply Hl. left; reflexivity. }
  induction ND as [|m l Hm ND IH]; intros Hn; [destruct Hn|]. unfold sections_list. cbn [flat_map]. rewrite filter_app.
  destruct (str_dec m n) as [->|D].
  - rewrite R1. fold (sections_list secs data l). rewrite R2 by exact Hm. apply app_nil_r.
  - rewrite (R0 _ _ D). apply IH. destruct Hn as [Hn|Hn]; [congruence|exact Hn].
Qed.

Lemma canonical_nodup : NoDup canonical_sections.
Proof.
  unfold canonical_sections. repeat (constructor; [intros X; cbn in X; repeat (destruct X as [X|X]; [discriminate X|]); exact X|]).
  constructor.
Qed.

Lemma list_same : forall secs secs' data data',
  sections_list secs data canonical_sections = sections_list secs' data' canonical_sections ->
  forall n, In n canonical_sections ->
    occurrences secs n = occurrences secs' n /\ ((0 < occurrences secs n)%nat -> data n = data' n).
Proof.
  intros secs secs' data data' E n Hn.
  pose proof (list_filter secs data _ n canonical_nodup Hn) as A. pose proof (list_filter secs' data' _ n canonical_nodup Hn) as B.
  rewrite E, B in A.
  assert (L : occurrences secs n = occurrences secs' n).
  { rewrite <- (repeat_length (n, data n) (occurrences secs n)), <- A. apply repeat_length. }
  split; [exact L|]. intros Pos. rewrite <- L in A. destruct (occurrences secs n) as [|k]; [lia|]. cbn in A. congruence.
Qed.

Lemma companions_log : forall creds exts, Forall pcr12_kind creds -> Forall (fun c => co_type c = SystemExtension) exts ->
  of_pcr 12 (flat_map companion_log (creds ++ exts)) = map co_cpio creds /\
  of_pcr 13 (flat_map companion_log (creds ++ exts)) = map co_cpio exts /\
  of_pcr 11 (flat_map companion_log (creds ++ exts)) = [] /\ of_pcr 4 (flat_map companion_log (creds ++ exts)) = [].
Proof.
  intros creds exts Fc Fe. rewrite flat_map_app. rewrite !of_pcr_app.
  assert (A : of_pcr 12 (flat_map companion_log creds) = map co_cpio creds /\ of_pcr 13 (flat_map companion_log creds) = [] /\
              of_pcr 11 (flat_map companion_log creds) = [] /\ of_pcr 4 (flat_map companion_log creds) = []).
  { induction Fc as [|[t b] l K _ (I1 & I2 & I3 & I4)]; [repeat split|]. cbn [flat_map]. rewrite !of_pcr_app, I1, I2, I3, I4.
    destruct K as [K|K]; cbn in K; subst t; repeat split. }
  assert (B : of_pcr 12 (flat_map companion_log exts) = [] /\ of_pcr 13 (flat_map companion_log exts) = map co_cpio exts /\
              of_pcr 11 (flat_map companion_log exts) = [] /\ of_pcr 4 (flat_map companion_log exts) = []).
  { induction Fe as [|[t b] l K _ (I1 & I2 & I3 & I4)]; [repeat split|]. cbn [flat_map]. rewrite !of_pcr_app, I1, I2, I3, I4.
    cbn in K; subst t; repeat split. }
  destruct A as (-> & -> & -> & ->), B as (-> & -> & -> & ->). rewrite !app_nil_r. repeat split.
Qed.

(** What a run that starts a kernel measures. *)
Definition good_tpm (fw : firmware) (e : event) : Prop :=
  match e with
  | EvExtend _ _ _ x => (forall h p d, fw_extend fw h p d = None) -> x = None
  | EvTpm x => tpm_present fw -> x = true
  | _ => True
  end.
Lemma nice_good_tpm : forall fw, nice fw (good_tpm fw).
Proof.
  intros fw. constructor.
  - intros [] H; try exact I; destruct H.
  - intros h p d s W. apply W.
  - intros; exact I.
  - intros h W. apply W.
Qed.

Lemma started_logs : forall fw sha pm parse image path h' r before img entry,
  stub_main fw sha pm parse image path [] = (h', r) -> started h' before img entry -> tpm_works fw ->
  exists p kn inn cmd kernel initrd creds exts options data,
    pm image = Some p /\ image_load (fun _ => None) (parse kernel) kernel = Ok (img, entry) /\
    last_such serves_initrd before (EvInstall PLoadFile2 (assemble_initrd initrd (map co_cpio creds ++ map co_cpio exts)) None) /\
    last_such sets_options before (EvSetOptions (Some options)) /\
    section_text image (pe_sections p) (lit ".linux") kn /\ section_text image (pe_sections p) (lit ".initrd") inn /\
    section_text image (pe_sections p) (lit ".cmdline") cmd /\
    section_contents image (pe_sections p) (lit ".linuxh") (sha kernel) /\
    section_contents image (pe_sections p) (lit ".initrdh") (sha initrd) /\
    In (EvRead kn (Some kernel)) before /\ In (EvRead inn (Some initrd)) before /\
    (forall n, In n canonical_sections -> (0 < occurrences (pe_sections p) n)%nat ->
       measured_data image (pe_sections p) kernel initrd n (data n)) /\
    measured_into 11 before = pairs_log (sections_list (pe_sections p) data canonical_sections) /\
    measured_into 12 before = map co_cpio creds /\ measured_into 13 before = map co_cpio exts /\
    (options = text16z cmd /\ measured_into 4 before = [] \/
     options <> text16z cmd /\ measured_into 4 before = [options]).
Proof.
  intros fw sha pm parse image path h' r before img entry HR HS [Tp Tw].
  pose proof (nice_stub_main fw (good_tpm fw) (nice_good_tpm fw) (fun _ _ _ _ => I) sha pm parse image path
      _ _ _ HR) as (es & Ees & Fes). cbn [app] in Ees. subst es.
  destruct (stub_started _ _ _ _ _ _ _ _ _ _ _ HR HS) as [[]].
  assert (Fg : Forall (good_tpm fw) before) by (rewrite bs_all in Fes; apply Forall_app in Fes; tauto).
  assert (Fb : Forall (fun e => match e with EvExtend _ _ _ x => x = None | _ => True end) before).
  { eapply Forall_impl; [|exact Fg]. intros [] X; try exact I. exact (X Tw). }
  destruct (bs_measured Tp) as (data & Ld & Dd). specialize (bs_companions Tp).
  destruct bs_parts as (creds & exts & Ecs & Fc & Fe).
  assert (Lall : extends_of before = pcr11_log (pe_sections bs_p) data ++ flat_map companion_log (creds ++ exts) ++ extends_of bs_cmds).
  { rewrite bs_before, !extends_app, Ld, bs_quiet, bs_companions, Ecs. cbn [extends_of flat_map app]. rewrite app_nil_r. reflexivity. }
  destruct (companions_log creds exts Fc Fe) as (C12 & C13 & C11 & C4).
  assert (Cmd : (bs_opts = text16z bs_cmd /\ extends_of bs_cmds = [] \/
                 bs_opts <> text16z bs_cmd /\ extends_of bs_cmds = [(4, bs_opts, lit "Custom user provided kernel cmdline")])).
  { assert (Fcm : Forall (good_tpm fw) bs_cmds).
    { rewrite bs_before in Fg. rewrite !Forall_app in Fg. tauto. }
    destruct bs_choice as (sb & Ch). cbv zeta in Ch.
    destruct Ch as [(_ & E & Ee)|[(_ & E & [(e & Ee)|Ee])|[(_ & E & Ee)|(passed & _ & Hp & [(E & Ee)|(x & E & Ee)])]]];
      rewrite Ee in *.
    - left; split; [exact E|reflexivity].
    - left; split; [exact E|reflexivity].
    - left; split; [exact E|reflexivity].
    - left; split; [exact E|reflexivity].
    - exfalso. rewrite Forall_forall in Fcm. specialize (Fcm (EvTpm false)). cbn [good_tpm In] in Fcm.
      assert (X : false = true) by (apply Fcm; [tauto|exact Tp]). discriminate.
    - assert (X : x = None).
      { rewrite Forall_forall in Fcm. exact (Fcm (EvExtend 4 passed (lit "Custom user provided kernel cmdline") x) ltac:(cbn [In]; tauto) Tw). }
      subst x. subst bs_opts. right; split; [exact Hp|reflexivity]. }
  assert (Gs : forall p, measured_into p before =
    of_pcr p (pcr11_log (pe_sections bs_p) data) ++ of_pcr p (flat_map companion_log (creds ++ exts)) ++ of_pcr p (extends_of bs_cmds)).
  { intros p. rewrite measured_all by exact Fb. rewrite Lall, !of_pcr_app. reflexivity. }
  assert (Quiet : forall p, p <> 4 -> of_pcr p (extends_of bs_cmds) = []).
  { intros p Hp. apply N.neq_sym, N.eqb_neq in Hp. destruct Cmd as [[_ ->]|[_ ->]]; [reflexivity|]. unfold of_pcr. cbn [flat_map fst snd]. rewrite Hp. reflexivity. }
  exists bs_p, bs_kn, bs_in, bs_cmd, bs_kernel, bs_initrd, creds, exts, bs_opts, data.
  split; [exact bs_parsed|]. split; [exact bs_load|].
  split.
  { rewrite <- map_app, <- Ecs, bs_before.
    match goal with |- last_such _ (?a ++ ?b ++ ?c ++ ?d ++ ?e ++ [?u; ?v; ?w; ?x; ?y; ?z]) _ =>
      replace (a ++ b ++ c ++ d ++ e ++ [u; v; w; x; y; z]) with ((a ++ b ++ c ++ d ++ e ++ [u; v]) ++ w :: [x; y; z])
        by (rewrite <- !app_assoc; reflexivity) end.
    apply last_such_app; [exact I|]. repeat constructor; intros []. }
  split.
  { rewrite bs_before.
    match goal with |- last_such _ (?a ++ ?b ++ ?c ++ ?d ++ ?e ++ [?u; ?v; ?w; ?x; ?y; ?z]) _ =>
      replace (a ++ b ++ c ++ d ++ e ++ [u; v; w; x; y; z]) with ((a ++ b ++ c ++ d ++ e ++ [u; v; w; x; y]) ++ z :: [])
        by (rewrite <- !app_assoc; reflexivity) end.
    apply last_such_app; [exact I|]. constructor. }
  do 5 (split; [assumption|]).
  split. { rewrite bs_before. cbn [In app]. tauto. }
  split. { rewrite bs_before. cbn [In app]. tauto. }
  split; [exact Dd|].
  split. { rewrite Gs, of_pcr11, C11, (Quiet 11) by discriminate. rewrite app_nil_r. reflexivity. }
  split. { rewrite Gs, of_pcr_not11, C12, (Quiet 12) by discriminate. rewrite app_nil_r. reflexivity. }
  split. { rewrite Gs, of_pcr_not11, C13, (Quiet 13) by discriminate. rewrite app_nil_r. reflexivity. }
  destruct Cmd as [[E1 E2]|[E1 E2]]; [left|right]; (split; [exact E1|]); rewrite Gs, of_pcr_not11, C4, E2 by discriminate; reflexivity.
Qed.

Lemma text_occurs : forall image secs n t, section_text image secs n t -> (0 < occurrences secs n)%nat.
Proof.
  intros image secs n t (d & (b & s & a & E & Hs & _) & _). rewrite E. unfold occurrences. rewrite filter_app, app_length.
  cbn [filter]. rewrite Hs. destruct (str_dec n n); [cbn [length]; lia|congruence].
Qed.

Lemma measured_linux : forall image secs k i d, measured_data image secs k i (lit ".linux") d -> d = k.
Proof. intros image secs k i d H. unfold measured_data in H. destruct (str_dec (lit ".linux") (lit ".linux")); [exact H|congruence]. Qed.
Lemma measured_initrd : forall image secs k i d, measured_data image secs k i (lit ".initrd") d -> d = i.
Proof.
  intros image secs k i d H. unfold measured_data in H. destruct (str_dec (lit ".initrd") (lit ".linux")); [discriminate|].
  destruct (str_dec (lit ".initrd") (lit ".initrd")); [exact H|congruence].
Qed.
Lemma measured_cmdline : forall image secs k i d, measured_data image secs k i (lit ".cmdline") d ->
  section_contents image secs (lit ".cmdline") d.
Proof.
  intros image secs k i d H. unfold measured_data in H. destruct (str_dec (lit ".cmdline") (lit ".linux")); [discriminate|].
  destruct (str_dec (lit ".cmdline") (lit ".initrd")); [discriminate|exact H].
Qed.
Lemma measured_unique : forall image secs k i n d d',
  measured_data image secs k i n d -> measured_data image secs k i n d' -> d = d'.
Proof.
  intros image secs k i n d d' H H'. unfold measured_data in *. destruct (str_dec n _); [congruence|].
  destruct (str_dec n _); [congruence|]. eapply section_contents_unique; eauto.
Qed.

Lemma sections_list_ext : forall secs data data' names,
  (forall n, In n names -> (0 < occurrences secs n)%nat -> data n = data' n) ->
  sections_list secs data names = sections_list secs data' names.
Proof.
  intros secs data data'. induction names as [|n l IH]; intros H; [reflexivity|]. unfold sections_list in *. cbn [flat_map].
  rewrite IH by (intros; apply H; [right; assumption|assumption]). f_equal.
  destruct (occurrences secs n) as [|k] eqn:E; [reflexivity|]. rewrite (H n); [reflexivity|left; reflexivity|lia].
Qed.

Section Two.
  Variables (fw fw' : firmware) (sha sha' : bytes -> bytes) (pm pm' parse : bytes -> option pe).
  Variables (image image' : bytes) (path path' : option str) (hh hh' : list event) (r r' : res status unit).
  Variables (before before' : list event) (img img' : bytes) (entry entry' : N).
  Hypothesis R : stub_main fw sha pm parse image path [] = (hh, r).
  Hypothesis R' : stub_main fw' sha' pm' parse image' path' [] = (hh', r').
  Hypothesis S : started hh before img entry.
  Hypothesis S' : started hh' before' img' entry'.
  Hypothesis T : tpm_works fw.
  Hypothesis T' : tpm_works fw'.

  Lemma attested : forall H init, same_pcr H init 11 before before' ->
    exists p p' kernel initrd dynamic dynamic' served served' options options',
      pm image = Some p /\ pm' image' = Some p' /\
      image_load (fun _ => None) (parse kernel) kernel = Ok (img, entry) /\ img' = img /\ entry' = entry /\
      same_sections image image' p p' kernel initrd /\
      last_such serves_initrd before (EvInstall PLoadFile2 served None) /\ layout4 (initrd :: dynamic) served /\
      last_such serves_initrd before' (EvInstall PLoadFile2 served' None) /\ layout4 (initrd :: dynamic') served' /\
      last_such sets_options before (EvSetOptions (Some options)) /\
      last_such sets_options before' (EvSetOptions (Some options')) /\
      (same_pcr H init 12 before before' -> same_pcr H init 13 before before' -> served' = served) /\
      (same_pcr H init 4 before before' -> options' = options).
  Proof.
    intros H init E11. apply same_pcr_data in E11.
    destruct (started_logs _ _ _ _ _ _ _ _ _ _ _ R S T) as (p & kn & inn & cmd & k & i & cr & ex & opt & data
      & Hp & Hl & Hs & Ho & TL & TI & TC & _ & _ & _ & _ & D & M11 & M12 & M13 & M4).
    destruct (started_logs _ _ _ _ _ _ _ _ _ _ _ R' S' T') as (p' & kn' & inn' & cmd' & k' & i' & cr' & ex' & opt' & data'
      & Hp' & Hl' & Hs' & Ho' & TL' & TI' & TC' & _ & _ & _ & _ & D' & M11' & M12' & M13' & M4').
    rewrite M11, M11' in E11. apply pairs_inj in E11. pose proof (list_same _ _ _ _ E11) as SS.
    assert (Inl : In (lit ".linux") canonical_sections) by (cbn; tauto).
    assert (Ini : In (lit ".initrd") canonical_sections) by (cbn; tauto).
    assert (Inc : In (lit ".cmdline") canonical_sections) by (cbn; tauto).
    assert (k' = k).
    { destruct (SS _ Inl) as [_ Y]. specialize (Y (text_occurs _ _ _ _ TL)).
      rewrite <- (measured_linux _ _ _ _ _ (D _ Inl (text_occurs _ _ _ _ TL))), Y.
      symmetry. exact (measured_linux _ _ _ _ _ (D' _ Inl (text_occurs _ _ _ _ TL'))). }
    assert (i' = i).
    { destruct (SS _ Ini) as [_ Y]. specialize (Y (text_occurs _ _ _ _ TI)).
      rewrite <- (measured_initrd _ _ _ _ _ (D _ Ini (text_occurs _ _ _ _ TI))), Y.
      symmetry. exact (measured_initrd _ _ _ _ _ (D' _ Ini (text_occurs _ _ _ _ TI'))). }
    subst k' i'.
    assert (cmd' = cmd).
    { destruct (SS _ Inc) as [_ Y]. specialize (Y (text_occurs _ _ _ _ TC)).
      destruct TC as (d & Cd & Ud & Fd), TC' as (d' & Cd' & Ud' & Fd').
      pose proof (section_contents_unique _ _ _ _ _ Cd (measured_cmdline _ _ _ _ _ (D _ Inc ltac:(eapply text_occurs; exists d; repeat split; eassumption)))) as Q.
      pose proof (section_contents_unique _ _ _ _ _ Cd' (measured_cmdline _ _ _ _ _ (D' _ Inc ltac:(eapply text_occurs; exists d'; repeat split; eassumption)))) as Q'.
      congruence. }
    subst cmd'.
    exists p, p', k, i, (map co_cpio cr ++ map co_cpio ex), (map co_cpio cr' ++ map co_cpio ex'),
      (assemble_initrd i (map co_cpio cr ++ map co_cpio ex)), (assemble_initrd i (map co_cpio cr' ++ map co_cpio ex')), opt, opt'.
    split; [exact Hp|]. split; [exact Hp'|]. split; [exact Hl|].
    rewrite Hl in Hl'. split; [congruence|]. split; [congruence|].
    split. { intros n Hn. destruct (SS n Hn) as [O X]. split; [exact O|]. intros Pos. exists (data n). split; [auto|].
             rewrite (X Pos). apply D'; [exact Hn|]. rewrite <- O. exact Pos. }
    split; [exact Hs|]. split; [apply assemble_layout|]. split; [exact Hs'|]. split; [apply assemble_layout|].
    split; [exact Ho|]. split; [exact Ho'|]. split.
    - intros E12 E13. apply same_pcr_data in E12, E13. rewrite M12, M12' in E12. rewrite M13, M13' in E13. congruence.
    - intros E4. apply same_pcr_data in E4.
      destruct M4 as [[O4 M4]|[O4 M4]], M4' as [[O4' M4']|[O4' M4']]; congruence.
  Qed.

  Lemma attested_11 : forall H init, same_pcr H init 11 before before' ->
    exists p p' kernel initrd dynamic dynamic' served served',
      pm image = Some p /\ pm' image' = Some p' /\
      image_load (fun _ => None) (parse kernel) kernel = Ok (img, entry) /\ img' = img /\ entry' = entry /\
      same_sections image image' p p' kernel initrd /\
      last_such serves_initrd before (EvInstall PLoadFile2 served None) /\ layout4 (initrd :: dynamic) served /\
      last_such serves_initrd before' (EvInstall PLoadFile2 served' None) /\ layout4 (initrd :: dynamic') served'.
  Proof.
    intros H init E. destruct (attested H init E) as (p & p' & k & i & d & d' & s & s' & o & o' & X).
    exists p, p', k, i, d, d', s, s'. tauto.
  Qed.

  Lemma attested_all : forall H init, (forall p, In p [4; 11; 12; 13] -> same_pcr H init p before before') ->
    exists served options,
      img' = img /\ entry' = entry /\
      last_such serves_initrd before (EvInstall PLoadFile2 served None) /\
      last_such serves_initrd before' (EvInstall PLoadFile2 served None) /\
      last_such sets_options before (EvSetOptions (Some options)) /\
      last_such sets_options before' (EvSetOptions (Some options)).
  Proof.
    intros H init E. destruct (attested H init (E 11 ltac:(cbn; tauto)))
      as (p & p' & k & i & d & d' & s & s' & o & o' & _ & _ & _ & Ei & Ee & _ & S1 & _ & S2 & _ & O1 & O2 & Es & Eo).
    specialize (Es (E 12 ltac:(cbn; tauto)) (E 13 ltac:(cbn; tauto))). specialize (Eo (E 4 ltac:(cbn; tauto))). subst s' o'.
    exists s, o. tauto.
  Qed.
End Two.

(** PCR 11 is determined by the image. *)
Lemma predictable : forall fw fw' sha pm parse image path path' h h' r r' before before' img img' entry entry',
  stub_main fw sha pm parse image path [] = (h, r) -> stub_main fw' sha pm parse image path' [] = (h', r') ->
  started h before img entry -> started h' before' img' entry' -> tpm_works fw -> tpm_works fw' ->
  (forall n n' x y, In (EvRead n (Some x)) before -> In (EvRead n' (Some y)) before' -> sha x = sha y -> x = y) ->
  measured_into 11 before = measured_into 11 before'.
Proof.
  intros fw fw' sha pm parse image path path' h h' r r' before before' img img' entry entry' R R' S S' T T' NC.
  destruct (started_logs _ _ _ _ _ _ _ _ _ _ _ R S T) as (p & kn & inn & cmd & k & i & cr & ex & opt & data
    & Hp & Hl & Hs & Ho & TL & TI & TC & KL & KI & RL & RI & D & M11 & _).
  destruct (started_logs _ _ _ _ _ _ _ _ _ _ _ R' S' T') as (p' & kn' & inn' & cmd' & k' & i' & cr' & ex' & opt' & data'
    & Hp' & Hl' & Hs' & Ho' & TL' & TI' & TC' & KL' & KI' & RL' & RI' & D' & M11' & _).
  assert (p' = p) by congruence. subst p'.
  assert (k' = k) by (symmetry; eapply NC; eauto; eapply section_contents_unique; eauto).
  assert (i' = i) by (symmetry; eapply NC; eauto; eapply section_contents_unique; eauto).
  subst k' i'. rewrite M11, M11'. f_equal. apply sections_list_ext. intros n Hn Pos.
  eapply measured_unique; [apply D|apply D']; assumption.
Qed.


Lemma predictable_value : forall fw fw' sha pm parse image path path' h h' r r' before before' img img' entry entry',
  stub_main fw sha pm parse image path [] = (h, r) -> stub_main fw' sha pm parse image path' [] = (h', r') ->
  started h before img entry -> started h' before' img' entry' -> tpm_works fw -> tpm_works fw' ->
  (forall n n' x y, In (EvRead n (Some x)) before -> In (EvRead n' (Some y)) before' -> sha x = sha y -> x = y) ->
  forall H init, pcr_value H init 11 before = pcr_value H init 11 before'.
Proof.
  intros fw fw' sha pm parse image path path' h h' r r' before before' img img' entry entry' R R' S S' T T' NC H init.
  unfold pcr_value. rewrite (predictable _ _ _ _ _ _ _ _ _ _ _ _ _ _ _ _ _ _ R R' S S' T T' NC). reflexivity.
Qed.

(** ** Checking [good_hash] *)
Definition good_hashb (H : bytes -> bytes) (v : bytes) (ds ds' : list bytes) : bool :=
  let l := hashed H v ds ++ hashed H v ds' in
  forallb (fun x => negb (eqb_bytes (H x) v) &&
    forallb (fun y => if eqb_bytes (H x) (H y) then eqb_bytes x y else true) l) l.
Lemma good_hashb_ok : forall H v ds ds', (forall x, length (H x) = length v) -> good_hashb H v ds ds' = true ->
  good_hash H v ds ds'.
Proof.
  intros H v ds ds' L E. unfold good_hashb in E. rewrite forallb_forall in E. split; [exact L|]. split.
  - intros x y X Y Exy. specialize (E x X). apply andb_true_iff in E. destruct E as [_ E]. rewrite forallb_forall in E.
    specialize (E y Y). rewrite Exy in E. rewrite eqb_bytes_refl in E. apply eqb_bytes_spec in E. exact E.
  - intros x X Ev. specialize (E x X). apply andb_true_iff in E. destruct E as [E _]. rewrite Ev, eqb_bytes_refl in E. discriminate.
Qed.
