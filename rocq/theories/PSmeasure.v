(** Proofs about the prediction of PCR 11 (C86). *)
From Coq Require Import List NArith Bool Lia Permutation.
From Verif Require Import Base PBase MText MGeneration MNames MPe MCpio MFirmware MStub MFs MTool MInstall
  SCommon SNames SFirmware SStub SInstall SHistory SImage SUse SPcr SMeasure.
From Verif Require Import PPcr PUse.
From Verif Require PStubRun.
Import ListNotations.
Open Scope N_scope.

Lemma occurrences_app a b n : occurrences (a ++ b) n = (occurrences a n + occurrences b n)%nat.
Proof. unfold occurrences. rewrite filter_app, app_length. reflexivity. Qed.

Lemma occurrences_perm a b n : Permutation a b -> occurrences a n = occurrences b n.
Proof.
  unfold occurrences. induction 1 as [|x a b P IH|x y a|a b c P1 IH1 P2 IH2]; cbn [filter].
  - reflexivity.
  - destruct (match s_name x with Some m => if str_dec m n then true else false | None => false end); cbn [length]; lia.
  - destruct (match s_name x with Some m => if str_dec m n then true else false | None => false end),
      (match s_name y with Some m => if str_dec m n then true else false | None => false end); reflexivity.
  - lia.
Qed.

Lemma occurrences_kept a b n : Forall2 kept a b -> occurrences b n = occurrences a n.
Proof.
  unfold occurrences. induction 1 as [|s t a b (E & _) F IH]; [reflexivity|]. cbn [filter]. rewrite E.
  destruct (match s_name s with Some m => if str_dec m n then true else false | None => false end); cbn [length]; lia.
Qed.

Lemma occurrences_added base file l new n : Forall2 (added base file) l new ->
  occurrences new n = length (filter (fun m => if str_dec m n then true else false) (map (fun s => fst (fst s)) l)).
Proof.
  unfold occurrences. induction 1 as [|[[m d] v] s l new (E & _) F IH]; [reflexivity|]. cbn [filter map fst]. rewrite E.
  destruct (str_dec m n); cbn [length]; lia.
Qed.

(** The sections of what the tools make. *)
Lemma extended_own parse p l file q : bare p -> map (fun s => fst (fst s)) l = stub_sections -> extended parse p l file ->
  parse file = Some q -> own_sections q.
Proof.
  intros BA EN (q' & old & new & P & PM & F1 & F2 & _) Q n Hn. rewrite P in Q. injection Q as ->.
  rewrite (occurrences_perm _ _ n PM), occurrences_app.
  rewrite (occurrences_kept (pe_sections p) old n F1).
  rewrite (BA n Hn), (occurrences_added _ _ _ _ n F2), EN.
  destruct (in_dec str_dec n stub_sections) as [I0|I0].
  - unfold stub_sections in I0. cbn [In] in I0. repeat destruct I0 as [<-|I0]; try reflexivity. destruct I0.
  - destruct (filter _ _) as [|m r] eqn:E; [reflexivity|]. exfalso. apply I0.
    assert (In m (filter (fun m => if str_dec m n then true else false) stub_sections)) as I1 by (rewrite E; left; reflexivity).
    apply filter_In in I1 as [I1 I2]. destruct (str_dec m n) as [->|]; [exact I1 | discriminate I2].
Qed.

Lemma own_log secs data : (forall n, In n canonical_sections -> occurrences secs n = if in_dec str_dec n stub_sections then 1%nat else 0%nat) ->
  pairs_log (sections_list secs data canonical_sections) =
  systemd_measure [(lit ".linux", data (lit ".linux")); (lit ".initrd", data (lit ".initrd"));
                   (lit ".osrel", data (lit ".osrel")); (lit ".cmdline", data (lit ".cmdline"))].
Proof.
  intros H. unfold sections_list, canonical_sections. cbn [flat_map]. rewrite !H by (cbn; auto 20).
  reflexivity.
Qed.

Section Entry.
Variable M : machine.
Hypothesis SO : sound M.
Hypothesis GOOD : forall z, ma_good M z -> loads_well (ma_parse M) z.

Lemma boot_predicted g y image pm fw parse path h r before img entry :
  stub_for M g y -> in_memory M y image pm -> (forall q, ma_parse M y = Some q -> own_sections q) -> tpm_works fw ->
  stub_main fw (ma_sha M) pm parse image path [] = (h, r) -> started h before img entry ->
  exists kernel kernel' initrd initrd' cmd text kn inn,
    ma_store M (MNames.components (bs_kernel (g_spec g))) = Some kernel /\ ma_sha M kernel' = ma_sha M kernel /\
    (bs_initrd_secrets (g_spec g) = None ->
       exists i, bs_initrd (g_spec g) = Some i /\ ma_store M (MNames.components i) = Some initrd) /\
    ma_sha M initrd' = ma_sha M initrd /\ command_line g cmd /\ menu_text g text /\
    In (EvRead kn (Some kernel')) before /\ In (EvRead inn (Some initrd')) before /\
    image_load (fun _ => None) (parse kernel') kernel' = Ok (img, entry) /\
    measured_into 11 before = systemd_measure
      [(lit ".linux", kernel'); (lit ".initrd", initrd'); (lit ".osrel", utf8_encode text); (lit ".cmdline", utf8_encode cmd)].
Proof.
  intros (v & kernel & initrd & init & text & KS & IS & INI & MT & VO & GD & _ & _ & _ & K1 & K2 & I1 & I2 & CM & OS)
    (q & q' & headers & size & PQ & C & -> & PM & EQ) OWN TW RUN STA.
  apply GOOD in GD. specialize (OWN q PQ). set (image := efi_image y headers size (pe_sections q)) in *.
  destruct (started_logs _ _ _ _ _ _ _ _ _ _ _ RUN STA TW)
    as (p & kn & inn & cmd & kernel' & initrd' & cr & ex & opt & data & Hp & Hl & _ & _ & _ & _ & _ & KL & KI & RL & RI & D & M11 & _).
  rewrite PM in Hp. injection Hp as <-. rewrite EQ in *.
  assert (RD : forall n d, In n stub_sections -> has_section (ma_parse M) y n d -> section_contents image (pe_sections q) n d).
  { intros n d HN HS. apply (GD q n d headers size PQ HN HS C). }
  assert (OC : forall n, In n canonical_sections -> In n stub_sections -> (0 < occurrences (pe_sections q) n)%nat).
  { intros n A B. rewrite (OWN n A). destruct (in_dec str_dec n stub_sections); [lia | contradiction]. }
  assert (D1 : data (lit ".linux") = kernel') by (apply (measured_linux image (pe_sections q) kernel' initrd'), D; [|apply OC]; cbn; auto 10).
  assert (D2 : data (lit ".initrd") = initrd') by (apply (measured_initrd image (pe_sections q) kernel' initrd'), D; [|apply OC]; cbn; auto 10).
  assert (D3 : data (lit ".osrel") = utf8_encode text).
  { assert (X := D (lit ".osrel") ltac:(cbn; auto 10) (OC (lit ".osrel") ltac:(cbn; auto 10) ltac:(cbn; auto 10))). unfold measured_data in X.
    destruct (str_dec (lit ".osrel") (lit ".linux")); [discriminate|]. destruct (str_dec (lit ".osrel") (lit ".initrd")); [discriminate|].
    eapply PStubRun.section_contents_unique; [exact X|]. apply RD; [cbn; auto 10 | exact OS]. }
  assert (D4 : data (lit ".cmdline") = utf8_encode (lit "init=" ++ init ++ flat_map (fun p => 32 :: p) (bs_params (g_spec g)))).
  { eapply PStubRun.section_contents_unique.
    - eapply measured_cmdline. apply (D (lit ".cmdline")); [cbn; auto 10 | apply OC; cbn; auto 10].
    - rewrite join_command, <- app_assoc in CM. apply RD; [cbn; auto 10 | exact CM]. }
  rewrite (own_log _ data OWN), D1, D2, D3, D4 in M11.
  exists kernel, kernel', initrd, initrd', (lit "init=" ++ init ++ flat_map (fun p => 32 :: p) (bs_params (g_spec g))), text, kn, inn.
  split; [exact KS|].
  split; [eapply PStubRun.section_contents_unique; [exact KL | apply RD; [cbn; auto 10 | exact K2]]|].
  split; [exact IS|].
  split; [eapply PStubRun.section_contents_unique; [exact KI | apply RD; [cbn; auto 10 | exact I2]]|].
  split; [exists init; auto|]. split; [exact MT|]. split; [exact RL|]. split; [exact RI|]. split; [exact Hl | exact M11].
Qed.
End Entry.
