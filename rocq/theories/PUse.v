(** Proofs for C27. *)
From Coq Require Import List ZArith NArith Bool Lia ZifyBool ZifyNat ZifyN.
From Verif Require Import Base PBase MText PText MGeneration MNames MPe MCpio MFirmware MStub MFs MTool MInstall
  SCommon SNames PNames SFirmware SStub SInstall SImage SHistory SUse PMonad PFirmware PStub PStubRun PImage PEntry PHistory PHistories.
Import ListNotations.
Open Scope N_scope.

Lemma version_ascii k v : Forall (fun b => 0 < b < 128) k -> version_of k v -> Forall (fun b => 0 < b < 128) v.
Proof.
  intros F (rest & dir & file & before & E & D & _).
  assert (In dir (MNames.components k)) as HD by (rewrite E; apply in_or_app; right; left; reflexivity).
  unfold MNames.components in HD. apply filter_In in HD as [HD _].
  assert (forall sep l y w, In y (split_on sep l) -> In w y -> In w l) as SI.
  { clear. intros sep. induction l as [|a l IH]; cbn [split_on]; intros y w.
    - intros [<-|[]] [].
    - destruct (N.eqb_spec a sep) as [->|].
      + intros [<-|H]; [intros []|]. intros W. right. eauto.
      + destruct (split_on sep l) as [|p ps] eqn:E.
        * intros [<-|[]] [X|[]]; left; exact X.
        * intros [<-|H].
          -- intros [X|X]; [left; exact X|]. right. eapply IH; [left; reflexivity | exact X].
          -- intros W. right. eapply IH; [right; exact H | exact W]. }
  assert (Forall (fun b => 0 < b < 128) dir) as FD.
  { rewrite Forall_forall in *. intros x X. apply F. eapply SI; eauto. }
  assert (Forall (fun c => c < 128) dir) as FD2 by (eapply Forall_impl; [|exact FD]; cbn; intros; lia).
  rewrite (utf8_decode_ascii _ FD2) in D. apply (f_equal (fun o => match o with Some x => x | None => [] end)) in D. cbv beta iota in D.
  rewrite D in FD. apply Forall_app in FD as [_ FD]. exact FD.
Qed.

Section Entry.
Variables (M : machine).
Hypothesis SO : sound M.
Hypothesis GOOD : forall z, ma_good M z -> loads_well (ma_parse M) z.

Lemma efi_name_plain label x : Forall (fun b => 0 < b < 128) label -> Forall (fun b => 0 < b < 128) (efi_name M label x).
Proof.
  intros F. unfold efi_name. apply Forall_app. split; [repeat constructor|]. apply Forall_app. split; [exact F|].
  apply Forall_app. split; [repeat constructor|]. apply Forall_app. split; [|repeat constructor].
  eapply Forall_impl; [|apply base32_chars]. cbn. intros; lia.
Qed.

Lemma efi_name_bytes label x : utf8_encode (efi_name M label x) = lit "\EFI\nixos\" ++ content_name M label x.
Proof. unfold efi_name. rewrite utf8_encode_app. reflexivity. Qed.

Lemma join_command a l : join (lit " ") (a :: l) = a ++ flat_map (fun p => 32 :: p) l.
Proof.
  revert a. induction l as [|b l IH]; intros a; [cbn; rewrite app_nil_r; reflexivity|].
  change (join (lit " ") (a :: b :: l)) with (a ++ lit " " ++ join (lit " ") (b :: l)). rewrite IH. reflexivity.
Qed.

(** What the stub finds in memory. *)
Lemma entry_text image secs n t size : section_contents image secs n (utf8_encode t) -> covers size secs ->
  size <= N.of_nat (length image) -> plain_text t -> extract_string image secs n = Ok t.
Proof.
  intros SC C L PT. unfold extract_string. rewrite (contents_section_data _ _ _ _ _ SC C L). cbn [bind].
  rewrite utf8_decode_encode_spec by (eapply Forall_impl; [|exact PT]; cbn; tauto).
  unfold cstr16. replace (forallb (fun c => (0 <? c) && (c <? 65536)) t) with true; [reflexivity|].
  symmetry. apply forallb_forall. intros c H. unfold plain_text in PT. rewrite Forall_forall in PT. specialize (PT c H). lia.
Qed.

Lemma entry_sections g y image pm : stub_for M g y -> usable g -> in_memory M y image pm ->
  exists q kn inn kernel initrd cmd,
    pm image = Some q /\ made_for M g kn inn kernel initrd cmd /\
    extract_string image (pe_sections q) (lit ".linux") = Ok kn /\
    extract_hash image (pe_sections q) (lit ".linuxh") = Ok (ma_sha M kernel) /\
    extract_string image (pe_sections q) (lit ".initrd") = Ok inn /\
    extract_hash image (pe_sections q) (lit ".initrdh") = Ok (ma_sha M initrd) /\
    extract_string image (pe_sections q) (lit ".cmdline") = Ok cmd /\
    has_section (ma_parse M) y (lit ".linux") (utf8_encode kn) /\ has_section (ma_parse M) y (lit ".linuxh") (ma_sha M kernel) /\
    has_section (ma_parse M) y (lit ".initrd") (utf8_encode inn) /\ has_section (ma_parse M) y (lit ".initrdh") (ma_sha M initrd).
Proof.
  intros (v & kernel & initrd & init & text & KS & IS & INI & _ & VO & GD & _ & _ & _ & K1 & K2 & I1 & I2 & CM & _) [UK UC]
    (q & q' & headers & size & PQ & C & -> & PM & EQ).
  apply GOOD in GD. rewrite <- EQ in *. 
  exists q', (efi_name M (lit "kernel-" ++ v) kernel), (efi_name M (lit "initrd-" ++ v) initrd), kernel, initrd,
    (lit "init=" ++ init ++ flat_map (fun p => 32 :: p) (bs_params (g_spec g))).
  assert (command_line g (lit "init=" ++ init ++ flat_map (fun p => 32 :: p) (bs_params (g_spec g)))) as CL by (exists init; auto).
  set (image := efi_image y headers size (pe_sections q')) in *.
  assert (forall n d, In n stub_sections -> has_section (ma_parse M) y n d ->
    size <= N.of_nat (length image) /\ section_contents image (pe_sections q') n d) as RD.
  { intros n d HN HS. unfold image. rewrite EQ. apply (GD q n d headers size PQ HN HS). rewrite <- EQ. exact C. }
  pose proof (version_ascii _ _ UK VO) as VA.
  assert (forall s, Forall (fun b => 0 < b < 128) s -> plain_text s) as AP.
  { intros s. apply Forall_impl. unfold scalar_value. intros; lia. }
  assert (forall n d, In n stub_sections -> has_section (ma_parse M) y n (ma_sha M d) -> extract_hash image (pe_sections q') n = Ok (ma_sha M d)) as EH.
  { intros n d HN HS. destruct (RD _ _ HN HS) as [L SC]. unfold extract_hash. rewrite (contents_section_data _ _ _ _ _ SC C L). cbn [bind].
    pose proof (so_hash _ SO d) as H32. unfold len. destruct (N.of_nat (length (ma_sha M d)) =? 32) eqn:E; [reflexivity|].
    exfalso. destruct H32. lia. }
  split; [exact PM|]. split; [exists v; auto 10|].
  split; [|split; [apply EH; [cbn; auto 10 | exact K2]|split; [|split; [apply EH; [cbn; auto 10 | exact I2]|split; [|rewrite !efi_name_bytes; auto]]]]].
  - rewrite <- efi_name_bytes in K1. destruct (RD (lit ".linux") _ ltac:(cbn; auto 10) K1) as [L SC]. eapply entry_text; eauto. apply AP, efi_name_plain.
    apply Forall_app. split; [repeat constructor | exact VA].
  - rewrite <- efi_name_bytes in I1. destruct (RD (lit ".initrd") _ ltac:(cbn; auto 10) I1) as [L SC]. eapply entry_text; eauto. apply AP, efi_name_plain.
    apply Forall_app. split; [repeat constructor | exact VA].
  - rewrite join_command, <- app_assoc in CM. destruct (RD (lit ".cmdline") _ ltac:(cbn; auto 10) CM) as [L SC]. eapply entry_text; eauto.
Qed.

(** [load_from_pe] on these sections. *)
Lemma sections_load q kn inn kernel initrd cmd image fw kd id :
  extract_string image (pe_sections q) (lit ".linux") = Ok kn ->
  extract_hash image (pe_sections q) (lit ".linuxh") = Ok (ma_sha M kernel) ->
  extract_string image (pe_sections q) (lit ".initrd") = Ok inn ->
  extract_hash image (pe_sections q) (lit ".initrdh") = Ok (ma_sha M initrd) ->
  extract_string image (pe_sections q) (lit ".cmdline") = Ok cmd ->
  (forall h, fw_image_fs fw h = true) -> (forall h, fs_read (fw_files fw h) kn = Some kd) ->
  (forall h, fs_read (fw_files fw h) inn = Some id) ->
  forall h, snd (load_from_pe fw (ma_sha M) image (Some q) h) =
    if eqb_bytes (ma_sha M kd) (ma_sha M kernel) && eqb_bytes (ma_sha M id) (ma_sha M initrd)
    then Ok (Components kd id cmd) else Err SECURITY_VIOLATION.
Proof.
  intros E1 E2 E3 E4 E5 FS RK RI h. unfold load_from_pe. cbv zeta.
  rewrite E1, E2, E3, E4, E5. unfold mbind, lift, call, ret. cbn [fst snd]. rewrite FS. rewrite RK. rewrite RI.
  destruct (get_secure_boot_status fw _) as [h' [b| |]] eqn:SB.
  - unfold check_hash, ret, fail. destruct (eqb_bytes (ma_sha M kd) (ma_sha M kernel)); cbn [andb]; [|reflexivity].
    destruct (eqb_bytes (ma_sha M id) (ma_sha M initrd)); reflexivity.
  - unfold get_secure_boot_status, mbind, ret in SB. destruct (get_variable _ _ _ _ _) as [h2 [x| |]] eqn:G; discriminate.
  - unfold get_secure_boot_status, mbind, ret in SB. destruct (get_variable _ _ _ _ _) as [h2 [x| |]] eqn:G; discriminate.
Qed.

Lemma entry_load g y image pm : stub_for M g y -> usable g -> in_memory M y image pm ->
  exists kn inn kernel initrd cmd,
    made_for M g kn inn kernel initrd cmd /\
    (forall fw kd id, (forall h, fw_image_fs fw h = true) -> (forall h, fs_read (fw_files fw h) kn = Some kd) ->
     (forall h, fs_read (fw_files fw h) inn = Some id) ->
     forall h, snd (load_from_pe fw (ma_sha M) image (pm image) h) =
       if eqb_bytes (ma_sha M kd) (ma_sha M kernel) && eqb_bytes (ma_sha M id) (ma_sha M initrd)
       then Ok (Components kd id cmd) else Err SECURITY_VIOLATION).
Proof.
  intros ST US IM. destruct (entry_sections g y image pm ST US IM) as (q & kn & inn & kernel & initrd & cmd & PM & MF & E1 & E2 & E3 & E4 & E5 & _).
  exists kn, inn, kernel, initrd, cmd. split; [exact MF|]. intros fw kd id FS RK RI h. rewrite PM. eapply sections_load; eauto.
Qed.


(** A bootable entry. *)
Lemma entry_accepted m g y image pm fw : stub_for M g y -> usable g -> in_memory M y image pm -> bootable M m y -> reads_esp M fw m ->
  exists kn inn kernel initrd cmd kd id,
    made_for M g kn inn kernel initrd cmd /\ ma_sha M kd = ma_sha M kernel /\ ma_sha M id = ma_sha M initrd /\
    forall h, snd (load_from_pe fw (ma_sha M) image (pm image) h) = Ok (Components kd id cmd).
Proof.
  intros ST US IM [(k & hk & pk & kd & bk & S1 & S2 & EP1 & L1 & H1) (i & hi & pi & id & bi & S3 & S4 & EP2 & L2 & H2)] RE.
  destruct (entry_sections g y image pm ST US IM) as (q & kn & inn & kernel & initrd & cmd & PM & MF & E1 & E2 & E3 & E4 & E5 & T1 & T2 & T3 & T4).
  rewrite (has_section_fun _ _ _ _ _ S1 T1) in EP1. rewrite (has_section_fun _ _ _ _ _ S2 T2) in H1.
  rewrite (has_section_fun _ _ _ _ _ S3 T3) in EP2. rewrite (has_section_fun _ _ _ _ _ S4 T4) in H2.
  exists kn, inn, kernel, initrd, cmd, kd, id. split; [exact MF|]. split; [exact H1|]. split; [exact H2|].
  intros h. rewrite PM. rewrite (sections_load q kn inn kernel initrd cmd image fw kd id); auto.
  - rewrite H1, H2, !eqb_bytes_refl. reflexivity.
  - intros h'. apply RE.
  - intros h'. rewrite (proj2 (RE h') _ _ EP1), L1. reflexivity.
  - intros h'. rewrite (proj2 (RE h') _ _ EP2), L2. reflexivity.
Qed.

(** After a successful run. *)
Lemma installed_accepted e c m : fits M e c -> history M m -> no_faults e -> snd (run_install e c m) = Ok tt ->
  exists vs sel, links_versions (c_links c) vs /\ newest (c_limit c) vs sel /\
    forall g, In g (flat_map link_generations sel) -> usable g ->
      exists key n y b, ma_keys M key /\ named M key g n /\
        lookup (s_fs (fst (run_install e c m))) (linux_file M n) = Some (NFile y b) /\
        forall image pm fw, in_memory M y image pm -> reads_esp M fw (s_fs (fst (run_install e c m))) ->
          exists kn inn kernel initrd cmd kd id,
            made_for M g kn inn kernel initrd cmd /\ ma_sha M kd = ma_sha M kernel /\ ma_sha M id = ma_sha M initrd /\
            forall h, snd (load_from_pe fw (ma_sha M) image (pm image) h) = Ok (Components kd id cmd).
Proof.
  intros FI H NF OK. destruct (all_boot M e c m SO FI H NF OK) as (vs & sel & LV & NW & B).
  exists vs, sel. split; [exact LV|]. split; [exact NW|]. intros g HG US. destruct (B g HG) as (key & n & y & b & K & ND & L & BT).
  exists key, n, y, b. split; [exact K|]. split; [exact ND|]. split; [exact L|]. intros image pm fw IM RE.
  eapply entry_accepted; eauto. eapply (own_stub M (s_fs (fst (run_install e c m))) SO); eauto.
  - rewrite final_fs. eapply hi_run; [exact H | exact FI | apply final_point].
  - apply (fi_gens _ _ _ FI). exists vs, sel. auto.
Qed.

(** The whole boot stub. *)
Lemma entry_starts g y image pm fw parse path h' r before img entry : stub_for M g y -> usable g -> in_memory M y image pm ->
  stub_main fw (ma_sha M) pm parse image path [] = (h', r) -> started h' before img entry ->
  exists kn inn kernel initrd cmd kd id rest chosen a b options,
    made_for M g kn inn kernel initrd cmd /\ ma_sha M kd = ma_sha M kernel /\ ma_sha M id = ma_sha M initrd /\
    reads_of before = [(kn, Some kd); (inn, Some id)] /\
    image_load (fun _ => None) (parse kd) kd = Ok (img, entry) /\
    last_such serves_initrd before (EvInstall PLoadFile2 (id ++ rest) None) /\
    before = a ++ chosen ++ b /\ cmdline_choice (text16z cmd) chosen options /\
    last_such sets_options before (EvSetOptions (Some options)).
Proof.
  intros ST US IM RUN STA.
  destruct (entry_sections g y image pm ST US IM) as (q & kn & inn & kernel & initrd & cmd & PM & MF & E1 & E2 & E3 & E4 & E5 & _).
  destruct (started_verified _ _ _ _ _ _ _ _ _ _ _ RUN STA) as (q1 & kn1 & kd & inn1 & id & rest & P1 & T1 & T2 & H1 & H2 & RD & LD & _ & SI).
  destruct (started_cmdline _ _ _ _ _ _ _ _ _ _ _ RUN STA) as (q2 & cmd2 & chosen & a & b & options & P2 & T3 & EB & CC & LS).
  assert (q1 = q) as -> by congruence. assert (q2 = q) as -> by congruence.
  apply extract_string_text in E1, E3, E5. apply extract_hash_contents in E2, E4.
  assert (forall n t1 t2, section_text image (pe_sections q) n t1 -> section_text image (pe_sections q) n t2 -> t1 = t2) as TU.
  { intros n t1 t2 (d1 & C1 & D1 & _) (d2 & C2 & D2 & _). rewrite (section_contents_unique _ _ _ _ _ C1 C2) in D1. congruence. }
  exists kn, inn, kernel, initrd, cmd, kd, id, rest, chosen, a, b, options.
  rewrite (TU _ _ _ T1 E1), (TU _ _ _ T2 E3) in RD. rewrite (TU _ _ _ T3 E5) in CC.
  split; [exact MF|]. split; [exact (section_contents_unique _ _ _ _ _ H1 E2)|]. split; [exact (section_contents_unique _ _ _ _ _ H2 E4)|].
  auto 10.
Qed.
End Entry.

Lemma history_load M m : sound M -> (forall z, ma_good M z -> loads_well (ma_parse M) z) -> history M m ->
  forall g key n y b image pm, ma_gens M g -> usable g -> ma_keys M key -> named M key g n ->
  lookup m (linux_file M n) = Some (NFile y b) -> in_memory M y image pm ->
  exists kn inn kernel initrd cmd,
    made_for M g kn inn kernel initrd cmd /\
    forall fw kd id, (forall h, fw_image_fs fw h = true) -> (forall h, fs_read (fw_files fw h) kn = Some kd) ->
      (forall h, fs_read (fw_files fw h) inn = Some id) ->
      forall h, snd (load_from_pe fw (ma_sha M) image (pm image) h) =
        if eqb_bytes (ma_sha M kd) (ma_sha M kernel) && eqb_bytes (ma_sha M id) (ma_sha M initrd)
        then Ok (Components kd id cmd) else Err SECURITY_VIOLATION.
Proof.
  intros SO GOOD H g key n y b image pm HG US K ND L IM. eapply entry_load; eauto. eapply own_stub; eauto.
Qed.

Lemma history_starts M m : sound M -> (forall z, ma_good M z -> loads_well (ma_parse M) z) -> history M m ->
  forall g key n y b image pm fw parse path h' r before img entry,
  ma_gens M g -> usable g -> ma_keys M key -> named M key g n ->
  lookup m (linux_file M n) = Some (NFile y b) -> in_memory M y image pm ->
  stub_main fw (ma_sha M) pm parse image path [] = (h', r) -> started h' before img entry ->
  exists kn inn kernel initrd cmd kd id rest chosen a b options,
    made_for M g kn inn kernel initrd cmd /\ ma_sha M kd = ma_sha M kernel /\ ma_sha M id = ma_sha M initrd /\
    reads_of before = [(kn, Some kd); (inn, Some id)] /\
    image_load (fun _ => None) (parse kd) kd = Ok (img, entry) /\
    last_such serves_initrd before (EvInstall PLoadFile2 (id ++ rest) None) /\
    before = a ++ chosen ++ b /\ cmdline_choice (text16z cmd) chosen options /\
    last_such sets_options before (EvSetOptions (Some options)).
Proof.
  intros SO GOOD H g key n y b image pm fw parse path h' r before img entry HG US K ND L IM. eapply entry_starts; eauto. eapply own_stub; eauto.
Qed.
