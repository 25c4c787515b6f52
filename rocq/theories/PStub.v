(** Proofs for C28, C30-C34, C41 (freeing), C43, C55. *)
From Coq Require Import List NArith Bool Lia ZArith ZifyBool ZifyNat ZifyN Permutation Sorted.
From Verif Require Import Base PBase MText MCpio MPe MFirmware MStub PMonad SFirmware PFirmware SStub.
Import ListNotations.
Open Scope N_scope.
Ltac Zify.zify_post_hook ::= Z.to_euclidean_division_equations.

(** ** Sections *)
Lemma find_first : forall n secs s, find (has_name n) secs = Some s ->
  exists before after, secs = before ++ s :: after /\ s_name s = Some n /\
    forall s', In s' before -> s_name s' <> Some n.
Proof.
  intros n; induction secs as [|x secs IH]; intros s H; [discriminate|]. cbn in H.
  destruct (has_name n x) eqn:E.
  - injection H as <-. exists [], secs. split; [reflexivity|]. split; [|intros s' []].
    unfold has_name in E. destruct (s_name x) as [m|]; [|discriminate].
    apply eqb_bytes_spec in E. congruence.
  - destruct (IH s H) as (b & a & -> & Hn & Hb). exists (x :: b), a. split; [reflexivity|]. split; [auto|].
    intros s' [<-|I]; [|auto]. intros X. unfold has_name in E. rewrite X, eqb_bytes_refl in E. discriminate.
Qed.

Lemma slice_nth : forall l a b d, slice l a b = Some d ->
  N.of_nat (length d) = b - a /\ a <= b /\ b <= N.of_nat (length l) /\
  forall i, i < b - a -> nth_error d (N.to_nat i) = nth_error l (N.to_nat (a + i)).
Proof.
  intros l a b d H. unfold slice in H. destruct ((a <=? b) && (b <=? N.of_nat (length l))) eqn:E; [|discriminate].
  injection H as <-. split.
  - rewrite firstn_length, skipn_length. lia.
  - split; [lia|]. split; [lia|]. intros i Hi.
    assert (X : forall k (m : list N) j, (j < k)%nat -> nth_error (firstn k m) j = nth_error m j).
    { induction k; intros m j Hj; [lia|]. destruct m; [destruct j; reflexivity|]. destruct j; [reflexivity|].
      cbn. apply IHk; lia. }
    rewrite X by lia. rewrite nth_error_skipn_add. f_equal; lia.
Qed.

Lemma section_data_contents : forall image secs n d,
  section_data image secs n = Ok (Some d) -> section_contents image secs n d.
Proof.
  intros image secs n d H. unfold section_data in H.
  destruct (find (has_name n) secs) as [s|] eqn:F; [|discriminate].
  destruct (find_first _ _ _ F) as (b & a & E & Hn & Hb).
  unfold read_section in H. destruct (slice image _ _) as [x|] eqn:S; [|discriminate].
  cbn [bind] in H. assert (X : x ++ repeat 0 (N.to_nat (s_vsize s) - length x) = d) by congruence.
  subst d. apply slice_nth in S. destruct S as (L & S1 & S2 & S3).
  exists b, s, a. repeat (split; [assumption|]). split; [|split].
  - rewrite app_length, repeat_length. lia.
  - intros i H1 H2. split.
    + rewrite nth_error_app1 by lia. apply S3. lia.
    + lia.
  - intros i H1 H2. rewrite nth_error_app2 by lia.
    apply nth_error_repeat. lia.
Qed.

(** ** Classes of events *)
Definition is_start (e : event) : Prop := match e with EvStart _ _ _ => True | _ => False end.

(** Code before the boot: no kernel start, no protocol, no memory, no change
    of the loaded image. *)
Definition preparatory (e : event) : Prop :=
  match e with
  | EvTpm _ | EvExtend _ _ _ _ | EvGet _ _ _ _ | EvSet _ _ _ _ _ | EvOpenImage _ | EvLoadOptions _
  | EvDevicePath _ | EvImageText _ | EvFs _ | EvDiscover => True
  | _ => False
  end.

Lemma prep_tpm_log : forall fw p d s, emits preparatory (tpm_log fw p d s).
Proof. intros; unfold tpm_log, open_capable_tpm2; emitsM; cbn; auto. Qed.
Lemma prep_set : forall fw n v d, emits preparatory (set_variable fw n v d).
Proof. intros; unfold set_variable; emitsM; cbn; auto. Qed.
Lemma prep_get : forall fw n v d, emits preparatory (get_variable fw n v d).
Proof. intros; unfold get_variable; emitsM; cbn; auto. Qed.
#[export] Hint Resolve prep_tpm_log prep_set prep_get : emits.
Lemma prep_measure_sections : forall fw image secs k i l, emits preparatory (measure_sections fw image secs k i l).
Proof. intros fw image secs k i; induction l as [|u l IH]; cbn [measure_sections]; emitsM. Qed.
#[export] Hint Resolve prep_measure_sections : emits.
Lemma prep_measure_image : forall fw image p k i, emits preparatory (measure_image fw image p k i).
Proof. intros; unfold measure_image; emitsM. Qed.
Lemma prep_companions_loop : forall fw l m c s, emits preparatory (measure_companions_loop fw l m c s).
Proof.
  intros fw; induction l as [|[t b] l IH]; intros m c s; cbn [measure_companions_loop]; [emitsM|].
  destruct t; emitsM.
Qed.
#[export] Hint Resolve prep_measure_image prep_companions_loop : emits.
Lemma prep_measure_companions : forall fw l, emits preparatory (measure_companion_initrds fw l).
Proof. intros; unfold measure_companion_initrds; emitsM. Qed.
Lemma prep_features : forall fw, emits preparatory (get_loader_features fw).
Proof. intros; unfold get_loader_features; emitsM. Qed.
Lemma prep_ensure : forall fw n v f, emits preparatory f -> emits preparatory (ensure_efi_variable fw n v f).
Proof. intros; unfold ensure_efi_variable, variable_exists; emitsM. Qed.
Lemma prep_export : forall fw n, emits preparatory (export_efi_variables fw n).
Proof.
  intros; unfold export_efi_variables, disk_get_part_uuid.
  repeat first [ apply prep_ensure | progress emitsM ]; cbn; auto.
Qed.
Lemma prep_secure_boot : forall fw, emits preparatory (get_secure_boot_status fw).
Proof. intros; unfold get_secure_boot_status; emitsM. Qed.
#[export] Hint Resolve prep_measure_companions prep_features prep_export prep_secure_boot : emits.
Lemma prep_cmdline : forall fw e, emits preparatory (get_cmdline fw e).
Proof. intros; unfold get_cmdline, get_load_options, measure_boot_loader; emitsM; cbn; auto. Qed.
Lemma emits_discover : forall {A} (P : event -> Prop) fw (f : efs -> res unit A),
  P EvDiscover -> emits P (discover fw f).
Proof.
  intros A P fw f HP h h' r H. unfold discover in H. inversion H; subst.
  exists [EvDiscover]; auto.
Qed.
Lemma prep_discover : forall {A} fw (f : efs -> res unit A), emits preparatory (discover fw f).
Proof. intros; apply emits_discover; exact I. Qed.
#[export] Hint Resolve prep_cmdline prep_discover : emits.
Lemma prep_companions_block : forall fw t p, emits preparatory (companions_block fw t p).
Proof. intros; unfold companions_block; emitsM; cbn; auto. Qed.
#[export] Hint Resolve prep_companions_block : emits.

(** Code that also reads files. *)
Definition prep_or_read (e : event) : Prop := preparatory e \/ reads_file e.
Lemma emits_load_from_pe : forall fw sha image p, emits prep_or_read (load_from_pe fw sha image p).
Proof.
  intros. unfold load_from_pe, check_hash.
  repeat first [ progress emitsM
               | apply (emits_weaken preparatory); [left; auto | apply prep_secure_boot] ];
    unfold prep_or_read; cbn; auto.
Qed.

(** ** load_from_pe *)
Lemma load_from_pe_ok : forall fw sha image parsed h h' k,
  load_from_pe fw sha image parsed h = (h', Ok k) ->
  exists p kn inn b,
    parsed = Some p /\
    extract_string image (pe_sections p) (lit ".linux") = Ok kn /\
    extract_hash image (pe_sections p) (lit ".linuxh") = Ok (sha (k_kernel k)) /\
    extract_string image (pe_sections p) (lit ".initrd") = Ok inn /\
    extract_hash image (pe_sections p) (lit ".initrdh") = Ok (sha (k_initrd k)) /\
    extract_string image (pe_sections p) (lit ".cmdline") = Ok (k_cmdline k) /\
    h' = h ++ [EvFs true; EvRead kn (Some (k_kernel k)); EvRead inn (Some (k_initrd k));
               EvGet (lit "SecureBoot") global_vendor 1 b].
Proof.
  intros fw sha image parsed h h' k H. unfold load_from_pe in H.
  destruct parsed as [p|]; [|discriminate].
  stepM H; [|discriminate|discriminate]. apply lift_inv in S; destruct S as [-> S0].
  stepM H; [|discriminate|discriminate]. apply lift_inv in S; destruct S as [-> S1].
  stepM H; [|discriminate|discriminate]. apply lift_inv in S; destruct S as [-> S2].
  stepM H; [|discriminate|discriminate]. apply lift_inv in S; destruct S as [-> S3].
  stepM H; [|discriminate|discriminate]. apply lift_inv in S; destruct S as [-> S4].
  stepM H; [|discriminate|discriminate]. apply call_inv in S; destruct S as [-> S5].
  stepM H; [|discriminate|discriminate].
  destruct a4 eqn:E4; [|discriminate]. apply ret_inv in S; destruct S as [-> _].
  stepM H; [|discriminate|discriminate]. apply call_inv in S; destruct S as [-> S6].
  stepM H; [|discriminate|discriminate]. destruct a6 as [kd|] eqn:E6; [|discriminate].
  apply ret_inv in S; destruct S as [-> S7].
  stepM H; [|discriminate|discriminate]. apply call_inv in S; destruct S as [-> S8].
  stepM H; [|discriminate|discriminate]. destruct a8 as [idt|] eqn:E8; [|discriminate].
  apply ret_inv in S; destruct S as [-> S9].
  stepM H; [|discriminate|discriminate].
  destruct (secure_boot_spec fw (((h ++ [EvFs (fw_image_fs fw h)]) ++
      [EvRead a (fs_read (fw_files fw (h ++ [EvFs (fw_image_fs fw h)])) a)]) ++
      [EvRead a1 (fs_read (fw_files fw ((h ++ [EvFs (fw_image_fs fw h)]) ++
      [EvRead a (fs_read (fw_files fw (h ++ [EvFs (fw_image_fs fw h)])) a)])) a1)]))
    as (ans & off & SB & _).
  rewrite SB in S. apply pair_equal_spec in S. destruct S as [<- _].
  stepM H; [|discriminate|discriminate]. unfold check_hash in S.
  destruct (eqb_bytes (sha a7) a0) eqn:C1; [|discriminate]. apply ret_inv in S; destruct S as [-> _].
  stepM H; [|discriminate|discriminate]. unfold check_hash in S.
  destruct (eqb_bytes (sha a9) a2) eqn:C2; [|discriminate]. apply ret_inv in S; destruct S as [-> _].
  apply ret_inv in H; destruct H as [-> H]. assert (K : k = Components a7 a9 a3) by congruence. subst k.
  cbn [k_kernel k_initrd k_cmdline].
  apply eqb_bytes_spec in C1, C2.
  exists p, a, a1, ans. repeat split; try congruence.
  assert (X1 : fw_image_fs fw h = true) by congruence. rewrite X1 in *.
  assert (X2 : fs_read (fw_files fw (h ++ [EvFs true])) a = Some a7) by congruence. rewrite X2 in *.
  match type of S8 with _ = Ok ?x => assert (X3 : x = Some a9) by congruence end. rewrite X3 in *.
  rewrite <- !app_assoc. reflexivity.
Qed.

(** ** Loading and starting *)
Definition not_start (e : event) : Prop := ~ is_start e.

Lemma prep_not_start : forall e, preparatory e -> not_start e.
Proof. intros [] H; unfold not_start, is_start; cbn in *; tauto. Qed.

Lemma copy_section_length : forall file img s img', copy_section file img s = Ok img' -> length img' = length img.
Proof.
  intros file img s img' H. unfold copy_section in H. repeat (destruct (_ || _); [discriminate|]).
  destruct (slice file _ _) as [d|]; [|discriminate].
  destruct (copy_into img _ _ d) as [i|] eqn:E; [|discriminate].
  assert (i = img') by congruence; subst i. unfold copy_into in E.
  match type of E with (if ?c then _ else _) = _ => destruct c eqn:C; [|discriminate] end.
  injection E as <-. rewrite !app_length, firstn_length, skipn_length. lia.
Qed.
Lemma copy_sections_length : forall file l img img', copy_sections file img l = Ok img' -> length img' = length img.
Proof.
  intros file; induction l as [|s l IH]; intros img img' H; cbn [copy_sections] in H; [congruence|].
  destruct (copy_section file img s) as [i| |] eqn:E; try discriminate. cbn [bind] in H.
  apply IH in H. apply copy_section_length in E. congruence.
Qed.

Lemma load_kernel_run : forall fw parse file h h' r,
  load_kernel fw parse file h = (h', r) ->
  exists es, h' = h ++ es /\ Forall not_start es /\
    forall img entry, r = Ok (img, entry) ->
      image_load (fun _ => None) (parse file) file = Ok (img, entry) /\
      es = [EvAlloc (bytes_to_pages (len img)) None].
Proof.
  intros fw parse file h h' r H. unfold load_kernel in H.
  destruct (parse file) as [p|] eqn:P.
  - destruct (section_ends (pe_sections p)) as [ends|] eqn:E.
    + unfold mbind, call, lift in H. inversion H; subst; clear H.
      eexists; split; [reflexivity|]. split; [constructor; [intros []|constructor]|].
      intros img entry R. unfold image_load in R |- *. rewrite E in R |- *.
      destruct (fw_alloc fw h (bytes_to_pages (image_length ends))); [discriminate|].
      split; [exact R|].
      destruct (copy_sections file _ _) as [i| |] eqn:C; try discriminate. cbn [bind] in R.
      destruct (pe_relocs p); [discriminate|]. destruct (N.of_nat (length i) <=? pe_entry p); [discriminate|].
      assert (i = img) by congruence; subst i.
      apply copy_sections_length in C. rewrite repeat_length in C.
      unfold len. rewrite C, N2Nat.id. reflexivity.
    + apply lift_inv in H; destruct H as [-> ->]. exists []. rewrite app_nil_r. repeat split; auto;
        unfold image_load in H; rewrite E in H; discriminate.
  - apply lift_inv in H; destruct H as [-> ->]. exists []. rewrite app_nil_r. repeat split; auto; discriminate.
Qed.

Lemma loader_new_run : forall fw initrd h h' r,
  initrd_loader_new fw initrd h = (h', r) ->
  exists es, h' = h ++ es /\ Forall not_start es /\
    (r = Ok tt -> es = [EvInstall PDevicePath device_path_protocol None; EvInstall PLoadFile2 initrd None]).
Proof.
  intros fw initrd h h' r H. unfold initrd_loader_new, mbind, call, check in H.
  destruct (fw_install fw h PDevicePath) as [e|] eqn:E1.
  - inversion H; subst. eexists; split; [reflexivity|]. split; [constructor; [intros []|constructor]|discriminate].
  - unfold ret at 1 in H. destruct (fw_install fw (h ++ _) PLoadFile2) as [e|] eqn:E2;
      inversion H; subst; rewrite <- app_assoc; (eexists; split; [reflexivity|]);
      (split; [repeat (constructor; [intros []|]); constructor|]); [discriminate|reflexivity].
Qed.

(** The complete history of starting a kernel. *)
Lemma start_kernel_run : forall fw img entry opts h h' r,
  start_kernel fw img entry opts h = (h', r) ->
  exists es, h' = h ++ es /\
    (Forall not_start es /\ r = Panic \/
     exists st f, es = [EvOpenImage None; EvSetImage (Some img); EvSetOptions (Some opts);
                        EvStart img entry st; EvFree (bytes_to_pages (len img)) f] ++
                       (if f : bool then [EvSetImage None; EvSetOptions None] else []) /\
                  r = if f then Ok st else Panic).
Proof.
  intros fw img entry opts h h' r H. unfold start_kernel in H.
  unfold mbind, call in H.
  destruct (fw_open_image fw h) eqn:E1.
  - unfold panic in H. inversion H; subst. eexists; split; [reflexivity|]. left. split; [constructor; [intros []|constructor]|auto].
  - unfold ret at 1 in H. destruct (two32 <=? len opts).
    + unfold panic in H. inversion H; subst. rewrite <- app_assoc. eexists; split; [reflexivity|]. left.
      split; [repeat (constructor; [intros []|]); constructor|auto].
    + unfold ret at 1 in H. 
      match type of H with context[fw_kernel fw ?h1] => set (st := fw_kernel fw h1) in * end.
      match type of H with context[fw_free fw ?h1 ?p] => destruct (fw_free fw h1 p) eqn:Ef end;
        unfold ret, panic in H; inversion H; subst h' r; clear H; rewrite <- !app_assoc;
        (eexists; split; [reflexivity|]); right.
      * exists st, true. split; reflexivity.
      * exists st, false. split; reflexivity.
Qed.

Lemma uninstall_run : forall fw h h' r,
  initrd_loader_uninstall fw h = (h', r) ->
  exists es, h' = h ++ es /\ Forall not_start es /\
    (r = Ok tt /\ es = [EvUninstall PDevicePath None; EvUninstall PLoadFile2 None] \/ r = Panic).
Proof.
  intros fw h h' r H. unfold initrd_loader_uninstall in H. apply expect_inv in H.
  assert (E : emits not_start (a <- call (fun h => fw_uninstall fw h PDevicePath) (EvUninstall PDevicePath) ;;
          _ <- check a ;;
          b <- call (fun h => fw_uninstall fw h PLoadFile2) (EvUninstall PLoadFile2) ;;
          check b)) by (emitsM; intros []).
  destruct H as [(a & H & ->) | [(e & H & ->) | (H & ->)]].
  - destruct (E _ _ _ H) as (es & -> & F). exists es. split; [reflexivity|]. split; [exact F|]. left.
    destruct a. split; [reflexivity|]. clear F E. unfold mbind, call, check in H.
    destruct (fw_uninstall fw h PDevicePath); [discriminate|]. unfold ret at 1 in H.
    destruct (fw_uninstall fw (h ++ _) PLoadFile2); inversion H. rewrite <- app_assoc in H1.
    apply app_inv_head in H1. symmetry; exact H1.
  - destruct (E _ _ _ H) as (es & -> & F). exists es; auto.
  - destruct (E _ _ _ H) as (es & -> & F). exists es; auto.
Qed.

(** The history of [boot_linux_unchecked]: either no kernel was started, or
    exactly this one. *)
Definition boot_trace (img : bytes) (entry : N) (initrd cmdline : bytes) (st : option status) : list event :=
  [EvAlloc (bytes_to_pages (len img)) None;
   EvInstall PDevicePath device_path_protocol None; EvInstall PLoadFile2 initrd None;
   EvOpenImage None; EvSetImage (Some img); EvSetOptions (Some cmdline); EvStart img entry st].

Lemma boot_unchecked_run : forall fw parse kernel cmdline initrd h h' r,
  boot_linux_unchecked fw parse kernel cmdline initrd h = (h', r) ->
  exists es, h' = h ++ es /\
    (Forall not_start es \/
     exists img entry st f rest,
       image_load (fun _ => None) (parse kernel) kernel = Ok (img, entry) /\
       es = boot_trace img entry initrd cmdline st ++ EvFree (bytes_to_pages (len img)) f :: rest /\
       Forall not_start rest /\
       (r = Panic \/
        r = match st with None => Ok tt | Some e => Err e end /\ f = true /\
        rest = [EvSetImage None; EvSetOptions None; EvUninstall PDevicePath None; EvUninstall PLoadFile2 None])).
Proof.
  intros fw parse kernel cmdline initrd h h' r H. unfold boot_linux_unchecked in H.
  stepM H.
  2: { apply expect_inv in S. destruct S as [(x & S & E) | [(x & S & E) | (S & E)]]; try discriminate. }
  2: { apply expect_inv in S. destruct S as [(x & S & E) | [(x & S & E) | (S & E)]]; try discriminate;
       destruct (load_kernel_run _ _ _ _ _ _ S) as (es & -> & F & _); exists es; auto. }
  apply expect_inv in S. destruct S as [(x & S & E) | [(x & S & E) | (S & E)]]; try discriminate.
  assert (x = a) by congruence. subst x. clear E. destruct a as [img entry].
  destruct (load_kernel_run _ _ _ _ _ _ S) as (e1 & -> & F1 & L). destruct (L _ _ eq_refl) as [IL ->]. clear L S.
  cbn [fst snd] in H.
  stepM H.
  2: { destruct (loader_new_run _ _ _ _ _ S) as (e2 & -> & F2 & _). rewrite <- app_assoc.
       eexists; split; [reflexivity|]. left. apply Forall_app; auto. }
  2: { destruct (loader_new_run _ _ _ _ _ S) as (e2 & -> & F2 & _). rewrite <- app_assoc.
       eexists; split; [reflexivity|]. left. apply Forall_app; auto. }
  destruct a. destruct (loader_new_run _ _ _ _ _ S) as (e2 & -> & F2 & L). rewrite (L eq_refl) in *. clear L S e2.
  stepM H.
  2: { destruct (start_kernel_run _ _ _ _ _ _ _ S) as (e3 & -> & [[F3 R] | (st & f & -> & R)]); [discriminate|].
       destruct f; discriminate. }
  2: { destruct (start_kernel_run _ _ _ _ _ _ _ S) as (e3 & -> & [[F3 R] | (st & f & -> & R)]).
       - rewrite <- !app_assoc. eexists; split; [reflexivity|]. left. rewrite !Forall_app; auto.
       - destruct f; [discriminate|]. rewrite <- !app_assoc. eexists; split; [reflexivity|]. right.
         exists img, entry, st, false, []. repeat split; auto. }
  destruct (start_kernel_run _ _ _ _ _ _ _ S) as (e3 & -> & [[F3 R] | (st & f & -> & R)]); [discriminate|].
  destruct f; [|discriminate]. assert (a = st) by congruence; subst a. clear R S.
  stepM H.
  2: { destruct (uninstall_run _ _ _ _ S) as (e4 & -> & F4 & [[R ->] | R]); discriminate. }
  2: { destruct (uninstall_run _ _ _ _ S) as (e4 & -> & F4 & R). rewrite <- !app_assoc.
       eexists; split; [reflexivity|]. right. exists img, entry, st, true, ([EvSetImage None; EvSetOptions None] ++ e4).
       repeat split; auto. repeat (constructor; [intros []|]). exact F4. }
  destruct a. destruct (uninstall_run _ _ _ _ S) as (e4 & -> & F4 & [[R ->] | R]); [|discriminate].
  apply check_inv in H. destruct H as [-> H]. rewrite <- !app_assoc.
  eexists; split; [reflexivity|]. right.
  eexists img, entry, st, true, _. split; [exact IL|]. split; [reflexivity|].
  split; [repeat (constructor; [intros []|]); constructor|]. right.
  split; [|split; reflexivity].
  destruct H as [[-> ->] | (e & -> & ->)]; reflexivity.
Qed.

(** ** The whole stub *)
Lemma emits_not_start_load : forall fw sha image p, emits not_start (load_from_pe fw sha image p).
Proof.
  intros. eapply emits_weaken; [|apply emits_load_from_pe].
  intros e [H|H]; [apply prep_not_start; auto|]. destruct e; cbn in *; try contradiction; intros [].
Qed.
Lemma emits_not_start_prep : forall {A} (m : M A), emits preparatory m -> emits not_start m.
Proof. intros A m H. eapply emits_weaken; [|exact H]. apply prep_not_start. Qed.

(** Events of the part between measuring the image and the companions. *)
Definition mid_event (e : event) : Prop :=
  preparatory e /\ match e with EvExtend _ _ _ _ => False | _ => True end.
Lemma mid_features : forall fw, emits mid_event (get_loader_features fw).
Proof. intros; unfold get_loader_features, get_variable; emitsM; cbv; auto. Qed.
Lemma mid_export : forall fw n, emits mid_event (export_efi_variables fw n).
Proof.
  intros; unfold export_efi_variables, ensure_efi_variable, variable_exists, get_variable, set_variable, disk_get_part_uuid.
  emitsM; cbv; auto.
Qed.

Record boot_run (fw : firmware) (sha : bytes -> bytes) (parse_memory parse : bytes -> option pe)
  (image : bytes) (path : option str) (h : list event) (h' : list event) (r : res status unit) : Type := {
  br_k : components; br_h2 : list event; br_h3 : list event; br_h4 : list event; br_h5 : list event;
  br_h6 : list event; br_cs : list companion; br_c : bytes;
  br_open : fw_open_image fw (h ++ [EvTpm (fw_tpm fw h)]) = None;
  br_load : load_from_pe fw sha image (parse_memory image)
              (h ++ [EvTpm (fw_tpm fw h); EvOpenImage None]) = (br_h2, Ok br_k);
  br_measure : if fw_tpm fw h
               then exists x, measure_image fw image (parse_memory image) (k_kernel br_k) (k_initrd br_k) br_h2
                              = (br_h3, x) /\ x <> Panic
               else br_h3 = br_h2;
  br_mid : exists es, br_h4 = br_h3 ++ es /\ Forall mid_event es;
  br_companions : companions_block fw (fw_tpm fw h) path br_h4 = (br_h5, Ok br_cs);
  br_cmdline : get_cmdline fw (cstr16_bytes (k_cmdline br_k)) br_h5 = (br_h6, Ok br_c);
  br_boot : boot_linux_unchecked fw parse (k_kernel br_k) br_c
              (assemble_initrd (k_initrd br_k) (map co_cpio br_cs)) br_h6 = (h', r)
}.

Lemma stub_main_run : forall fw sha pm parse image path h h' r,
  stub_main fw sha pm parse image path h = (h', r) ->
  (exists es, h' = h ++ es /\ Forall not_start es /\ forall a, r <> Ok a) \/
  inhabited (boot_run fw sha pm parse image path h h' r).
Proof.
  intros fw sha pm parse image path h h' r H. unfold stub_main in H.
  assert (Ex : forall (hh hx : list event) {A} (m : M A) x, emits not_start m -> m hh = (hx, x) ->
     (exists e0, hh = h ++ e0 /\ Forall not_start e0) -> exists e0, hx = h ++ e0 /\ Forall not_start e0).
  { intros hh hx A m x Em Hm (e0 & -> & F). destruct (Em _ _ _ Hm) as (e1 & -> & F1).
    exists (e0 ++ e1). rewrite app_assoc, Forall_app; auto. }
  stepM H; try (apply call_inv in S; destruct S as [_ S]; discriminate).
  apply call_inv in S. destruct S as [-> S]. assert (a = fw_tpm fw h) by congruence. subst a. clear S.
  stepM H; try (apply call_inv in S; destruct S as [_ S]; discriminate).
  apply call_inv in S. destruct S as [-> S].
  assert (X0 : exists e0, (h ++ [EvTpm (fw_tpm fw h)]) ++ [EvOpenImage (fw_open_image fw (h ++ [EvTpm (fw_tpm fw h)]))] = h ++ e0
      /\ Forall not_start e0).
  { rewrite <- app_assoc. eexists; split; [reflexivity|]. repeat (constructor; [intros []|]). constructor. }
  stepM H.
  2: { destruct a; discriminate. }
  2: { destruct a; [|discriminate]. apply panic_inv in S0. destruct S0 as [-> _]. left.
       destruct X0 as (e0 & X0 & F0). exists e0. subst r. split; [exact X0|]. split; [exact F0|discriminate]. }
  destruct a as [a|]; [discriminate|]. apply ret_inv in S0; destruct S0 as [-> _].
  assert (Ho : fw_open_image fw (h ++ [EvTpm (fw_tpm fw h)]) = None) by congruence. rewrite Ho in *. clear S.
  rewrite <- app_assoc in H, X0. cbn [app] in H, X0.
  stepM H.
  2: { apply expect_inv in S. destruct S as [(x & S & E) | [(x & S & E) | (S & E)]]; discriminate. }
  2: { left. eapply Ex in X0; [| |exact S].
       - destruct X0 as (e0 & -> & F0). exists e0. subst r. repeat split; auto; discriminate.
       - apply emits_expect, emits_not_start_load. }
  assert (S' := S). eapply Ex in S'; [| apply emits_expect, emits_not_start_load | exact X0]. clear X0. rename S' into X1.
  apply expect_inv in S. destruct S as [(x & S & E) | [(x & S & E) | (S & E)]]; try discriminate.
  assert (x = a) by congruence; subst x; clear E. rename a into k, S into Hload, h0 into h2. 
  stepM H.
  2: { exfalso. destruct (fw_tpm fw h); [|discriminate].
       stepM S; [apply ret_inv in S; destruct S; discriminate | | discriminate].
       apply attempt_inv in S0. destruct S0 as [(x & S0 & E) | [(x & S0 & E) | (S0 & E)]]; discriminate. }
  2: { left. eapply Ex in X1; [| |exact S].
       - destruct X1 as (e0 & -> & F0). exists e0. subst r. repeat split; auto; discriminate.
       - apply emits_not_start_prep. emitsM. }
  assert (Hm : if fw_tpm fw h
               then exists x, measure_image fw image (pm image) (k_kernel k) (k_initrd k) h2
                              = (h0, x) /\ x <> Panic
               else h0 = h2).
  { destruct (fw_tpm fw h).
    - stepM S; [|discriminate|discriminate]. apply ret_inv in S; destruct S as [-> _].
      apply attempt_inv in S0. destruct S0 as [(x & S0 & E) | [(x & S0 & E) | (S0 & E)]]; [| |discriminate];
        (eexists; split; [exact S0|discriminate]).
    - apply ret_inv in S; destruct S as [-> _]. reflexivity. }
  eapply Ex in X1; [| |exact S]; [|apply emits_not_start_prep; emitsM]. clear S a.
  stepM H.
  2: { apply attempt_inv in S. destruct S as [(x & S0 & E) | [(x & S0 & E) | (S0 & E)]]; discriminate. }
  2: { left. eapply Ex in X1; [| |exact S]; [|apply emits_not_start_prep; emitsM].
       destruct X1 as (e0 & -> & F0). exists e0. subst r. repeat split; auto; discriminate. }
  assert (P1 : emits mid_event (attempt (get_loader_features fw))) by (apply emits_attempt, mid_features).
  destruct (P1 _ _ _ S) as (e4 & E4 & F4).
  eapply Ex in X1; [| |exact S]; [|apply emits_not_start_prep; emitsM]. clear S P1 a.
  stepM H.
  2: { apply attempt_inv in S. destruct S as [(x & S0 & E) | [(x & S0 & E) | (S0 & E)]]; discriminate. }
  2: { left. eapply Ex in X1; [| |exact S]; [|apply emits_not_start_prep; emitsM].
       destruct X1 as (e0 & -> & F0). exists e0. subst r. repeat split; auto; discriminate. }
  assert (P1 : emits mid_event (attempt (export_efi_variables fw stub_name_text))) by (apply emits_attempt, mid_export).
  destruct (P1 _ _ _ S) as (e5 & E5 & F5).
  eapply Ex in X1; [| |exact S]; [|apply emits_not_start_prep; emitsM]. clear S P1 a.
  assert (Mid : exists es, h3 = h0 ++ es /\ Forall mid_event es).
  { exists (e4 ++ e5). rewrite app_assoc, Forall_app. subst; auto. }
  clear e4 E4 F4 e5 E5 F5 h1.
  stepM H.
  2: { left. eapply Ex in X1; [| |exact S]; [|apply emits_not_start_prep; emitsM].
       destruct X1 as (e0 & -> & F0). exists e0. subst r. repeat split; auto; discriminate. }
  2: { left. eapply Ex in X1; [| |exact S]; [|apply emits_not_start_prep; emitsM].
       destruct X1 as (e0 & -> & F0). exists e0. subst r. repeat split; auto; discriminate. }
  rename a into cs, S into Hcs.
  eapply Ex in X1; [| |exact Hcs]; [|apply emits_not_start_prep; emitsM].
  unfold boot_linux in H. stepM H.
  2: { left. eapply Ex in X1; [| |exact S]; [|apply emits_not_start_prep; emitsM].
       destruct X1 as (e0 & -> & F0). exists e0. subst r. repeat split; auto; discriminate. }
  2: { left. eapply Ex in X1; [| |exact S]; [|apply emits_not_start_prep; emitsM].
       destruct X1 as (e0 & -> & F0). exists e0. subst r. repeat split; auto; discriminate. }
  right. constructor. econstructor; eauto.
Qed.

(** ** C30: the command line *)
Lemma tpm_log_run : forall fw p d s h, p <> 4294967295 ->
  let h1 := h ++ [EvTpm (fw_tpm fw h)] in
  tpm_log fw p d s h =
    if fw_tpm fw h
    then (h1 ++ [EvExtend p d s (fw_extend fw h1 p d)],
          match fw_extend fw h1 p d with None => Ok tt | Some e => Err e end)
    else (h1, Ok tt).
Proof.
  intros fw p d s h Hp. cbv zeta. unfold tpm_log. apply N.eqb_neq in Hp. change 4294967295 with cu32_max in Hp. rewrite Hp.
  unfold open_capable_tpm2, call, mbind. destruct (fw_tpm fw h); [|reflexivity].
  destruct (fw_extend fw (h ++ [EvTpm true]) p d); reflexivity.
Qed.

Lemma get_cmdline_run : forall fw embedded h h' r,
  get_cmdline fw embedded h = (h', r) ->
  exists c es, r = Ok c /\ h' = h ++ es /\ cmdline_choice embedded es c.
Proof.
  intros fw embedded h h' r H. unfold get_cmdline in H. unfold mbind at 1 in H.
  destruct (secure_boot_spec fw h) as (sb & off & E & Hoff). rewrite E in H.
  destruct off; cbn [negb] in H.
  2: { apply ret_inv in H. destruct H as [-> ->]. eexists _, _. repeat split. exists sb. left.
       split; [|split; reflexivity]. intros X. apply Hoff in X. discriminate. }
  assert (Off : sb = GOk [0] \/ sb = GErr NOT_FOUND) by (apply Hoff; reflexivity).
  unfold mbind at 1 in H. unfold get_load_options at 1 in H. unfold mbind at 1, call at 1 in H.
  match type of H with context[fw_open_image fw ?x] => destruct (fw_open_image fw x) as [e|] end.
  { unfold ret in H. inversion H; subst. rewrite <- app_assoc. eexists _, _. repeat split.
    exists sb. right; left. split; [exact Off|]. split; [reflexivity|]. left; exists e; reflexivity. }
  unfold call at 1 in H.
  match type of H with context[fw_load_options fw ?x] => destruct (fw_load_options fw x) as [passed|] end.
  2: { apply ret_inv in H. destruct H as [-> ->]. rewrite <- !app_assoc. eexists _, _. repeat split.
       exists sb. right; left. split; [exact Off|]. split; [reflexivity|]. right; reflexivity. }
  destruct (eqb_bytes passed embedded) eqn:Eq.
  { apply eqb_bytes_spec in Eq. subst passed. apply ret_inv in H. destruct H as [-> ->]. rewrite <- !app_assoc.
    eexists _, _. repeat split. exists sb. right; right; left. repeat split; auto. }
  apply eqb_bytes_false in Eq. unfold mbind at 1, attempt, measure_boot_loader in H.
  change pcr_boot_loader with 4 in H. rewrite tpm_log_run in H by discriminate. cbv zeta in H.
  match type of H with context[fw_tpm fw ?x] => destruct (fw_tpm fw x) end.
  - match type of H with context[fw_extend fw ?x ?y ?z] => destruct (fw_extend fw x y z) as [e|] end;
      unfold ret in H; inversion H; subst; clear H; rewrite <- !app_assoc; eexists _, _; (split; [reflexivity|]);
      (split; [reflexivity|]); exists sb; right; right; right; exists passed; (split; [exact Off|]); (split; [exact Eq|]); right.
    + exists (Some e). split; reflexivity.
    + exists None. split; reflexivity.
  - unfold ret in H; inversion H; subst; clear H; rewrite <- !app_assoc; eexists _, _; (split; [reflexivity|]);
      (split; [reflexivity|]); exists sb; right; right; right; exists passed; (split; [exact Off|]); (split; [exact Eq|]); left.
    split; reflexivity.
Qed.

(** ** C34: layout *)
Lemma pad_to_4_padded : forall l, padded4 l (pad_to_4 l).
Proof.
  intros l. unfold pad_to_4, len. set (k := N.to_nat ((4 - N.of_nat (length l) mod 4) mod 4)).
  exists k. split; [lia|]. split; [reflexivity|]. rewrite app_length, repeat_length.
  exists (Nat.div (length l + 3) 4). pose proof (Nat.div_mod (length l + 3) 4). unfold k. lia.
Qed.

Lemma pad_to_4_app : forall a d q, length a = (4 * q)%nat -> pad_to_4 (a ++ d) = a ++ pad_to_4 d.
Proof.
  intros a d q H. unfold pad_to_4, len. rewrite <- app_assoc, app_length. do 4 f_equal. lia.
Qed.

Lemma assemble_layout : forall initrd ds, layout4 (initrd :: ds) (assemble_initrd initrd ds).
Proof.
  intros initrd ds. unfold assemble_initrd.
  assert (G : forall ds acc, (exists q, length acc = 4 * q)%nat ->
    exists rest, fold_left (fun acc d => pad_to_4 (acc ++ d)) ds acc = acc ++ rest /\ layout4 ds rest).
  { induction ds0 as [|d ds0 IH]; intros acc (q & Hq); cbn [fold_left].
    - exists []. rewrite app_nil_r. split; [reflexivity|constructor].
    - rewrite (pad_to_4_app _ _ q Hq).
      destruct (IH (acc ++ pad_to_4 d)) as (rest & -> & L).
      + destruct (pad_to_4_padded d) as (k & _ & _ & (q' & Hq')). exists (q + q')%nat.
        rewrite app_length. lia.
      + exists (pad_to_4 d ++ rest). rewrite app_assoc. split; [reflexivity|].
        constructor; auto using pad_to_4_padded. }
  destruct (G ds (pad_to_4 initrd)) as (rest & -> & L).
  - destruct (pad_to_4_padded initrd) as (k & _ & _ & Q). exact Q.
  - constructor; auto using pad_to_4_padded.
Qed.

(** ** C31 *)
Definition measured_order : list unified :=
  [ULinux; UOsRel; UCmdLine; UInitrd; UUcode; USplash; UDtb; UHwids; UUname; USbat; UPcrPkey].
Lemma canonical_order : canonical_sections = map unified_name measured_order.
Proof. reflexivity. Qed.

Lemma unified_dec : forall a b : unified, {a = b} + {a <> b}.
Proof. decide equality. Defined.

Lemma unified_of_name : forall n u, unified_of n = Some u -> n = unified_name u.
Proof.
  intros n u H. unfold unified_of in H.
  repeat (match type of H with (if eqb_bytes n ?x then _ else _) = _ =>
    destruct (eqb_bytes n x) eqn:E;
    [apply eqb_bytes_spec in E; injection H as <-; exact E | clear E] end).
  discriminate.
Qed.
Lemma unified_of_self : forall u, unified_of (unified_name u) = Some u.
Proof. intros []; reflexivity. Qed.

Lemma insert_front : forall u b,
  match b with [] => True | v :: _ => unified_index u <= unified_index v end -> insert_unified u b = u :: b.
Proof.
  intros u [|v b] H; [reflexivity|]. cbn [insert_unified].
  replace (unified_index v <? unified_index u) with false by lia. reflexivity.
Qed.
Lemma insert_skip : forall u a b, Forall (fun v => unified_index v < unified_index u) a ->
  insert_unified u (a ++ b) = a ++ insert_unified u b.
Proof.
  intros u; induction a as [|v a IH]; intros b F; [reflexivity|]. inversion F; subst.
  cbn [app insert_unified]. replace (unified_index v <? unified_index u) with true by lia.
  rewrite IH by auto. reflexivity.
Qed.

Definition blocks (c : unified -> nat) (o : list unified) : list unified :=
  flat_map (fun u => repeat u (c u)) o.

Lemma blocks_forall : forall (P : unified -> Prop) c o, Forall P o -> Forall P (blocks c o).
Proof.
  intros P c; induction o as [|u o IH]; intros F; [constructor|]. inversion F; subst.
  unfold blocks; cbn [flat_map]. apply Forall_app; split; [|apply IH; auto].
  apply Forall_forall. intros x I. apply repeat_spec in I. subst; auto.
Qed.

Lemma blocks_ext : forall c c' o, (forall u, In u o -> c u = c' u) -> blocks c o = blocks c' o.
Proof.
  intros c c'; induction o as [|u o IH]; intros H; [reflexivity|]. unfold blocks in *; cbn [flat_map].
  rewrite IH by (intros; apply H; right; auto). rewrite H by (left; auto). reflexivity.
Qed.

Lemma insert_blocks : forall u c o1 o2,
  Forall (fun v => unified_index v < unified_index u) o1 ->
  Forall (fun v => unified_index u < unified_index v) o2 ->
  insert_unified u (blocks c (o1 ++ u :: o2)) =
  blocks (fun v => if unified_dec v u then S (c v) else c v) (o1 ++ u :: o2).
Proof.
  intros u c o1 o2 F1 F2. unfold blocks at 1. rewrite flat_map_app. cbn [flat_map].
  rewrite insert_skip by (apply blocks_forall; auto).
  rewrite insert_front.
  2: { destruct (c u); [|cbn; lia]. cbn [repeat app].
       pose proof (blocks_forall _ c o2 F2) as F. unfold blocks in F.
       destruct (flat_map (fun u0 => repeat u0 (c u0)) o2); [exact I|]. inversion F; subst; lia. }
  unfold blocks. rewrite flat_map_app. cbn [flat_map].
  destruct (unified_dec u u) as [_|X]; [|congruence]. cbn [repeat app]. f_equal; [|f_equal; f_equal].
  - apply (blocks_ext c). intros v I. destruct (unified_dec v u); auto. subst.
    rewrite Forall_forall in F1. apply F1 in I. lia.
  - apply (blocks_ext c). intros v I. destruct (unified_dec v u); auto. subst.
    rewrite Forall_forall in F2. apply F2 in I. lia.
Qed.

Lemma measured_split : forall u, should_be_measured u = true ->
  exists o1 o2, measured_order = o1 ++ u :: o2 /\
    Forall (fun v => unified_index v < unified_index u) o1 /\
    Forall (fun v => unified_index u < unified_index v) o2.
Proof.
  assert (G : forall u n, nth_error measured_order n = Some u ->
     measured_order = firstn n measured_order ++ u :: skipn (S n) measured_order).
  { intros u n H. rewrite <- (firstn_skipn n measured_order) at 1. f_equal.
    revert H. generalize measured_order. induction n; intros [|x l] H; try discriminate.
    - cbn in *. congruence.
    - cbn in *. apply IHn; auto. }
  intros u H. destruct u; try discriminate H;
    match goal with
    | |- exists _ _, measured_order = _ ++ ?u :: _ /\ _ =>
        let rec go n := first [ (assert (E : nth_error measured_order n = Some u) by reflexivity;
          exists (firstn n measured_order), (skipn (S n) measured_order);
          split; [apply G; exact E|]; split; vm_compute; repeat (constructor; [reflexivity|]); constructor)
        | go (S n) ] in go 0%nat
    end.
Qed.

Lemma sort_blocks : forall l, Forall (fun u => should_be_measured u = true) l ->
  sort_unified l = blocks (count_occ unified_dec l) measured_order.
Proof.
  induction l as [|u l IH]; intros F; [reflexivity|]. inversion F; subst.
  unfold sort_unified. cbn [fold_right]. fold (sort_unified l). rewrite (IH H2).
  destruct (measured_split u H1) as (o1 & o2 & -> & F1 & F2). rewrite insert_blocks by auto.
  apply blocks_ext. intros v _. cbn [count_occ]. destruct (unified_dec v u), (unified_dec u v); congruence.
Qed.

Lemma sections_measurable : forall names, Forall (fun u => should_be_measured u = true) (sections_to_measure names).
Proof.
  induction names as [|n names IH]; [constructor|]. unfold sections_to_measure in *; cbn [flat_map].
  apply Forall_app; split; [|exact IH]. destruct (unified_of n) as [u|]; [|constructor].
  destruct (should_be_measured u) eqn:E; constructor; auto.
Qed.

Lemma count_sections : forall secs u, should_be_measured u = true ->
  count_occ unified_dec (sections_to_measure (section_names secs)) u = occurrences secs (unified_name u).
Proof.
  intros secs u Hu. unfold occurrences. induction secs as [|s secs IH]; [reflexivity|].
  unfold section_names, sections_to_measure in *. cbn [flat_map filter].
  destruct (s_name s) as [m|]; [|cbn [app]; exact IH].
  cbn [app flat_map]. destruct (str_dec m (unified_name u)) as [->|Ne].
  - rewrite unified_of_self, Hu. cbn [app count_occ length]. destruct (unified_dec u u); [|congruence].
    f_equal. exact IH.
  - destruct (unified_of m) as [v|] eqn:E; [|exact IH]. destruct (should_be_measured v); [|exact IH].
    cbn [app count_occ]. destruct (unified_dec v u) as [->|_]; [|exact IH].
    apply unified_of_name in E. contradiction.
Qed.

Lemma present_found : forall secs u, In u (sections_to_measure (section_names secs)) ->
  exists s, find (has_name (unified_name u)) secs = Some s.
Proof.
  intros secs u I. unfold sections_to_measure in I. apply in_flat_map in I. destruct I as (n & In1 & I2).
  destruct (unified_of n) as [v|] eqn:E; [|destruct I2]. destruct (should_be_measured v); [|destruct I2].
  destruct I2 as [<-|[]]. apply unified_of_name in E. subst n.
  unfold section_names in In1. apply in_flat_map in In1. destruct In1 as (s & I1 & I2).
  destruct (s_name s) as [m|] eqn:En; [|destruct I2]. destruct I2 as [->|[]].
  destruct (find (has_name (unified_name v)) secs) as [s'|] eqn:F; [eauto|].
  pose proof (find_none _ _ F _ I1) as X. unfold has_name in X. rewrite En, eqb_bytes_refl in X. discriminate.
Qed.

(** The data the model measures for a section name. *)
Definition model_data (image : bytes) (secs : list section) (kernel initrd : bytes) (n : str) : bytes :=
  if str_dec n (lit ".linux") then kernel
  else if str_dec n (lit ".initrd") then initrd
  else match section_data image secs n with Ok (Some d) => d | _ => [] end.

Lemma extends_app : forall a b, extends_of (a ++ b) = extends_of a ++ extends_of b.
Proof. intros. unfold extends_of. apply flat_map_app. Qed.

Lemma attempt_log_run : forall fw p d s h, tpm_present fw -> p <> 4294967295 ->
  exists r, attempt (tpm_log fw p d s) h =
    (h ++ [EvTpm true; EvExtend p d s r], Ok match r with None => inl tt | Some e => inr e end) /\
    r = fw_extend fw (h ++ [EvTpm true]) p d.
Proof.
  intros fw p d s h Ht Hp. unfold attempt. rewrite tpm_log_run by auto. cbv zeta. rewrite Ht.
  exists (fw_extend fw (h ++ [EvTpm true]) p d). split; [|reflexivity]. rewrite <- app_assoc.
  destruct (fw_extend fw (h ++ [EvTpm true]) p d); reflexivity.
Qed.

Definition is_extend_ok_or_tpm (e : event) : Prop :=
  match e with EvTpm _ | EvExtend _ _ _ _ => True | _ => False end.

Lemma measure_sections_run : forall fw image secs kernel initrd l h h' r,
  tpm_present fw ->
  (forall u, In u l -> exists s, find (has_name (unified_name u)) secs = Some s) ->
  measure_sections fw image secs kernel initrd l h = (h', r) -> r <> Panic ->
  exists es n, h' = h ++ es /\ r = Ok n /\
    extends_of es = flat_map (fun u => [(11, unified_name u ++ [0], unified_name u);
                        (11, model_data image secs kernel initrd (unified_name u), unified_name u)]) l /\
    (0 < n <-> extended_ok es 11) /\
    Forall is_extend_ok_or_tpm es /\
    forall u, In u l -> measured_data image secs kernel initrd (unified_name u)
                          (model_data image secs kernel initrd (unified_name u)).
Proof.
  intros fw image secs kernel initrd l; induction l as [|u l IH]; intros h h' r Ht Hl H NP.
  - cbn [measure_sections] in H. apply ret_inv in H. destruct H as [-> ->].
    exists [], 0. rewrite app_nil_r. repeat split; auto; try lia; try (intros (d & s & [])). intros u [].
  - cbn [measure_sections] in H. unfold mbind at 1, lift in H.
    destruct (Hl u (or_introl eq_refl)) as [s Fs].
    assert (Sd : (exists d, section_data image secs (unified_name u) = Ok (Some d)) \/
                 section_data image secs (unified_name u) = Panic).
    { unfold section_data. rewrite Fs. unfold read_section.
      destruct (slice image _ _); cbn [bind]; [left; eexists; reflexivity | right; reflexivity]. }
    destruct Sd as [[d Sd] | Sd]; rewrite Sd in H; [|inversion H; congruence].
    assert (D : match u with ULinux => Some kernel | UInitrd => Some initrd | _ => Some d end =
                Some (model_data image secs kernel initrd (unified_name u))).
    { unfold model_data. destruct u; cbn [unified_name]; try reflexivity;
        repeat (match goal with |- context[str_dec ?a ?b] => destruct (str_dec a b) as [X|_]; [discriminate X|] end);
        cbn [unified_name] in Sd; rewrite Sd; reflexivity. }
    assert (MD : measured_data image secs kernel initrd (unified_name u)
                   (model_data image secs kernel initrd (unified_name u))).
    { unfold measured_data, model_data. destruct (str_dec _ _); [reflexivity|]. destruct (str_dec _ _); [reflexivity|].
      rewrite Sd. apply section_data_contents; auto. }
    cbv zeta in H. rewrite D in H. clear D.
    set (dd := model_data image secs kernel initrd (unified_name u)) in *.
    replace (utf8_encode (unified_name u)) with (unified_name u) in H by (destruct u; reflexivity).
    change pcr_kernel_image with 11 in H.
    unfold mbind at 1 in H. unfold mbind at 1 in H.
    destruct (attempt_log_run fw 11 (unified_name u ++ [0]) (unified_name u) h Ht ltac:(discriminate)) as (r1 & E1 & _).
    rewrite E1 in H. unfold mbind at 1 in H.
    destruct (attempt_log_run fw 11 dd (unified_name u) (h ++ [EvTpm true; EvExtend 11 (unified_name u ++ [0]) (unified_name u) r1]) Ht ltac:(discriminate)) as (r2 & E2 & _).
    rewrite E2 in H. unfold ret at 1 in H. unfold mbind at 1 in H.
    match type of H with context[measure_sections fw image secs kernel initrd l ?hh] => set (h1 := hh) in H;
      destruct (measure_sections fw image secs kernel initrd l h1) as [h2 rr] eqn:E3 end.
    assert (NPr : rr <> Panic) by (intros ->; inversion H; congruence).
    destruct (IH _ _ _ Ht (fun v Iv => Hl v (or_intror Iv)) E3 NPr) as (es & n & -> & -> & Ex & Nn & Fe & Md).
    apply ret_inv in H. destruct H as [-> ->].
    unfold h1. rewrite <- !app_assoc. eexists _, _. split; [reflexivity|]. split; [reflexivity|].
    split; [|split; [|split]].
    + rewrite !extends_app, Ex. reflexivity.
    + unfold extended_ok. destruct r1 as [x1|], r2 as [x2|]; split; intros Hx; try lia.
      * assert (Hn : 0 < n) by lia. apply Nn in Hn. destruct Hn as (d' & s' & I). exists d', s'. cbn; tauto.
      * destruct Hx as (d' & s' & I). assert (In (EvExtend 11 d' s' None) es).
        { cbn in I. destruct I as [I|[I|[I|[I|I]]]]; try discriminate; auto. }
        assert (0 < n) by (apply Nn; exists d', s'; auto). lia.
      * exists dd, (unified_name u). cbn; tauto.
      * exists (unified_name u ++ [0]), (unified_name u). cbn; tauto.
      * exists (unified_name u ++ [0]), (unified_name u). cbn; tauto.
    + repeat (constructor; [exact I|]). exact Fe.
    + intros v [<-|Iv]; auto.
Qed.

Lemma measure_image_run : forall fw image p kernel initrd h h' r,
  tpm_present fw ->
  measure_image fw image (Some p) kernel initrd h = (h', r) -> r <> Panic ->
  exists es log sets data,
    h' = h ++ es /\ es = log ++ sets /\
    extends_of es = pcr11_log (pe_sections p) data /\
    (forall n, In n canonical_sections -> (0 < occurrences (pe_sections p) n)%nat ->
       measured_data image (pe_sections p) kernel initrd n (data n)) /\
    Forall is_extend_ok_or_tpm log /\
    (extended_ok es 11 ->
       exists x, sets = [EvSet (lit "StubPcrKernelImage") systemd_vendor 6 [49; 0; 49; 0] x]) /\
    (~ extended_ok es 11 -> sets = []).
Proof.
  intros fw image p kernel initrd h h' r Ht H NP. unfold measure_image in H.
  set (l := sort_unified (sections_to_measure (section_names (pe_sections p)))) in *.
  assert (Hl : forall u, In u l -> should_be_measured u = true /\
     exists s, find (has_name (unified_name u)) (pe_sections p) = Some s).
  { intros u I. unfold l in I. pose proof (sections_measurable (section_names (pe_sections p))) as SM.
    rewrite sort_blocks in I by auto. unfold blocks in I. apply in_flat_map in I. destruct I as (v & Iv & I).
    assert (I' := I). apply repeat_spec in I. subst v.
    assert (In u (sections_to_measure (section_names (pe_sections p)))).
    { apply (count_occ_In unified_dec). destruct (count_occ unified_dec _ u); [destruct I'|lia]. }
    split; [rewrite Forall_forall in SM; auto | apply present_found; auto]. }
  apply mbind_inv in H. destruct H as [(h1 & n & E1 & H) | [(e & E1 & ->) | (E1 & ->)]]; [| |congruence].
  2: { destruct (measure_sections_run _ _ _ _ _ _ _ _ _ Ht (fun u I => proj2 (Hl u I)) E1) as (? & ? & _ & X & _); discriminate. }
  destruct (measure_sections_run _ _ _ _ _ _ _ _ _ Ht (fun u I => proj2 (Hl u I)) E1) as (es & n' & -> & Eq & Ex & Nn & Fe & Md);
    [discriminate|].
  assert (n' = n) by congruence; subst n'; clear Eq.
  set (data := model_data image (pe_sections p) kernel initrd) in *.
  assert (LOG : extends_of es = pcr11_log (pe_sections p) data).
  { rewrite Ex. unfold l. rewrite sort_blocks by apply sections_measurable.
    unfold pcr11_log. rewrite canonical_order. unfold blocks.
    assert (Hc : forall u, In u measured_order ->
      count_occ unified_dec (sections_to_measure (section_names (pe_sections p))) u = occurrences (pe_sections p) (unified_name u)).
    { intros u Iu. apply count_sections.
      destruct u; try reflexivity; exfalso; cbn in Iu; repeat (destruct Iu as [Iu|Iu]; [discriminate|]); exact Iu. }
    revert Hc. generalize measured_order. induction l0 as [|u o IH]; intros Hc; [reflexivity|].
    cbn [flat_map map]. rewrite flat_map_app, IH by (intros; apply Hc; right; auto). f_equal.
    rewrite Hc by (left; auto). induction (occurrences (pe_sections p) (unified_name u)) as [|m IHm]; [reflexivity|].
    cbn [repeat flat_map concat]. rewrite IHm. reflexivity. }
  assert (MD : forall n, In n canonical_sections -> (0 < occurrences (pe_sections p) n)%nat ->
       measured_data image (pe_sections p) kernel initrd n (data n)).
  { intros nm In1 Oc. rewrite canonical_order in In1. apply in_map_iff in In1. destruct In1 as (u & <- & Iu).
    apply Md. unfold l. rewrite sort_blocks by apply sections_measurable. unfold blocks. apply in_flat_map.
    exists u. split; [auto|].
    assert (Mu : should_be_measured u = true).
    { destruct u; try reflexivity; exfalso; cbn in Iu; repeat (destruct Iu as [Iu|Iu]; [discriminate|]); exact Iu. }
    rewrite count_sections by auto. destruct (occurrences _ _); [lia|left; reflexivity]. }
  destruct (0 <? n) eqn:En.
  - assert (Hn : 0 < n) by lia. unfold mbind in H. rewrite set_variable_run in H.
    assert (Hh : h' = (h ++ es) ++ [EvSet (lit "StubPcrKernelImage") loader_vendor 6 (utf16_bytes (dec pcr_kernel_image))
              (fw_set fw (h ++ es) (lit "StubPcrKernelImage") loader_vendor (utf16_bytes (dec pcr_kernel_image)))]).
    { match type of H with context[fw_set fw ?a ?b ?c ?d] => destruct (fw_set fw a b c d) end;
        unfold ret in H; inversion H; reflexivity. }
    subst h'. rewrite <- app_assoc.
    eexists _, es, _, data. split; [reflexivity|]. split; [reflexivity|].
    split; [rewrite extends_app; cbn [extends_of flat_map]; rewrite app_nil_r; exact LOG|].
    split; [exact MD|]. split; [exact Fe|]. split.
    + intros _. eexists. reflexivity.
    + intros C. exfalso. apply C. apply Nn in Hn. destruct Hn as (d & s & I). exists d, s.
      apply in_or_app; auto.
  - apply mbind_inv in H. destruct H as [(h1 & x & E2 & H) | [(e & E2 & ->) | (E2 & ->)]]; try discriminate.
    apply ret_inv in E2. destruct E2 as [-> _]. apply ret_inv in H. destruct H as [-> _].
    exists es, es, [], data. rewrite app_nil_r. repeat split; auto.
    intros C. apply Nn in C. lia.
Qed.

(** ** C32 *)
Lemma extended_ok_app : forall a b p, extended_ok (a ++ b) p <-> extended_ok a p \/ extended_ok b p.
Proof.
  intros a b p. unfold extended_ok. split.
  - intros (d & s & I). apply in_app_or in I. destruct I; [left|right]; eauto.
  - intros [(d & s & I) | (d & s & I)]; exists d, s; apply in_or_app; auto.
Qed.

Lemma companions_loop_run : forall fw l m c s h h' r,
  tpm_present fw ->
  measure_companions_loop fw l m c s h = (h', r) ->
  exists es m' c' s', h' = h ++ es /\ r = Ok (m', c', s') /\
    extends_of es = flat_map companion_log l /\ Forall is_extend_ok_or_tpm es /\
    (0 < c' <-> 0 < c \/ extended_ok es 12) /\
    (s' = true <-> s = true \/ extended_ok es 13).
Proof.
  intros fw l; induction l as [|[t b] l IH]; intros m c s h h' r Ht H; cbn [measure_companions_loop] in H.
  - apply ret_inv in H. destruct H as [-> ->]. exists [], m, c, s. rewrite app_nil_r.
    repeat split; auto; intros [X|(d & x & [])]; auto.
  - assert (Skip : measure_companions_loop fw l m c s h = (h', r) -> flat_map companion_log (Companion t b :: l) = flat_map companion_log l ->
      exists es m' c' s', h' = h ++ es /\ r = Ok (m', c', s') /\
        extends_of es = flat_map companion_log (Companion t b :: l) /\ Forall is_extend_ok_or_tpm es /\
        (0 < c' <-> 0 < c \/ extended_ok es 12) /\ (s' = true <-> s = true \/ extended_ok es 13)).
    { intros H' ->. eapply IH; eauto. }
    assert (One : forall pcr (desc : str) (k : unit + status -> M (N * N * bool)) c1 s1,
      pcr <> 4294967295 ->
      (x <- attempt (tpm_log fw pcr b desc) ;; k x) h = (h', r) ->
      (forall e, k (inr e) = measure_companions_loop fw l m c s) ->
      k (inl tt) = measure_companions_loop fw l (m + 1) c1 s1 ->
      flat_map companion_log (Companion t b :: l) = (pcr, b, desc) :: flat_map companion_log l ->
      (pcr = 12 /\ c1 = c + 1 /\ s1 = s \/ pcr = 13 /\ c1 = c /\ s1 = true) ->
      exists es m' c' s', h' = h ++ es /\ r = Ok (m', c', s') /\
        extends_of es = flat_map companion_log (Companion t b :: l) /\ Forall is_extend_ok_or_tpm es /\
        (0 < c' <-> 0 < c \/ extended_ok es 12) /\ (s' = true <-> s = true \/ extended_ok es 13)).
    { intros pcr desc k c1 s1 Hp H' Kerr Kok Kl Kc.
      unfold mbind in H'. destruct (attempt_log_run fw pcr b desc h Ht Hp) as (r1 & E1 & _). rewrite E1 in H'.
      rewrite Kl. destruct r1 as [e|].
      - rewrite Kerr in H'. destruct (IH _ _ _ _ _ _ Ht H') as (es & m' & c' & s' & -> & -> & Ex & F & HC & HS).
        rewrite <- app_assoc. eexists _, m', c', s'. split; [reflexivity|]. split; [reflexivity|].
        split; [rewrite extends_app, Ex; reflexivity|]. split; [repeat (constructor; [exact I|]); exact F|].
        rewrite !extended_ok_app. rewrite HC, HS. split; (split; [tauto|]);
          (intros [X|[(d & x & [X|[X|[]]])|X]]; try discriminate; tauto).
      - rewrite Kok in H'. destruct (IH _ _ _ _ _ _ Ht H') as (es & m' & c' & s' & -> & -> & Ex & F & HC & HS).
        rewrite <- app_assoc. eexists _, m', c', s'. split; [reflexivity|]. split; [reflexivity|].
        split; [rewrite extends_app, Ex; reflexivity|]. split; [repeat (constructor; [exact I|]); exact F|].
        rewrite !extended_ok_app. rewrite HC, HS.
        assert (X12 : extended_ok [EvTpm true; EvExtend pcr b desc None] 12 <-> pcr = 12).
        { split.
          - intros (d & x & [X|[X|[]]]); try discriminate. congruence.
          - intros ->. exists b, desc. right; left; reflexivity. }
        assert (X13 : extended_ok [EvTpm true; EvExtend pcr b desc None] 13 <-> pcr = 13).
        { split.
          - intros (d & x & [X|[X|[]]]); try discriminate. congruence.
          - intros ->. exists b, desc. right; left; reflexivity. }
        rewrite X12, X13.
        destruct Kc as [(-> & -> & ->) | (-> & -> & ->)]; split; split; intros Y;
          repeat match goal with X : _ \/ _ |- _ => destruct X end; try tauto; try lia; try discriminate;
          try (left; lia); try (right; left; reflexivity). }
    destruct t.
    + eapply (One 12 _ _ (c + 1) s); [discriminate | exact H | reflexivity | reflexivity | reflexivity | auto].
    + eapply (One 12 _ _ (c + 1) s); [discriminate | exact H | reflexivity | reflexivity | reflexivity | auto].
    + eapply (One 13 _ _ c true); [discriminate | exact H | reflexivity | reflexivity | reflexivity | auto].
    + apply Skip; auto.
    + apply Skip; auto.
Qed.

Lemma extended_sets : forall es n v a d x p, extended_ok (es ++ [EvSet n v a d x]) p <-> extended_ok es p.
Proof.
  intros. rewrite extended_ok_app. split; [intros [X|(d' & s' & [X|[]])]; [auto|discriminate] | auto].
Qed.

Lemma log_no_set : forall es, Forall is_extend_ok_or_tpm es -> forall n v a d x, ~ In (EvSet n v a d x) es.
Proof. intros es F n v a d x I. rewrite Forall_forall in F. apply F in I. exact I. Qed.

Lemma measure_companions_run : forall fw l h h' r,
  tpm_present fw ->
  measure_companion_initrds fw l h = (h', r) ->
  exists es log sets, h' = h ++ es /\ es = log ++ sets /\
    extends_of es = flat_map companion_log l /\ Forall is_extend_ok_or_tpm log /\
    (forall p, extended_ok es p <-> extended_ok log p) /\
    sets = (if match r with Ok _ | Err _ => true | Panic => false end then sets else []) /\
    exists o12 o13 : option (option status),
      sets = match o12 with None => [] | Some x => [EvSet (lit "StubPcrKernelParameters") systemd_vendor 6 [12; 0; 0; 0] x] end ++
             match o13 with None => [] | Some x => [EvSet (lit "StubPcrInitRDSysExts") systemd_vendor 6 [13; 0; 0; 0] x] end /\
      (extended_ok log 12 <-> o12 <> None) /\
      (o13 <> None <-> extended_ok log 13 /\ forall e, o12 <> Some (Some e)).
Proof.
  intros fw l h h' r Ht H. unfold measure_companion_initrds in H. unfold mbind at 1 in H.
  destruct (measure_companions_loop fw l 0 0 false h) as [h1 r1] eqn:E.
  destruct (companions_loop_run _ _ _ _ _ _ _ _ Ht E) as (es & m & c & s & -> & -> & Ex & F & HC & HS).
  assert (NS := log_no_set _ F).
  assert (HC' : 0 < c <-> extended_ok es 12) by (rewrite HC; split; [intros [X|X]; [lia|auto]|auto]).
  assert (HS' : s = true <-> extended_ok es 13) by (rewrite HS; split; [intros [X|X]; [discriminate|auto]|auto]).
  clear HC HS E.
  destruct (0 <? c) eqn:Ec.
  - assert (K12 : extended_ok es 12) by (apply HC'; lia).
    unfold mbind at 1 in H. rewrite set_variable_run in H.
    match type of H with context[fw_set fw ?a ?b ?c0 ?d] => set (x1 := fw_set fw a b c0 d) in * end.
    change (le32 pcr_kernel_config) with [12; 0; 0; 0] in H. change loader_vendor with systemd_vendor in H.
    destruct x1 as [e1|].
    + inversion H; subst; clear H. rewrite <- app_assoc. eexists _, es, _. split; [reflexivity|]. split; [reflexivity|].
      split; [rewrite extends_app; cbn [extends_of flat_map]; rewrite app_nil_r; exact Ex|]. split; [exact F|].
      split; [intros p; apply extended_sets|]. split; [reflexivity|].
      exists (Some (Some e1)), None. split; [reflexivity|]. split.
      * split; [discriminate|auto].
      * split; [congruence|]. intros [_ X]. exfalso. apply (X e1); reflexivity.
    + destruct s.
      * unfold mbind at 1 in H. rewrite set_variable_run in H.
        match type of H with context[fw_set fw ?a ?b ?c0 ?d] => set (x2 := fw_set fw a b c0 d) in * end.
        change (le32 pcr_sysexts) with [13; 0; 0; 0] in H. change loader_vendor with systemd_vendor in H.
        assert (Hh : h' = ((h ++ es) ++ [EvSet (lit "StubPcrKernelParameters") systemd_vendor 6 [12; 0; 0; 0] None]) ++
                     [EvSet (lit "StubPcrInitRDSysExts") systemd_vendor 6 [13; 0; 0; 0] x2] /\ r <> Panic).
        { destruct x2; unfold ret in H; inversion H; split; auto; discriminate. }
        destruct Hh as [-> NP]. rewrite <- !app_assoc. eexists _, es, _. split; [reflexivity|]. split; [reflexivity|].
        split; [rewrite !extends_app; cbn [extends_of flat_map app]; rewrite app_nil_r; exact Ex|]. split; [exact F|].
        split; [intros p; rewrite app_assoc, !extended_sets; tauto|]. split; [destruct r; auto; congruence|].
        exists (Some None), (Some x2). split; [reflexivity|]. split; [split; [discriminate|auto]|].
        split; [|discriminate]. intros _. split; [tauto|discriminate].
      * unfold mbind, ret in H. inversion H; subst; clear H. rewrite <- !app_assoc. eexists _, es, _.
        split; [reflexivity|]. split; [reflexivity|].
        split; [rewrite !extends_app; cbn [extends_of flat_map app]; rewrite app_nil_r; exact Ex|]. split; [exact F|].
        split; [intros p; apply extended_sets|]. split; [reflexivity|].
        exists (Some None), None. split; [reflexivity|]. split; [split; [discriminate|auto]|].
        split; [congruence|]. intros [X _]. apply HS' in X. discriminate.
  - assert (K12 : ~ extended_ok es 12) by (intros X; apply HC' in X; lia).
    unfold mbind at 1, ret at 1 in H. destruct s.
    + unfold mbind at 1 in H. rewrite set_variable_run in H.
      match type of H with context[fw_set fw ?a ?b ?c0 ?d] => set (x2 := fw_set fw a b c0 d) in * end.
      change (le32 pcr_sysexts) with [13; 0; 0; 0] in H. change loader_vendor with systemd_vendor in H.
      assert (Hh : h' = (h ++ es) ++ [EvSet (lit "StubPcrInitRDSysExts") systemd_vendor 6 [13; 0; 0; 0] x2] /\ r <> Panic).
      { destruct x2; unfold ret in H; inversion H; split; auto; discriminate. }
      destruct Hh as [-> NP]. rewrite <- !app_assoc. eexists _, es, _. split; [reflexivity|]. split; [reflexivity|].
      split; [rewrite !extends_app; cbn [extends_of flat_map app]; rewrite app_nil_r; exact Ex|]. split; [exact F|].
      split; [intros p; apply extended_sets|]. split; [destruct r; auto; congruence|].
      exists None, (Some x2). split; [reflexivity|]. split; [split; [contradiction|congruence]|].
      split; [|discriminate]. intros _. split; [tauto|discriminate].
    + unfold mbind, ret in H. inversion H; subst; clear H. exists es, es, [].
      split; [reflexivity|]. rewrite app_nil_r. split; [reflexivity|].
      split; [exact Ex|]. split; [exact F|]. split; [tauto|]. split; [reflexivity|].
      exists None, None. split; [reflexivity|]. split; [split; [contradiction|congruence]|].
      split; [congruence|]. intros [X _]. apply HS' in X. discriminate.
Qed.

(** The companions found are all of kinds that are measured. *)
Lemma discovered_kinds_of : forall fs dir suffix t target dm fm l,
  companion_of fs dir suffix t target dm fm = Ok l -> Forall (fun c => co_type c = t) l.
Proof.
  intros fs dir suffix t target dm fm l H. unfold companion_of in H.
  repeat match type of H with
  | bind ?x _ = _ => destruct x; cbn [bind] in H; try discriminate
  | match ?x with _ => _ end = _ => destruct x; try discriminate
  | Ok _ = Ok _ => injection H as <-
  end; repeat constructor.
Qed.


Lemma bind_ok : forall {E A B} (m : res E A) (k : A -> res E B) b,
  bind m k = Ok b -> exists a, m = Ok a /\ k a = Ok b.
Proof. intros E A B [a| |] k b H; try discriminate; eauto. Qed.

Definition pcr12_kind (c : companion) : Prop := co_type c = Credentials \/ co_type c = GlobalCredentials.
Lemma discovered_kinds : forall fs d l, discover_credentials fs d = Ok l -> Forall pcr12_kind l.
Proof.
  intros fs d l H. unfold discover_credentials in H. cbv zeta in H.
  apply bind_ok in H. destruct H as (g & Eg & H). apply bind_ok in H. destruct H as (x & Ex & H).
  assert (l = g ++ x) by congruence. subst l. apply Forall_app. split.
  - destruct (fs_exists fs _) as [[|]|]; try discriminate.
    + destruct (fs_isdir fs _) as [[|]|]; try discriminate.
      * apply discovered_kinds_of in Eg. eapply Forall_impl; [|exact Eg]. unfold pcr12_kind; auto.
      * assert (g = []) by congruence; subst; constructor.
    + assert (g = []) by congruence; subst; constructor.
  - destruct d as [d|].
    + apply discovered_kinds_of in Ex. eapply Forall_impl; [|exact Ex]. unfold pcr12_kind; auto.
    + assert (x = []) by congruence; subst; constructor.
Qed.
Lemma discovered_ext_kinds : forall fs d l, discover_system_extensions fs d = Ok l ->
  Forall (fun c => co_type c = SystemExtension) l.
Proof. intros fs d l H. apply discovered_kinds_of in H. exact H. Qed.

Lemma discover_ok : forall {A} fw (f : efs -> res unit A) h h' a,
  discover fw f h = (h', Ok a) -> f (fw_files fw h) = Ok a /\ h' = h ++ [EvDiscover].
Proof.
  intros A fw f h h' a H. unfold discover in H. destruct (f (fw_files fw h)) eqn:E; inversion H; subst; auto.
Qed.

Lemma companions_block_run : forall fw t path h h' cs,
  companions_block fw t path h = (h', Ok cs) ->
  (exists creds exts, cs = creds ++ exts /\ Forall pcr12_kind creds /\
     Forall (fun c => co_type c = SystemExtension) exts) /\
  exists es, h' = h ++ es /\ Forall preparatory es /\
    (t = true -> tpm_present fw -> extends_of es = flat_map companion_log cs).
Proof.
  intros fw t path h h' cs H. 
  destruct (prep_companions_block fw t path _ _ _ H) as (all & Eall & Fall).
  unfold companions_block in H.
  stepM H; [|discriminate|discriminate]. apply call_inv in S; destruct S as [-> S]. destruct a.
  2: { apply ret_inv in H. destruct H as [-> H]. assert (cs = []) by congruence; subst cs.
       split; [exists [], []; repeat split; constructor|]. eexists; split; [reflexivity|]. split; [repeat constructor|]. intros; reflexivity. }
  stepM H; [|discriminate|discriminate].
  assert (D0 : exists e0, h0 = (h ++ [EvFs (fw_image_fs fw h)]) ++ e0 /\ extends_of e0 = []).
  { destruct path as [p|].
    - stepM S0; [|discriminate|discriminate]. apply ret_inv in S0; destruct S0 as [-> _].
      apply attempt_inv in S1. destruct S1 as [(x & S1 & _)|[(x & S1 & _)|(S1 & E)]]; [| |discriminate];
        unfold discover in S1; inversion S1; (eexists; split; [reflexivity|reflexivity]).
    - apply ret_inv in S0. destruct S0 as [-> _]. exists []; rewrite app_nil_r; auto. }
  clear S0. destruct D0 as (e0 & -> & X0). rename a into dropin.
  stepM H; [|discriminate|discriminate].
  assert (D1 : Forall pcr12_kind (match a with inl l => l | inr _ => [] end) /\
               exists e1, h0 = ((h ++ [EvFs (fw_image_fs fw h)]) ++ e0) ++ e1 /\ extends_of e1 = []).
  { apply attempt_inv in S0. destruct S0 as [(x & S1 & E)|[(x & S1 & E)|(S1 & E)]]; [| |discriminate].
    - assert (a = inl x) by congruence; subst a. apply discover_ok in S1. destruct S1 as [S1 ->].
      split; [eapply discovered_kinds; eauto|]. eexists; split; reflexivity.
    - assert (a = inr x) by congruence; subst a. split; [constructor|].
      unfold discover in S1. inversion S1. eexists; split; reflexivity. }
  clear S0. destruct D1 as (K1 & e1 & -> & X1). set (creds := match a with inl l => l | inr _ => [] end) in *. clearbody creds.
  stepM H; [|discriminate|discriminate].
  assert (D2 : Forall (fun c => co_type c = SystemExtension) a0 /\
               exists e2, h0 = (((h ++ [EvFs (fw_image_fs fw h)]) ++ e0) ++ e1) ++ e2 /\ extends_of e2 = []).
  { destruct dropin as [d|].
    - stepM S0; [|discriminate|discriminate]. apply ret_inv in S0; destruct S0 as [-> S0].
      apply attempt_inv in S1. destruct S1 as [(x & S1 & E)|[(x & S1 & E)|(S1 & E)]]; [| |discriminate].
      + assert (a1 = inl x) by congruence; subst a1. apply discover_ok in S1. destruct S1 as [S1 ->].
        assert (a0 = x) by congruence; subst a0.
        split; [eapply discovered_ext_kinds; eauto|]. eexists; split; reflexivity.
      + assert (a1 = inr x) by congruence; subst a1. assert (a0 = []) by congruence; subst a0. split; [constructor|].
        unfold discover in S1. inversion S1. eexists; split; reflexivity.
    - apply ret_inv in S0. destruct S0 as [-> S0]. assert (a0 = []) by congruence; subst a0. split; [constructor|].
      exists []; rewrite app_nil_r; auto. }
  clear S0. destruct D2 as (K2 & e2 & -> & X2).
  stepM H; [|discriminate|discriminate]. apply ret_inv in H. destruct H as [-> H].
  assert (cs = creds ++ a0) by congruence. subst cs. clear H.
  split; [exists creds, a0; auto|].
  exists all. split; [exact Eall|]. split; [exact Fall|]. intros -> Tp.
  stepM S0; [|discriminate|discriminate]. apply ret_inv in S0. destruct S0 as [-> _].
  apply attempt_inv in S1.
  assert (S2 : exists rr, measure_companion_initrds fw (creds ++ a0)
     ((((h ++ [EvFs (fw_image_fs fw h)]) ++ e0) ++ e1) ++ e2) = (h1, rr)).
  { destruct S1 as [(x & S1 & E)|[(x & S1 & E)|(S1 & E)]]; eauto. }
  destruct S2 as (rr & S2). destruct (measure_companions_run _ _ _ _ _ Tp S2) as (es & log & sets & -> & _ & Ex & _).
  rewrite <- !app_assoc in Eall. apply app_inv_head in Eall. subst all.
  rewrite !extends_app, X0, X1, X2, Ex. reflexivity.
Qed.

(** ** Which events the stub emits *)
Definition stub_sets : list (str * bytes) :=
  [(lit "StubInfo", ascii16 (lit "lanzastub 1.1.0")); (lit "StubFeatures", [1; 0; 0; 0; 0; 0; 0; 0]);
   (lit "StubPcrKernelImage", [49; 0; 49; 0]); (lit "StubPcrKernelParameters", [12; 0; 0; 0]);
   (lit "StubPcrInitRDSysExts", [13; 0; 0; 0])].

Record nice (fw : firmware) (P : event -> Prop) : Prop := {
  n_other : forall e, match e with EvSet _ _ _ _ _ | EvExtend _ _ _ _ | EvTpm _ => False | _ => True end -> P e;
  n_ext : forall h p d s, P (EvExtend p d s (fw_extend fw h p d));
  n_set : forall n d r, In (n, d) stub_sets -> P (EvSet n systemd_vendor 6 d r);
  n_tpm : forall h, P (EvTpm (fw_tpm fw h))
}.

Section Nice.
  Variables (fw : firmware) (P : event -> Prop) (HP : nice fw P).

  Ltac other := first [apply (n_other fw P HP); exact I | apply (n_tpm fw P HP)].
  Hint Extern 1 (P _) => other : emits.

  Lemma nice_tpm_log : forall p d s, emits P (tpm_log fw p d s).
  Proof.
    intros; unfold tpm_log, open_capable_tpm2; emitsM; try other. apply (n_ext fw P HP).
  Qed.
  Lemma nice_get : forall n v z, emits P (get_variable fw n v z).
  Proof. intros; unfold get_variable; emitsM; other. Qed.
  Lemma nice_set : forall n d, In (n, d) stub_sets -> emits P (set_variable fw n loader_vendor d).
  Proof.
    intros n d I0; unfold set_variable; emitsM. change default_attributes with 6.
    apply (n_set fw P HP); exact I0.
  Qed.
  Hint Resolve nice_tpm_log nice_get : emits.
  Lemma nice_measure_sections : forall image secs k i l, emits P (measure_sections fw image secs k i l).
  Proof. intros image secs k i; induction l as [|u l IH]; cbn [measure_sections]; emitsM. Qed.
  Hint Resolve nice_measure_sections : emits.
  Lemma nice_measure_image : forall image p k i, emits P (measure_image fw image p k i).
  Proof.
    intros; unfold measure_image.
    change (utf16_bytes (dec pcr_kernel_image)) with [49; 0; 49; 0].
    assert (emits P (set_variable fw (lit "StubPcrKernelImage") loader_vendor [49; 0; 49; 0]))
      by (apply nice_set; cbn; auto 10). emitsM.
  Qed.
  Lemma nice_companions_loop : forall l m c s, emits P (measure_companions_loop fw l m c s).
  Proof.
    induction l as [|[t b] l IH]; intros m c s; cbn [measure_companions_loop]; [emitsM|].
    destruct t; emitsM.
  Qed.
  Hint Resolve nice_measure_image nice_companions_loop : emits.
  Lemma nice_measure_companions : forall l, emits P (measure_companion_initrds fw l).
  Proof.
    intros; unfold measure_companion_initrds.
    change (le32 pcr_kernel_config) with [12; 0; 0; 0]. change (le32 pcr_sysexts) with [13; 0; 0; 0].
    assert (emits P (set_variable fw (lit "StubPcrKernelParameters") loader_vendor [12; 0; 0; 0]))
      by (apply nice_set; cbn; auto 10).
    assert (emits P (set_variable fw (lit "StubPcrInitRDSysExts") loader_vendor [13; 0; 0; 0]))
      by (apply nice_set; cbn; auto 10).
    emitsM.
  Qed.
  Lemma nice_secure_boot : emits P (get_secure_boot_status fw).
  Proof. unfold get_secure_boot_status; emitsM. Qed.
  Lemma nice_features : emits P (get_loader_features fw).
  Proof. unfold get_loader_features; emitsM. Qed.
  Hint Resolve nice_measure_companions nice_secure_boot nice_features : emits.
  Lemma nice_cmdline : forall e, emits P (get_cmdline fw e).
  Proof. intros; unfold get_cmdline, get_load_options, measure_boot_loader; emitsM; other. Qed.
  Lemma nice_discover : forall {A} (f : efs -> res unit A), emits P (discover fw f).
  Proof. intros; apply emits_discover; other. Qed.
  Hint Resolve nice_cmdline nice_discover : emits.
  Lemma nice_companions_block : forall t p, emits P (companions_block fw t p).
  Proof. intros; unfold companions_block; emitsM; other. Qed.
  Lemma nice_load_from_pe : forall sha image p, emits P (load_from_pe fw sha image p).
  Proof. intros; unfold load_from_pe, check_hash; emitsM; other. Qed.
  Lemma nice_boot_linux : forall parse k ds, emits P (boot_linux fw parse k ds).
  Proof.
    intros; unfold boot_linux, boot_linux_unchecked, load_kernel, start_kernel, initrd_loader_new,
      initrd_loader_uninstall; emitsM; other.
  Qed.
  Hint Resolve nice_companions_block nice_load_from_pe nice_boot_linux : emits.

  (** The loader variables may be set to anything. *)
  Hypothesis HL : forall n d r, In n loader_variables -> P (EvSet n systemd_vendor 6 d r).
  Lemma nice_ensure : forall n f, In n loader_variables -> emits P f -> emits P (ensure_efi_variable fw n loader_vendor f).
  Proof.
    intros n f Hn Hf. unfold ensure_efi_variable, variable_exists, set_variable. emitsM.
    all: change default_attributes with 6; apply HL; exact Hn.
  Qed.
  Lemma nice_export : emits P (export_efi_variables fw stub_name_text).
  Proof.
    unfold export_efi_variables, disk_get_part_uuid.
    change (utf16_bytes stub_name_text) with (ascii16 (lit "lanzastub 1.1.0")).
    assert (emits P (set_variable fw (lit "StubInfo") loader_vendor (ascii16 (lit "lanzastub 1.1.0"))))
      by (apply nice_set; left; reflexivity).
    assert (emits P (set_variable fw (lit "StubFeatures") loader_vendor [1; 0; 0; 0; 0; 0; 0; 0]))
      by (apply nice_set; right; left; reflexivity).
    repeat first [ apply nice_ensure; [cbn [In loader_variables]; tauto|] | progress emitsM ]; try other.
    all: change default_attributes with 6; apply HL; cbn [In loader_variables]; tauto.
  Qed.
  Hint Resolve nice_export : emits.
  Lemma nice_stub_main : forall sha pm parse image path, emits P (stub_main fw sha pm parse image path).
  Proof. intros; unfold stub_main, tpm_available, open_capable_tpm2; emitsM; other. Qed.
End Nice.
