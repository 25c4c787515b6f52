(** C26, C27: the sections of a stub, and what the boot stub makes of them. *)
From Coq Require Import List ZArith NArith Bool Lia ZifyBool ZifyNat ZifyN Permutation.
From Verif Require Import Base PBase MText PText MGeneration MNames MPe MCpio MFirmware MStub MFs MTool MInstall
  SCommon SNames SFirmware SStub SInstall SImage SHistory SUse PImage PHistory PHistories PUse XWorld XMachine
  Properties_Firmware Properties_Stub Properties_History.
Import ListNotations.
Open Scope N_scope.

(** ** C26 *)

(** C26: the sections that objcopy is asked to add are consecutive, without
    gaps or overlaps, and lie beyond all sections of the stub. *)
Theorem C26_layout : forall parse objcopy stub p sp image,
  parse stub = Some p -> proper_stub p -> lanzaboote_image parse objcopy stub sp = Ok image ->
  exists l, objcopy stub l = Some image /\ map fst l = stub_contents sp /\ beyond p l.
Proof. exact image_layout. Qed.
Print Assumptions C26_layout.

(** The running stub reads from its memory what the tool put in, if objcopy
    (and the signing tool) made [file] by adding the sections, and the firmware
    loaded it. *)
Theorem C26_read_back : forall parse objcopy stub p sp image file q headers size,
  parse stub = Some p -> proper_stub p -> lanzaboote_image parse objcopy stub sp = Ok image ->
  (forall l, objcopy stub l = Some image -> map fst l = stub_contents sp -> beyond p l -> extended parse p l file) ->
  parse file = Some q -> covers size (pe_sections q) ->
  forall n d, In (n, d) (stub_contents sp) ->
    section_data (efi_image file headers size (pe_sections q)) (pe_sections q) n = Ok (Some d).
Proof. exact image_read_back. Qed.
Print Assumptions C26_read_back.

(** Tools that add sections in this sense meet the last condition of [fits]
    (C07-C11, C13), with [loads_well] for good stubs. *)
Theorem C26_tools : forall parse p l file,
  proper_stub p -> map (fun s => fst (fst s)) l = stub_sections -> (proper_stub p -> beyond p l) ->
  extended parse p l file ->
  loads_well parse file /\ forall n d a, In (n, d, a) l -> has_section parse file n d.
Proof.
  intros parse p l file PR EN B EX. split; [exact (extended_loads parse p l file PR (B PR) EX) | exact (extended_sections parse p l file PR EN EX)].
Qed.
Print Assumptions C26_tools.

(** A stub of two sections; objcopy puts the contents and the addresses at the
    end of the file.  The command line is empty. *)
Definition i_stub : bytes := lit "MZ.text.data".
Definition i_p : pe :=
  Pe [Section (Some (lit ".text")) 16 5 2 5; Section (Some (lit ".data")) 32 20 7 5] 16 true (Some 4096).
Definition i_sp : stub_parameters := StubParameters [] (lit "ID=x") (lit "\k") [1; 2; 3] (lit "\i") [4; 5].
Definition i_objcopy (b : bytes) (l : list add_section) : option bytes :=
  Some (b ++ concat (map (fun s => snd (fst s)) l) ++ map snd l).
Definition i_file : bytes :=
  i_stub ++ (lit "ID=x" ++ lit "\i" ++ lit "\k" ++ [4; 5] ++ [1; 2; 3]) ++ [4148; 4152; 4152; 4154; 4156; 4158].
Definition i_new : list section :=
  [ Section (Some (lit ".osrel")) 52 4 12 4; Section (Some (lit ".cmdline")) 56 0 16 0; Section (Some (lit ".initrd")) 56 2 16 2;
    Section (Some (lit ".linux")) 58 2 18 2; Section (Some (lit ".initrdh")) 60 2 20 2; Section (Some (lit ".linuxh")) 62 3 22 3 ].
Definition i_q : pe := Pe (pe_sections i_p ++ i_new) 16 true (Some 4096).
Definition i_parse (b : bytes) : option pe := if eqb_bytes b i_stub then Some i_p else Some i_q.

Lemma i_proper : proper_stub i_p.
Proof.
  split; [discriminate|]. split.
  - intros a s b t c E. destruct a as [|? [|? a]]; cbn in E.
    + destruct b as [|? b]; cbn in E; [injection E as <- <- _; vm_compute; discriminate | injection E as _ _ E; destruct b; discriminate].
    + injection E as _ _ E. destruct b; discriminate.
    + injection E as _ _ E. destruct a; discriminate.
  - intros s [<-|[<-|[]]]; (split; [vm_compute; reflexivity|]); eexists; (split; [reflexivity|]); intros X; vm_compute in X; intuition discriminate.
Qed.

Lemma i_added n d a s : s_name s = Some n -> 4096 + s_vaddr s = a -> s_vsize s = N.of_nat (length d) -> s_vsize s <= s_rawsize s ->
  i_file = firstn (N.to_nat (s_rawptr s)) i_file ++ d ++ skipn (N.to_nat (s_rawptr s + s_vsize s)) i_file ->
  N.of_nat (length (firstn (N.to_nat (s_rawptr s)) i_file)) = s_rawptr s -> added 4096 i_file (n, d, a) s.
Proof. unfold added. intros. eauto 10. Qed.

Lemma i_extended l : i_objcopy i_stub l = Some i_file -> map fst l = stub_contents i_sp -> extended i_parse i_p l i_file.
Proof.
  intros OC EC. exists i_q, (pe_sections i_p), i_new. split; [vm_compute; reflexivity|]. split; [apply Permutation.Permutation_refl|].
  assert (map snd l = [4148; 4152; 4152; 4154; 4156; 4158]) as EA.
  { unfold i_objcopy in OC. rewrite <- (map_map fst snd), EC in OC. injection OC as OC. exact OC. }
  split; [repeat constructor|]. split.
  - assert (l = combine (stub_contents i_sp) [4148; 4152; 4152; 4154; 4156; 4158]) as ->.
    { rewrite <- EC, <- EA. clear. induction l as [|[x y] l IH]; [reflexivity|]. cbn. f_equal. exact IH. }
    unfold i_new. cbn [combine stub_contents i_sp sp_osrel sp_cmdline sp_initrd_path sp_kernel_path sp_initrd_hash sp_kernel_hash].
    repeat (apply Forall2_cons; [apply i_added; vm_compute; (reflexivity || discriminate)|]).
    apply Forall2_nil.
  - intros s H. cbn in H. repeat (destruct H as [<-|H]; [vm_compute; congruence|]). destruct H.
Qed.

Example C26_example :
  i_parse i_stub = Some i_p /\ proper_stub i_p /\ lanzaboote_image i_parse i_objcopy i_stub i_sp = Ok i_file /\
  (forall l, i_objcopy i_stub l = Some i_file -> map fst l = stub_contents i_sp -> beyond i_p l -> extended i_parse i_p l i_file) /\
  i_parse i_file = Some i_q /\ covers 65 (pe_sections i_q) /\
  efi_image i_file 2 65 (pe_sections i_q) =
    lit "MZ" ++ repeat 0 14 ++ lit ".text" ++ repeat 0 11 ++ lit ".data" ++ repeat 0 15 ++
    lit "ID=x" ++ lit "\i" ++ lit "\k" ++ [4; 5; 1; 2; 3].
Proof.
  split; [reflexivity|]. split; [apply i_proper|]. split; [vm_compute; reflexivity|]. split; [intros l OC EC _; apply i_extended; assumption|].
  split; [vm_compute; reflexivity|]. split; [|vm_compute; reflexivity].
  intros s H. cbn in H. repeat (destruct H as [<-|H]; [vm_compute; discriminate|]). destruct H.
Qed.

(** ** C27 *)

(** C27: whatever the history of the ESP, the stub of a generation with usable
    texts names two files, and loads exactly what the installer hashed: of
    files with other hashes, it rejects both with a security violation. *)
Theorem C27_accepts : forall M m, sound M -> (forall z, ma_good M z -> loads_well (ma_parse M) z) -> history M m ->
  forall g key n y b image pm, ma_gens M g -> usable g -> ma_keys M key -> named M key g n ->
  lookup m (linux_file M n) = Some (NFile y b) -> in_memory M y image pm ->
  exists kn inn kernel initrd cmd,
    made_for M g kn inn kernel initrd cmd /\
    forall fw kd id, (forall h, fw_image_fs fw h = true) -> (forall h, fs_read (fw_files fw h) kn = Some kd) ->
      (forall h, fs_read (fw_files fw h) inn = Some id) ->
      forall h, snd (load_from_pe fw (ma_sha M) image (pm image) h) =
        if eqb_bytes (ma_sha M kd) (ma_sha M kernel) && eqb_bytes (ma_sha M id) (ma_sha M initrd)
        then Ok (Components kd id cmd) else Err SECURITY_VIOLATION.
Proof. exact history_load. Qed.
Print Assumptions C27_accepts.

(** After a successful run without I/O errors, the stub of every selected
    generation finds its files on the ESP and accepts them. *)
Theorem C27_boots : forall M e c m, sound M -> (forall z, ma_good M z -> loads_well (ma_parse M) z) ->
  fits M e c -> history M m -> no_faults e -> snd (run_install e c m) = Ok tt ->
  exists vs sel, links_versions (c_links c) vs /\ newest (c_limit c) vs sel /\
    forall g, In g (flat_map link_generations sel) -> usable g ->
      exists key n y b, ma_keys M key /\ named M key g n /\
        lookup (s_fs (fst (run_install e c m))) (linux_file M n) = Some (NFile y b) /\
        forall image pm fw, in_memory M y image pm -> reads_esp M fw (s_fs (fst (run_install e c m))) ->
          exists kn inn kernel initrd cmd kd id,
            made_for M g kn inn kernel initrd cmd /\ ma_sha M kd = ma_sha M kernel /\ ma_sha M id = ma_sha M initrd /\
            forall h, snd (load_from_pe fw (ma_sha M) image (pm image) h) = Ok (Components kd id cmd).
Proof. intros M e c m SO GOOD. apply installed_accepted; assumption. Qed.
Print Assumptions C27_boots.

(** If the stub of a generation starts a kernel, it has the hash of the
    generation's kernel, it gets an initrd that starts with a file of the
    initrd's hash, and a command line chosen from the generation's (C30). *)
Theorem C27_starts : forall M m, sound M -> (forall z, ma_good M z -> loads_well (ma_parse M) z) -> history M m ->
  forall g key n y b image pm fw parse path h' r before img entry,
  ma_gens M g -> usable g -> ma_keys M key -> named M key g n ->
  lookup m (linux_file M n) = Some (NFile y b) -> in_memory M y image pm ->
  stub_main fw (ma_sha M) pm parse image path [] = (h', r) -> started h' before img entry ->
  exists kn inn kernel initrd cmd kd id rest chosen a b options,
    made_for M g kn inn kernel initrd cmd /\ ma_sha M kd = ma_sha M kernel /\ ma_sha M id = ma_sha M initrd /\
    reads_of before = [(kn, Some kd); (inn, Some id)] /\
    image_load (fun _ => None) (parse kd) kd = Ok (img, entry) /\
    last_such serves_initrd before (EvInstall PLoadFile2 (id ++ rest) None) /\
    before = a ++ chosen ++ b /\ cmdline_choice (text16z cmd) chosen options /\
    last_such sets_options before (EvSetOptions (Some options)).
Proof. exact history_starts. Qed.
Print Assumptions C27_starts.

(** The first generation's stub of the example, and a firmware that finds the
    files of the ESP. *)
Definition x_stub1_q : pe := match x_parse x_stub1 with Some q => q | None => Pe [] 0 false (Some 0) end.
Definition x_size : N := N.of_nat (length x_stub1).
Definition x_image1 : bytes := efi_image x_stub1 x_size x_size (pe_sections x_stub1_q).
Definition x_efi_files (m : fs) : efs :=
  Efs (fun _ => None) (fun _ => Some false) (fun _ => None)
    (fun t => match lookup m ([lit "boot"] ++ tl (split_on 92 (utf8_encode t))) with Some (NFile x _) => Some x | _ => None end).
Definition x_fw (m : fs) : firmware :=
  let f := example_fw (fun _ _ => None) None true in
  Firmware (fw_tpm f) (fw_extend f) (fw_get f) (fw_set f) (fw_open_image f) (fw_load_options f) (fw_device_path f) (fw_image_text f)
    (fw_image_fs f) (fun _ => x_efi_files m) (fw_alloc f) (fw_free f) (fw_install f) (fw_uninstall f) (fw_kernel f)
    (fw_vendor f) (fw_revision f) (fw_uefi_text f).

Lemma x_usable1 : usable x_gen1.
Proof.
  split.
  - apply Forall_forall. intros b H. vm_compute in H. repeat (destruct H as [<-|H]; [lia|]). destruct H.
  - intros s (init & D & ->). vm_compute in D. injection D as <-.
    apply Forall_forall. intros c H. vm_compute in H. unfold scalar_value. repeat (destruct H as [<-|H]; [lia|]). destruct H.
Qed.

Lemma x_in_memory1 : in_memory x_m x_stub1 x_image1 x_parse.
Proof.
  exists x_stub1_q, x_stub1_q, x_size, x_size. split; [vm_compute; reflexivity|]. split.
  - intros s H. vm_compute in H. repeat (destruct H as [<-|H]; [vm_compute; discriminate|]). destruct H.
  - split; [reflexivity|]. split; vm_compute; reflexivity.
Qed.

Lemma split_path rel : Forall esp_component rel -> rel <> [] -> tl (split_on 92 (flat_map (fun n => 92 :: n) rel)) = rel.
Proof.
  assert (forall n rest, ~ In 92 n -> split_on 92 (n ++ 92 :: rest) = n :: split_on 92 rest /\ split_on 92 n = [n]) as SP.
  { intros n rest. induction n as [|a n IH]; intros NI; [split; reflexivity|]. cbn [app split_on].
    destruct (N.eqb_spec a 92) as [->|]; [exfalso; apply NI; left; reflexivity|].
    destruct IH as [-> ->]; [intros X; apply NI; right; exact X|]. split; reflexivity. }
  intros F _. induction rel as [|n rel IH]; [reflexivity|]. inversion F as [|? ? (_ & _ & _ & NB) F']; subst.
  cbn [flat_map split_on app]. rewrite N.eqb_refl. cbn [tl]. destruct rel as [|n' rel].
  - cbn [flat_map]. rewrite app_nil_r. apply (SP n []). exact NB.
  - specialize (IH F'). cbn [flat_map split_on app] in IH |- *. rewrite N.eqb_refl in IH. cbn [tl] in IH.
    rewrite (proj1 (SP n _ NB)), IH. reflexivity.
Qed.

Lemma x_reads m : reads_esp x_m (x_fw m) m.
Proof.
  intros h. split; [reflexivity|]. intros t p (rel & NE & F & E & ->).
  change (fs_read (fw_files (x_fw m) h) t) with
    (match lookup m ([lit "boot"] ++ tl (split_on 92 (utf8_encode t))) with Some (NFile x _) => Some x | _ => None end).
  rewrite E, (split_path rel F NE). reflexivity.
Qed.

Example C27_example :
  sound x_m /\ (forall z, ma_good x_m z -> loads_well (ma_parse x_m) z) /\ fits x_m x_world x_c1 /\ history x_m x_esp /\ no_faults x_world /\
  snd (run_install x_world x_c1 x_esp) = Ok tt /\ history x_m x_e1 /\
  ma_gens x_m x_gen1 /\ usable x_gen1 /\ ma_keys x_m x_key /\ named x_m x_key x_gen1 x_name1 /\
  lookup x_e1 (linux_file x_m x_name1) = Some (NFile x_stub1 true) /\ in_memory x_m x_stub1 x_image1 x_parse /\
  reads_esp x_m (x_fw x_e1) x_e1 /\
  let h := fst (stub_main (x_fw x_e1) x_sha x_parse example_parse x_image1 (Some (lit "\s.efi")) []) in
  started h (firstn (length h - 6) h) [0; 114; 110; 101; 0] 2 /\
  In (EvSetOptions (Some (text16z (lit "init=/nix/store/one/init quiet")))) h.
Proof.
  split; [apply x_m_sound|]. split; [intros z H; exact H|]. split; [apply x_fits_1|]. split; [apply x_history_esp|]. split; [intros t; reflexivity|].
  split; [vm_compute; reflexivity|]. split; [apply x_history_1|]. split; [vm_compute; auto|]. split; [apply x_usable1|]. split; [reflexivity|].
  split; [apply x_named1|]. split; [vm_compute; reflexivity|]. split; [apply x_in_memory1|]. split; [apply x_reads|].
  cbv zeta. split.
  - eexists None, _. vm_compute. reflexivity.
  - vm_compute. tauto.
Qed.
