(** C62-C64: temporary files and the command lines of the programs the
    installer runs. *)
From Coq Require Import List NArith Bool Lia ZifyBool ZifyNat ZifyN.
From Verif Require Import Base MPe MTool MTemp STemp PTemp XWorld XTemp.
Import ListNotations.
Open Scope N_scope.

(** ** C62 *)

(** objcopy reads from its arguments exactly the sections, files and addresses
    meant, whatever the files are called. *)
Theorem C62_arguments : forall sections stub output,
  Forall (fun s => good_name (x_name s)) sections -> plain stub -> plain output ->
  objcopy_reads (flat_map to_objcopy sections ++ [stub; output])
  = Some (ObjcopyCall (map (fun s => (x_name s, x_file s)) sections)
                      (map (fun s => (x_name s, x_offset s)) sections) stub output).
Proof. exact objcopy_reads_sections. Qed.
Print Assumptions C62_arguments.

(** A finished image, made by way of temporary files and objcopy's command
    line, is the one of the contents; and no other file changed. *)
Theorem C62_image : forall e oc d sp s s' p,
  objcopy_works (te_run e) oc -> plain d -> plain (fp_stub sp) ->
  distinct_names (te_name e) (ts_rand s) 7 ->
  Forall (fun q => ~ used e d (ts_rand s) 7 q) [fp_stub sp; fp_kernel sp; fp_initrd sp] ->
  tlanzaboote_image e d sp s = (s', Ok p) ->
  inside d p /\
  exists stub kd idt image,
    holds (ts_files s) (fp_stub sp) stub /\ holds (ts_files s) (fp_kernel sp) kd /\
    holds (ts_files s) (fp_initrd sp) idt /\
    lanzaboote_image (te_parse e) oc stub
      (StubParameters (fp_cmdline sp) (fp_osrel sp) (fp_kernel_path sp) (te_sha e kd)
                      (fp_initrd_path sp) (te_sha e idt)) = Ok image /\
    holds (ts_files s') p image /\
    (forall q, ~ used e d (ts_rand s) 7 q -> tget (ts_files s') q = tget (ts_files s) q).
Proof. exact image_ok. Qed.
Print Assumptions C62_image.

(** Without I/O errors and with the sources readable, assembling ends as it
    does on contents: with an image, an error or a panic. *)
Theorem C62_outcome : forall e oc d sp s s' r stub kd idt,
  objcopy_works (te_run e) oc -> plain d -> plain (fp_stub sp) ->
  distinct_names (te_name e) (ts_rand s) 7 ->
  Forall (fun q => ~ used e d (ts_rand s) 7 q) [fp_stub sp; fp_kernel sp; fp_initrd sp] ->
  holds (ts_files s) (fp_stub sp) stub -> holds (ts_files s) (fp_kernel sp) kd ->
  holds (ts_files s) (fp_initrd sp) idt ->
  tlanzaboote_image e d sp s = (s', r) ->
  ~ faulted (te_fault e) (ts_tick s) (ts_tick s') ->
  match lanzaboote_image (te_parse e) oc stub
      (StubParameters (fp_cmdline sp) (fp_osrel sp) (fp_kernel_path sp) (te_sha e kd)
                      (fp_initrd_path sp) (te_sha e idt)) with
  | Ok image => exists p, r = Ok p /\ holds (ts_files s') p image
  | Err _ => r = Err tt
  | Panic => r = Panic
  end.
Proof. exact image_outcome. Qed.
Print Assumptions C62_outcome.

(** The whole path of a generation: what is signed to the ESP is the signed
    image of the stub, with the hashes of the kernel and of the initrd that the
    installation on the ESP was given; its measurement is of the same image. *)
Theorem C62_build : forall e oc sb lk ap d script initrd esp stub kernel cmdline osrel component
    private public to s s',
  objcopy_works (te_run e) oc -> sbsign_works (te_run e) sb -> pcrlock_works (te_run e) lk ->
  (forall sc, script = Some sc -> script_works (te_run e) sc (ap sc)) ->
  plain d -> plain stub ->
  distinct_names (te_name e) (ts_rand s) 8 ->
  (forall q, inside d q -> tget (ts_files s) q = None) ->
  Forall (fun q => ~ inside d q)
    (stub :: kernel :: initrd :: to :: match component with Some c => [c] | None => [] end) ->
  (forall loc, leaves_alone (esp loc) (fun q => inside d q \/ q = stub \/ q = kernel \/ q = initrd)) ->
  tbuild e d script initrd esp stub kernel cmdline osrel (tmeasure e component)
    (fun image => tsign_and_copy e private public image to) s = (s', Ok tt) ->
  exists stubc kd idt kp ip image signed s1 s2 loc,
    holds (ts_files s) stub stubc /\ holds (ts_files s) kernel kd /\
    wanted_initrd (ts_files s) script ap initrd idt /\
    esp loc s1 = (s2, Ok (kp, ip)) /\ holds (ts_files s1) loc idt /\
    lanzaboote_image (te_parse e) oc stubc
      (StubParameters cmdline osrel kp (te_sha e kd) ip (te_sha e idt)) = Ok image /\
    sb private public image = Some signed /\ holds (ts_files s') to signed /\
    (forall c, component = Some c ->
       exists out, lk image = Some out /\ (c <> to -> holds (ts_files s') c out)) /\
    (forall q, inside d q -> tget (ts_files s') q = None).
Proof. exact build_ok_run. Qed.
Print Assumptions C62_build.

(** The example world meets the hypotheses, with and without a script. *)
Lemma x_names_distinct k n : distinct_names x_tname k n.
Proof. intros i j _ _ H. apply (f_equal (hd 0)) in H. unfold x_tname in H. cbn [hd] in H. lia. Qed.

Lemma x_not_inside p : starts_with (lit "/tmp/.tmpX=1/") p = false -> ~ inside (lit "/tmp/.tmpX=1") p.
Proof.
  intros H (n & ->).
  assert (E : starts_with (lit "/tmp/.tmpX=1/") (lit "/tmp/.tmpX=1" ++ 47 :: n) = true) by reflexivity.
  congruence.
Qed.

Lemma x_fresh q : inside (lit "/tmp/.tmpX=1") q -> tget x_tfiles q = None.
Proof. intros (n & ->). reflexivity. Qed.

Example C62_example :
  objcopy_works x_tools x_objcopy /\
  plain (lit "/tmp/.tmpX=1") /\ plain (lit "/nix/store/stub") /\
  distinct_names x_tname 0 8 /\
  (forall q, inside (lit "/tmp/.tmpX=1") q -> tget x_tfiles q = None) /\
  Forall (fun q => ~ inside (lit "/tmp/.tmpX=1") q)
    [lit "/nix/store/stub"; lit "/nix/store/kernel"; lit "/nix/store/initrd"; lit "/boot/EFI/Linux/x.efi";
     lit "/var/lib/pcrlock/g1"] /\
  script_works x_tools (lit "/append") (fun d => Some (d ++ lit "+secret")) /\
  snd (x_tbuild (Some (lit "/append")) x_tname) = Ok tt /\
  snd (x_tbuild None x_tname) = Ok tt.
Proof.
  split; [apply x_objcopy_works|]. split; [split; [discriminate|]; intros t H; vm_compute in H; discriminate|].
  split; [split; [discriminate|]; intros t H; vm_compute in H; discriminate|].
  split; [apply x_names_distinct|]. split; [exact x_fresh|].
  split; [repeat constructor; apply x_not_inside; reflexivity|].
  split; [|split; vm_compute; reflexivity].
  apply (x_script_works _ _ _ _ (fun _ d => Some (d ++ lit "+secret"))).
  vm_compute. intuition discriminate.
Qed.

(** The secret is in the hash: with a script the image differs. *)
Example C62_secret_counts :
  tget (ts_files (fst (x_tbuild (Some (lit "/append")) x_tname))) (lit "/boot/EFI/Linux/x.efi")
  <> tget (ts_files (fst (x_tbuild None x_tname))) (lit "/boot/EFI/Linux/x.efi").
Proof. vm_compute. discriminate. Qed.

(** Names must differ: files are opened without refusing existing ones, and
    with equal names the kernel's path ends up holding something else. *)
Example C62_names_needed :
  snd (x_tbuild None (fun _ => lit "same")) = Ok tt /\
  tget (ts_files (fst (x_tbuild None (fun _ => lit "same")))) (lit "/boot/EFI/Linux/x.efi")
  <> tget (ts_files (fst (x_tbuild None x_tname))) (lit "/boot/EFI/Linux/x.efi").
Proof. split; vm_compute; [reflexivity|discriminate]. Qed.

(** ** C63 *)

(** sbsign, sbverify and systemd-pcrlock read from their arguments what is
    meant: the private key as key, the public key as certificate. *)
Theorem C63_arguments : forall private public from to,
  plain from ->
  sbsign_reads [lit "--key"; private; lit "--cert"; public; from; lit "--output"; to]
    = Some (private, public, from, to) /\
  sbverify_reads [lit "--cert"; public; from] = Some (public, from) /\
  pcrlock_reads [lit "lock-pe"; from; lit "--pcrlock"; to] = Some (lit "lock-pe", from, to).
Proof. exact all_arguments. Qed.
Print Assumptions C63_arguments.

(** Signing succeeds exactly if sbsign does, and then its output is at the
    target and no other file changed. *)
Theorem C63_sign : forall e sb private public from to s s' r c,
  sbsign_works (te_run e) sb -> plain from -> holds (ts_files s) from c ->
  tsign_and_copy e private public from to s = (s', r) ->
  (r = Err tt /\ (faulted (te_fault e) (ts_tick s) (ts_tick s') \/ sb private public c = None)) \/
  (r = Ok tt /\ exists signed, sb private public c = Some signed /\ holds (ts_files s') to signed /\
     forall q, q <> to -> tget (ts_files s') q = tget (ts_files s) q).
Proof. exact sign_outcome. Qed.
Print Assumptions C63_sign.

(** A signature counts as good exactly if sbverify says so; an error is one of
    running sbverify. *)
Theorem C63_verify : forall e sv public p s s' r,
  sbverify_works (te_run e) sv -> plain p ->
  tverify_path e public p s = (s', r) ->
  (r = Err tt /\ faulted (te_fault e) (ts_tick s) (ts_tick s')) \/
  (ts_files s' = ts_files s /\
   r = Ok (match tread (ts_files s) p with Some c => sv public c | None => false end)).
Proof. exact verify_outcome. Qed.
Print Assumptions C63_verify.

(** The same for contents in memory. *)
Theorem C63_verify_bytes : forall e sv public d binary s s' r,
  sbverify_works (te_run e) sv -> plain d ->
  tverify e public d binary s = (s', r) ->
  (r = Err tt /\ faulted (te_fault e) (ts_tick s) (ts_tick s')) \/ r = Ok (sv public binary).
Proof. exact verify_bytes. Qed.
Print Assumptions C63_verify_bytes.

(** Building and signing a stub in one step yields the signed image. *)
Theorem C63_sign_stub : forall e oc sb private public d sp s s' b,
  objcopy_works (te_run e) oc -> sbsign_works (te_run e) sb ->
  plain d -> plain (fp_stub sp) -> distinct_names (te_name e) (ts_rand s) 7 ->
  Forall (fun q => ~ inside d q) [fp_stub sp; fp_kernel sp; fp_initrd sp] ->
  tbuild_and_sign_stub e private public d sp s = (s', Ok b) ->
  exists stubc kd idt image,
    holds (ts_files s) (fp_stub sp) stubc /\ holds (ts_files s) (fp_kernel sp) kd /\
    holds (ts_files s) (fp_initrd sp) idt /\
    lanzaboote_image (te_parse e) oc stubc
      (StubParameters (fp_cmdline sp) (fp_osrel sp) (fp_kernel_path sp) (te_sha e kd)
                      (fp_initrd_path sp) (te_sha e idt)) = Ok image /\
    sb private public image = Some b /\
    (forall q, inside d q -> tget (ts_files s') q = None).
Proof. exact sign_stub_ok. Qed.
Print Assumptions C63_sign_stub.

(** A store path is signed as it is. *)
Theorem C63_sign_store_path : forall e sb private public d p s s' b c,
  sbsign_works (te_run e) sb -> plain p -> holds (ts_files s) p c ->
  tsign_store_path e private public d p s = (s', Ok b) -> sb private public c = Some b.
Proof. exact sign_store_path_ok. Qed.
Print Assumptions C63_sign_store_path.

Example C63_example :
  sbsign_works x_tools (fun k c d => Some (d ++ x_sig (k ++ c))) /\
  sbverify_works x_tools (fun c d => eqb_bytes (skipn (length d - length c) d) c) /\
  snd (tsign_store_path (x_tenv x_tname) (lit "-k") (lit "--cert") (lit "/tmp/.tmpX=1") (lit "/nix/store/kernel") x_tstart)
    = Ok (lit "kernel one" ++ x_sig (lit "-k--cert")) /\
  snd (tverify_path (x_tenv x_tname) (lit "one") (lit "/nix/store/kernel") x_tstart) = Ok true /\
  snd (tverify_path (x_tenv x_tname) (lit "one") (lit "/nix/store/missing") x_tstart) = Ok false /\
  snd (tverify (x_tenv x_tname) (lit "one") (lit "/tmp/.tmpX=1") (lit "two") x_tstart) = Ok false.
Proof.
  split; [apply x_sbsign_works|]. split; [apply x_sbverify_works|].
  repeat split; vm_compute; reflexivity.
Qed.

(** ** C64 *)

(** Everything the installer creates on the way is for its user alone, on
    every outcome. *)
Theorem C64_private : forall e d script initrd esp stub kernel cmdline osrel component private public to s s' r,
  (forall loc s s' r, esp loc s = (s', r) -> ts_log s' = ts_log s) ->
  tbuild e d script initrd esp stub kernel cmdline osrel (tmeasure e component)
    (fun image => tsign_and_copy e private public image to) s = (s', r) ->
  exists l, ts_log s' = ts_log s ++ l /\ Forall private_event l.
Proof. exact build_private_run. Qed.
Print Assumptions C64_private.

(** The initrd with secrets is a copy in the directory that only the user may
    read; the given initrd stays as it is. *)
Theorem C64_secret : forall e d sc initrd ap s s' p,
  script_works (te_run e) sc (ap sc) ->
  (forall q, inside d q -> tget (ts_files s) q = None) -> ~ inside d initrd ->
  tinitrd_location e d (Some sc) initrd s = (s', Ok p) ->
  exists c out mode, holds (ts_files s) initrd c /\ ap sc c = Some out /\ inside d p /\
    tget (ts_files s') p = Some (TFile mode out) /\ owner_only mode /\
    (forall q, q <> p -> tget (ts_files s') q = tget (ts_files s) q).
Proof. exact secret_private. Qed.
Print Assumptions C64_secret.

(** Nothing is left in the directory: on success, error and panic, whatever
    the programs do. *)
Theorem C64_cleaned : forall e d script initrd esp stub kernel cmdline osrel measure sign s s' r,
  (forall q, inside d q -> tget (ts_files s) q = None) ->
  tbuild e d script initrd esp stub kernel cmdline osrel measure sign s = (s', r) ->
  forall q, inside d q -> tget (ts_files s') q = None.
Proof. exact build_cleans. Qed.
Print Assumptions C64_cleaned.

(** In the example the directory and seven files are created. *)
Example C64_example :
  length (filter (fun ev => match ev with TCreate _ m => m =? 384 | TDir _ m => m =? 448 | _ => false end)
            (ts_log (fst (x_tbuild (Some (lit "/append")) x_tname)))) = 8%nat /\
  snd (tinitrd_location (x_tenv x_tname) (lit "/tmp/.tmpX=1") (Some (lit "/append")) (lit "/nix/store/initrd") x_tstart)
    = Ok (lit "/tmp/.tmpX=1/aa").
Proof. split; vm_compute; reflexivity. Qed.
