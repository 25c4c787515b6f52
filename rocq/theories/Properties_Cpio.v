(** C36, C37, C38, C39: the CPIO packer and companion discovery. *)
From Coq Require Import List NArith Bool Lia Arith Permutation Sorted.
From Verif Require Import Base MText MCpio SCpio PCpio.
Import ListNotations.
Open Scope N_scope.

(** ** C36 *)

(** Whatever was packed, in any order and number, reads back as exactly that,
    followed by the trailer; the reader consumes the archive to its last byte. *)
Theorem C36_archive_decodes : forall rs c c' n rest,
  exec_all cpio_new rs c -> Forall request_ok rs -> pack_trailer c = (c', Ok n) ->
  exists ms, adds_all 0 rs ms /\
    forall fuel, (length (c_buffer c') <= fuel)%nat ->
    read_archive fuel (c_buffer c' ++ rest) =
      Some (ms ++ [plain_member (N.of_nat (length ms) + 1) S_IFREG (lit "TRAILER!!!") []], rest).
Proof. exact archive_decodes. Qed.
Print Assumptions C36_archive_decodes.

(** The one-file archives (PCR signature and public key). *)
Theorem C36_single_file : forall contents filename prefix dm am b,
  pack_cpio_literal contents filename prefix dm am = Ok b ->
  request_ok (RPrefix prefix dm) -> request_ok (RFile filename contents prefix am) ->
  exists ms, adds_all 0 [RPrefix prefix dm; RFile filename contents prefix am] ms /\
    forall rest fuel, (length b <= fuel)%nat ->
      read_archive fuel (b ++ rest) =
      Some (ms ++ [plain_member (N.of_nat (length ms) + 1) S_IFREG (lit "TRAILER!!!") []], rest).
Proof. exact literal_decodes. Qed.
Print Assumptions C36_single_file.

Definition example_requests : list request :=
  [RPrefix (lit ".extra/x") 320; RFile (lit "a") (lit "hello") (lit ".extra/x") 256; RDir (lit "d") 420].
Example C36_example :
  Forall request_ok example_requests /\
  exists c c' n, exec_all cpio_new example_requests c /\ pack_trailer c = (c', Ok n) /\
    option_map (fun r => map (fun m => (mb_name m, mb_ino m, mb_mode m, mb_data m)) (fst r))
      (read_archive 2000 (c_buffer c')) =
    Some [(lit "/.extra", 1, 16749, []); (lit "/.extra/x", 2, 16704, []);
          (lit ".extra/x/a", 3, 33024, lit "hello"); (lit "d", 4, 16804, []);
          (lit "TRAILER!!!", 5, 32768, [])].
Proof.
  split.
  - repeat (apply Forall_cons; [cbn; repeat split; try reflexivity; try discriminate; intuition discriminate|]). constructor.
  - eexists _, _, _. split.
    + repeat (eapply ex_cons; [vm_compute; reflexivity|]). apply ex_nil.
    + split; [vm_compute; reflexivity|]. vm_compute. reflexivity.
Qed.

(** ** C37 *)

(** After any sequence of operations, failed ones included, the length is a
    multiple of 4. *)
Theorem C37_aligned : forall rs,
  N.of_nat (length (c_buffer (fold_left (fun c r => fst (exec c r)) rs cpio_new))) mod 4 = 0.
Proof. intros rs. now apply history_aligned. Qed.
Print Assumptions C37_aligned.

(** [pack_one] returns the number of bytes it appended. *)
Theorem C37_size_returned : forall c fname contents prefix mode c' n,
  pack_one c fname contents prefix mode = (c', Ok n) ->
  exists b, c_buffer c' = c_buffer c ++ b /\ N.of_nat (length b) = n /\ n mod 4 = 0.
Proof. exact pack_one_appends. Qed.
Print Assumptions C37_size_returned.

(** A failed single step changes nothing. *)
Theorem C37_failed_file : forall c fname contents prefix mode c' o,
  pack_one c fname contents prefix mode = (c', o) -> (forall n, o <> Ok n) -> c' = c.
Proof. exact pack_one_failed. Qed.
Theorem C37_failed_dir : forall c path mode c' o,
  pack_dir c path mode = (c', o) -> o <> Ok tt -> c' = c.
Proof. exact pack_dir_failed. Qed.
Print Assumptions C37_failed_file.
Print Assumptions C37_failed_dir.

(** "A failed operation leaves the archive unchanged" is false for
    [pack_prefix]: with one inode number left, "a/b" packs "/a" and then
    fails. *)
Theorem C37_failed_unchanged_refuted :
  ~ (forall rs c c' path mode e,
       exec_all cpio_new rs c -> pack_prefix c path mode = (c', Err e) -> c_buffer c' = c_buffer c).
Proof.
  intros H. destruct pack_prefix_partial_failure as (rs & c & c' & H1 & H2 & H3).
  apply H3. eapply H; eauto.
Qed.
Print Assumptions C37_failed_unchanged_refuted.

Example C37_example :
  pack_one (fst (pack_dir cpio_new (lit "dir") 0)) (lit "name") (lit "12345") (lit "p") 0 =
    (Cpio (c_buffer (fst (pack_dir cpio_new (lit "dir") 0)) ++
           skipn 116 (c_buffer (fst (pack_one (fst (pack_dir cpio_new (lit "dir") 0)) (lit "name") (lit "12345") (lit "p") 0)))) 2,
     Ok 128) /\
  snd (pack_one (Cpio [] cu32_max) (lit "a") [] [] 0) = Err MaximumInodesReached.
Proof. vm_compute. auto. Qed.

(** ** C38 *)

(** The complete table of outcomes of [pack_one] and [pack_dir] on archives and
    names shorter than 2^63 bytes (Rust vectors and slices always are). *)
Theorem C38_file_outcome : forall c fname contents prefix mode,
  N.of_nat (length (c_buffer c)) < 2 ^ 63 -> N.of_nat (length fname) < 2 ^ 63 -> N.of_nat (length prefix) < 2 ^ 63 ->
  let o := snd (pack_one c fname contents prefix mode) in
  let names := N.of_nat (length prefix) + N.of_nat (length fname) in
  if 2 ^ 32 - 1 <? N.of_nat (length contents) then o = Err TooLargeFileSize
  else if c_inode c =? 2 ^ 32 - 1 then o = Err MaximumInodesReached
  else if 2 ^ 32 - 1 <=? names then o = Err MaximumArchiveReached
  else if (0 <? N.of_nat (length prefix)) && (names =? 2 ^ 32 - 2) then o = Panic
  else exists n, o = Ok n.
Proof. exact pack_one_outcome. Qed.
Print Assumptions C38_file_outcome.

Theorem C38_dir_outcome : forall c path mode,
  N.of_nat (length (c_buffer c)) < 2 ^ 63 -> N.of_nat (length path) < 2 ^ 63 - 200 ->
  let o := snd (pack_dir c path mode) in
  if c_inode c =? 2 ^ 32 - 1 then o = Err MaximumInodesReached
  else if 2 ^ 32 - 1 <=? N.of_nat (length path) then o = Panic
  else o = Ok tt.
Proof. exact pack_dir_outcome. Qed.
Print Assumptions C38_dir_outcome.

(** "No input makes the packer panic" is false: the separator is not counted,
    and directory names are not checked. *)
Theorem C38_no_panic_refuted :
  (exists fname prefix, snd (pack_one cpio_new fname [] prefix 0) = Panic) /\
  (exists path, snd (pack_dir cpio_new path 0) = Panic).
Proof.
  split.
  - set (fname := repeat 97 (N.to_nat 4294967293)).
    assert (L : len fname = 4294967293) by (unfold len, fname; now rewrite repeat_length, N2Nat.id).
    clearbody fname. exists fname, [97].
    pose proof (pack_one_outcome cpio_new fname [] [97] 0) as H. rewrite L in H.
    apply H; reflexivity.
  - set (path := repeat 97 (N.to_nat 4294967295)).
    assert (L : len path = 4294967295) by (unfold len, path; now rewrite repeat_length, N2Nat.id).
    clearbody path. exists path.
    pose proof (pack_dir_outcome cpio_new path 0) as H. rewrite L in H.
    apply H; reflexivity.
Qed.
Print Assumptions C38_no_panic_refuted.

Example C38_example :
  snd (pack_one cpio_new (lit "n") (lit "c") (lit "p") 0) = Ok 120 /\
  snd (pack_one (Cpio [] (2 ^ 32 - 1)) (lit "n") (lit "c") (lit "p") 0) = Err MaximumInodesReached.
Proof. vm_compute. auto. Qed.

(** ** C39 *)

(** The result does not depend on the order of any directory listing. *)
Theorem C39_order_independent : forall fs fs',
  same_but_order fs fs' ->
  (forall dropin, discover_credentials fs dropin = discover_credentials fs' dropin) /\
  (forall dropin, discover_system_extensions fs dropin = discover_system_extensions fs' dropin).
Proof.
  intros fs fs' H. split; intros d;
  [now apply discover_credentials_order|now apply discover_system_extensions_order].
Qed.
Print Assumptions C39_order_independent.

(** The contents: exactly the picked files, sorted by name, under the prefix.
    [companion_holds fs dir suffix t prefix dm am r]: [r] is empty if nothing in
    [dir] is picked, and otherwise one archive of type [t] with the picked
    files. *)
Definition companion_holds (fs : efs) (dir suffix : list N) (t : companion_type)
  (prefix : list N) (dm am : N) (r : list companion) : Prop :=
  exists es names,
    fs_dir fs dir = Some (map Some es) /\
    (exists sel, Forall (fun eb => snd eb = true <-> picked suffix (de_regular (fst eb)) (de_name (fst eb))) (combine es sel) /\
                 length sel = length es /\
                 Permutation names (map (fun eb => de_name (fst eb)) (filter snd (combine es sel)))) /\
    StronglySorted lex_le names /\
    match names with
    | [] => r = []
    | _ => exists b ds ms,
        r = [Companion t b] /\
        Forall2 (fun n d => fs_read fs (dir ++ lit "\" ++ n) = Some d) names ds /\
        adds_all 0 (RPrefix prefix dm :: map (fun nd => RFile (fst nd) (snd nd) prefix am) (combine names ds)) ms /\
        forall rest fuel, (length b <= fuel)%nat ->
          read_archive fuel (b ++ rest) =
          Some (ms ++ [plain_member (N.of_nat (length ms) + 1) S_IFREG (lit "TRAILER!!!") []], rest)
    end.

(** File names on the ESP contain no backslash and no NUL. *)
Definition names_ok (fs : efs) : Prop :=
  forall dir es e, fs_dir fs dir = Some es -> In (Some e) es -> ~ In 92 (de_name e) /\ ~ In 0 (de_name e).

Lemma companion_holds_of fs dir suffix t prefix dm am r :
  companion_of fs dir suffix t prefix dm am = Ok r -> names_ok fs ->
  prefix <> [] -> ~ In 0 prefix -> In 47 prefix -> dm < 2 ^ 32 -> am < 2 ^ 32 ->
  companion_holds fs dir suffix t prefix dm am r.
Proof.
  intros E Hn H1 H2 H3 H4 H5.
  destruct (companion_contents fs dir suffix t prefix dm am r E) as (es & names & E1 & P & S & M); auto.
  { intros es e. apply Hn. }
  exists es, names. split; auto. split; auto.
  exists (map (picks suffix) es). split; [|split].
  - clear. induction es as [|e es IH]; cbn; constructor; auto. apply picks_spec.
  - apply map_length.
  - rewrite P. clear. induction es as [|e es IH]; cbn; auto. destruct (picks suffix e); cbn; auto.
Qed.

Theorem C39_system_extensions : forall fs dropin r,
  names_ok fs -> discover_system_extensions fs dropin = Ok r ->
  companion_holds fs dropin (lit ".raw") SystemExtension (lit ".extra/sysext") 365 292 r. (* 0o555 0o444 *)
Proof.
  intros fs d r Hn E. apply companion_holds_of; [assumption|assumption|vm_compute; intuition discriminate ..].
Qed.
Print Assumptions C39_system_extensions.

Theorem C39_credentials : forall fs dropin r,
  names_ok fs -> discover_credentials fs dropin = Ok r ->
  exists rg rl, r = rg ++ rl /\
    (if match fs_exists fs (lit "\loader\credentials"), fs_isdir fs (lit "\loader\credentials") with
        | Some true, Some true => true | _, _ => false end
     then companion_holds fs (lit "\loader\credentials") (lit ".cred") GlobalCredentials
            (lit ".extra/global_credentials") 320 256 rg    (* 0o500 0o400 *)
     else rg = []) /\
    match dropin with
    | Some d => companion_holds fs d (lit ".cred") Credentials (lit ".extra/credentials") 320 256 rl
    | None => rl = []
    end.
Proof.
  intros fs d r Hn E. unfold discover_credentials in E.
  destruct (match fs_exists fs _ with Some true => _ | _ => _ end) as [rg|u|] eqn:Eg; cbn [bind] in E; try discriminate.
  destruct (match d with Some _ => _ | None => _ end) as [rl|u|] eqn:El; cbn [bind] in E; try discriminate.
  exists rg, rl. split; [congruence|]. split.
  - destruct (fs_exists fs (lit "\loader\credentials")) as [[]|]; try congruence.
    destruct (fs_isdir fs (lit "\loader\credentials")) as [[]|]; try congruence.
    apply companion_holds_of; [assumption|assumption|vm_compute; intuition discriminate ..].
  - destruct d as [d|]; [|congruence].
    apply companion_holds_of; [assumption|assumption|vm_compute; intuition discriminate ..].
Qed.
Print Assumptions C39_credentials.

Definition example_fs (flip : bool) : efs :=
  Efs (fun d => if list_eq_dec N.eq_dec d (lit "\x.extra")
                then Some ((if flip then @rev _ else fun l => l)
                      [Some (Dentry true (lit "b.raw")); Some (Dentry true (lit "a.raw"));
                       Some (Dentry false (lit "dir.raw")); Some (Dentry true (lit "c.cred"))])
                else Some [])
      (fun _ => Some false) (fun _ => Some true) (fun p => Some p).
Example C39_example :
  same_but_order (example_fs false) (example_fs true) /\ names_ok (example_fs false) /\
  match discover_system_extensions (example_fs false) (lit "\x.extra") with
  | Ok [Companion SystemExtension b] =>
      option_map (fun r => map (fun m => (mb_name m, mb_data m)) (fst r)) (read_archive 2000 b)
  | _ => None
  end =
    Some [(lit "/.extra", []); (lit "/.extra/sysext", []);
          (lit ".extra/sysext/a.raw", lit "\x.extra\a.raw"); (lit ".extra/sysext/b.raw", lit "\x.extra\b.raw");
          (lit "TRAILER!!!", [])].
Proof.
  split; [|split].
  - split; [|now auto]. intros d. cbn [fs_dir example_fs].
    destruct (list_eq_dec _ _ _); auto. apply Permutation_rev.
  - intros d es e. cbn [fs_dir example_fs].
    destruct (list_eq_dec _ _ _); intros [= <-]; [|contradiction].
    intros [Hi|[Hi|[Hi|[Hi|[]]]]]; injection Hi as <-; cbn [de_name]; vm_compute; intuition discriminate.
  - vm_compute. reflexivity.
Qed.
