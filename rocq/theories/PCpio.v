(** Proofs about CPIO archives. *)
From Coq Require Import List NArith ZArith Bool Lia ZifyBool ZifyNat ZifyN Sorted Permutation.
From Verif Require Import Base PBase MText PText MOsRelease POsRelease MCpio SCpio.
Import ListNotations.
Open Scope N_scope.

Ltac Zify.zify_post_hook ::= Z.to_euclidean_division_equations.

(** ** Numbers *)

Lemma hex_value_digit v : v < 16 -> hex_value (hex_digit v) = Some v.
Proof.
  intros H. unfold hex_digit, hex_value.
  destruct (N.ltb_spec v 10).
  - replace ((48 <=? 48 + v) && (48 + v <=? 57)) with true by lia. f_equal. lia.
  - replace ((48 <=? 87 + v) && (87 + v <=? 57)) with false by lia.
    replace ((97 <=? 87 + v) && (87 + v <=? 102)) with true by lia. f_equal. lia.
Qed.

Lemma read_hex8 v r : v < 2 ^ 32 -> read_hex 8 0 (hex8 v ++ r) = Some (v, r).
Proof.
  intros H. unfold hex8. cbn [map app read_hex].
  repeat (rewrite hex_value_digit by (apply N.mod_lt; lia)).
  f_equal. f_equal.
  change (16 ^ 7) with 268435456. change (16 ^ 6) with 16777216. change (16 ^ 5) with 1048576.
  change (16 ^ 4) with 65536. change (16 ^ 3) with 4096. change (16 ^ 2) with 256.
  change (16 ^ 1) with 16. change (16 ^ 0) with 1. change (2 ^ 32) with 4294967296 in H.
  assert (D : forall k, v / (k * 16) = v / k / 16).
  { intros k. destruct (N.eq_dec k 0) as [->|]; [now destruct v|]. symmetry. apply N.div_div; lia. }
  rewrite N.div_1_r.
  change 256 with (16 * 16). rewrite (D 16).
  change 4096 with (16 * 16 * 16). rewrite (D (16 * 16)), (D 16).
  change 65536 with (16 * 16 * 16 * 16). rewrite (D (16*16*16)), (D (16 * 16)), (D 16).
  change 1048576 with (16 * 16 * 16 * 16 * 16). rewrite (D (16*16*16*16)), (D (16*16*16)), (D (16 * 16)), (D 16).
  change 16777216 with (16 * 16 * 16 * 16 * 16 * 16).
  rewrite (D (16*16*16*16*16)), (D (16*16*16*16)), (D (16*16*16)), (D (16 * 16)), (D 16).
  change 268435456 with (16 * 16 * 16 * 16 * 16 * 16 * 16).
  rewrite (D (16*16*16*16*16*16)), (D (16*16*16*16*16)), (D (16*16*16*16)), (D (16*16*16)), (D (16 * 16)), (D 16).
  lia.
Qed.

Lemma read_fields_words vs r :
  Forall (fun v => v < 2 ^ 32) vs ->
  read_fields (length vs) (flat_map hex8 vs ++ r) = Some (vs, r).
Proof.
  induction 1 as [|v vs H _ IH]; auto.
  cbn [length flat_map read_fields]. rewrite <- app_assoc, read_hex8 by auto. now rewrite IH.
Qed.

(** ** Pieces *)

Lemma take_app a b : take (len a) (a ++ b) = Some (a, b).
Proof.
  unfold take, len. rewrite app_length.
  replace (N.of_nat (length a + length b) <? N.of_nat (length a)) with false by lia.
  rewrite Nat2N.id. f_equal. f_equal.
  - rewrite firstn_app, Nat.sub_diag, firstn_all. cbn. now rewrite app_nil_r.
  - rewrite skipn_app, Nat.sub_diag, skipn_all. reflexivity.
Qed.

Lemma pad4_zero n : forallb (fun b => b =? 0) (pad4 n) = true.
Proof.
  unfold pad4. destruct (n mod 4 =? 0); auto. apply forallb_forall. intros x Hx.
  apply repeat_spec in Hx. subst. reflexivity.
Qed.

Lemma pad4_len n : len (pad4 n) = (4 - n mod 4) mod 4.
Proof.
  unfold pad4, len. destruct (N.eqb_spec (n mod 4) 0) as [->|H]; [reflexivity|].
  rewrite repeat_length. lia.
Qed.

Lemma skip_pad4 n r : skip_pad n (pad4 n ++ r) = Some r.
Proof. unfold skip_pad. rewrite <- pad4_len, take_app, pad4_zero. reflexivity. Qed.

Lemma skip_pad4' n m r : n mod 4 = m mod 4 -> skip_pad n (pad4 m ++ r) = Some r.
Proof.
  intros E. unfold skip_pad. rewrite E, <- pad4_len, take_app, pad4_zero. reflexivity.
Qed.

Definition entry_ok (e : entry) : Prop :=
  Forall (fun v => v < 2 ^ 32)
    [e_ino e; e_mode e; e_uid e; e_gid e; e_nlink e; e_mtime e; e_file_size e;
     e_dev_major e; e_dev_minor e; e_rdev_major e; e_rdev_minor e] /\ ~ In 0 (e_name e).

Definition member_of (e : entry) (data : bytes) : member :=
  Member (e_ino e) (e_mode e) (e_uid e) (e_gid e) (e_nlink e) (e_mtime e)
    (e_dev_major e, e_dev_minor e) (e_rdev_major e, e_rdev_minor e) 0 (e_name e) data.

Lemma read_member_entry e h hs data r :
  entry_ok e -> cpio_header e = Some (h, hs) -> e_file_size e = len data ->
  read_member (h ++ fst (cpio_contents hs data) ++ r) = Some (member_of e data, r).
Proof.
  intros [F Hn] Hh Hs. unfold cpio_header in Hh.
  destruct (cu32_max <? len (e_name e) + 1) eqn:El; [discriminate|].
  apply N.ltb_ge in El. unfold cu32_max in El.
  pose proof (f_equal (fun o => match o with Some x => fst x | None => [] end) Hh) as E1.
  pose proof (f_equal (fun o => match o with Some x => snd x | None => 0 end) Hh) as E2.
  cbv beta iota zeta delta [fst snd] in E1, E2. subst h hs. clear Hh.
  unfold cpio_contents. cbn [fst]. unfold read_member.
  change 6 with (len (lit "070701")). rewrite <- !app_assoc, take_app.
  destruct (list_eq_dec N.eq_dec (lit "070701") (lit "070701")) as [_|]; [|congruence].
  change 13%nat with (length [e_ino e; e_mode e; e_uid e; e_gid e; e_nlink e; e_mtime e; e_file_size e;
       e_dev_major e; e_dev_minor e; e_rdev_major e; e_rdev_minor e; len (e_name e) + 1; 0]).
  rewrite read_fields_words.
  2: { change (Forall (fun v => v < 2 ^ 32)
         ([e_ino e; e_mode e; e_uid e; e_gid e; e_nlink e; e_mtime e; e_file_size e;
           e_dev_major e; e_dev_minor e; e_rdev_major e; e_rdev_minor e] ++ [len (e_name e) + 1; 0])).
       apply Forall_app. split; auto. repeat constructor. change (2 ^ 32) with 4294967296. lia. }
  replace (len (e_name e) + 1) with (len (e_name e ++ [0])) by (unfold len; rewrite app_length; cbn; lia).
  replace (e_name e ++ [0] ++ pad4 (static_header_len + len (e_name e) + 1) ++ data ++ pad4 (len data) ++ r)
    with ((e_name e ++ [0]) ++ pad4 (static_header_len + len (e_name e) + 1) ++ data ++ pad4 (len data) ++ r)
    by now rewrite <- app_assoc.
  rewrite take_app, rev_unit. cbn [N.eqb andb].
  replace (forallb (fun b => negb (b =? 0)) (rev (e_name e))) with true.
  2: { symmetry. apply forallb_forall. intros x Hx. apply in_rev in Hx.
       destruct (N.eqb_spec x 0); [subst; tauto|auto]. }
  rewrite skip_pad4'.
  2: { unfold static_header_len, len. rewrite app_length. cbn [length]. f_equal. lia. }
  rewrite Hs, take_app, skip_pad4. rewrite rev_involutive. reflexivity.
Qed.

Lemma header_len e h hs : cpio_header e = Some (h, hs) -> len h = hs /\ hs mod 4 = 0 /\ 110 <= hs.
Proof.
  unfold cpio_header. destruct (cu32_max <? _); [discriminate|]. intros [= <- <-].
  set (size := static_header_len + len (e_name e) + 1).
  assert (L : len (lit "070701" ++
     flat_map hex8 [e_ino e; e_mode e; e_uid e; e_gid e; e_nlink e; e_mtime e; e_file_size e;
       e_dev_major e; e_dev_minor e; e_rdev_major e; e_rdev_minor e; len (e_name e) + 1; 0] ++
     e_name e ++ [0] ++ pad4 size) = size + len (pad4 size)).
  { unfold size, static_header_len, len. rewrite !app_length. cbn [flat_map length app hex8 map].
    change (length (lit "070701")) with 6%nat. lia. }
  change (len (lit "070701" ++
     flat_map hex8 [e_ino e; e_mode e; e_uid e; e_gid e; e_nlink e; e_mtime e; e_file_size e;
       e_dev_major e; e_dev_minor e; e_rdev_major e; e_rdev_minor e; len (e_name e) + 1; 0] ++
     e_name e ++ [0] ++ pad4 size) = size + len (pad4 size) /\ (size + len (pad4 size)) mod 4 = 0 /\ 110 <= size + len (pad4 size)).
  rewrite L. split; [reflexivity|]. rewrite pad4_len. unfold size, static_header_len. lia.
Qed.

Lemma contents_len hs d : len (fst (cpio_contents hs d)) mod 4 = 0 /\ snd (cpio_contents hs d) = hs + len (fst (cpio_contents hs d)).
Proof.
  unfold cpio_contents. cbn [fst snd]. assert (E : len (d ++ pad4 (len d)) = len d + len (pad4 (len d))).
  { unfold len. rewrite app_length. lia. }
  rewrite E, pad4_len. lia.
Qed.

Lemma len_app {A} (a b : list A) : len (a ++ b) = len a + len b.
Proof. unfold len. rewrite app_length. lia. Qed.

(** ** Single operations *)

Definition file_entry (c : cpio) (fname contents prefix : bytes) (mode : N) : entry :=
  Entry (full_name prefix fname) (c_inode c + 1) (N.lor mode S_IFREG) 0 0 1 0 (len contents) 0 0 0 0.
Definition dir_entry (c : cpio) (path : bytes) (mode : N) : entry :=
  Entry path (c_inode c + 1) (N.lor mode S_IFDIR) 0 0 1 0 0 0 0 0 0.

Lemma full_name_match prefix fname :
  match prefix with [] => fname | _ => prefix ++ [47] ++ fname end = full_name prefix fname.
Proof. unfold full_name. destruct prefix; destruct (list_eq_dec _ _ _); try reflexivity; congruence. Qed.

Lemma pack_one_cases c fname contents prefix mode :
  (exists e, pack_one c fname contents prefix mode = (c, Err e)) \/
  (len contents <= cu32_max /\ c_inode c <> cu32_max /\ len prefix + len fname < cu32_max /\
   match cpio_header (file_entry c fname contents prefix mode) with
   | None => pack_one c fname contents prefix mode = (c, Panic)
   | Some (h, hs) =>
       pack_one c fname contents prefix mode =
         (Cpio (c_buffer c ++ h ++ fst (cpio_contents hs contents)) (c_inode c + 1),
          Ok (snd (cpio_contents hs contents)))
   end).
Proof.
  unfold pack_one.
  destruct (N.ltb_spec cu32_max (len contents)); [left; eauto|].
  destruct (N.eqb_spec (c_inode c) cu32_max); [left; eauto|]. cbv zeta.
  destruct (_ <? static_header_len + 1); [left; eauto|].
  destruct (_ <? static_header_len + 1 + len prefix); [left; eauto|].
  destruct (N.leb_spec cu32_max (len prefix + len fname)); [left; eauto|].
  destruct (_ =? usize_max); [left; eauto|].
  destruct (_ =? usize_max); [left; eauto|].
  destruct (_ <? align4 _); [left; eauto|].
  destruct (_ <? len (c_buffer c)); [left; eauto|].
  right. repeat split; auto.
  rewrite full_name_match. fold (file_entry c fname contents prefix mode).
  change (N.lor mode 32768) with (N.lor mode S_IFREG).
  change (Entry (full_name prefix fname) (c_inode c + 1) (N.lor mode S_IFREG) 0 0 1 0 (len contents) 0 0 0 0)
    with (file_entry c fname contents prefix mode).
  destruct (cpio_header (file_entry c fname contents prefix mode)) as [[h hs]|]; auto.
Qed.

Lemma pack_dir_cases c path mode :
  (exists e, pack_dir c path mode = (c, Err e)) \/
  (c_inode c <> cu32_max /\
   match cpio_header (dir_entry c path mode) with
   | None => pack_dir c path mode = (c, Panic)
   | Some (h, hs) => pack_dir c path mode = (Cpio (c_buffer c ++ h) (c_inode c + 1), Ok tt)
   end).
Proof.
  unfold pack_dir.
  destruct (N.eqb_spec (c_inode c) cu32_max); [left; eauto|].
  destruct (_ <? static_header_len); [left; eauto|]. cbv zeta.
  destruct (_ || _); [left; eauto|].
  right. split; auto.
  change (Entry path (c_inode c + 1) (N.lor mode 16384) 0 0 1 0 0 0 0 0 0) with (dir_entry c path mode).
  destruct (cpio_header (dir_entry c path mode)) as [[h hs]|]; auto.
Qed.

Definition cpio_ok (c : cpio) : Prop := c_inode c <= cu32_max.

Lemma lor_bound a b : a < 2 ^ 32 -> b < 2 ^ 32 -> N.lor a b < 2 ^ 32.
Proof.
  intros Ha Hb. destruct (N.eq_dec (N.lor a b) 0) as [->|Hn]; [reflexivity|].
  apply N.log2_lt_pow2; [lia|]. rewrite N.log2_lor. apply N.max_lub_lt.
  - destruct (N.eq_dec a 0) as [->|]; [reflexivity|]. apply N.log2_lt_pow2; lia.
  - destruct (N.eq_dec b 0) as [->|]; [reflexivity|]. apply N.log2_lt_pow2; lia.
Qed.

Lemma file_entry_ok c fname contents prefix mode :
  cpio_ok c -> c_inode c <> cu32_max -> len contents <= cu32_max -> mode < 2 ^ 32 ->
  ~ In 0 fname -> ~ In 0 prefix -> entry_ok (file_entry c fname contents prefix mode).
Proof.
  intros H1 H2 H3 H4 H5 H6. unfold cpio_ok, cu32_max in *. split.
  - unfold file_entry; cbn [e_ino e_mode e_uid e_gid e_nlink e_mtime e_file_size e_dev_major e_dev_minor e_rdev_major e_rdev_minor].
    assert (N.lor mode S_IFREG < 2 ^ 32) by (apply lor_bound; auto; reflexivity).
    change (2 ^ 32) with 4294967296 in *. repeat (apply Forall_cons; [lia|]). constructor.
  - cbn. unfold full_name. destruct (list_eq_dec _ _ _); auto. intros Hi.
    apply in_app_or in Hi as [Hi|Hi]; auto. destruct Hi as [Hi|Hi]; [discriminate|auto].
Qed.

Lemma dir_entry_ok c path mode :
  cpio_ok c -> c_inode c <> cu32_max -> mode < 2 ^ 32 -> ~ In 0 path -> entry_ok (dir_entry c path mode).
Proof.
  intros H1 H2 H4 H5. unfold cpio_ok, cu32_max in *. split; auto.
  unfold dir_entry; cbn [e_ino e_mode e_uid e_gid e_nlink e_mtime e_file_size e_dev_major e_dev_minor e_rdev_major e_rdev_minor].
  assert (N.lor mode S_IFDIR < 2 ^ 32) by (apply lor_bound; auto; reflexivity).
  change (2 ^ 32) with 4294967296 in *. repeat (apply Forall_cons; [lia|]). constructor.
Qed.

(** [yields b ms]: the bytes [b] read as the members [ms], whatever follows. *)
Inductive yields : bytes -> list member -> Prop :=
| y_nil : yields [] []
| y_cons b m b' ms :
    (forall r, read_member (b ++ r) = Some (m, r)) -> b <> [] ->
    yields b' ms -> yields (b ++ b') (m :: ms).

Lemma yields_app a ms b ms' : yields a ms -> yields b ms' -> yields (a ++ b) (ms ++ ms').
Proof.
  induction 1 as [|x m b' ms Hr Hne Hy IH]; intros H'; auto.
  rewrite <- app_assoc. cbn. constructor; auto.
Qed.

Lemma yields_one b m : (forall r, read_member (b ++ r) = Some (m, r)) -> b <> [] -> yields b [m].
Proof. intros H Hn. rewrite <- (app_nil_r b). constructor; auto. constructor. Qed.

Lemma header_nonempty e h hs : cpio_header e = Some (h, hs) -> h <> [].
Proof.
  intros H ->. apply header_len in H. cbn in H. lia.
Qed.

Lemma pack_one_yields c fname contents prefix mode c' n :
  cpio_ok c -> mode < 2 ^ 32 -> ~ In 0 fname -> ~ In 0 prefix ->
  pack_one c fname contents prefix mode = (c', Ok n) ->
  exists b, c_buffer c' = c_buffer c ++ b /\ len b = n /\ c_inode c' = c_inode c + 1 /\ cpio_ok c' /\
    n mod 4 = 0 /\
    yields b [plain_member (c_inode c + 1) (N.lor mode S_IFREG) (full_name prefix fname) contents].
Proof.
  intros Hc Hm Hf Hp E.
  destruct (pack_one_cases c fname contents prefix mode) as [[e E']|(H1 & H2 & H3 & E')]; [congruence|].
  destruct (cpio_header _) as [[h hs]|] eqn:Eh; [|congruence].
  assert (Hc' : c' = Cpio (c_buffer c ++ h ++ fst (cpio_contents hs contents)) (c_inode c + 1)) by congruence.
  assert (Hn : n = snd (cpio_contents hs contents)) by congruence.
  subst c' n. cbn [c_buffer c_inode].
  pose proof (header_len _ _ _ Eh) as (L1 & L2 & L3). pose proof (contents_len hs contents) as (L4 & L5).
  exists (h ++ fst (cpio_contents hs contents)). split; [reflexivity|].
  split; [rewrite L5, len_app; lia|]. split; [reflexivity|].
  split; [unfold cpio_ok in *; cbn; lia|]. split; [rewrite L5; lia|].
  apply yields_one.
  - intros r. rewrite <- app_assoc.
    rewrite (read_member_entry _ _ _ contents r (file_entry_ok c fname contents prefix mode Hc H2 H1 Hm Hf Hp) Eh eq_refl).
    reflexivity.
  - apply header_nonempty in Eh. destruct h; [congruence|discriminate].
Qed.

Lemma pack_dir_yields c path mode c' :
  cpio_ok c -> mode < 2 ^ 32 -> ~ In 0 path ->
  pack_dir c path mode = (c', Ok tt) ->
  exists b, c_buffer c' = c_buffer c ++ b /\ len b mod 4 = 0 /\ c_inode c' = c_inode c + 1 /\ cpio_ok c' /\
    yields b [plain_member (c_inode c + 1) (N.lor mode S_IFDIR) path []].
Proof.
  intros Hc Hm Hp E.
  destruct (pack_dir_cases c path mode) as [[e E']|(H1 & E')]; [congruence|].
  destruct (cpio_header _) as [[h hs]|] eqn:Eh; [|congruence].
  rewrite E in E'. injection E' as ->. cbn [c_buffer c_inode].
  pose proof (header_len _ _ _ Eh) as (L1 & L2 & L3).
  exists h. split; [reflexivity|].
  split; [lia|]. split; [reflexivity|]. split; [unfold cpio_ok in *; cbn; lia|].
  apply yields_one.
  - intros r.
    pose proof (read_member_entry _ _ _ [] r (dir_entry_ok c path mode Hc H1 Hm Hp) Eh eq_refl) as R.
    exact R.
  - now apply header_nonempty in Eh.
Qed.

(** ** Prefixes *)

Definition prefix_members (ino : N) (anc : bytes) (comps : list bytes) (mode : N) : list member :=
  map (fun ip => plain_member (ino + 1 + N.of_nat (fst ip))
                   (N.lor (if Nat.eqb (S (fst ip)) (length comps) then mode else 365) S_IFDIR)
                   (snd ip) [])
      (combine (seq 0 (length comps))
               (map (fun i => anc ++ [47] ++ join [47] (firstn i comps)) (seq 1 (length comps)))).

Lemma join_cons_nonempty (c : N) x l : l <> [] -> join [c] (x :: l) = x ++ [c] ++ join [c] l.
Proof. destruct l; [congruence|reflexivity]. Qed.

Lemma combine_map_both {A A' B B'} (f : A -> A') (g : B -> B') l m :
  combine (map f l) (map g m) = map (fun ab => (f (fst ab), g (snd ab))) (combine l m).
Proof. revert m; induction l as [|a l IH]; intros [|b m]; cbn; auto. now rewrite IH. Qed.

Lemma combine_fst_seq {B} n s (m : list B) x : In x (combine (seq s n) m) -> (s <= fst x < s + n)%nat.
Proof.
  destruct x as [i y]. intros H. apply in_combine_l in H. now apply in_seq in H.
Qed.

Lemma prefix_members_cons ino anc p ps mode :
  ps <> [] ->
  prefix_members ino anc (p :: ps) mode =
  plain_member (ino + 1) (N.lor 365 S_IFDIR) (anc ++ [47] ++ p) [] ::
  prefix_members (ino + 1) (anc ++ [47] ++ p) ps mode.
Proof.
  intros Hne. unfold prefix_members.
  replace (seq 0 (length (p :: ps))) with (0%nat :: map S (seq 0 (length ps))) by (cbn; now rewrite seq_shift).
  replace (seq 1 (length (p :: ps))) with (1%nat :: map S (seq 1 (length ps))) by (cbn; now rewrite seq_shift).
  cbn [map combine fst snd].
  f_equal.
  - destruct ps as [|q ps]; [congruence|]. cbn. f_equal. lia.
  - rewrite map_map.
    replace (map (fun x => anc ++ [47] ++ join [47] (firstn (S x) (p :: ps))) (seq 1 (length ps)))
      with (map (fun x => (anc ++ [47] ++ p) ++ [47] ++ join [47] (firstn x ps)) (seq 1 (length ps))).
    + rewrite <- (map_id (map _ (seq 1 (length ps)))) at 1. rewrite combine_map_both, map_map.
      apply map_ext_in. intros [i y] Hi. cbn [fst snd length Nat.eqb]. f_equal. lia.
    + apply map_ext_in. intros i Hi. apply in_seq in Hi.
      cbn [firstn]. rewrite join_cons_nonempty.
      * now rewrite <- !app_assoc.
      * destruct i; [lia|]. destruct ps; [congruence|]. discriminate.
Qed.

Lemma prefix_loop_yields parts : forall c anc mode c',
  cpio_ok c -> mode < 2 ^ 32 -> ~ In 0 anc -> Forall (fun p => ~ In 0 p) parts -> parts <> [] ->
  pack_prefix_loop c anc parts mode = (c', Ok tt) ->
  exists b, c_buffer c' = c_buffer c ++ b /\ len b mod 4 = 0 /\
    c_inode c' = c_inode c + len parts /\ cpio_ok c' /\
    yields b (prefix_members (c_inode c) anc parts mode).
Proof.
  induction parts as [|p parts IH]; intros c anc mode c' Hc Hm Ha F Hne E; [congruence|].
  inversion F as [|? ? Hp F']; subst.
  assert (Hz : ~ In 0 (anc ++ [47] ++ p)).
  { intros Hi. apply in_app_or in Hi as [Hi|[Hi|Hi]]; auto. discriminate. }
  destruct parts as [|q parts].
  - cbn [pack_prefix_loop] in E. apply pack_dir_yields in E as (b & E1 & E2 & E3 & E4 & E5); auto.
    exists b. split; auto. split; auto. split; [rewrite E3; reflexivity|]. split; auto.
    unfold prefix_members. cbn. replace (c_inode c + 1 + 0) with (c_inode c + 1) by lia. exact E5.
  - cbn [pack_prefix_loop] in E.
    destruct (pack_dir c (anc ++ [47] ++ p) 365) as [c1 [[]|e|]] eqn:Ed; try discriminate.
    apply pack_dir_yields in Ed as (b & E1 & E2 & E3 & E4 & E5); auto; [|reflexivity].
    apply IH in E as (b' & E1' & E2' & E3' & E4' & E5'); auto; [|discriminate].
    exists (b ++ b'). split; [rewrite E1', E1; now rewrite app_assoc|].
    split; [rewrite len_app; lia|].
    split; [rewrite E3', E3; unfold len; cbn [length]; lia|]. split; auto.
    rewrite prefix_members_cons by discriminate. rewrite E3 in E5'.
    change (plain_member (c_inode c + 1) (N.lor 365 S_IFDIR) (anc ++ [47] ++ p) [] ::
      prefix_members (c_inode c + 1) (anc ++ [47] ++ p) (q :: parts) mode) with
      ([plain_member (c_inode c + 1) (N.lor 365 S_IFDIR) (anc ++ [47] ++ p) []] ++
      prefix_members (c_inode c + 1) (anc ++ [47] ++ p) (q :: parts) mode).
    now apply yields_app.
Qed.

Lemma join_split (c : N) s : join [c] (split_on c s) = s.
Proof.
  induction s as [|x s IH]; [reflexivity|]. cbn [split_on].
  destruct (split_on c s) as [|p ps] eqn:E; [now apply split_on_nonempty in E|].
  destruct (N.eqb_spec x c) as [->|Hn].
  - rewrite join_cons_nonempty by discriminate. now rewrite IH.
  - destruct ps as [|q ps]; cbn in IH |- *; now rewrite <- IH.
Qed.

Lemma split_on_parts (c : N) s : Forall (fun p => ~ In c p /\ (forall x, In x p -> In x s)) (split_on c s).
Proof.
  induction s as [|x s IH]; cbn.
  - repeat constructor; auto.
  - destruct (N.eqb_spec x c) as [->|Hn].
    + constructor; [cbn; auto; split; [tauto|intros ? []]|].
      eapply Forall_impl; [|exact IH]. cbn beta. intros p [H1 H2]. split; auto.
    + destruct (split_on c s) as [|p ps]; [constructor; [cbn; intuition|constructor]|].
      inversion IH as [|? ? [H1 H2] F]; subst. constructor.
      * split; [cbn; intuition|]. cbn. intros y [->|Hy]; auto.
      * eapply Forall_impl; [|exact F]. cbn beta. intros q [H3 H4]. split; auto.
Qed.

Lemma path_components_split p comps : path_components p comps <-> comps = split_on 47 p.
Proof.
  unfold path_components. change (lit "/") with [47]. split.
  - intros (Hne & -> & F). symmetry.
    clear - Hne F. induction comps as [|x [|y l] IH]; [congruence| |].
    + inversion F; subst. now apply split_on_none.
    + inversion F; subst. change (join [47] (x :: y :: l)) with (x ++ 47 :: join [47] (y :: l)).
      rewrite split_on_app by auto. f_equal. apply IH; auto. discriminate.
  - intros ->. split; [apply split_on_nonempty|]. split; [now rewrite join_split|].
    eapply Forall_impl; [|apply split_on_parts]. intros q H. apply H.
Qed.

Lemma prefix_members_ancestors ino comps mode :
  prefix_members ino [] comps mode =
  map (fun ip => plain_member (ino + 1 + N.of_nat (fst ip))
                   (N.lor (if Nat.eqb (S (fst ip)) (length comps) then mode else 365) S_IFDIR)
                   (snd ip) [])
      (combine (seq 0 (length comps)) (ancestors comps)).
Proof. reflexivity. Qed.

Lemma prefix_members_length ino anc comps mode : length (prefix_members ino anc comps mode) = length comps.
Proof.
  unfold prefix_members. rewrite map_length, combine_length, map_length, !seq_length. lia.
Qed.

(** ** Sequences of requests *)

(** Executing one request. *)
Definition exec (c : cpio) (r : request) : cpio * res cpio_error unit :=
  match r with
  | RFile n d p m => match pack_one c n d p m with
                     | (c', Ok _) => (c', Ok tt) | (c', Err e) => (c', Err e) | (c', Panic) => (c', Panic) end
  | RDir p m => pack_dir c p m
  | RPrefix p m => pack_prefix c p m
  end.

(** Executing requests that all succeed. *)
Inductive exec_all : cpio -> list request -> cpio -> Prop :=
| ex_nil c : exec_all c [] c
| ex_cons c r c1 rs c2 : exec c r = (c1, Ok tt) -> exec_all c1 rs c2 -> exec_all c (r :: rs) c2.

Lemma exec_yields c r c' :
  cpio_ok c -> request_ok r -> exec c r = (c', Ok tt) ->
  exists b ms, c_buffer c' = c_buffer c ++ b /\ len b mod 4 = 0 /\
    c_inode c' = c_inode c + len ms /\ cpio_ok c' /\ adds (c_inode c) r ms /\ yields b ms.
Proof.
  intros Hc Hr E. destruct r as [n d p m|p m|p m]; cbn [exec request_ok] in *.
  - destruct (pack_one c n d p m) as [c1 [w|e|]] eqn:Ep; try discriminate. injection E as ->.
    destruct Hr as (Hm & Hn & Hp & _).
    apply pack_one_yields in Ep as (b & E1 & E2 & E3 & E4 & E5 & E6); auto.
    eexists b, _. split; [eauto|]. split; [lia|]. split; [|split; [auto|split; [constructor|exact E6]]].
    rewrite E3. reflexivity.
  - destruct Hr as (Hm & Hp & _). apply pack_dir_yields in E as (b & E1 & E2 & E3 & E4 & E5); auto.
    eexists b, _. split; [eauto|]. split; [auto|]. split; [|split; [auto|split; [constructor|exact E5]]].
    rewrite E3. reflexivity.
  - destruct Hr as (Hm & Hp). unfold pack_prefix in E.
    apply prefix_loop_yields in E as (b & E1 & E2 & E3 & E4 & E5); auto.
    + exists b, (prefix_members (c_inode c) [] (split_on 47 p) m). split; auto. split; auto.
      split; [rewrite E3; unfold len; now rewrite prefix_members_length|]. split; auto. split; auto.
      rewrite prefix_members_ancestors. constructor. now apply path_components_split.
    + eapply Forall_impl; [|apply split_on_parts]. cbn beta. intros q [_ Hq] Hi. apply Hp. now apply Hq.
    + apply split_on_nonempty.
Qed.

Lemma exec_all_yields c rs c' :
  exec_all c rs c' -> cpio_ok c -> Forall request_ok rs ->
  exists b ms, c_buffer c' = c_buffer c ++ b /\ len b mod 4 = 0 /\ cpio_ok c' /\
    c_inode c' = c_inode c + len ms /\ adds_all (c_inode c) rs ms /\ yields b ms.
Proof.
  induction 1 as [c|c r c1 rs c2 E _ IH]; intros Hc F.
  - exists [], []. rewrite app_nil_r. repeat split; auto; try constructor. cbn. lia.
  - inversion F as [|? ? Hr F']; subst.
    apply exec_yields in E as (b & ms & E1 & E2 & E3 & E4 & E5 & E6); auto.
    destruct (IH E4 F') as (b' & ms' & E1' & E2' & E3' & E4' & E5' & E6').
    exists (b ++ b'), (ms ++ ms'). split; [rewrite E1', E1; now rewrite app_assoc|].
    split; [rewrite len_app; lia|]. split; auto. split; [rewrite E4', E3, len_app; lia|].
    split; [|now apply yields_app]. econstructor; eauto. rewrite E3 in E5'. exact E5'.
Qed.

(** ** Reading whole archives *)

Lemma read_archive_yields b ms t tm r fuel :
  yields b ms -> Forall (fun m => mb_name m <> lit "TRAILER!!!") ms ->
  (forall r, read_member (t ++ r) = Some (tm, r)) -> mb_name tm = lit "TRAILER!!!" ->
  (length ms < fuel)%nat ->
  read_archive fuel (b ++ t ++ r) = Some (ms ++ [tm], r).
Proof.
  intros Hy. revert fuel. induction Hy as [|b m b' ms Hr Hne Hy IH]; intros fuel F Ht Htm Hf;
    (destruct fuel as [|fuel]; [lia|]); cbn [read_archive].
  - cbn [app]. rewrite Ht. destruct (list_eq_dec _ _ _) as [_|]; [reflexivity|congruence].
  - inversion F as [|? ? Hm F']; subst. rewrite <- app_assoc, Hr.
    destruct (list_eq_dec _ _ _) as [|_]; [congruence|].
    rewrite IH; auto. cbn in Hf. lia.
Qed.

Lemma yields_length b ms : yields b ms -> (length ms <= length b)%nat.
Proof.
  induction 1 as [|b m b' ms Hr Hne Hy IH]; cbn; auto.
  rewrite app_length. destruct b; [congruence|]. cbn. lia.
Qed.

Lemma adds_not_trailer ino r ms :
  request_ok r -> adds ino r ms -> Forall (fun m => mb_name m <> lit "TRAILER!!!") ms.
Proof.
  intros Hr H. destruct H; cbn [request_ok] in Hr.
  - constructor; [|constructor]. apply Hr.
  - constructor; [|constructor]. apply Hr.
  - apply Forall_forall. intros x Hx. apply in_map_iff in Hx as ([i y] & <- & Hi). cbn.
    apply in_combine_r in Hi. unfold ancestors in Hi. apply in_map_iff in Hi as (j & <- & _).
    lits. discriminate.
Qed.

Lemma adds_all_not_trailer ino rs ms :
  Forall request_ok rs -> adds_all ino rs ms -> Forall (fun m => mb_name m <> lit "TRAILER!!!") ms.
Proof.
  intros F H; induction H; [constructor|]. inversion F; subst. apply Forall_app. split; eauto using adds_not_trailer.
Qed.

Lemma archive_decodes rs c c' n r :
  exec_all cpio_new rs c -> Forall request_ok rs -> pack_trailer c = (c', Ok n) ->
  exists ms, adds_all 0 rs ms /\
    forall fuel, (length (c_buffer c') <= fuel)%nat ->
    read_archive fuel (c_buffer c' ++ r) =
      Some (ms ++ [plain_member (N.of_nat (length ms) + 1) S_IFREG (lit "TRAILER!!!") []], r).
Proof.
  intros H F Ht.
  destruct (exec_all_yields _ _ _ H) as (b & ms & E1 & E2 & E3 & E4 & E5 & E6); auto.
  { unfold cpio_ok, cu32_max. cbn. lia. }
  cbn in E1, E4. exists ms. split; auto. intros fuel Hf.
  unfold pack_trailer in Ht. apply pack_one_yields in Ht as (t & T1 & T2 & T3 & T4 & T5 & T6); auto; try reflexivity.
  2: { vm_compute. intuition discriminate. }
  inversion T6 as [|t' m t'' ms' Hr Hne Hnil]; subst. inversion Hnil; subst. rewrite app_nil_r in *.
  rewrite T1 in *. rewrite <- app_assoc.
  rewrite (read_archive_yields (c_buffer c) ms t' (plain_member (c_inode c + 1) (N.lor 0 S_IFREG) (full_name [] (lit "TRAILER!!!")) [])); auto.
  - rewrite E4. reflexivity.
  - eapply adds_all_not_trailer; eauto.
  - pose proof (yields_length _ _ E6). rewrite app_length in Hf. destruct t'; [congruence|]. cbn in Hf. lia.
Qed.

(** ** C37 *)

Lemma pack_one_appends c fname contents prefix mode c' n :
  pack_one c fname contents prefix mode = (c', Ok n) ->
  exists b, c_buffer c' = c_buffer c ++ b /\ N.of_nat (length b) = n /\ n mod 4 = 0.
Proof.
  intros E.
  destruct (pack_one_cases c fname contents prefix mode) as [[e E']|(H1 & H2 & H3 & E')]; [congruence|].
  destruct (cpio_header _) as [[h hs]|] eqn:Eh; [|congruence].
  assert (Hc' : c' = Cpio (c_buffer c ++ h ++ fst (cpio_contents hs contents)) (c_inode c + 1)) by congruence.
  assert (Hn : n = snd (cpio_contents hs contents)) by congruence.
  subst c' n. cbn [c_buffer].
  pose proof (header_len _ _ _ Eh) as (L1 & L2 & L3). pose proof (contents_len hs contents) as (L4 & L5).
  exists (h ++ fst (cpio_contents hs contents)). split; [reflexivity|].
  change (len (h ++ fst (cpio_contents hs contents)) = snd (cpio_contents hs contents) /\ snd (cpio_contents hs contents) mod 4 = 0).
  rewrite L5, len_app. lia.
Qed.

Lemma pack_dir_appends c path mode c' :
  pack_dir c path mode = (c', Ok tt) ->
  exists b, c_buffer c' = c_buffer c ++ b /\ len b mod 4 = 0.
Proof.
  intros E.
  destruct (pack_dir_cases c path mode) as [[e E']|(H1 & E')]; [congruence|].
  destruct (cpio_header _) as [[h hs]|] eqn:Eh; [|congruence].
  rewrite E in E'. injection E' as ->. cbn [c_buffer c_inode].
  pose proof (header_len _ _ _ Eh) as (L1 & L2 & L3). exists h. split; auto. lia.
Qed.

Lemma pack_one_failed c fname contents prefix mode c' o :
  pack_one c fname contents prefix mode = (c', o) -> (forall n, o <> Ok n) -> c' = c.
Proof.
  intros E Ho.
  destruct (pack_one_cases c fname contents prefix mode) as [[e E']|(H1 & H2 & H3 & E')]; [congruence|].
  destruct (cpio_header _) as [[h hs]|]; [|congruence]. rewrite E in E'.
  injection E' as _ ->. exfalso. eapply Ho; reflexivity.
Qed.

Lemma pack_dir_failed c path mode c' o :
  pack_dir c path mode = (c', o) -> o <> Ok tt -> c' = c.
Proof.
  intros E Ho.
  destruct (pack_dir_cases c path mode) as [[e E']|(H1 & E')]; [congruence|].
  destruct (cpio_header _) as [[h hs]|]; [|congruence]. rewrite E in E'.
  injection E' as _ ->. congruence.
Qed.

Lemma prefix_loop_appends parts : forall c anc mode c' o,
  pack_prefix_loop c anc parts mode = (c', o) ->
  exists b, c_buffer c' = c_buffer c ++ b /\ len b mod 4 = 0.
Proof.
  assert (G : forall c p m c' o, pack_dir c p m = (c', o) -> exists b, c_buffer c' = c_buffer c ++ b /\ len b mod 4 = 0).
  { intros c p m c' [[]|e|] E.
    - eapply pack_dir_appends; eauto.
    - apply pack_dir_failed in E as ->; [|discriminate]. exists []. now rewrite app_nil_r.
    - apply pack_dir_failed in E as ->; [|discriminate]. exists []. now rewrite app_nil_r. }
  induction parts as [|p parts IH]; intros c anc mode c' o E.
  - cbn in E. injection E as -> _. exists []. now rewrite app_nil_r.
  - destruct parts as [|q parts]; [cbn [pack_prefix_loop] in E; eauto|].
    cbn [pack_prefix_loop] in E.
    destruct (pack_dir c (anc ++ [47] ++ p) 365) as [c1 o1] eqn:Ed.
    apply G in Ed as (b & E1 & E2).
    destruct o1 as [[]|e|].
    + apply IH in E as (b' & E1' & E2'). exists (b ++ b').
      split; [rewrite E1', E1; now rewrite app_assoc|]. rewrite len_app. lia.
    + injection E as -> _. eauto.
    + injection E as -> _. eauto.
Qed.

Lemma exec_appends c r c' o :
  exec c r = (c', o) -> exists b, c_buffer c' = c_buffer c ++ b /\ len b mod 4 = 0.
Proof.
  destruct r as [n d p m|p m|p m]; cbn [exec].
  - destruct (pack_one c n d p m) as [c1 [w|e|]] eqn:E; intros [= <- <-].
    + apply pack_one_appends in E as (b & E1 & E2 & E3). exists b. split; auto. unfold len. lia.
    + apply pack_one_failed in E as ->; [|discriminate]. exists []. now rewrite app_nil_r.
    + apply pack_one_failed in E as ->; [|discriminate]. exists []. now rewrite app_nil_r.
  - destruct o as [[]|e|]; intros E.
    + eapply pack_dir_appends; eauto.
    + apply pack_dir_failed in E as ->; [|discriminate]. exists []. now rewrite app_nil_r.
    + apply pack_dir_failed in E as ->; [|discriminate]. exists []. now rewrite app_nil_r.
  - apply prefix_loop_appends.
Qed.

Lemma history_aligned rs c :
  N.of_nat (length (c_buffer c)) mod 4 = 0 ->
  N.of_nat (length (c_buffer (fold_left (fun c r => fst (exec c r)) rs c))) mod 4 = 0.
Proof.
  revert c; induction rs as [|r rs IH]; intros c H; cbn [fold_left]; auto.
  apply IH. destruct (exec c r) as [c' o] eqn:E. cbn [fst].
  apply exec_appends in E as (b & -> & Hb). rewrite app_length. unfold len in Hb. lia.
Qed.

(** Reaching any inode count. *)
Lemma dir_small_ok c : c_inode c <> cu32_max -> len (c_buffer c) < 2 ^ 63 ->
  exists c', pack_dir c [97] 0 = (c', Ok tt) /\ c_inode c' = c_inode c + 1 /\ len (c_buffer c') = len (c_buffer c) + 112.
Proof.
  intros H1 H2. unfold pack_dir. destruct (N.eqb_spec (c_inode c) cu32_max); [tauto|].
  change (len [97]) with 1. change (usize_max - 1 <? static_header_len) with false. cbv zeta.
  change (align4 (static_header_len + 1)) with 112. unfold usize_max.
  change (2 ^ 63) with 9223372036854775808 in H2.
  destruct (N.eqb_spec (len (c_buffer c)) 18446744073709551615); [lia|].
  destruct (N.ltb_spec (18446744073709551615 - 112) (len (c_buffer c))); [lia|]. cbn [orb].
  destruct (cpio_header _) as [[h hs]|] eqn:Eh.
  2: { unfold cpio_header in Eh. cbn [e_name] in Eh. change (cu32_max <? len [97] + 1) with false in Eh. discriminate. }
  eexists. split; [reflexivity|]. cbn [c_inode c_buffer]. split; auto. rewrite len_app. f_equal.
  pose proof (header_len _ _ _ Eh) as (L1 & _). rewrite L1.
  unfold cpio_header in Eh. cbn [e_name] in Eh. change (cu32_max <? len [97] + 1) with false in Eh.
  apply (f_equal (fun o => match o with Some x => snd x | None => 0 end)) in Eh. cbv beta iota zeta delta [snd] in Eh.
  rewrite <- Eh. reflexivity.
Qed.

Lemma reach_inodes n : N.of_nat n <= cu32_max ->
  exists rs c, exec_all cpio_new rs c /\ c_inode c = N.of_nat n /\ len (c_buffer c) = 112 * N.of_nat n.
Proof.
  induction n as [|n IH]; intros Hn.
  - exists [], cpio_new. split; [constructor|]. split; reflexivity.
  - destruct IH as (rs & c & H & H1 & H2); [lia|]. unfold cu32_max in *.
    destruct (dir_small_ok c) as (c' & E & E1 & E2).
    + unfold cu32_max. lia.
    + change (2 ^ 63) with 9223372036854775808. lia.
    + exists (rs ++ [RDir [97] 0]), c'. split; [|split; lia].
      clear - H E. induction H; cbn; econstructor; eauto. constructor.
Qed.

(** ** C38 *)

Lemma align4_small v : v <= 2 ^ 63 -> align4 v = (v + 3) / 4 * 4 /\ align4 v < usize_max.
Proof.
  change (2 ^ 63) with 9223372036854775808. intros H. unfold align4, usize_max.
  destruct (N.ltb_spec (18446744073709551615 - 3) v); lia.
Qed.

Lemma header_none e : cpio_header e = None <-> cu32_max < len (e_name e) + 1.
Proof.
  unfold cpio_header. destruct (N.ltb_spec cu32_max (len (e_name e) + 1)); split; auto; try discriminate. lia.
Qed.

Lemma pack_one_outcome c fname contents prefix mode :
  len (c_buffer c) < 2 ^ 63 -> len fname < 2 ^ 63 -> len prefix < 2 ^ 63 ->
  let o := snd (pack_one c fname contents prefix mode) in
  if cu32_max <? len contents then o = Err TooLargeFileSize
  else if c_inode c =? cu32_max then o = Err MaximumInodesReached
  else if 2 ^ 32 - 1 <=? len prefix + len fname then o = Err MaximumArchiveReached
  else if (0 <? len prefix) && (len prefix + len fname =? 2 ^ 32 - 2) then o = Panic
  else exists n, o = Ok n.
Proof.
  intros Hb Hf Hp. cbv zeta. change (2 ^ 32 - 1) with 4294967295. change (2 ^ 32 - 2) with 4294967294.
  destruct (N.ltb_spec cu32_max (len contents)) as [H|Hc].
  { unfold pack_one. apply N.ltb_lt in H. now rewrite H. }
  destruct (N.eqb_spec (c_inode c) cu32_max) as [H|Hi].
  { unfold pack_one. apply N.ltb_ge in Hc. rewrite Hc, H. reflexivity. }
  pose proof (pack_one_cases c fname contents prefix mode) as Cs.
  change (2 ^ 63) with 9223372036854775808 in *.
  destruct (N.leb_spec 4294967295 (len prefix + len fname)) as [Hl|Hl].
  { unfold pack_one. apply N.ltb_ge in Hc as Hc'. rewrite Hc'. apply N.eqb_neq in Hi as Hi'. rewrite Hi'. cbv zeta.
    unfold static_header_len, usize_max, cu32_max in *.
    destruct (N.ltb_spec (18446744073709551615 - len prefix) (6 + 8 * 13 + 1)); [reflexivity|].
    destruct (N.ltb_spec (18446744073709551615 - len fname) (6 + 8 * 13 + 1 + len prefix)); [reflexivity|].
    destruct (N.leb_spec 4294967295 (len prefix + len fname)); [reflexivity|lia]. }
  destruct Cs as [[e E]|(_ & _ & _ & E)].
  { exfalso. unfold pack_one in E. apply N.ltb_ge in Hc as Hc'. rewrite Hc' in E. apply N.eqb_neq in Hi as Hi'. rewrite Hi' in E. cbv zeta in E.
    assert (A1 : align4 (static_header_len + 1 + len prefix + len fname) <= 4294967295 + 200 /\
                 align4 (static_header_len + 1 + len prefix + len fname) < usize_max).
    { destruct (align4_small (static_header_len + 1 + len prefix + len fname)) as [-> _];
        unfold static_header_len, usize_max; change (2 ^ 63) with 9223372036854775808; lia. }
    assert (A2 : align4 (len contents) <= 4294967295 + 3 /\ align4 (len contents) < usize_max).
    { unfold cu32_max in Hc. destruct (align4_small (len contents)) as [-> _];
        unfold usize_max; change (2 ^ 63) with 9223372036854775808; lia. }
    revert E A1 A2. generalize (align4 (static_header_len + 1 + len prefix + len fname)) (align4 (len contents)). intros x y E A1 A2.
    unfold static_header_len, usize_max, cu32_max in *.
    destruct (N.ltb_spec (18446744073709551615 - len prefix) (6 + 8 * 13 + 1)); [lia|].
    destruct (N.ltb_spec (18446744073709551615 - len fname) (6 + 8 * 13 + 1 + len prefix)); [lia|].
    destruct (N.leb_spec 4294967295 (len prefix + len fname)); [lia|].
    destruct (N.eqb_spec x 18446744073709551615); [lia|].
    destruct (N.eqb_spec y 18446744073709551615); [lia|].
    destruct (N.ltb_spec (18446744073709551615 - y) x); [lia|].
    destruct (N.ltb_spec (18446744073709551615 - (x + y)) (len (c_buffer c))); [lia|].
    destruct (cpio_header _) as [[h hs]|]; discriminate. }
  assert (Hname : len (full_name prefix fname) = if 0 <? len prefix then len prefix + 1 + len fname else len fname).
  { unfold full_name. destruct prefix as [|x prefix]; destruct (list_eq_dec _ _ _); try congruence; [reflexivity|].
    rewrite !len_app. change (len (lit "/")) with 1. destruct (N.ltb_spec 0 (len (x :: prefix))); [lia|].
    unfold len in *. cbn in *. lia. }
  destruct (cpio_header (file_entry c fname contents prefix mode)) as [[h hs]|] eqn:Eh.
  - assert (Hn : cpio_header (file_entry c fname contents prefix mode) <> None) by congruence.
    rewrite header_none in Hn. unfold file_entry in Hn. cbn [e_name] in Hn. rewrite Hname in Hn. unfold cu32_max in Hn.
    destruct (N.ltb_spec 0 (len prefix)).
    + destruct (N.eqb_spec (len prefix + len fname) 4294967294); [lia|]. cbn [andb]. rewrite E. eexists; reflexivity.
    + cbn [andb]. rewrite E. eexists; reflexivity.
  - apply header_none in Eh. unfold file_entry in Eh. cbn [e_name] in Eh. rewrite Hname in Eh. unfold cu32_max in Eh.
    destruct (N.ltb_spec 0 (len prefix)); [|lia].
    destruct (N.eqb_spec (len prefix + len fname) 4294967294); [|lia]. cbn [andb]. now rewrite E.
Qed.

Lemma pack_dir_outcome c path mode :
  len (c_buffer c) < 2 ^ 63 -> len path < 2 ^ 63 - 200 ->
  let o := snd (pack_dir c path mode) in
  if c_inode c =? cu32_max then o = Err MaximumInodesReached
  else if 2 ^ 32 - 1 <=? len path then o = Panic
  else o = Ok tt.
Proof.
  intros Hb Hp. cbv zeta. change (2 ^ 32 - 1) with 4294967295. change (2 ^ 63) with 9223372036854775808 in *.
  destruct (N.eqb_spec (c_inode c) cu32_max) as [H|Hi].
  { unfold pack_dir. now rewrite H. }
  destruct (pack_dir_cases c path mode) as [[e E]|[_ E]].
  { exfalso. unfold pack_dir in E. apply N.eqb_neq in Hi as Hi'. rewrite Hi' in E.
    destruct (align4_small (static_header_len + len path)) as [A _].
    { change (2 ^ 63) with 9223372036854775808. unfold static_header_len. lia. }
    cbv zeta in E. rewrite A in E. unfold static_header_len, usize_max in *.
    destruct (N.ltb_spec (18446744073709551615 - len path) (6 + 8 * 13)); [lia|].
    destruct (N.eqb_spec (len (c_buffer c)) 18446744073709551615); [lia|].
    destruct (N.ltb_spec (18446744073709551615 - (6 + 8 * 13 + len path + 3) / 4 * 4) (len (c_buffer c))); [lia|].
    cbn [orb] in E. destruct (cpio_header _) as [[h hs]|]; discriminate. }
  destruct (cpio_header (dir_entry c path mode)) as [[h hs]|] eqn:Eh.
  - assert (Hn : cpio_header (dir_entry c path mode) <> None) by congruence.
    rewrite header_none in Hn. cbn [dir_entry e_name] in Hn. unfold cu32_max in Hn.
    destruct (N.leb_spec 4294967295 (len path)); [lia|]. now rewrite E.
  - apply header_none in Eh. cbn [dir_entry e_name] in Eh. unfold cu32_max in Eh.
    destruct (N.leb_spec 4294967295 (len path)); [|lia]. now rewrite E.
Qed.

(** ** C39 *)

Lemma str_ltb_lex a b : str_ltb a b = true <-> lex_lt a b.
Proof.
  revert b; induction a as [|x a IH]; intros [|y b]; cbn.
  - split; [discriminate|inversion 1].
  - split; [constructor|auto].
  - split; [discriminate|inversion 1].
  - rewrite orb_true_iff, andb_true_iff, N.ltb_lt, N.eqb_eq, IH. split.
    + intros [H|[-> H]]; [now apply ll_head|now apply ll_tail].
    + inversion 1; subst; auto.
Qed.

Lemma insert_sorted_perm x l : Permutation (x :: l) (insert_sorted x l).
Proof.
  induction l as [|y l IH]; cbn; auto. destruct (str_ltb y x); auto.
  etransitivity; [apply perm_swap|]. now constructor.
Qed.

Lemma sort_paths_perm l : Permutation l (sort_paths l).
Proof.
  induction l as [|x l IH]; cbn; auto. etransitivity; [|apply insert_sorted_perm]. now constructor.
Qed.

Lemma insert_sorted_sorted x l : StronglySorted lex_le l -> StronglySorted lex_le (insert_sorted x l).
Proof.
  induction 1 as [|y l S IH F]; cbn; [repeat constructor|].
  destruct (str_ltb y x) eqn:E.
  - constructor; auto. eapply Permutation_Forall; [apply insert_sorted_perm|].
    constructor; auto. left. now apply str_ltb_lex.
  - assert (Hxy : lex_le x y).
    { destruct (str_ltb_total x y) as [H|[->|H]]; [left; now apply str_ltb_lex|now right|congruence]. }
    constructor; [now constructor|]. constructor; auto.
    eapply Forall_impl; [|exact F]. intros z Hz.
    destruct Hxy as [H| ->]; auto. destruct Hz as [H'| ->]; [|now left]. left.
    apply str_ltb_lex in H, H'. apply str_ltb_lex. eapply str_ltb_trans; eauto.
Qed.

Lemma sort_paths_sorted l : StronglySorted lex_le (sort_paths l).
Proof. induction l; cbn; [constructor|now apply insert_sorted_sorted]. Qed.

Lemma lex_le_antisym a b : lex_le a b -> lex_le b a -> a = b.
Proof.
  intros [H| ->] [H'|E]; auto. apply str_ltb_lex in H, H'.
  pose proof (str_ltb_trans _ _ _ H H') as T. now rewrite str_ltb_irrefl in T.
Qed.

Lemma sorted_unique l l' :
  Permutation l l' -> StronglySorted lex_le l -> StronglySorted lex_le l' -> l = l'.
Proof.
  revert l'; induction l as [|x l IH]; intros l' P S S'.
  - now apply Permutation_nil in P.
  - destruct l' as [|y l']; [symmetry in P; now apply Permutation_nil in P|].
    inversion S as [|? ? S1 F1]; inversion S' as [|? ? S2 F2]; subst.
    assert (x = y) as ->.
    { assert (Hx : In x (y :: l')) by (eapply Permutation_in; [exact P|now left]).
      assert (Hy : In y (x :: l)) by (eapply Permutation_in; [symmetry; exact P|now left]).
      rewrite Forall_forall in F1, F2. destruct Hx as [->|Hx]; auto. destruct Hy as [->|Hy]; auto.
      apply lex_le_antisym; auto. }
    f_equal. apply IH; auto. eapply Permutation_cons_inv; eauto.
Qed.

Lemma sort_paths_unique l l' : Permutation l l' -> sort_paths l = sort_paths l'.
Proof.
  intros P. apply sorted_unique; auto using sort_paths_sorted.
  etransitivity; [symmetry; apply sort_paths_perm|]. etransitivity; [exact P|apply sort_paths_perm].
Qed.

(** Discovery. *)

Definition picks (suffix : str) (e : dentry) : bool :=
  de_regular e && forallb (fun c => c <? 128) (de_name e) && ends_with suffix (de_name e).

Lemma ends_with_spec suf s : ends_with suf s = true <-> exists stem, s = stem ++ suf.
Proof.
  unfold ends_with. rewrite starts_with_spec. split.
  - intros [t E]. exists (rev t). apply (f_equal (@rev N)) in E.
    rewrite rev_involutive, rev_app_distr, rev_involutive in E. auto.
  - intros [stem ->]. exists (rev stem). apply rev_app_distr.
Qed.

Lemma picks_spec suffix e : picks suffix e = true <-> picked suffix (de_regular e) (de_name e).
Proof.
  unfold picks, picked. rewrite !andb_true_iff, ends_with_spec, forallb_forall, Forall_forall. split.
  - intros [[H1 H2] H3]. repeat split; auto. intros x Hx. apply H2 in Hx. now apply N.ltb_lt.
  - intros (H1 & H2 & H3). repeat split; auto. intros x Hx. apply H2 in Hx. now apply N.ltb_lt.
Qed.

Lemma find_loop_spec dir suffix l r :
  find_loop dir suffix l = Ok r <->
  exists es, l = map Some es /\ r = map (fun e => dir ++ [92] ++ de_name e) (filter (picks suffix) es).
Proof.
  revert r; induction l as [|[e|] l IH]; intros r; cbn [find_loop].
  - split.
    + intros [= <-]. now exists [].
    + intros (es & E & ->). destruct es; [reflexivity|discriminate].
  - split.
    + destruct (find_loop dir suffix l) as [r'|u|]; cbn [bind]; try discriminate.
      destruct (proj1 (IH r') eq_refl) as (es & -> & ->).
      intros [= <-]. exists (e :: es). split; auto. cbn [filter]. fold (picks suffix e).
      destruct (picks suffix e); reflexivity.
    + intros (es & E & ->). destruct es as [|e' es]; [discriminate|]. injection E as <- ->.
      assert (H : find_loop dir suffix (map Some es) = Ok (map (fun e => dir ++ [92] ++ de_name e) (filter (picks suffix) es)))
        by (apply IH; eauto).
      rewrite H. cbn [bind filter]. fold (picks suffix e). destruct (picks suffix e); reflexivity.
  - split; [discriminate|]. intros (es & E & _). destruct es; discriminate.
Qed.

Lemma find_loop_err dir suffix l : In None l -> find_loop dir suffix l = Err tt.
Proof.
  induction l as [|[e|] l IH]; intros H; cbn [find_loop].
  - contradiction.
  - destruct H as [H|H]; [discriminate|]. rewrite IH by auto. reflexivity.
  - reflexivity.
Qed.

Lemma map_Some_or_None {A} (l : list (option A)) : In None l \/ exists es, l = map Some es.
Proof.
  induction l as [|[a|] l [H|(es & ->)]].
  - right. now exists [].
  - left. now right.
  - right. now exists (a :: es).
  - left. now left.
  - left. now left.
Qed.

Lemma Permutation_map_Some {A} (l : list A) m :
  Permutation (map Some l) m -> exists l', m = map Some l' /\ Permutation l l'.
Proof. intros P. symmetry in P. apply Permutation_map_inv in P. exact P. Qed.

Definition same_but_order (fs fs' : efs) : Prop :=
  (forall d, match fs_dir fs d, fs_dir fs' d with
             | Some l, Some l' => Permutation l l'
             | None, None => True
             | _, _ => False
             end) /\
  (forall p, fs_exists fs p = fs_exists fs' p) /\
  (forall p, fs_isdir fs p = fs_isdir fs' p) /\
  (forall p, fs_read fs p = fs_read fs' p).

Lemma find_files_order fs fs' d suffix :
  same_but_order fs fs' ->
  match find_files fs d suffix, find_files fs' d suffix with
  | Ok r, Ok r' => Permutation r r'
  | Err _, Err _ => True
  | Panic, Panic => True
  | _, _ => False
  end.
Proof.
  intros (H & _). specialize (H d). unfold find_files.
  destruct (fs_dir fs d) as [l|], (fs_dir fs' d) as [l'|]; try contradiction; auto.
  destruct (map_Some_or_None l) as [Hn|(es & ->)].
  - rewrite !find_loop_err; auto. eapply Permutation_in; eauto.
  - apply Permutation_map_Some in H as (es' & -> & P).
    assert (E : forall es, find_loop d suffix (map Some es) = Ok (map (fun e => d ++ [92] ++ de_name e) (filter (picks suffix) es)))
      by (intros; apply find_loop_spec; eauto).
    rewrite !E. apply Permutation_map.
    clear - P. induction P as [|x l l' P IH|x y l|l l' l'' P1 IH1 P2 IH2]; cbn; auto.
    + destruct (picks suffix x); auto.
    + destruct (picks suffix x), (picks suffix y); auto. apply perm_swap.
    + etransitivity; eauto.
Qed.

Lemma pack_files_ext r r' files : forall c prefix m,
  (forall p, r p = r' p) -> pack_files r c files prefix m = pack_files r' c files prefix m.
Proof.
  induction files as [|f files IH]; intros c prefix m H; cbn [pack_files]; auto.
  rewrite <- H. destruct (r f); auto. unfold cthen. destruct (pack_one _ _ _ _ _) as [c' [?|?|]]; auto.
Qed.

Lemma pack_cpio_order r r' files files' prefix dm am :
  (forall p, r p = r' p) -> Permutation files files' ->
  pack_cpio r files prefix dm am = pack_cpio r' files' prefix dm am.
Proof.
  intros H P. unfold pack_cpio. rewrite (sort_paths_unique files files' P). f_equal.
  unfold cthen. destruct (pack_prefix cpio_new prefix dm) as [c [?|?|]]; auto.
  rewrite (pack_files_ext r r'); auto.
Qed.

Lemma companion_order fs fs' d suffix t prefix dm am :
  same_but_order fs fs' ->
  companion_of fs d suffix t prefix dm am = companion_of fs' d suffix t prefix dm am.
Proof.
  intros H. unfold companion_of. pose proof (find_files_order fs fs' d suffix H) as F.
  destruct (find_files fs d suffix) as [l|[]|], (find_files fs' d suffix) as [l'|[]|]; try contradiction; auto.
  cbn [bind]. destruct l as [|x l].
  - apply Permutation_nil in F as ->. reflexivity.
  - destruct l' as [|x' l']; [symmetry in F; now apply Permutation_nil in F|].
    now rewrite (pack_cpio_order (fs_read fs) (fs_read fs') (x :: l) (x' :: l') prefix dm am (proj2 (proj2 (proj2 H))) F).
Qed.

Lemma discover_credentials_order fs fs' dropin :
  same_but_order fs fs' -> discover_credentials fs dropin = discover_credentials fs' dropin.
Proof.
  intros H. unfold discover_credentials.
  rewrite (proj1 (proj2 H)), (proj1 (proj2 (proj2 H))).
  rewrite (companion_order fs fs') by auto.
  destruct dropin as [d|]; [rewrite (companion_order fs fs' d) by auto|]; reflexivity.
Qed.

Lemma discover_system_extensions_order fs fs' dropin :
  same_but_order fs fs' -> discover_system_extensions fs dropin = discover_system_extensions fs' dropin.
Proof. apply companion_order. Qed.

(** What is in a companion archive. *)

Lemma pack_files_exec read prefix m files : forall c c',
  pack_files read c files prefix m = (c', Ok tt) ->
  exists ds, Forall2 (fun f d => read f = Some d) files ds /\
    exec_all c (map (fun fd => RFile (utf8_encode (last_component (fst fd))) (snd fd) prefix m) (combine files ds)) c'.
Proof.
  induction files as [|f files IH]; intros c c' E; cbn [pack_files] in E.
  - injection E as ->. exists []. split; constructor.
  - destruct (read f) as [d|] eqn:Er; [|discriminate]. unfold cthen in E.
    destruct (pack_one c (utf8_encode (last_component f)) d prefix m) as [c1 [w|e|]] eqn:Ep; try discriminate.
    apply IH in E as (ds & F & H). exists (d :: ds). split; [constructor; auto|].
    cbn [combine map fst snd]. econstructor; [|exact H]. cbn [exec]. now rewrite Ep.
Qed.

Lemma pack_cpio_exec read files prefix dm am b :
  pack_cpio read files prefix dm am = Ok b ->
  exists ds c c' n, Forall2 (fun f d => read f = Some d) (sort_paths files) ds /\
    exec_all cpio_new (RPrefix prefix dm ::
      map (fun fd => RFile (utf8_encode (last_component (fst fd))) (snd fd) prefix am) (combine (sort_paths files) ds)) c /\
    pack_trailer c = (c', Ok n) /\ c_buffer c' = b.
Proof.
  unfold pack_cpio, cthen, finish. intros E.
  destruct (pack_prefix cpio_new prefix dm) as [c0 [[]|e|]] eqn:E0; try discriminate.
  destruct (pack_files read c0 (sort_paths files) prefix am) as [c1 [[]|e|]] eqn:E1; try discriminate.
  destruct (pack_trailer c1) as [c2 [n|e|]] eqn:E2; try discriminate. injection E as <-.
  apply pack_files_exec in E1 as (ds & F & H). exists ds, c1, c2, n.
  split; auto. split; auto. econstructor; [|exact H]. exact E0.
Qed.

Lemma last_component_join dir name : ~ In 92 name -> last_component (dir ++ [92] ++ name) = name.
Proof.
  intros H. unfold last_component. induction dir as [|x dir IH]; cbn [app].
  - cbn [split_on]. rewrite N.eqb_refl. rewrite split_on_none by auto. reflexivity.
  - cbn [split_on]. cbn [app] in IH.
    destruct (split_on 92 (dir ++ 92 :: name)) as [|p ps] eqn:E; [now apply split_on_nonempty in E|].
    destruct (x =? 92); cbn [last]; auto.
    destruct ps as [|q ps]; auto.
    exfalso. apply split_on_cons_inv in E as [Hp [[_ E]|(s' & E & _)]].
    + apply Hp. rewrite <- E. apply in_or_app. right. now left.
    + symmetry in E. now apply split_on_nonempty in E.
Qed.

Lemma lex_app_inv p a b : lex_le (p ++ a) (p ++ b) -> lex_le a b.
Proof.
  intros [H|H].
  - left. induction p as [|c p IH]; auto. apply IH. inversion H; subst; auto. lia.
  - right. now apply app_inv_head in H.
Qed.

Lemma sorted_map_prefix p l : StronglySorted lex_le (map (fun n => p ++ n) l) -> StronglySorted lex_le l.
Proof.
  induction l as [|x l IH]; intros S; [constructor|]. inversion S as [|? ? S' F]; subst.
  constructor; auto. rewrite Forall_map in F. eapply Forall_impl; [|exact F]. cbn beta. intros a H. eapply lex_app_inv; eauto.
Qed.

Lemma combine_map_l {A A' B} (f : A -> A') l (m : list B) :
  combine (map f l) m = map (fun ab => (f (fst ab), snd ab)) (combine l m).
Proof. revert m; induction l as [|a l IH]; intros [|b m]; cbn; auto. now rewrite IH. Qed.

Lemma companion_contents fs dir suffix t prefix dm am r :
  companion_of fs dir suffix t prefix dm am = Ok r ->
  (forall es e, fs_dir fs dir = Some es -> In (Some e) es -> ~ In 92 (de_name e) /\ ~ In 0 (de_name e)) ->
  prefix <> [] -> ~ In 0 prefix -> In 47 prefix -> dm < 2 ^ 32 -> am < 2 ^ 32 ->
  exists es names,
    fs_dir fs dir = Some (map Some es) /\
    Permutation names (map de_name (filter (picks suffix) es)) /\
    StronglySorted lex_le names /\
    match names with
    | [] => r = []
    | _ => exists b ds ms,
        r = [Companion t b] /\
        Forall2 (fun n d => fs_read fs (dir ++ lit "\" ++ n) = Some d) names ds /\
        adds_all 0 (RPrefix prefix dm :: map (fun nd => RFile (fst nd) (snd nd) prefix am) (combine names ds)) ms /\
        forall rest fuel, (length b <= fuel)%nat ->
          read_archive fuel (b ++ rest) =
          Some (ms ++ [plain_member (N.of_nat (length ms) + 1) S_IFREG (lit "TRAILER!!!") []], rest)
    end.
Proof.
  intros E Hnames Hp0 Hpz Hps Hdm Ham. unfold companion_of, find_files in E.
  destruct (fs_dir fs dir) as [l|] eqn:El; [|discriminate].
  destruct (find_loop dir suffix l) as [files|u|] eqn:Ef; cbn [bind] in E; try discriminate.
  apply find_loop_spec in Ef as (es & -> & ->).
  set (ns := map de_name (filter (picks suffix) es)).
  assert (Hfiles : map (fun e => dir ++ [92] ++ de_name e) (filter (picks suffix) es) = map (fun n => (dir ++ [92]) ++ n) ns).
  { unfold ns. rewrite map_map. apply map_ext. intros e. now rewrite <- app_assoc. }
  rewrite Hfiles in E.
  assert (Hsort : exists names, sort_paths (map (fun n => (dir ++ [92]) ++ n) ns) = map (fun n => (dir ++ [92]) ++ n) names /\
                   Permutation names ns).
  { pose proof (sort_paths_perm (map (fun n => (dir ++ [92]) ++ n) ns)) as P.
    symmetry in P. apply Permutation_map_inv in P as (names & -> & P'). exists names. split; auto. now symmetry. }
  destruct Hsort as (names & Hsort & P).
  assert (Hok : Forall (fun n => ~ In 92 n /\ ~ In 0 n /\ Forall (fun c => c < 128) n) names).
  { eapply Permutation_Forall; [symmetry; exact P|]. unfold ns. rewrite Forall_map. apply Forall_forall.
    intros e He. apply filter_In in He as [He Hpk]. apply picks_spec in Hpk as (_ & Ha & _).
    destruct (Hnames (map Some es) e eq_refl) as [H1 H2]; auto. now apply in_map. }
  exists es, names. split; auto. split; auto. split.
  { apply (sorted_map_prefix (dir ++ [92])). rewrite <- Hsort. apply sort_paths_sorted. }
  destruct names as [|n0 names].
  { apply Permutation_nil in P. rewrite P in E. cbn in E. congruence. }
  destruct (map (fun n => (dir ++ [92]) ++ n) ns) as [|f0 fs0] eqn:Efs.
  { apply map_eq_nil in Efs. rewrite Efs in P. symmetry in P. now apply Permutation_nil in P. }
  rewrite <- Efs in E, Hsort.
  destruct (pack_cpio (fs_read fs) (map (fun n => (dir ++ [92]) ++ n) ns) prefix dm am) as [b|e|] eqn:Ep; cbn [loaderr bind] in E; try discriminate.
  injection E as <-.
  apply pack_cpio_exec in Ep as (ds & c & c' & k & F2 & Hex & Ht & <-).
  rewrite Hsort in F2, Hex. remember (n0 :: names) as nn eqn:Enn. clear Enn Hfiles Efs f0 fs0 names n0.
  assert (F2' : Forall2 (fun n d => fs_read fs (dir ++ [92] ++ n) = Some d) nn ds).
  { clear - F2. remember (map (fun n => (dir ++ [92]) ++ n) nn) as m eqn:Em. revert nn Em.
    induction F2 as [|f d m ds H _ IH]; intros [|n nn] Em; try discriminate; constructor.
    - injection Em as -> _. now rewrite <- app_assoc in H.
    - injection Em as _ Em. auto. }
  rewrite combine_map_l, map_map in Hex. cbn [fst snd] in Hex.
  match type of Hex with exec_all _ (_ :: ?m) _ =>
    assert (Hreq : m = map (fun nd => RFile (fst nd) (snd nd) prefix am) (combine nn ds))
  end.
  { apply map_ext_in. intros [n d] Hi. apply in_combine_l in Hi. cbn [fst snd].
    rewrite Forall_forall in Hok. destruct (Hok n Hi) as (H1 & _ & H3).
    rewrite <- app_assoc, last_component_join by auto. now rewrite utf8_ascii. }
  rewrite Hreq in Hex.
  assert (Hro : Forall request_ok (RPrefix prefix dm :: map (fun nd => RFile (fst nd) (snd nd) prefix am) (combine nn ds))).
  { constructor; [split; auto|]. rewrite Forall_map. apply Forall_forall. intros [n d] Hi. apply in_combine_l in Hi.
    cbn [fst snd request_ok]. rewrite Forall_forall in Hok. destruct (Hok n Hi) as (H1 & H2 & _).
    split; auto. split; auto. split; auto.
    unfold full_name. destruct (list_eq_dec _ _ _) as [|_]; [congruence|]. intros Eq.
    assert (Hin : In 47 (lit "TRAILER!!!")) by (rewrite <- Eq; apply in_or_app; now left).
    vm_compute in Hin. intuition discriminate. }
  destruct (archive_decodes _ c c' k [] Hex Hro Ht) as (ms & Hms & _).
  exists (c_buffer c'), ds, ms. split; auto. split; auto. split; auto.
  intros rest fuel Hf. destruct (archive_decodes _ c c' k rest Hex Hro Ht) as (ms' & Hms' & Hr).
  assert (ms' = ms) as ->; [|auto].
  clear - Hms Hms'. revert ms' Hms'. induction Hms as [|ino r rs m1 m2 H1 _ IH]; intros ms' H; inversion H; subst; auto.
  assert (Ha : ms = m1).
  { clear - H1 H4. destruct H1; inversion H4; subst; auto.
    repeat match goal with H : path_components _ _ |- _ => apply path_components_split in H end. subst; auto. }
  subst ms. f_equal. now apply IH.
Qed.

(** ** A failed [pack_prefix] can leave directories behind *)

Lemma pack_prefix_partial_failure :
  exists rs c c',
    exec_all cpio_new rs c /\ pack_prefix c (lit "a/b") 0 = (c', Err MaximumInodesReached) /\
    c_buffer c' <> c_buffer c.
Proof.
  destruct (reach_inodes (N.to_nat 4294967294)) as (rs & c & H & Hi & Hb); [rewrite N2Nat.id; unfold cu32_max; lia|].
  rewrite N2Nat.id in Hi, Hb.
  exists rs, c.
  assert (Hl : len (c_buffer c) < 2 ^ 63) by (change (2 ^ 63) with 9223372036854775808; lia).
  pose proof (pack_dir_outcome c (lit "/a") 365 Hl eq_refl) as O. cbv zeta in O.
  rewrite Hi in O. change (4294967294 =? cu32_max) with false in O. change (2 ^ 32 - 1 <=? len (lit "/a")) with false in O.
  destruct (pack_dir_cases c (lit "/a") 365) as [[e E]|[_ E]]; [rewrite E in O; discriminate|].
  destruct (cpio_header (dir_entry c (lit "/a") 365)) as [[h hs]|] eqn:Eh; [|rewrite E in O; discriminate].
  exists (Cpio (c_buffer c ++ h) (c_inode c + 1)). split; auto. split.
  - unfold pack_prefix. change (split_on 47 (lit "a/b")) with [[97]; [98]]. cbn [pack_prefix_loop].
    change ([] ++ [47] ++ [97]) with (lit "/a"). rewrite E.
    unfold pack_dir. cbn [c_inode]. rewrite Hi. reflexivity.
  - cbn [c_buffer]. intros X. apply (f_equal len) in X. rewrite len_app in X.
    unfold cpio_header in Eh. change (cu32_max <? len (e_name (dir_entry c (lit "/a") 365)) + 1) with false in Eh.
    apply (f_equal (fun o => match o with Some x => fst x | None => [] end)) in Eh. cbv beta iota zeta in Eh. cbn [fst] in Eh.
    rewrite <- Eh in X. rewrite !len_app in X. change (len (lit "070701")) with 6 in X. lia.
Qed.

(** ** A single packed file *)

Lemma literal_decodes contents filename prefix dm am b :
  pack_cpio_literal contents filename prefix dm am = Ok b ->
  request_ok (RPrefix prefix dm) -> request_ok (RFile filename contents prefix am) ->
  exists ms, adds_all 0 [RPrefix prefix dm; RFile filename contents prefix am] ms /\
    forall rest fuel, (length b <= fuel)%nat ->
      read_archive fuel (b ++ rest) =
      Some (ms ++ [plain_member (N.of_nat (length ms) + 1) S_IFREG (lit "TRAILER!!!") []], rest).
Proof.
  unfold pack_cpio_literal, cthen, finish. intros E H1 H2.
  destruct (pack_prefix cpio_new prefix dm) as [c0 [[]|e|]] eqn:E0; try discriminate.
  destruct (pack_one c0 filename contents prefix am) as [c1 [w|e|]] eqn:E1; try discriminate.
  destruct (pack_trailer c1) as [c2 [n|e|]] eqn:E2; try discriminate. injection E as <-.
  assert (Hex : exec_all cpio_new [RPrefix prefix dm; RFile filename contents prefix am] c1).
  { econstructor; [exact E0|]. econstructor; [|constructor]. cbn [exec]. now rewrite E1. }
  assert (Hro : Forall request_ok [RPrefix prefix dm; RFile filename contents prefix am]) by auto.
  destruct (archive_decodes _ c1 c2 n [] Hex Hro E2) as (ms & Hms & _).
  exists ms. split; auto. intros rest fuel Hf.
  destruct (archive_decodes _ c1 c2 n rest Hex Hro E2) as (ms' & Hms' & Hr).
  rewrite (Hr fuel) by auto. do 2 f_equal.
  enough (ms' = ms) as -> by reflexivity.
  clear - Hms Hms'. revert ms' Hms'. induction Hms as [|ino r rs m1 m2 H1 _ IH]; intros ms' H; inversion H; subst; auto.
  assert (Ha : ms = m1).
  { clear - H1 H4. destruct H1; inversion H4; subst; auto.
    repeat match goal with H : path_components _ _ |- _ => apply path_components_split in H end. subst; auto. }
  subst ms. f_equal. now apply IH.
Qed.
