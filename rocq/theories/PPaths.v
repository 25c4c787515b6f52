(** Shapes of the paths the installer writes to. *)
From Coq Require Import List Arith NArith Bool Lia.
From Verif Require Import Base PBase MText PText MGeneration SCommon SNames MNames PNames MFs PFs MTool MInstall PFiles.
Import ListNotations.
Open Scope N_scope.

Lemma split_on_end c a t : ~ In c t ->
  exists cs x, split_on c (a ++ t) = cs ++ [x ++ t] /\ (~ In c a -> cs = [] /\ x = a).
Proof.
  intros Ht. induction a as [|y a (cs & x & E & H)].
  - exists [], []. rewrite split_on_none by exact Ht. split; auto.
  - cbn [app split_on]. rewrite E. destruct (N.eqb_spec y c) as [->|Hy].
    + exists ([] :: cs), x. split; [reflexivity|]. intros X. exfalso. apply X. left; reflexivity.
    + destruct cs as [|p cs]; cbn [app].
      * exists [], (y :: x). split; [reflexivity|]. intros X. split; [reflexivity|]. f_equal. apply H. intros I; apply X; right; exact I.
      * exists ((y :: p) :: cs), x. split; [reflexivity|]. intros X. destruct H as [H _]; [|discriminate].
        intros I; apply X; right; exact I.
Qed.

Lemma split_on_start c p r : ~ In c p ->
  exists y cs, split_on c (p ++ r) = (p ++ y) :: cs.
Proof.
  intros Hp. induction p as [|x p IH]; cbn [app split_on].
  - destruct (split_on c r) as [|y cs] eqn:E; [apply split_on_nonempty in E; contradiction|]. eauto.
  - destruct (N.eqb_spec x c) as [->|]; [exfalso; apply Hp; left; reflexivity|].
    destruct IH as (y & cs & E); [intros I; apply Hp; right; exact I|]. rewrite E. cbn. eauto.
Qed.

Definition kept (x : bytes) : bool := negb (eqb_bytes x []) && negb (eqb_bytes x [46]).

Lemma kept_long x : (2 <= length x)%nat -> kept x = true.
Proof. destruct x as [|a [|b x]]; cbn [length]; intros; try lia. unfold kept. cbn. now rewrite andb_false_r. Qed.

Lemma components_end a t : ~ In 47 t -> (2 <= length t)%nat ->
  exists cs x, components (a ++ t) = cs ++ [x ++ t] /\ (~ In 47 a -> cs = [] /\ x = a).
Proof.
  intros Ht L. destruct (split_on_end 47 a t Ht) as (cs & x & E & H). unfold components. rewrite E, filter_app.
  cbn [filter]. fold (kept (x ++ t)). rewrite kept_long by (rewrite app_length; lia).
  eexists (filter _ cs), x. split; [reflexivity|]. intros X. destruct (H X) as [-> ->]. auto.
Qed.

Lemma components_start p r : ~ In 47 p -> (2 <= length p)%nat ->
  exists y cs, components (p ++ r) = (p ++ y) :: cs.
Proof.
  intros Hp L. destruct (split_on_start 47 p r Hp) as (y & cs & E). unfold components. rewrite E.
  cbn [filter]. fold (kept (p ++ y)). rewrite kept_long by (rewrite app_length; lia). eauto.
Qed.

Lemma path_join_start base p r : ~ In 47 p -> p <> [] -> path_join base (p ++ r) = base ++ components (p ++ r).
Proof.
  destruct p as [|x p]; intros H N; [congruence|]. cbn [app path_join].
  destruct (N.eqb_spec x 47) as [->|]; [exfalso; apply H; left|]; reflexivity.
Qed.

Lemma path_join_name base n : ~ In 47 n -> (2 <= length n)%nat -> path_join base n = base ++ [n].
Proof.
  intros H L. rewrite <- (app_nil_l n) at 1. replace ([] ++ n) with (n ++ []) by (rewrite app_nil_r; reflexivity).
  rewrite path_join_start; [|exact H | destruct n; [cbn in L; lia | congruence]]. rewrite app_nil_r.
  destruct (components_end [] n H L) as (cs & x & E & K). cbn [app] in E. rewrite E.
  destruct K as [-> ->]; [auto|]. reflexivity.
Qed.

(** ** Temporary names *)

Lemma file_stem_ext s ext : ~ In 46 ext -> file_stem (s ++ 46 :: ext) = s.
Proof.
  intros H. assert (existsb (N.eqb 46) ext = false) as X.
  { destruct (existsb (N.eqb 46) ext) eqn:E; [|reflexivity]. apply existsb_exists in E.
    destruct E as (y & Hy & E). apply N.eqb_eq in E; subst. contradiction. }
  induction s as [|c s IH]; cbn [app file_stem].
  - rewrite X. reflexivity.
  - replace (existsb (N.eqb 46) (s ++ 46 :: ext)) with true; [rewrite IH; reflexivity|].
    symmetry. apply existsb_exists. exists 46. split; [apply in_or_app; right; left; reflexivity | reflexivity].
Qed.

Lemma lit_app_efi : lit ".efi" = 46 :: lit "efi".
Proof. reflexivity. Qed.

Lemma tmp_name_ext s ext : s <> [] -> ~ In 46 ext -> tmp_name (s ++ 46 :: ext) = s ++ lit "..tmp".
Proof. intros N H. unfold tmp_name. rewrite file_stem_ext by exact H. destruct s; [congruence | reflexivity]. Qed.

(** [n] ends with [t]. *)
Definition ends (t n : list N) : Prop := exists a, n = a ++ t.

Lemma tmp_name_ends n : ends (lit "..tmp") (tmp_name n).
Proof. unfold tmp_name. destruct (file_stem n) eqn:E; eexists; reflexivity. Qed.

Lemma ends_unique t1 t2 n : length t1 = length t2 -> ends t1 n -> ends t2 n -> t1 = t2.
Proof.
  intros L [a ->] [b E]. assert (length a = length b) as LA by (apply (f_equal (@length N)) in E; rewrite !app_length in E; lia).
  apply app_eq_length in E; [tauto | exact LA].
Qed.

Lemma ends_tail t1 t2 n : ends (t1 ++ t2) n -> ends t2 n.
Proof. intros [a ->]. exists (a ++ t1). rewrite app_assoc. reflexivity. Qed.

Lemma ends_app a t n : ends t n -> ends t (a ++ n).
Proof. intros [b ->]. exists (a ++ b). rewrite app_assoc. reflexivity. Qed.

Lemma efi_not_tmp n : ends (lit ".efi") n -> ends (lit "..tmp") n -> False.
Proof.
  intros H1 H2. apply (ends_tail [46] (lit ".tmp")) in H2.
  pose proof (ends_unique (lit ".efi") (lit ".tmp") n eq_refl H1 H2). discriminate.
Qed.

Lemma efi_not_pcrlock n : ends (lit ".efi") n -> ends (lit ".pcrlock") n -> False.
Proof.
  intros H1 H2. apply (ends_tail (lit ".pcr") (lit "lock")) in H2.
  pose proof (ends_unique (lit ".efi") (lit "lock") n eq_refl H1 H2). discriminate.
Qed.

Lemma pcrlock_not_tmp n : ends (lit ".pcrlock") n -> ends (lit "..tmp") n -> False.
Proof.
  intros H1 H2. apply (ends_tail (lit ".pcr") (lit "lock")) in H1.
  apply (ends_tail [46] (lit ".tmp")) in H2.
  pose proof (ends_unique (lit "lock") (lit ".tmp") n eq_refl H1 H2). discriminate.
Qed.

(** The last component of a path ends with [t]. *)
Definition file_ends (t : list N) (p : path) : Prop := exists d n, p = d ++ [n] /\ ends t n.

Lemma file_ends_tmp p : p <> [] -> file_ends (lit "..tmp") (tmp_path p).
Proof.
  destruct p as [|n d] using rev_ind; [congruence|]. intros _. rewrite tmp_path_snoc.
  exists d, (tmp_name n). split; [reflexivity | apply tmp_name_ends].
Qed.

Lemma file_ends_both t1 t2 p : file_ends t1 p -> file_ends t2 p -> exists n, ends t1 n /\ ends t2 n.
Proof.
  intros (d1 & n1 & -> & H1) (d2 & n2 & E & H2). apply app_inj_tail in E as [_ ->]. eauto.
Qed.

(** ** The paths of a run *)

Lemma kernel_version_slash k v : kernel_version k = Some v -> ~ In 47 v.
Proof.
  unfold kernel_version. destruct (rev (components k)) as [|x [|d r]] eqn:E; try discriminate.
  destruct (eqb_bytes d (lit "..")); [discriminate|].
  destruct (utf8_decode d) as [s|] eqn:D; [|discriminate]. intros [= <-].
  assert (In d (components k)) as Hd.
  { apply in_rev. rewrite E. right; left; reflexivity. }
  unfold components in Hd. apply filter_In in Hd as [Hd _].
  assert (forall l x, In x (split_on 47 l) -> ~ In 47 x) as NS.
  { clear. induction l as [|a l IH]; cbn [split_on]; intros x.
    - intros [<-|[]] [].
    - destruct (N.eqb_spec a 47) as [->|].
      + intros [<-|H]; [intros []|auto].
      + destruct (split_on 47 l) as [|p ps] eqn:E.
        * intros [<-|[]] [X|[]]; congruence.
        * intros [<-|H].
          -- intros [X|X]; [congruence|]. apply (IH p); [left; reflexivity | exact X].
          -- apply IH. right; exact H. }
  specialize (NS _ _ Hd).
  assert (utf8_encode s = d) as ED by (apply (utf8_encode_decode d s D)).
  assert (~ In 47 s) as NI.
  { intros X. apply NS. rewrite <- ED. apply utf8_encode_In_ascii_conv; [lia | exact X]. }
  clear - NI. intros X. apply NI.
  assert (forall l x, In x (last (split_on 45 l) []) -> In x l) as L.
  { clear. induction l as [|a l IH]; cbn [split_on]; [auto|]. intros x.
    destruct (N.eqb_spec a 45) as [->|].
    - destruct (split_on 45 l) as [|p ps] eqn:E; [apply split_on_nonempty in E; contradiction|].
      cbn [last] in *. intros H. right. apply IH. exact H.
    - destruct (split_on 45 l) as [|p ps] eqn:E; [apply split_on_nonempty in E; contradiction|].
      destruct ps as [|p2 ps]; cbn [last] in *.
      + intros [->|H]; [left; reflexivity | right; apply IH; exact H].
      + intros H; right; apply IH; exact H. }
  apply L; exact X.
Qed.

Lemma notin_app {A} (x : A) a b : ~ In x a -> ~ In x b -> ~ In x (a ++ b).
Proof. intros H1 H2 H. apply in_app_or in H. tauto. Qed.

Lemma base32_no x b : base32_char x -> ~ base32_char x -> In x (base32 b) -> False.
Proof. tauto. Qed.

Lemma base32_slash b : ~ In 47 (base32 b).
Proof.
  intros H. pose proof (base32_chars b) as F. rewrite Forall_forall in F. specialize (F _ H). cbn in F. lia.
Qed.

Lemma dec_slash n : ~ In 47 (dec n).
Proof.
  intros H. pose proof (dec_digits n) as F. rewrite Forall_forall in F. specialize (F _ H). cbn in F. lia.
Qed.

Lemma utf8_slash s : ~ In 47 s -> ~ In 47 (utf8_encode s).
Proof. intros H X. apply H. apply (utf8_encode_In_ascii 47); [lia | exact X]. Qed.

Lemma lit_slash_tac : ~ In 47 (lit "kernel-") /\ ~ In 47 (lit "initrd-") /\ ~ In 47 (lit "-") /\ ~ In 47 (lit ".efi").
Proof. repeat split; intros H; vm_compute in H; intuition discriminate. Qed.

Lemma utf8_efi s : utf8_encode (s ++ lit ".efi") = utf8_encode s ++ lit ".efi".
Proof. rewrite utf8_encode_app. reflexivity. Qed.

(** Names in EFI/nixos. *)
Definition ca_stem (h : bytes -> bytes) (label : str) (x : bytes) : name :=
  utf8_encode (label ++ lit "-" ++ base32 (h x)).

Lemma ca_name h label x :
  utf8_encode (label ++ lit "-" ++ base32 (h x) ++ lit ".efi") = ca_stem h label x ++ lit ".efi".
Proof. unfold ca_stem. rewrite <- utf8_efi, <- !app_assoc. reflexivity. Qed.

Lemma ca_stem_nonempty h label x : ca_stem h label x <> [].
Proof.
  unfold ca_stem. rewrite !utf8_encode_app. intros H. apply app_eq_nil in H as [_ H]. apply app_eq_nil in H as [H _].
  vm_compute in H. discriminate.
Qed.

Lemma ca_stem_slash h label x : ~ In 47 label -> ~ In 47 (ca_stem h label x).
Proof.
  intros H. apply utf8_slash. apply notin_app; [exact H|]. apply notin_app; [apply lit_slash_tac | apply base32_slash].
Qed.

Lemma ca_path_eq base h label x : ~ In 47 label ->
  path_join base (utf8_encode (label ++ lit "-" ++ base32 (h x) ++ lit ".efi")) = base ++ [ca_stem h label x ++ lit ".efi"].
Proof.
  intros H. rewrite ca_name. apply path_join_name.
  - apply notin_app; [apply ca_stem_slash, H | apply lit_slash_tac].
  - rewrite app_length. cbn. lia.
Qed.

Lemma efi_no_dot : ~ In 46 (lit "efi").
Proof. intros H; vm_compute in H; intuition discriminate. Qed.

Lemma tmp_efi d s : s <> [] -> tmp_path (d ++ [s ++ lit ".efi"]) = d ++ [s ++ lit "..tmp"].
Proof.
  intros H. rewrite tmp_path_snoc, lit_app_efi, tmp_name_ext; [reflexivity | exact H | apply efi_no_dot].
Qed.

(** Paths of stubs: below EFI/Linux, the first name starting with "nixos-",
    the last one ending in ".efi". *)
Lemma stub_name_nixos h k t g : exists r, stub_name h k t g = lit "nixos-" ++ r.
Proof.
  rewrite stub_name_split. unfold stub_prefix.
  destruct (g_specname g); eexists (lit "generation-" ++ _); rewrite <- !app_assoc; reflexivity.
Qed.

Lemma stub_name_efi h k t g : exists a, stub_name h k t g = a ++ lit ".efi" /\ a <> [].
Proof.
  rewrite stub_name_split. eexists (stub_prefix h k g ++ _). rewrite <- app_assoc. split; [reflexivity|].
  unfold stub_prefix. destruct (g_specname g); discriminate.
Qed.

Lemma stub_path_shape base h k t g :
  exists cs a y r,
    path_join base (utf8_encode (stub_name h k t g)) = base ++ cs ++ [a ++ lit ".efi"] /\
    cs ++ [a ++ lit ".efi"] = (lit "nixos-" ++ y) :: r /\
    (cs = [] -> exists y', a = lit "nixos-" ++ y').
Proof.
  destruct (stub_name_nixos h k t g) as [r0 E1]. destruct (stub_name_efi h k t g) as (a0 & E2 & N2).
  assert (~ In 47 (lit "nixos-")) as S1 by (intros H; vm_compute in H; intuition discriminate).
  pose proof (components_start (lit "nixos-") (utf8_encode r0) S1 ltac:(cbn; lia)) as (y & cs1 & C1).
  pose proof (components_end (utf8_encode a0) (lit ".efi") ltac:(apply lit_slash_tac) ltac:(cbn; lia)) as (cs & a & C2 & _).
  assert (utf8_encode (stub_name h k t g) = lit "nixos-" ++ utf8_encode r0) as X1 by (rewrite E1, utf8_encode_app; reflexivity).
  assert (utf8_encode (stub_name h k t g) = utf8_encode a0 ++ lit ".efi") as X2 by (rewrite E2, utf8_efi; reflexivity).
  exists cs, a, y, cs1. rewrite X1. rewrite path_join_start; [|exact S1|discriminate].
  rewrite <- X1, X2, C2. split; [reflexivity|].
  rewrite <- X1, X2, C2 in C1. split; [exact C1|].
  intros ->. cbn [app] in C1. injection C1 as C1 _.
  assert (6 <= length a)%nat as LA.
  { destruct (Nat.le_gt_cases 6 (length a)) as [L|L]; [exact L|exfalso].
    destruct a as [|c0 [|c1 [|c2 [|c3 [|c4 [|c5 a]]]]]]; cbn in C1, L; try discriminate; lia. }
  exists (skipn 6 a).
  assert (firstn 6 (a ++ lit ".efi") = lit "nixos-") as F by (rewrite C1; reflexivity).
  rewrite firstn_app in F. replace (6 - length a)%nat with 0%nat in F by lia. rewrite firstn_O, app_nil_r in F.
  rewrite <- F. symmetry. apply firstn_skipn.
Qed.

Lemma lock_path_shape d tag : tag <> [] -> (forall r, tag <> 47 :: r) ->
  exists cs n, p_lock_generation d tag = d_lock_lanzaboote d ++ cs ++ [n ++ lit ".pcrlock"].
Proof.
  intros N H. unfold p_lock_generation.
  destruct tag as [|c tag]; [congruence|].
  pose proof (components_end (utf8_encode (c :: tag)) (lit ".pcrlock")) as (cs & n & C & _).
  - intros X; vm_compute in X; intuition discriminate.
  - cbn; lia.
  - exists cs, n. rewrite utf8_encode_app. change (utf8_encode (lit ".pcrlock")) with (lit ".pcrlock").
    rewrite <- C. unfold path_join.
    destruct (utf8_encode (c :: tag) ++ lit ".pcrlock") as [|x l] eqn:E.
    + apply app_eq_nil in E as [_ E]. discriminate.
    + destruct (N.eqb_spec x 47) as [->|]; [|reflexivity]. exfalso.
      assert (In 47 (utf8_char c)) as I.
      { unfold utf8_encode in E. cbn [flat_map] in E. rewrite <- app_assoc in E.
        destruct (utf8_char c) as [|y u] eqn:U.
        - unfold utf8_char in U. repeat (destruct (_ <? _) in U); discriminate.
        - cbn [app] in E. injection E as -> _. left; reflexivity. }
      apply (H tag). f_equal.
      assert (In 47 (utf8_encode [c])) as I2 by (unfold utf8_encode; cbn [flat_map]; rewrite app_nil_r; exact I).
      apply utf8_encode_In_ascii in I2; [|lia]. destruct I2 as [<-|[]]. reflexivity.
Qed.

Lemma version_tag_start g : version_tag g <> [] /\ forall r, version_tag g <> 47 :: r.
Proof.
  unfold version_tag. pose proof (dec_nonempty (g_version g)) as N. pose proof (dec_slash (g_version g)) as S.
  destruct (dec (g_version g)) as [|c d]; [congruence|]. cbn. split; [discriminate|].
  intros r [= -> _]. apply S. left; reflexivity.
Qed.
