(** The generation phase of a run (install.rs:177-427): which changes it makes
    and what holds after it. *)
From Coq Require Import List NArith Bool Lia.
From Verif Require Import Base PBase MText PText MOsRelease MGeneration MNames MFs PFs MPe MTool MInstall PInstall SInstall PFiles PPaths.
Import ListNotations.
Open Scope N_scope.

Section Gen.
Variable e : env.
Variable c : config.

(** The place of content [x] in EFI/nixos. *)
Definition ca_path (label : str) (x : bytes) : path :=
  path_join (d_nixos c) (utf8_encode (label ++ lit "-" ++ base32 (e_sha e x) ++ lit ".efi")).

Definition stub_path (key : bytes) (g : generation) : path :=
  path_join (d_linux c) (utf8_encode (stub_name (e_sha e) key (c_tries c) g)).

(** The initrd of a generation in this run. *)
Definition initrd_data (b : bootspec) (id : bytes) : Prop :=
  exists p, bs_initrd b = Some p /\
    match bs_initrd_secrets b with
    | None => e_store e (components p) = Some id
    | Some script => exists d, e_store e (components p) = Some d /\ e_secrets e script d = Some id
    end.

(** [image] is the assembled stub of [g], with kernel [kd] and initrd [id]. *)
Record built (g : generation) (kver : str) (kd id image : bytes) : Prop := {
  bu_kver : kernel_version (bs_kernel (g_spec g)) = Some kver;
  bu_kernel : e_store e (components (bs_kernel (g_spec g))) = Some kd;
  bu_initrd : initrd_data (g_spec g) id;
  bu_image : exists init kp ip stub,
    utf8_decode (bs_init (g_spec g)) = Some init /\
    esp_relative_uefi_path (c_esp c) (ca_path (lit "kernel-" ++ kver) kd) = Some kp /\
    esp_relative_uefi_path (c_esp c) (ca_path (lit "initrd-" ++ kver) id) = Some ip /\
    e_store e (components (c_stub c)) = Some stub /\
    lanzaboote_image (e_parse e) (e_objcopy e) stub
      (StubParameters ((lit "init=" ++ init) :: bs_params (g_spec g))
         (utf8_encode (os_release_display (os_release_of_generation g)))
         kp (e_sha e kd) ip (e_sha e id)) = Ok image }.

(** Content with the hash of [x] is in its place. *)
Definition has_ca (m : fs) (label : str) (x : bytes) : Prop :=
  exists y b, lookup m (ca_path label x) = Some (NFile y b) /\ e_sha e y = e_sha e x.

(** The labels of a kernel directory name. *)
Definition ca_label (g : generation) (label : str) : Prop :=
  exists kver, kernel_version (bs_kernel (g_spec g)) = Some kver /\
    (label = lit "kernel-" ++ kver \/ label = lit "initrd-" ++ kver).

(** Files that are put in place by renaming a temporary file. *)
Inductive gen_file (g : generation) : path -> Prop :=
| gf_ca label x : ca_label g label -> gen_file g (ca_path label x)
| gf_stub key : sg_key (e_signer e) = Some key -> gen_file g (stub_path key g).

Definition gen_lock (g : generation) (p : path) : Prop :=
  exists d, c_pcrlock c = Some d /\ p = p_lock_generation d (version_tag g).

Inductive gen_change (U : generation -> Prop) (m : fs) : op -> Prop :=
| A_mkdir g p q : U g -> gen_file g p \/ gen_lock g p -> below q (parent p) = true -> gen_change U m (OMkdir q)
| A_create g p : U g -> gen_file g p -> gen_change U m (OCreate (tmp_path p))
| A_write g p x : U g -> gen_file g p -> gen_change U m (OWrite (tmp_path p) x)
| A_sync g p : U g -> gen_file g p -> gen_change U m (OSync (tmp_path p))
| A_ca g label x : U g -> ca_label g label -> lookup m (tmp_path (ca_path label x)) = Some (NFile x true) ->
    gen_change U m (ORename (tmp_path (ca_path label x)) (ca_path label x))
| A_chmod p : gen_change U m (OChmod p)
| A_lock_create g p : U g -> gen_lock g p -> gen_change U m (OCreate p)
| A_lock_write g p x : U g -> gen_lock g p -> gen_change U m (OWrite p x)
| A_stub g kver kd id image key out : U g -> built g kver kd id image -> sg_key (e_signer e) = Some key ->
    sg_sign (e_signer e) image = Some out ->
    lookup m (tmp_path (stub_path key g)) = Some (NFile out false) ->
    has_ca m (lit "kernel-" ++ kver) kd -> has_ca m (lit "initrd-" ++ kver) id ->
    gen_change U m (ORename (tmp_path (stub_path key g)) (stub_path key g))
| A_all : gen_change U m (OSyncAll (c_esp c)).

Definition GA (U : generation -> Prop) (m : fs) (o : op) : Prop := posix m o /\ gen_change U m o.

Lemma GA_weaken (U U' : generation -> Prop) m o : (forall g, U g -> U' g) -> GA U m o -> GA U' m o.
Proof.
  intros H [P X]. split; [exact P|]. destruct X; [eapply A_mkdir | eapply A_create | eapply A_write | eapply A_sync
    | eapply A_ca | apply A_chmod | eapply A_lock_create | eapply A_lock_write | eapply A_stub | apply A_all]; eauto.
Qed.

(** ** Shapes *)

Lemma ca_label_slash g label : ca_label g label -> ~ In 47 label.
Proof.
  intros (v & E & [-> | ->]); apply notin_app; try apply lit_slash_tac; eapply kernel_version_slash; eauto.
Qed.

Lemma ca_path_shape label x : ~ In 47 label ->
  ca_path label x = d_nixos c ++ [ca_stem (e_sha e) label x ++ lit ".efi"].
Proof. apply ca_path_eq. Qed.

Lemma ca_path_tmp label x : ~ In 47 label ->
  tmp_path (ca_path label x) = d_nixos c ++ [ca_stem (e_sha e) label x ++ lit "..tmp"].
Proof. intros H. rewrite ca_path_shape by exact H. apply tmp_efi, ca_stem_nonempty. Qed.

Lemma stub_path_ne key g : stub_path key g <> [].
Proof.
  unfold stub_path. destruct (stub_path_shape (d_linux c) (e_sha e) key (c_tries c) g) as (cs & a & y & r & -> & _).
  unfold d_linux, d_efi. intros H. apply app_eq_nil in H as [H _]. apply app_eq_nil in H as [_ H]. discriminate.
Qed.

Lemma ca_path_ne label x : ~ In 47 label -> ca_path label x <> [].
Proof. intros H. rewrite ca_path_shape by exact H. intros X. apply app_eq_nil in X as [_ X]. discriminate. Qed.

Lemma gen_file_ne g p : gen_file g p -> p <> [].
Proof. intros [label x L|key _]; [eapply ca_path_ne, ca_label_slash; eauto | apply stub_path_ne]. Qed.

Lemma ca_file_ends label x : ~ In 47 label -> file_ends (lit ".efi") (ca_path label x).
Proof. intros H. rewrite ca_path_shape by exact H. eexists _, _. split; [reflexivity | eexists; reflexivity]. Qed.

Lemma stub_file_ends key g : file_ends (lit ".efi") (stub_path key g).
Proof.
  unfold stub_path. destruct (stub_path_shape (d_linux c) (e_sha e) key (c_tries c) g) as (cs & a & y & r & -> & _).
  exists (d_linux c ++ cs), (a ++ lit ".efi"). rewrite app_assoc. split; [reflexivity | eexists; reflexivity].
Qed.

Lemma gen_file_ends g p : gen_file g p -> file_ends (lit ".efi") p.
Proof. intros [label x L|key _]; [eapply ca_file_ends, ca_label_slash; eauto | apply stub_file_ends]. Qed.

Lemma gen_lock_ends g p : gen_lock g p -> file_ends (lit ".pcrlock") p.
Proof.
  intros (d & _ & ->). destruct (version_tag_start g) as [H1 H2].
  destruct (lock_path_shape d (version_tag g) H1 H2) as (cs & n & ->).
  exists (d_lock_lanzaboote d ++ cs), (n ++ lit ".pcrlock"). rewrite app_assoc. split; [reflexivity | eexists; reflexivity].
Qed.

Lemma tmp_ends g p : gen_file g p -> file_ends (lit "..tmp") (tmp_path p).
Proof. intros H. apply file_ends_tmp. eapply gen_file_ne; eauto. Qed.

Lemma efi_ne_tmp a b : file_ends (lit ".efi") a -> file_ends (lit "..tmp") b -> a <> b.
Proof. intros H1 H2 ->. destruct (file_ends_both _ _ _ H1 H2) as (n & A & B). eapply efi_not_tmp; eauto. Qed.

Lemma efi_ne_lock a b : file_ends (lit ".efi") a -> file_ends (lit ".pcrlock") b -> a <> b.
Proof. intros H1 H2 ->. destruct (file_ends_both _ _ _ H1 H2) as (n & A & B). eapply efi_not_pcrlock; eauto. Qed.

Lemma lock_ne_tmp a b : file_ends (lit ".pcrlock") a -> file_ends (lit "..tmp") b -> a <> b.
Proof. intros H1 H2 ->. destruct (file_ends_both _ _ _ H1 H2) as (n & A & B). eapply pcrlock_not_tmp; eauto. Qed.

Lemma nixos_linux : d_nixos c <> d_linux c.
Proof. unfold d_nixos, d_linux. intros H. apply app_inj_tail in H as [_ H]. discriminate. Qed.

Lemma ca_ne_stub label x key g : ~ In 47 label -> ca_path label x <> stub_path key g.
Proof.
  intros H. rewrite ca_path_shape by exact H. unfold stub_path.
  destruct (stub_path_shape (d_linux c) (e_sha e) key (c_tries c) g) as (cs & a & y & r & -> & _).
  unfold d_nixos, d_linux. rewrite <- !app_assoc. intros E. apply app_inv_head in E. cbn [app] in E. discriminate.
Qed.

Lemma kernel_ne_initrd kver x y : ~ In 47 kver -> ca_path (lit "kernel-" ++ kver) x <> ca_path (lit "initrd-" ++ kver) y.
Proof.
  intros H. rewrite !ca_path_shape by (apply notin_app; [apply lit_slash_tac | exact H]).
  intros E. apply app_inj_tail in E as [_ E]. unfold ca_stem in E. rewrite <- !app_assoc in E.
  rewrite !utf8_encode_app in E. discriminate.
Qed.

(** ** Registering *)

(** What [read_installed_generation] accepts. *)
Definition entry_found (m : fs) (t : nat) (key : bytes) (g : generation) (n : name) (kp ip : path) : Prop :=
  is_dir m (d_linux c) = true /\
  find (fun n => match utf8_decode n with
                 | Some s => stub_regex (e_digit e) (stub_prefix (e_sha e) key g) s
                 | None => false
                 end) (e_list e t (fs_names m (d_linux c))) = Some n /\
  exists stub b k i, lookup m (d_linux c ++ [n]) = Some (NFile stub b) /\
    read_section_data (e_parse e) stub (lit ".linux") = Ok (Some k) /\ resolve_efi_path (c_esp c) k = Ok kp /\
    read_section_data (e_parse e) stub (lit ".initrd") = Ok (Some i) /\ resolve_efi_path (c_esp c) i = Ok ip /\
    present m kp = true /\ present m ip = true.

Lemma sat_bind_lift {A B} G (r : res unit A) (k : A -> I B) s (Q : res unit B -> st -> Prop) :
  (r = Panic -> Q Panic s) -> (forall x, r = Err x -> Q (Err x) s) -> (forall a, r = Ok a -> sat G (k a) s Q) ->
  sat G (ibind (ilift r) k) s Q.
Proof. intros H1 H2 H3. apply sat_bind, sat_lift. destruct r; cbn [after]; auto. Qed.

Lemma ok_or_some {A} (o : option A) (x : unit) a : ok_or o x = Ok a -> o = Some a.
Proof. destruct o; cbn; congruence. Qed.

Lemma ok_or_panic {A} (o : option A) (x : unit) : ok_or o x <> Panic.
Proof. destruct o; cbn; congruence. Qed.

(** A matching file whose content makes the reading panic. *)
Definition entry_panics (m : fs) (t : nat) (key : bytes) (g : generation) : Prop :=
  exists n stub b,
    find (fun n => match utf8_decode n with
                   | Some s => stub_regex (e_digit e) (stub_prefix (e_sha e) key g) s
                   | None => false
                   end) (e_list e t (fs_names m (d_linux c))) = Some n /\
    lookup m (d_linux c ++ [n]) = Some (NFile stub b) /\
    exists sec, In sec [lit ".linux"; lit ".initrd"] /\
      (read_section_data (e_parse e) stub sec = Panic \/
       exists k, read_section_data (e_parse e) stub sec = Ok (Some k) /\ resolve_efi_path (c_esp c) k = Panic).

Lemma sat_read_installed G key g s (Q : res unit (path * path * path) -> st -> Prop) :
  (forall s' t, same s s' ->
     (no_faults e -> forall n kp ip, ~ entry_found (s_fs s) t key g n kp ip) -> Q (Err tt) s') ->
  (forall s' t, same s s' -> entry_panics (s_fs s) t key g -> Q Panic s') ->
  (forall s' t n kp ip, same s s' -> entry_found (s_fs s) t key g n kp ip -> Q (Ok (d_linux c ++ [n], kp, ip)) s') ->
  sat G (read_installed_generation e c (stub_prefix (e_sha e) key g)) s Q.
Proof.
  intros HE HP HO. unfold read_installed_generation, iguard.
  apply sat_bind, sat_bind, sat_fault; cbn [after].
  destruct (e_fault e (s_tick s)) eqn:FT.
  2: { apply sat_fail; cbn [after]. apply (HE _ 0%nat); [apply same_ticked|]. intros NF. rewrite NF in FT. discriminate. }
  apply sat_ret; cbn [after]. apply sat_bind, sat_get; cbn [after]. cbn [ticked s_fs s_tick].
  destruct (is_dir (s_fs s) (d_linux c)) eqn:D; cbn [negb].
  2: { apply sat_fail. apply (HE _ 0%nat); [apply same_ticked|]. intros _ n kp ip (X & _). congruence. }
  set (t := S (s_tick s)).
  destruct (find _ _) as [n|] eqn:FD.
  2: { apply sat_fail. apply (HE _ t); [apply same_ticked|]. intros _ n kp ip (_ & X & _). congruence. }
  assert (forall n' kp ip, entry_found (s_fs s) t key g n' kp ip -> n' = n) as UN.
  { intros n' kp ip (_ & X & _). congruence. }
  apply sat_bind, sat_read; cbn [after]; cbn [ticked s_fs].
  { intros X. apply (HE _ t); [repeat split|]. intros NF n' kp ip EF.
    pose proof (UN _ _ _ EF); subst n'. destruct EF as (_ & _ & st & b & k & i & L & _). exact (X NF _ _ L). }
  intros stub b L.
  assert (forall n' kp ip, entry_found (s_fs s) t key g n' kp ip -> exists k i,
    read_section_data (e_parse e) stub (lit ".linux") = Ok (Some k) /\ resolve_efi_path (c_esp c) k = Ok kp /\
    read_section_data (e_parse e) stub (lit ".initrd") = Ok (Some i) /\ resolve_efi_path (c_esp c) i = Ok ip /\
    present (s_fs s) kp = true /\ present (s_fs s) ip = true) as UF.
  { intros n' kp ip EF. pose proof (UN _ _ _ EF); subst n'. destruct EF as (_ & _ & st & b' & k & i & L' & R).
    pose proof (eq_trans (eq_sym L') L) as Z. injection Z as -> ->. exists k, i. exact R. }
  apply sat_bind_lift; [intros E1; apply (HP _ t); [repeat split|]; exists n, stub, b; split; [exact FD|]; split; [exact L|]; exists (lit ".linux"); split; [left; reflexivity | left; exact E1] | |].
  { intros [] E1. apply (HE _ t); [repeat split|]. intros _ n' kp ip EF. destruct (UF _ _ _ EF) as (kk & ii & U1 & U2 & U3 & U4 & U5 & U6). congruence. }
  intros k0 E1. apply sat_bind_lift; [intros E; destruct k0; discriminate | |].
  { intros [] E2. destruct k0 as [k|]; [discriminate|]. apply (HE _ t); [repeat split|]. intros _ n' kp ip EF.
    destruct (UF _ _ _ EF) as (kk & ii & U1 & U2 & U3 & U4 & U5 & U6). congruence. }
  intros k E2. apply ok_or_some in E2; subst k0.
  apply sat_bind_lift; [intros E2; apply (HP _ t); [repeat split|]; exists n, stub, b; split; [exact FD|]; split; [exact L|]; exists (lit ".linux"); split; [left; reflexivity | right; exists k; auto] | |].
  { intros [] E2. apply (HE _ t); [repeat split|]. intros _ n' kp ip EF. destruct (UF _ _ _ EF) as (kk & ii & U1 & U2 & U3 & U4 & U5 & U6). congruence. }
  intros kp E2. apply sat_bind_lift; [intros E3; apply (HP _ t); [repeat split|]; exists n, stub, b; split; [exact FD|]; split; [exact L|]; exists (lit ".initrd"); split; [right; left; reflexivity | left; exact E3] | |].
  { intros [] E3. apply (HE _ t); [repeat split|]. intros _ n' kp' ip EF. destruct (UF _ _ _ EF) as (kk & ii & U1 & U2 & U3 & U4 & U5 & U6). congruence. }
  intros i0 E3. apply sat_bind_lift; [intros E; destruct i0; discriminate | |].
  { intros [] E4. destruct i0 as [i|]; [discriminate|]. apply (HE _ t); [repeat split|]. intros _ n' kp' ip EF.
    destruct (UF _ _ _ EF) as (kk & ii & U1 & U2 & U3 & U4 & U5 & U6). congruence. }
  intros i E4. apply ok_or_some in E4; subst i0.
  apply sat_bind_lift; [intros E4; apply (HP _ t); [repeat split|]; exists n, stub, b; split; [exact FD|]; split; [exact L|]; exists (lit ".initrd"); split; [right; left; reflexivity | right; exists i; auto] | |].
  { intros [] E4. apply (HE _ t); [repeat split|]. intros _ n' kp' ip EF. destruct (UF _ _ _ EF) as (kk & ii & U1 & U2 & U3 & U4 & U5 & U6). congruence. }
  intros ip E4. apply sat_bind, sat_exists; cbn [after]. intros kx KX1 KX2.
  cbn [ticked s_fs] in KX1, KX2. destruct kx; cbn [negb].
  2: { apply sat_fail. apply (HE _ t); [repeat split|]. intros NF n' kp' ip' EF. specialize (KX2 NF).
       destruct (UF _ _ _ EF) as (kk & ii & U1 & U2 & U3 & U4 & U5 & U6).
       assert (kk = k) by congruence. assert (kp' = kp) by congruence. congruence. }
  apply sat_bind, sat_exists; cbn [after]. intros ix IX1 IX2.
  cbn [ticked s_fs] in IX1, IX2. destruct ix; cbn [negb].
  2: { apply sat_fail. apply (HE _ t); [repeat split|]. intros NF n' kp' ip' EF. specialize (IX2 NF).
       destruct (UF _ _ _ EF) as (kk & ii & U1 & U2 & U3 & U4 & U5 & U6).
       assert (ii = i) by congruence. assert (ip' = ip) by congruence. congruence. }
  apply sat_ret. apply (HO _ t); [repeat split|].
  split; [exact D|]. split; [exact FD|]. exists stub, b, k, i. repeat split; auto.
Qed.

(** Outcome of [register_installed_generation]. *)
Definition registered (g : generation) (s s' : st) : Prop :=
  exists key t n kp ip extra, sg_key (e_signer e) = Some key /\ entry_found (s_fs s) t key g n kp ip /\
    s_roots s' = extra ++ [d_linux c ++ [n]; kp; ip] ++ s_roots s /\
    match c_pcrlock c with
    | None => extra = []
    | Some d => extra = [p_lock_generation d (version_tag g)] /\
                present (s_fs s) (p_lock_generation d (version_tag g)) = true
    end.

Definition unregistered (g : generation) (key : bytes) (s s' : st) : Prop :=
  sg_key (e_signer e) = Some key /\
  ((s_roots s' = s_roots s /\ exists t, no_faults e -> forall n kp ip, ~ entry_found (s_fs s) t key g n kp ip) \/
   exists d t n kp ip, c_pcrlock c = Some d /\ entry_found (s_fs s) t key g n kp ip /\
     s_roots s' = [d_linux c ++ [n]; kp; ip] ++ s_roots s /\
     (no_faults e -> present (s_fs s) (p_lock_generation d (version_tag g)) = false)).

(** Same files and changes. *)
Definition same_fs (s s' : st) : Prop :=
  s_fs s' = s_fs s /\ s_trace s' = s_trace s /\ s_broken s' = s_broken s.

Lemma sat_register G g s (Q : res unit bool -> st -> Prop) :
  (forall s', same s s' -> (no_faults e -> sg_key (e_signer e) = None) -> Q (Err tt) s') ->
  (forall s' t key, same s s' -> sg_key (e_signer e) = Some key -> entry_panics (s_fs s) t key g -> Q Panic s') ->
  (forall s', same_fs s s' -> registered g s s' -> Q (Ok true) s') ->
  (forall s' key, same_fs s s' -> unregistered g key s s' -> Q (Ok false) s') ->
  sat G (register_installed_generation e c g) s Q.
Proof.
  intros HE HP HT HF. unfold register_installed_generation, get_public_key.
  apply sat_bind, sat_source; cbn [after].
  { intros N. apply HE; [apply same_ticked | exact N]. }
  intros key K. apply sat_bind, sat_attempt.
  apply sat_read_installed; cbn [after].
  - intros s' t SM NE. apply sat_ret. destruct SM as (S1 & S2 & S3 & S4). cbn [ticked s_fs s_trace s_roots s_broken] in *.
    apply (HF _ key); [repeat split; assumption|]. split; [exact K|]. left. split; [exact S3|].
    exists t. exact NE.
  - intros s' t SM EP. apply (HP _ t key); [|exact K | exact EP]. eapply same_trans; [apply same_ticked | exact SM].
  - intros s' t n kp ip SM EF. destruct SM as (S1 & S2 & S3 & S4). cbn [ticked s_fs s_trace s_roots s_broken] in *.
    apply sat_bind, sat_roots; cbn [after].
    destruct (c_pcrlock c) as [d|] eqn:PL.
    + apply sat_bind, sat_exists; cbn [after]. intros ex E1 E2. cbn [rooted s_fs] in E1, E2. rewrite S1 in E1, E2.
      destruct ex.
      * apply sat_bind, sat_roots; cbn [after]. apply sat_ret. apply HT.
        { repeat split; assumption. }
        exists key, t, n, kp, ip, [p_lock_generation d (version_tag g)]. rewrite PL.
        cbn [rooted ticked s_roots]. rewrite S3.
        split; [exact K|]. split; [exact EF|]. split; [reflexivity|]. split; [reflexivity | apply E1; reflexivity].
      * apply sat_ret. apply (HF _ key); [repeat split; assumption|]. split; [exact K|]. right.
        exists d, t, n, kp, ip. cbn [rooted ticked s_roots]. rewrite S3.
        split; [exact PL|]. split; [exact EF|]. split; [reflexivity|]. intros NF. symmetry. exact (E2 NF).
    + apply sat_ret. apply HT; [repeat split; assumption|].
      exists key, t, n, kp, ip, []. rewrite PL. cbn [rooted s_roots]. rewrite S3.
      split; [exact K|]. split; [exact EF|]. split; reflexivity.
Qed.

(** ** Installing one file of a generation *)

Lemma sat_initrd_location G b s (Q : res unit (option bytes) -> st -> Prop) :
  (forall s', same s s' -> Q (Err tt) s') ->
  (forall s', same s s' -> Q Panic s') ->
  (forall s' o, same s s' -> (forall id, o = Some id -> initrd_data b id) -> Q (Ok o) s') ->
  sat G (initrd_location e b) s Q.
Proof.
  intros HE HP HO. unfold initrd_location.
  destruct (bs_initrd_secrets b) as [script|] eqn:SC, (bs_initrd b) as [p|] eqn:IN.
  - apply sat_bind, sat_source; cbn [after]; [intros _; apply HE, same_ticked|]. intros d D.
    apply sat_bind, sat_guard; cbn [after]; [apply HE; repeat split|].
    apply sat_bind, sat_source; cbn [after]; [intros _; apply HE; repeat split|]. intros d' D'.
    apply sat_ret. apply HO; [repeat split|]. intros id [= <-]. exists p. split; [exact IN|]. rewrite SC. eauto.
  - apply sat_fail, HE, same_refl.
  - apply sat_ret. apply HO; [apply same_refl|]. intros id E. exists p. split; [exact IN|]. rewrite SC. exact E.
  - apply sat_panic, HP, same_refl.
Qed.

(** Changes confined to the given files, their temporary files and new
    directories. *)
Definition frame (ps : list path) (m m' : fs) : Prop :=
  forall q, ~ In q ps -> ~ In q (map tmp_path ps) ->
    lookup m' q = lookup m q \/ (lookup m q = None /\ lookup m' q = Some NDir).

Lemma frame_refl ps m : frame ps m m.
Proof. intros q _ _; left; reflexivity. Qed.

Lemma frame_trans ps1 ps2 a b d : frame ps1 a b -> frame ps2 b d -> frame (ps1 ++ ps2) a d.
Proof.
  intros H1 H2 q N1 N2. rewrite map_app in N2.
  assert (~ In q ps1 /\ ~ In q ps2) as [A1 A2] by (split; intros X; apply N1; apply in_or_app; auto).
  assert (~ In q (map tmp_path ps1) /\ ~ In q (map tmp_path ps2)) as [B1 B2] by (split; intros X; apply N2; apply in_or_app; auto).
  destruct (H1 q A1 B1) as [X|[X Y]], (H2 q A2 B2) as [Z|[Z W]].
  - left; congruence.
  - right. split; congruence.
  - right. split; congruence.
  - congruence.
Qed.

Lemma touches_frame m m' to : touches m m' to -> frame [to] m m'.
Proof.
  intros H q N1 N2. destruct (H q) as [X|(X & Y & _)]; auto.
  - intros ->. apply N1. left; reflexivity.
  - intros ->. apply N2. left; reflexivity.
Qed.

Lemma frame_file ps m m' q : frame ps m m' -> ~ In q ps -> ~ In q (map tmp_path ps) ->
  lookup m q <> None -> lookup m' q = lookup m q.
Proof. intros H N1 N2 L. destruct (H q N1 N2) as [X|[X _]]; congruence. Qed.

Variable U : generation -> Prop.

Lemma sat_install_ca g from label s (Q : res unit path -> st -> Prop) :
  U g -> ca_label g label ->
  (forall s', s_broken s' = s_broken s -> Q (Err tt) s') ->
  (forall s' x, from = Some x -> s_broken s' = s_broken s ->
     s_roots s' = ca_path label x :: s_roots s -> frame [ca_path label x] (s_fs s) (s_fs s') ->
     has_ca (s_fs s') label x -> Q (Ok (ca_path label x)) s') ->
  sat (GA U) (install_nixos_ca e c from label) s Q.
Proof.
  intros HU LB HE HO. unfold install_nixos_ca.
  pose proof (ca_label_slash g label LB) as NS.
  apply sat_bind, sat_source; cbn [after].
  { intros _. apply HE. reflexivity. }
  intros x Hx. fold (ca_path label x).
  assert (gen_file g (ca_path label x)) as GF by (constructor; exact LB).
  apply sat_bind, sat_roots; cbn [after]. apply sat_bind.
  apply sat_install_file; cbn [after].
  - apply ca_path_ne; exact NS.
  - unfold copy_rules. split; [|split; [|split; [|split; [|split]]]]; intros; (split; [assumption|]).
    + eapply A_mkdir; eauto.
    + eapply A_create; eauto.
    + eapply A_write; eauto.
    + eapply A_sync; eauto.
    + assert (x0 = x) as -> by congruence. eapply A_ca; eauto.
    + apply A_chmod.
  - intros s' [Q1 Q2] _ _. apply HE. exact Q2.
  - intros s' y [Q1 Q2] T E R. assert (y = x) as -> by congruence.
    apply sat_ret. apply HO; auto.
    + apply touches_frame. exact T.
    + destruct R as [R|[SM (y & b & L & S)]].
      * exists x, true. auto.
      * exists y, b. destruct SM as (SF & _). rewrite SF. auto.
Qed.

(** ** One generation *)

(** Everything [install_generation] put in place. *)
Definition installed_new (g : generation) (s s' : st) : Prop :=
  exists kver kd id image key out extra lock,
    built g kver kd id image /\ sg_key (e_signer e) = Some key /\ sg_sign (e_signer e) image = Some out /\
    (exists s1, same_fs s s1 /\ unregistered g key s s1 /\ s_roots s1 = extra ++ s_roots s) /\
    s_roots s' = stub_path key g :: lock ++ [ca_path (lit "initrd-" ++ kver) id; ca_path (lit "kernel-" ++ kver) kd]
                 ++ extra ++ s_roots s /\
    lookup (s_fs s') (stub_path key g) = Some (NFile out false) /\
    has_ca (s_fs s') (lit "kernel-" ++ kver) kd /\ has_ca (s_fs s') (lit "initrd-" ++ kver) id /\
    match c_pcrlock c with
    | None => lock = []
    | Some d => lock = [p_lock_generation d (version_tag g)] /\
        exists lo, e_lock e image = Some lo /\ lookup (s_fs s') (p_lock_generation d (version_tag g)) = Some (NFile lo false)
    end /\
    frame ([ca_path (lit "kernel-" ++ kver) kd; ca_path (lit "initrd-" ++ kver) id; stub_path key g] ++ lock)
      (s_fs s) (s_fs s').

Definition done_gen (g : generation) (s s' : st) : Prop :=
  s_broken s' = s_broken s /\
  ((s_fs s' = s_fs s /\ s_trace s' = s_trace s /\ registered g s s') \/ installed_new g s s').

Lemma frame_lock m m' p :
  (forall q, q <> p -> lookup m' q = lookup m q \/
     (lookup m q = None /\ lookup m' q = Some NDir /\ below q (parent p) = true)) -> frame [p] m m'.
Proof.
  intros H q N _. destruct (H q) as [X|(X & Y & _)]; auto. intros ->. apply N. left; reflexivity.
Qed.

Lemma has_ca_frame ps m m' label x :
  frame ps m m' -> ~ In (ca_path label x) ps -> ~ In (ca_path label x) (map tmp_path ps) ->
  has_ca m label x -> has_ca m' label x.
Proof.
  intros F N1 N2 (y & b & L & S). exists y, b. split; [|exact S].
  rewrite <- L. eapply frame_file; eauto. congruence.
Qed.

Lemma sat_install_generation g s (Q : res unit unit -> st -> Prop) :
  U g ->
  (forall s', s_broken s' = s_broken s -> Q (Err tt) s') ->
  (forall s', s_broken s' = s_broken s -> Q Panic s') ->
  (forall s', done_gen g s s' -> Q (Ok tt) s') ->
  sat (GA U) (install_generation e c g) s Q.
Proof.
  intros HU HE HP HO. unfold install_generation. apply sat_bind, sat_register; cbn [after].
  { intros s' (_ & _ & _ & B) _. apply HE; exact B. }
  { intros s' t key (_ & _ & _ & B) _ _. apply HP; exact B. }
  { intros s' (F & T & B) R. apply sat_ret. apply HO. split; [exact B|]. left. auto. }
  intros s1 key0 SF UR.
  assert (exists extra, s_roots s1 = extra ++ s_roots s) as [extra XR].
  { destruct UR as [_ [[R _]|(d & t & n & kp & ip & _ & _ & R & _)]]; [exists []; exact R | eexists; exact R]. }
  pose proof SF as (SF1 & SF2 & SF3).
  apply sat_bind, sat_guard; cbn [after]; [apply HE; exact SF3|].
  apply sat_bind_lift; [intros X; destruct (ok_or_panic _ _ X) | intros [] _; apply HE; exact SF3|].
  intros kver KV. apply ok_or_some in KV.
  pose proof (kernel_version_slash _ _ KV) as NS.
  assert (ca_label g (lit "kernel-" ++ kver)) as LK by (exists kver; auto).
  assert (ca_label g (lit "initrd-" ++ kver)) as LI by (exists kver; auto).
  pose proof (ca_label_slash _ _ LK) as NSK. pose proof (ca_label_slash _ _ LI) as NSI.
  apply sat_bind, (sat_install_ca g); cbn [after]; auto.
  { intros s' B. apply HE. cbn [ticked s_broken] in B. congruence. }
  intros s2 kd KD B2 R2 F2 C2. cbn [ticked s_fs s_roots s_broken] in *.
  apply sat_bind, sat_initrd_location; cbn [after].
  { intros s' (_ & _ & _ & B). apply HE. congruence. }
  { intros s' (_ & _ & _ & B). apply HP. congruence. }
  intros s3 o (S31 & S32 & S33 & S34) ID.
  apply sat_bind, (sat_install_ca g); cbn [after]; auto.
  { intros s' B. apply HE. congruence. }
  intros s4 id IDE B4 R4 F4 C4. rewrite S31 in F4. rewrite S33 in R4. rewrite S34 in B4.
  assert (s_broken s4 = s_broken s) as BB4 by congruence.
  assert (file_ends (lit ".efi") (ca_path (lit "kernel-" ++ kver) kd)) as EK by (apply ca_file_ends; exact NSK).
  assert (file_ends (lit ".efi") (ca_path (lit "initrd-" ++ kver) id)) as EI by (apply ca_file_ends; exact NSI).
  assert (file_ends (lit "..tmp") (tmp_path (ca_path (lit "initrd-" ++ kver) id))) as TI
    by (apply file_ends_tmp, ca_path_ne; exact NSI).
  assert (has_ca (s_fs s4) (lit "kernel-" ++ kver) kd) as C4K.
  { eapply has_ca_frame; [exact F4 | | | exact C2].
    - intros [X|[]]. symmetry in X. revert X. apply kernel_ne_initrd; exact NS.
    - intros [X|[]]. symmetry in X. revert X. apply efi_ne_tmp; assumption. }
  apply sat_bind_lift; [intros _; apply HP; exact BB4 | intros [] _; apply HE; exact BB4 |].
  intros cmdline CL. unfold assemble_kernel_cmdline in CL.
  destruct (utf8_decode (bs_init (g_spec g))) as [init|] eqn:INI; [|discriminate]. injection CL as <-.
  apply sat_bind_lift; [intros X; destruct (ok_or_panic _ _ X) | intros [] _; apply HE; exact BB4|].
  intros kp KP. apply ok_or_some in KP.
  apply sat_bind_lift; [intros X; destruct (ok_or_panic _ _ X) | intros [] _; apply HE; exact BB4|].
  intros ip IP. apply ok_or_some in IP.
  apply sat_bind, sat_source; cbn [after]; [intros _; apply HE; exact BB4|]. intros kd' KD'.
  assert (kd' = kd) as -> by congruence. clear KD'.
  apply sat_bind, sat_source; cbn [after]; [intros _; apply HE; exact BB4|]. intros id' ID'.
  assert (id' = id) as -> by congruence. clear ID'.
  apply sat_bind, sat_source; cbn [after]; [intros _; apply HE; exact BB4|]. intros stub ST.
  apply sat_bind, sat_guard; cbn [after]; [apply HE; exact BB4|].
  apply sat_bind_lift; [intros _; apply HP; exact BB4 | intros [] _; apply HE; exact BB4 |].
  intros image IM.
  assert (built g kver kd id image) as BU.
  { constructor; auto. exists init, kp, ip, stub. auto. }
  set (s5 := ticked (ticked (ticked (ticked s4)))) in *.
  assert (s_fs s5 = s_fs s4) as S5F by reflexivity. assert (s_roots s5 = s_roots s4) as S5R by reflexivity.
  assert (s_broken s5 = s_broken s4) as S5B by reflexivity. clearbody s5.
  apply sat_bind.
  (* the component file *)
  assert (forall (Q' : res unit unit -> st -> Prop),
     (forall s', s_broken s' = s_broken s -> Q' (Err tt) s') ->
     (forall s' lock, s_broken s' = s_broken s -> s_roots s' = lock ++ s_roots s4 ->
        frame lock (s_fs s4) (s_fs s') -> (forall p, In p lock -> file_ends (lit ".pcrlock") p) ->
        match c_pcrlock c with
        | None => lock = []
        | Some d => lock = [p_lock_generation d (version_tag g)] /\
            exists lo, e_lock e image = Some lo /\ lookup (s_fs s') (p_lock_generation d (version_tag g)) = Some (NFile lo false)
        end -> Q' (Ok tt) s') ->
     sat (GA U) (match c_pcrlock c with
                 | Some d => let* _ := lock_pe e (Some image) (p_lock_generation d (version_tag g)) in
                             iroots [p_lock_generation d (version_tag g)]
                 | None => iret tt
                 end) s5 Q') as LOCK.
  { intros Q' QE QO. destruct (c_pcrlock c) as [d|] eqn:PL.
    - assert (gen_lock g (p_lock_generation d (version_tag g))) as GL by (exists d; auto).
      pose proof (gen_lock_ends _ _ GL) as LE.
      apply sat_bind, sat_lock_pe; cbn [after].
      + destruct LE as (d0 & n0 & -> & _). intros X. apply app_eq_nil in X as [_ X]. discriminate.
      + intros m q BQ PX. split; [exact PX|]. eapply A_mkdir; eauto.
      + intros m PX _. split; [exact PX|]. eapply A_lock_create; eauto.
      + intros m x PX _. split; [exact PX|]. eapply A_lock_write; eauto.
      + intros s' [_ B] _. apply QE. congruence.
      + intros s' x out [R B] FR X1 X2 L. apply sat_roots. apply (QO _ [p_lock_generation d (version_tag g)]).
        * cbn. congruence.
        * cbn [rooted s_roots]. congruence.
        * cbn [rooted s_fs]. rewrite <- S5F. apply frame_lock. exact FR.
        * intros p [<-|[]]. exact LE.
        * split; [reflexivity|]. exists out. cbn [rooted s_fs]. split; [congruence | exact L].
    - apply sat_ret. apply (QO _ []); auto; [congruence | | intros p []]. rewrite S5F. apply frame_refl. }
  apply LOCK; cbn [after].
  { intros s' B. apply HE; exact B. }
  clear LOCK. intros s6 lock B6 R6 F6 LE6 LK6.
  assert (forall p, In p (map tmp_path lock) -> file_ends (lit "..tmp") p) as LT6.
  { intros p X. apply in_map_iff in X as (p0 & <- & X). apply file_ends_tmp. destruct (LE6 _ X) as (d0 & n0 & -> & _).
    intros Y. apply app_eq_nil in Y as [_ Y]. discriminate. }
  assert (forall label x, ~ In 47 label -> has_ca (s_fs s4) label x -> has_ca (s_fs s6) label x) as C6.
  { intros label x N. eapply has_ca_frame; [exact F6 | |].
    - intros X. apply LE6 in X. eapply (efi_ne_lock _ _ (ca_file_ends label x N)); [exact X | reflexivity].
    - intros X. apply LT6 in X. eapply (efi_ne_tmp _ _ (ca_file_ends label x N)); [exact X | reflexivity]. }
  unfold get_public_key. apply sat_bind, sat_source; cbn [after]; [intros _; apply HE; exact B6|].
  intros key KEY. assert (key0 = key) as -> by (destruct UR as [X _]; congruence).
  fold (stub_path key g). apply sat_bind, sat_roots; cbn [after].
  assert (gen_file g (stub_path key g)) as GF by (constructor; exact KEY).
  assert (file_ends (lit "..tmp") (tmp_path (stub_path key g))) as TS by (eapply tmp_ends; eauto).
  assert (forall m label x, ~ In 47 label -> has_ca (s_fs s6) label x -> touches (s_fs s6) m (stub_path key g) -> has_ca m label x) as CS.
  { intros m label x N H T. apply touches_frame in T. eapply has_ca_frame; [exact T | | | exact H].
    - intros [X|[]]. symmetry in X. revert X. apply ca_ne_stub; exact N.
    - intros [X|[]]. symmetry in X. revert X. apply efi_ne_tmp; [apply ca_file_ends; exact N | exact TS]. }
  apply sat_install_signed.
  - apply stub_path_ne.
  - unfold signed_rules. split; [|split]; intros; (split; [assumption|]).
    + eapply A_mkdir; eauto.
    + eapply A_create; eauto.
    + eapply A_write; eauto.
  - intros m x out PX X1 X2 T _ L. assert (x = image) as -> by congruence. cbn [rooted ticked s_fs] in T.
    split; [exact PX|]. eapply A_stub; eauto.
  - intros s' [_ B] _ _. apply HE. cbn [rooted ticked s_broken] in B. congruence.
  - intros s' x out [R B] T X1 X2 L1 L2. assert (x = image) as -> by congruence.
    cbn [rooted ticked s_fs s_roots s_broken] in *. apply HO. split; [congruence|]. right.
    exists kver, kd, id, image, key, out, extra, lock.
    split; [exact BU|]. split; [exact KEY|]. split; [exact X2|].
    split; [exists s1; auto|]. split; [|split; [exact L1|]].
    { rewrite R, R6, R4, R2, XR. cbn. rewrite <- ?app_assoc. cbn. reflexivity. }
    split; [eapply CS; eauto|]. split; [eapply CS; eauto|]. split.
    { destruct (c_pcrlock c) as [d|] eqn:PL; [|exact LK6]. destruct LK6 as (-> & lo & L3 & L4).
      split; [reflexivity|]. exists lo. split; [exact L3|]. rewrite <- L4.
      apply touches_frame in T. specialize (LE6 _ (or_introl eq_refl)).
      eapply frame_file; [exact T | | | congruence].
      - intros [X|[]]. eapply (efi_ne_lock _ _ (stub_file_ends key g)); [exact LE6 | exact X].
      - intros [X|[]]. eapply (lock_ne_tmp _ _ LE6); [exact TS|]. congruence. }
    { apply touches_frame in T. rewrite SF1 in F2.
      pose proof (frame_trans _ _ _ _ _ (frame_trans _ _ _ _ _ (frame_trans _ _ _ _ _ F2 F4) F6) T) as F.
      intros q N1 N2. apply F.
      - intros X. apply N1. cbn in X |- *. rewrite in_app_iff in X. cbn in X. tauto.
      - intros X. apply N2. cbn in X |- *. rewrite map_app, in_app_iff in X. cbn in X. tauto. }
Qed.

(** ** All generations *)

Inductive processed : list generation -> st -> st -> Prop :=
| proc_nil s : processed [] s s
| proc_cons g gs s s1 s2 : reach (GA U) s s1 -> done_gen g s s1 -> processed gs s1 s2 -> processed (g :: gs) s s2.

Lemma processed_reach gs s s' : processed gs s s' -> reach (GA U) s s'.
Proof. induction 1; [apply reach_refl | eapply reach_trans; eauto]. Qed.

Lemma processed_app gs1 gs2 s s1 s2 : processed gs1 s s1 -> processed gs2 s1 s2 -> processed (gs1 ++ gs2) s s2.
Proof. induction 1; cbn; auto. intros. econstructor; eauto. Qed.

Lemma sat_generations gs : (forall g, In g gs -> U g) -> forall s (Q : res unit unit -> st -> Prop),
  (forall s', s_broken s' = s_broken s -> Q (Err tt) s') ->
  (forall s', s_broken s' = s_broken s -> Q Panic s') ->
  (forall s', s_broken s' = s_broken s -> processed gs s s' -> Q (Ok tt) s') ->
  sat (GA U) (ifor gs (install_generation e c)) s Q.
Proof.
  induction gs as [|g gs IH]; intros HU s Q HE HP HO; cbn [ifor].
  - apply sat_ret. apply HO; [reflexivity | constructor].
  - assert (sat (GA U) (install_generation e c g) s (fun r s' => s_broken s' = s_broken s /\ (r = Ok tt -> done_gen g s s'))) as S1.
    { apply sat_install_generation; [apply HU; left; reflexivity | | |].
      - intros s' B; split; [exact B | discriminate].
      - intros s' B; split; [exact B | discriminate].
      - intros s' D; split; [apply D | auto]. }
    apply sat_bind. eapply sat_mono; [exact S1|]. intros [[]|[]|] s1 R [B D]; cbn [after]; auto.
    apply IH.
    + intros g' H; apply HU; right; exact H.
    + intros s' B'. apply HE. congruence.
    + intros s' B'. apply HP. congruence.
    + intros s' B' PR. apply HO; [congruence|]. econstructor; eauto.
Qed.
End Gen.
