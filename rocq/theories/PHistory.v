(** What stays true of an ESP over histories of runs (C07-C10). *)
From Coq Require Import List NArith Bool Lia Permutation.
From Verif Require Import Base PBase MText PText MOsRelease MGeneration MNames PNames SCommon SNames SOsRelease POsRelease MFs PFs MPe MTool MInstall PInstall SInstall SImage PImage SHistory PFiles PPaths PGen PBoot PGc PSelect PRun PTrace POwned PLoader PEntry.
Import ListNotations.
Open Scope N_scope.

(** ** Names *)

Lemma base32_52 h x : hash32 h -> length (base32 (h x)) = 52%nat.
Proof. intros H. rewrite base32_length, (proj1 (H x)). reflexivity. Qed.

Lemma base32_hash_inj h x y : hash32 h -> base32 (h x) = base32 (h y) -> h x = h y.
Proof.
  intros H E. apply base32_inj in E; [exact E | apply H | apply H |]. rewrite (proj1 (H x)), (proj1 (H y)). reflexivity.
Qed.

Lemma hash_suffix h (a b : name) x y : hash32 h ->
  a ++ lit "-" ++ base32 (h x) ++ lit ".efi" = b ++ lit "-" ++ base32 (h y) ++ lit ".efi" -> h x = h y.
Proof.
  intros H E. rewrite !app_assoc in E. apply app_inv_tail in E.
  apply app_eq_length_r in E as [_ E]; [|rewrite !base32_52 by exact H; reflexivity].
  apply base32_hash_inj; assumption.
Qed.

Lemma base32_ascii b : utf8_encode (base32 b) = base32 b.
Proof.
  apply utf8_ascii. eapply Forall_impl; [|apply base32_chars]. cbn. intros; lia.
Qed.

Lemma content_name_eq (h : bytes -> bytes) label x :
  utf8_encode (label ++ lit "-" ++ base32 (h x) ++ lit ".efi") = utf8_encode label ++ lit "-" ++ base32 (h x) ++ lit ".efi".
Proof. rewrite !utf8_encode_app, base32_ascii. reflexivity. Qed.

Lemma prefix_inj M g1 g2 k1 k2 n : sound M ->
  ma_gens M g1 -> ma_gens M g2 -> ma_keys M k1 -> ma_keys M k2 ->
  named M k1 g1 n -> named M k2 g2 n -> g1 = g2 /\ k1 = k2.
Proof.
  intros [SH SD SG SN SI] G1 G2 K1 K2 (c1 & C1 & E1) (c2 & C2 & E2).
  assert (stub_prefix (ma_sha M) k1 g1 ++ c1 ++ lit ".efi" = stub_prefix (ma_sha M) k2 g2 ++ c2 ++ lit ".efi") as E by congruence.
  rewrite !app_assoc in E. apply app_inv_tail in E.
  destruct (stem_unique _ _ _ _ _ _ _ _ _ c1 c2 SD C1 C2 (stub_prefix_stem _ k1 g1 SH) (stub_prefix_stem _ k2 g2 SH) E)
    as [(Ev & En & Eh & _)|(x & [(En & Hp & Hd)|(En & Hp & Hd)])].
  - unfold name_hash in Eh. apply base32_hash_inj in Eh; [|exact SH].
    apply SI in Eh; [|exists g1, k1; auto | exists g2, k2; auto].
    rewrite !utf8_ascii in Eh by apply json_stub_inputs_ascii. apply json_stub_inputs_inj in Eh as [Et Ek].
    split; [apply SG; auto | exact Ek].
  - destruct (name_hash_not_digits _ _ _ SH Hd).
  - destruct (name_hash_not_digits _ _ _ SH Hd).
Qed.

Lemma named_ends M key g n : named M key g n -> ends (lit ".efi") n.
Proof.
  intros (cnt & _ & D). apply utf8_encode_decode in D as [D _]. rewrite <- D, app_assoc, utf8_efi. eexists; reflexivity.
Qed.

Lemma named_start M key g n : named M key g n -> exists y, n = lit "nixos-" ++ y.
Proof.
  intros (cnt & _ & D). apply utf8_encode_decode in D as [D _]. rewrite <- D.
  unfold stub_prefix. destruct (g_specname g); eexists (lit "generation-" ++ _); rewrite !utf8_encode_app; rewrite <- ?app_assoc; reflexivity.
Qed.

Section History.
Variable M : machine.
Variable e : env.
Variable c : config.
Hypothesis SO : sound M.
Hypothesis FI : fits M e c.

Lemma nixos_file_eq n : nixos_file M n = d_nixos c ++ [n].
Proof. unfold nixos_file, d_nixos, d_efi. rewrite (fi_esp _ _ _ FI), <- !app_assoc. reflexivity. Qed.

Lemma linux_file_eq n : linux_file M n = d_linux c ++ [n].
Proof. unfold linux_file, d_linux, d_efi. rewrite (fi_esp _ _ _ FI), <- !app_assoc. reflexivity. Qed.

Lemma nixos_ne_linux n r : d_nixos c ++ [n] <> d_linux c ++ r.
Proof.
  unfold d_nixos, d_linux. rewrite <- !app_assoc. intros E. apply app_inv_head in E. cbn in E. discriminate.
Qed.

Lemma recognised_named key g n : recognised e key g n <-> named M key g n.
Proof. unfold recognised, named. rewrite (fi_sha _ _ _ FI), (fi_digit _ _ _ FI). tauto. Qed.

(** ** Which changes concern the two directories *)

(** A path is apart from the pcrlock directory. *)
Lemma lock_apart d r q : c_pcrlock c = Some d -> c_esp c ++ r = d ++ q -> False.
Proof.
  intros PL E. destruct (fi_separate _ _ _ FI d PL) as [S1 S2].
  apply app_eq_app in E as (t & [[E1 E2]|[E1 E2]]); [apply S2 | apply S1]; exists t; exact E1.
Qed.

Lemma in_lock d q p : c_pcrlock c = Some d -> below q (parent (d ++ p)) = true -> p <> [] -> forall r, q = c_esp c ++ r -> False.
Proof.
  intros PL B NE r ->. apply below_spec in B as [t E].
  destruct (exists_last NE) as (p' & x & ->). rewrite app_assoc, parent_app in E.
  rewrite <- app_assoc in E. symmetry in E. eapply lock_apart; eauto.
Qed.

Lemma gen_lock_shape g p : gen_lock c g p -> exists d r, c_pcrlock c = Some d /\ p = d ++ r /\ r <> [].
Proof.
  intros (d & PL & ->). destruct (version_tag_start g) as [H1 H2].
  destruct (lock_path_shape d (version_tag g) H1 H2) as (cs & n & ->). unfold d_lock_lanzaboote.
  rewrite <- app_assoc. eexists d, _. split; [exact PL|]. split; [reflexivity | discriminate].
Qed.

Lemma d_nixos_r r : d_nixos c ++ r = c_esp c ++ [lit "EFI"; lit "nixos"] ++ r.
Proof. unfold d_nixos, d_efi. rewrite <- !app_assoc. reflexivity. Qed.
Lemma d_linux_r r : d_linux c ++ r = c_esp c ++ [lit "EFI"; lit "Linux"] ++ r.
Proof. unfold d_linux, d_efi. rewrite <- !app_assoc. reflexivity. Qed.

(** Boot loader paths are neither in EFI/nixos nor in EFI/Linux. *)
Definition area (p : path) : Prop := (exists n, p = d_nixos c ++ [n]) \/ exists n, p = d_linux c ++ [n].

Lemma area_esp p : area p -> exists n x, p = c_esp c ++ [lit "EFI"; x; n] /\ (x = lit "nixos" \/ x = lit "Linux").
Proof.
  intros [[n ->]|[n ->]]; [rewrite d_nixos_r | rewrite d_linux_r]; eexists _, _; split; [reflexivity | auto | reflexivity | auto].
Qed.

Lemma area_not_boot p q : area p -> is_boot c q \/ q = p_conf c -> p <> q /\ p <> tmp_path q /\ ~ below p (parent q) = true.
Proof.
  intros AP HQ. apply area_esp in AP as (n & x & -> & X).
  assert (exists d f, q = c_esp c ++ d ++ [f] /\ (d = [lit "EFI"; lit "BOOT"] \/ d = [lit "EFI"; lit "systemd"] \/ d = [lit "loader"])) as (d & f & -> & D).
  { unfold is_boot, p_fallback, p_systemd, p_conf, d_boot, d_systemd, d_loader, d_efi in HQ. rewrite <- !app_assoc in HQ.
    destruct HQ as [[-> | ->]| ->].
    - exists [lit "EFI"; lit "BOOT"]. eexists. split; [reflexivity | auto].
    - exists [lit "EFI"; lit "systemd"]. eexists. split; [reflexivity | auto].
    - exists [lit "loader"]. eexists. split; [reflexivity | auto]. }
  rewrite (app_assoc (c_esp c) d), tmp_path_snoc, parent_app, <- !app_assoc.
  split; [|split].
  - intros E. apply app_inv_head in E. destruct D as [-> |[-> | ->]], X as [-> | ->]; cbn in E; discriminate.
  - intros E. apply app_inv_head in E. destruct D as [-> |[-> | ->]], X as [-> | ->]; cbn in E; discriminate.
  - intros B. apply below_spec in B as [t E]. rewrite <- app_assoc in E. apply app_inv_head in E.
    destruct D as [-> |[-> | ->]], X as [-> | ->]; cbn in E; discriminate.
Qed.

Lemma boot_lock_ne p d n : area p -> c_pcrlock c = Some d -> p <> p_lock_bootloader d n.
Proof.
  intros AP PL E. apply area_esp in AP as (m & x & -> & _). unfold p_lock_bootloader, d_lock_bootloader in E.
  rewrite <- app_assoc in E. eapply lock_apart; eauto.
Qed.

Lemma boot_keeps m0 m o p : GB e c m0 m o -> area p -> lookup (apply o m) p = lookup m p.
Proof.
  intros [_ CH] AP. rewrite lookup_apply.
  assert (forall q, q <> p -> eqb_path q p = false) as NE by (intros q N; apply eqb_path_false; exact N).
  destruct CH as [q0 q HQ BQ | d q PL BQ | q HQ | q x HQ | | q x out HQ _ _ _ _ _ | x _ _ | | d PL _ | d x PL _ | d x out PL _ _ _ _].
  - rewrite NE; [reflexivity|]. intros ->. destruct (area_not_boot _ _ AP HQ) as (_ & _ & N). contradiction.
  - rewrite NE; [reflexivity|]. intros ->. apply area_esp in AP as (n & x & -> & _).
    apply below_spec in BQ as [t E]. unfold d_lock_bootloader in E. rewrite <- app_assoc in E. symmetry in E. eapply lock_apart; eauto.
  - rewrite NE; [reflexivity|]. destruct (area_not_boot _ _ AP HQ) as (_ & N & _). auto.
  - rewrite NE; [reflexivity|]. destruct (area_not_boot _ _ AP HQ) as (_ & N & _). auto.
  - rewrite NE; [reflexivity|]. destruct (area_not_boot p (p_conf c) AP (or_intror eq_refl)) as (_ & N & _). auto.
  - destruct (area_not_boot _ _ AP (or_introl HQ)) as (N1 & N2 & _). rewrite !NE by auto. destruct (lookup m (tmp_path q)); reflexivity.
  - destruct (area_not_boot p (p_conf c) AP (or_intror eq_refl)) as (N1 & N2 & _). rewrite !NE by auto. destruct (lookup m (tmp_path (p_conf c))); reflexivity.
  - reflexivity.
  - rewrite NE; [reflexivity|]. apply not_eq_sym, boot_lock_ne; assumption.
  - rewrite NE; [reflexivity|]. apply not_eq_sym, boot_lock_ne; assumption.
  - rewrite !NE by (apply not_eq_sym, boot_lock_ne; assumption).
    destruct (lookup m (p_lock_bootloader d (lit "next"))); reflexivity.
Qed.

(** What can happen to a file named [.efi] in EFI/nixos. *)
Lemma gen_nixos U m o (n : name) : GA e c U m o -> ends (lit ".efi") n ->
  let p := nixos_file M n in
  lookup (apply o m) p = lookup m p \/ lookup (apply o m) p = option_map durable (lookup m p) \/
  exists label x, n = utf8_encode label ++ lit "-" ++ base32 (ma_sha M x) ++ lit ".efi" /\ lookup (apply o m) p = Some (NFile x true).
Proof.
  intros [_ CH] EN. rewrite nixos_file_eq. intros p.
  assert (file_ends (lit ".efi") p) as EP by (exists (d_nixos c), n; auto).
  assert (area p) as AP by (left; exists n; reflexivity).
  assert (forall q, q <> p -> eqb_path q p = false) as NE by (intros q N; apply eqb_path_false; exact N).
  assert (forall g q, gen_file e c g q -> tmp_path q <> p) as NT.
  { intros g q GF. apply not_eq_sym, efi_ne_tmp; [exact EP | eapply tmp_ends; eauto]. }
  assert (forall g q, gen_lock c g q -> q <> p) as NL.
  { intros g q GL. apply not_eq_sym, efi_ne_lock; [exact EP | eapply gen_lock_ends; eauto]. }
  rewrite lookup_apply.
  destruct CH as [g p0 q Ug Hp BQ | g p0 Ug GF | g p0 y Ug GF | g p0 Ug GF | g label y Ug LB LT | p0
                 | g p0 Ug GL | g p0 y Ug GL | g kver kd id image key out Ug BU K SG LT HK HI | ].
  - left. rewrite NE; [reflexivity|]. intros ->. destruct Hp as [GF|GL]; [destruct GF as [label x LB|key K]|].
    + rewrite ca_path_shape, parent_app in BQ by (eapply ca_label_slash; eauto). apply below_spec in BQ as [t E].
      unfold p in E. rewrite <- app_assoc in E. rewrite <- (app_nil_r (d_nixos c)) in E at 1. apply app_inv_head in E. discriminate.
    + unfold stub_path in BQ. destruct (stub_path_shape (d_linux c) (e_sha e) key (c_tries c) g) as (cs & a & y & r & Q & _).
      rewrite Q, app_assoc, parent_app in BQ. apply below_spec in BQ as [t E]. unfold p in E.
      rewrite d_nixos_r, d_linux_r, <- !app_assoc in E. apply app_inv_head in E. cbn in E. discriminate.
    + apply gen_lock_shape in GL as (d & r & PL & -> & R). apply (in_lock d p r PL BQ R ([lit "EFI"; lit "nixos"] ++ [n])). unfold p. apply d_nixos_r.
  - left. rewrite NE; eauto.
  - left. rewrite NE; eauto.
  - left. rewrite NE; eauto.
  - rewrite LT. destruct (eqb_path (ca_path e c label y) p) eqn:E.
    + right; right. apply eqb_path_spec in E. exists label, y. split; [|reflexivity].
      rewrite ca_path_shape in E by (eapply ca_label_slash; eauto). apply app_inj_tail in E as [_ <-].
      rewrite <- ca_name, (fi_sha _ _ _ FI). apply content_name_eq.
    + left. rewrite NE; [reflexivity|]. eapply NT. constructor; eauto.
  - left; reflexivity.
  - left. rewrite NE; eauto.
  - left. rewrite NE; eauto.
  - left. rewrite LT. rewrite NE.
    + rewrite NE; [reflexivity|]. eapply NT. apply gf_stub; eauto.
    + unfold stub_path. destruct (stub_path_shape (d_linux c) (e_sha e) key (c_tries c) g) as (cs & a & y & r & -> & _).
      intros E. symmetry in E. revert E. apply nixos_ne_linux.
  - destruct (below (c_esp c) p); auto.
Qed.

Lemma contents_step m o : GR e c m o -> contents_ok M m -> contents_ok M (apply o m).
Proof.
  intros GO CO n x. specialize (CO n x). set (f := n ++ lit "-" ++ base32 (ma_sha M x) ++ lit ".efi") in *.
  assert (ends (lit ".efi") f) as EF by (unfold f; exists (n ++ lit "-" ++ base32 (ma_sha M x)); rewrite <- !app_assoc; reflexivity).
  destruct GO as [(U & _ & H)|[(m0 & H)|(roots & IR & (q & ->) & _)]].
  - pose proof (gen_nixos U m o f H EF) as GN. cbv zeta in GN. destruct GN as [GN |[GN |(label & y & E & GN)]]; rewrite GN; [exact CO | |].
    + destruct (lookup m (nixos_file M f)) as [[|y b]|]; cbn [option_map durable]; [exact CO | split; [apply CO | reflexivity] | exact CO].
    + split; [|reflexivity]. eapply hash_suffix; [apply (so_hash _ SO) | symmetry; exact E].
  - rewrite (boot_keeps m0 m o _ H); [exact CO|]. left; exists f; apply nixos_file_eq.
  - rewrite lookup_apply. destruct (eqb_path q (nixos_file M f)); auto.
Qed.

(** ** Stubs *)

Definition kernel_file (version : str) (x : bytes) : path := nixos_file M (content_name M (lit "kernel-" ++ version) x).
Definition initrd_file (version : str) (x : bytes) : path := nixos_file M (content_name M (lit "initrd-" ++ version) x).

(** [stub_for] with the two paths. *)
Definition stub_at (g : generation) (y : bytes) (kp ip : path) : Prop :=
  exists version kernel initrd init text,
    (ma_store M (components (bs_kernel (g_spec g))) = Some kernel /\
    (bs_initrd_secrets (g_spec g) = None ->
       exists p, bs_initrd (g_spec g) = Some p /\ ma_store M (components p) = Some initrd) /\
    utf8_decode (bs_init (g_spec g)) = Some init /\ menu_text g text /\
    version_of (bs_kernel (g_spec g)) version /\ ma_good M y /\
    ~ In 47 version /\ ~ In 92 version /\ Forall scalar_value version /\
    has_section (ma_parse M) y (lit ".linux")
      (lit "\EFI\nixos\" ++ content_name M (lit "kernel-" ++ version) kernel) /\
    has_section (ma_parse M) y (lit ".linuxh") (ma_sha M kernel) /\
    has_section (ma_parse M) y (lit ".initrd")
      (lit "\EFI\nixos\" ++ content_name M (lit "initrd-" ++ version) initrd) /\
    has_section (ma_parse M) y (lit ".initrdh") (ma_sha M initrd) /\
    has_section (ma_parse M) y (lit ".cmdline")
      (utf8_encode (join (lit " ") ((lit "init=" ++ init) :: bs_params (g_spec g)))) /\
    has_section (ma_parse M) y (lit ".osrel") (utf8_encode text)) /\
    kp = kernel_file version kernel /\ ip = initrd_file version initrd.

Lemma stub_at_for g y : stub_for M g y <-> exists kp ip, stub_at g y kp ip.
Proof.
  split.
  - intros (v & k & i & init & text & H). exists (kernel_file v k), (initrd_file v i), v, k, i, init, text. auto.
  - intros (kp & ip & v & k & i & init & text & H & _). exists v, k, i, init, text. exact H.
Qed.

Lemma has_section_fun parse y n a b : has_section parse y n a -> has_section parse y n b -> a = b.
Proof. rewrite !has_section_read. congruence. Qed.

Lemma section_content label version x :
  ~ In 47 version -> ~ In 92 version -> Forall scalar_value version ->
  label = lit "kernel-" ++ version \/ label = lit "initrd-" ++ version ->
  Forall esp_component [lit "EFI"; lit "nixos"; content_name M label x] /\
  lit "\EFI\nixos\" ++ content_name M label x = flat_map (fun n => 92 :: n) [lit "EFI"; lit "nixos"; content_name M label x] /\
  exists s0, utf8_decode (join [47] [lit "EFI"; lit "nixos"; content_name M label x]) = Some s0.
Proof.
  intros N1 N2 SV LB.
  assert (forall v, v < 128 -> v <> 45 -> ~ 97 <= v <= 122 -> ~ 50 <= v <= 55 -> v <> 46 -> ~ In v version -> ~ In v (content_name M label x)) as NV.
  { intros v V1 V2 V3 V4 V5 NV I. unfold content_name in I. apply utf8_encode_In_ascii in I; [|exact V1].
    assert (In v version \/ In v (lit "kernel-") \/ In v (lit "initrd-") \/ In v (lit "-" ++ base32 (ma_sha M x) ++ lit ".efi")) as J.
    { apply in_app_or in I as [I|I]; [|auto]. destruct LB as [-> | ->]; apply in_app_or in I; tauto. }
    clear I. destruct J as [J|[J|[J|J]]]; [contradiction | vm_compute in J; intuition (subst; lia) | vm_compute in J; intuition (subst; lia) |].
    apply in_app_or in J as [J|J]; [vm_compute in J; intuition (subst; lia)|].
    apply in_app_or in J as [J|J]; [|vm_compute in J; intuition (subst; lia)].
    pose proof (base32_chars (ma_sha M x)) as F. rewrite Forall_forall in F. specialize (F v J). cbn in F. lia. }
  split; [|split].
  - repeat constructor; try (vm_compute; intuition discriminate); try discriminate.
    + destruct LB as [-> | ->]; unfold content_name; rewrite !utf8_encode_app; discriminate.
    + destruct LB as [-> | ->]; unfold content_name; rewrite !utf8_encode_app; discriminate.
    + apply NV; lia || assumption.
    + apply NV; lia || assumption.
  - cbn [flat_map]. rewrite app_nil_r. reflexivity.
  - exists (lit "EFI/nixos/" ++ label ++ lit "-" ++ base32 (ma_sha M x) ++ lit ".efi").
    change (join [47] [lit "EFI"; lit "nixos"; content_name M label x]) with (lit "EFI/nixos/" ++ content_name M label x).
    unfold content_name. change (lit "EFI/nixos/") with (utf8_encode (lit "EFI/nixos/")) at 1. rewrite <- utf8_encode_app.
    apply utf8_decode_encode_spec.
    assert (forall l, Forall (fun z => z < 128) l -> Forall scalar_value l) as AS.
    { intros l. apply Forall_impl. unfold scalar_value. intros; lia. }
    apply Forall_app; split; [|apply Forall_app; split; [|apply Forall_app; split; [|apply Forall_app; split]]].
    + apply AS. repeat constructor.
    + destruct LB as [-> | ->]; apply Forall_app; (split; [apply AS; repeat constructor | exact SV]).
    + apply AS. repeat constructor.
    + apply AS. eapply Forall_impl; [|apply base32_chars]. cbn; intros; lia.
    + apply AS. repeat constructor.
Qed.

Definition is_file (m : fs) (p : path) : Prop := exists x b, lookup m p = Some (NFile x b).

Lemma kernel_file_name label x : nixos_file M (content_name M label x) = nixos_file M (utf8_encode label ++ lit "-" ++ base32 (ma_sha M x) ++ lit ".efi").
Proof. unfold content_name. rewrite content_name_eq. reflexivity. Qed.

(** With its two files in place a stub is bootable. *)
Lemma stub_bootable m g y kp ip : contents_ok M m -> stub_at g y kp ip ->
  lookup m kp <> None -> lookup m ip <> None -> bootable M m y.
Proof.
  intros CO (v & k & i & init & text & (_ & _ & _ & _ & _ & _ & N1 & N2 & SV & K1 & K2 & I1 & I2 & _) & -> & ->) LK LI.
  assert (forall label x n h, label = lit "kernel-" ++ v \/ label = lit "initrd-" ++ v ->
    has_section (ma_parse M) y n (lit "\EFI\nixos\" ++ content_name M label x) ->
    has_section (ma_parse M) y h (ma_sha M x) -> lookup m (nixos_file M (content_name M label x)) <> None ->
    section_file M m y n h) as SF.
  { intros label x n h LB S1 S2 L. destruct (section_content label v x N1 N2 SV LB) as (F & E & _).
    specialize (CO (utf8_encode label) x). rewrite <- kernel_file_name in CO.
    destruct (lookup m (nixos_file M (content_name M label x))) as [[|z b]|] eqn:LX; [contradiction | | congruence].
    exists (lit "\EFI\nixos\" ++ content_name M label x), (ma_sha M x), (nixos_file M (content_name M label x)), z, b.
    split; [exact S1|]. split; [exact S2|]. split; [|split; [exact LX | apply CO]].
    exists [lit "EFI"; lit "nixos"; content_name M label x]. split; [discriminate|]. split; [exact F|]. split; [exact E | reflexivity]. }
  split; [apply (SF (lit "kernel-" ++ v) k) | apply (SF (lit "initrd-" ++ v) i)]; auto.
Qed.

(** Conversely, a bootable stub has its two files. *)
Lemma efi_path_fun k p1 p2 : efi_path M k p1 -> efi_path M k p2 -> p1 = p2.
Proof.
  intros (r1 & _ & F1 & E1 & ->) (r2 & _ & F2 & E2 & ->). f_equal.
  rewrite E1 in E2. clear E1. revert r2 F2 E2. induction F1 as [|a r1 (A1 & A2 & A3 & A4) F1 IH]; intros r2 F2 E2.
  - destruct r2; [reflexivity | discriminate].
  - destruct F2 as [|b r2 (B1 & B2 & B3 & B4) F2]; [discriminate|]. cbn [flat_map app] in E2. injection E2 as E2.
    assert (forall (u v : list N) a b, ~ In 92 a -> ~ In 92 b -> a ++ u = b ++ v ->
      (u = [] \/ exists u', u = 92 :: u') -> (v = [] \/ exists v', v = 92 :: v') -> a = b /\ u = v) as X.
    { clear. intros u v a. induction a as [|x a IH]; intros [|y b] NA NB E HU HV; cbn in *.
      - auto.
      - destruct HU as [-> |[u' ->]]; [discriminate|]. injection E as <- _. exfalso. apply NB. left; reflexivity.
      - destruct HV as [-> |[v' ->]]; [discriminate|]. injection E as -> _. exfalso. apply NA. left; reflexivity.
      - injection E as -> E. destruct (IH b) as [-> ->]; auto. }
    assert (forall r : list name, flat_map (fun n : list N => 92 :: n) r = [] \/ exists u', flat_map (fun n : list N => 92 :: n) r = 92 :: u') as HF.
    { intros [|z r]; [left; reflexivity | right; eexists; reflexivity]. }
    apply X in E2 as [-> E2]; auto. f_equal. apply IH; auto.
Qed.

Lemma bootable_files m g y kp ip : stub_at g y kp ip -> bootable M m y -> is_file m kp /\ is_file m ip.
Proof.
  intros (v & k & i & init & text & (_ & _ & _ & _ & _ & _ & N1 & N2 & SV & K1 & K2 & I1 & I2 & _) & -> & ->) [BK BI].
  assert (forall label x n h, label = lit "kernel-" ++ v \/ label = lit "initrd-" ++ v ->
    has_section (ma_parse M) y n (lit "\EFI\nixos\" ++ content_name M label x) ->
    section_file M m y n h -> is_file m (nixos_file M (content_name M label x))) as SF.
  { intros label x n h LB S1 (k' & h' & p & z & b & S2 & _ & EP & L & _). destruct (section_content label v x N1 N2 SV LB) as (F & E & _).
    pose proof (has_section_fun _ _ _ _ _ S1 S2) as <-.
    assert (p = nixos_file M (content_name M label x)) as ->; [|exists z, b; exact L].
    eapply efi_path_fun; [exact EP|]. exists [lit "EFI"; lit "nixos"; content_name M label x].
    split; [discriminate|]. split; [exact F|]. split; [exact E | reflexivity]. }
  split; [apply (SF (lit "kernel-" ++ v) k (lit ".linux") (lit ".linuxh")) | apply (SF (lit "initrd-" ++ v) i (lit ".initrd") (lit ".initrdh"))]; auto.
Qed.

Lemma os_release_text g : menu_text g (os_release_display (os_release_of_generation g)).
Proof.
  exists (describe g). split; [|].
  - pose proof (describe_description g) as H. unfold POsRelease.built in H. destruct (g_build_time g) as [[]|]; exact H.
  - rewrite os_release_shape. unfold os_release_display. cbn [flat_map fst snd].
    change (lit "ID=") with (lit "ID" ++ [61]). change (lit "PRETTY_NAME=") with (lit "PRETTY_NAME" ++ [61]).
    change (lit "VERSION_ID=") with (lit "VERSION_ID" ++ [61]).
    generalize (lit "ID"), (lit "PRETTY_NAME"), (lit "VERSION_ID"), (lit " ("), (lit ")"), (describe g).
    intros. rewrite app_nil_r. rewrite <- !app_assoc. reflexivity.
Qed.

Lemma kernel_version_in k v x : x < 128 -> kernel_version k = Some v -> In x v -> In x k.
Proof.
  intros HX. unfold kernel_version. destruct (rev (components k)) as [|z [|d r]] eqn:E; try discriminate.
  destruct (eqb_bytes d (lit "..")); [discriminate|].
  destruct (utf8_decode d) as [s|] eqn:D; [|discriminate]. intros [= <-] I.
  assert (In d (components k)) as Hd by (apply in_rev; rewrite E; right; left; reflexivity).
  unfold components in Hd. apply filter_In in Hd as [Hd _].
  assert (forall sep l y w, In y (split_on sep l) -> In w y -> In w l) as SI.
  { clear. intros sep. induction l as [|a l IH]; cbn [split_on]; intros y w.
    - intros [<-|[]] [].
    - destruct (N.eqb_spec a sep) as [->|].
      + intros [<-|H]; [intros []|]. intros W. right. eauto.
      + destruct (split_on sep l) as [|p ps] eqn:E.
        * intros [<-|[]] [X|[]]; left; exact X.
        * intros [<-|H].
          -- intros [X|X]; [left; exact X|]. right. eapply IH; [left; reflexivity | exact X].
          -- intros W. right. eapply IH; [right; exact H | exact W]. }
  assert (utf8_encode s = d) as ED by (apply (utf8_encode_decode d s D)).
  apply (SI 47 k d x Hd). rewrite <- ED. apply utf8_encode_In_ascii_conv; [exact HX|].
  assert (In (last (split_on 45 s) []) (split_on 45 s)) as L.
  { destruct (exists_last (l := split_on 45 s)) as (a & b & EL); [apply split_on_nonempty|]. rewrite EL, last_last. apply in_or_app; right; left; reflexivity. }
  eapply SI; eauto.
Qed.

Lemma last_part l : exists before, l = before ++ last (split_on 45 l) [] /\ ~ In 45 (last (split_on 45 l) []) /\
  (before = [] \/ exists q, before = q ++ [45]).
Proof.
  induction l as [|a l (b & E & N & B)].
  - exists []. split; [reflexivity|]. split; [intros [] | left; reflexivity].
  - cbn [split_on]. destruct (N.eqb_spec a 45) as [->|NE].
    + destruct (split_on 45 l) as [|p ps] eqn:ES; [apply split_on_nonempty in ES; contradiction|].
      exists (45 :: b). cbn [last] in *. split; [cbn [app]; f_equal; exact E|]. split; [exact N|]. right.
      destruct B as [-> |[q ->]]; [exists []; reflexivity | exists (45 :: q); reflexivity].
    + destruct (split_on 45 l) as [|p ps] eqn:ES; [apply split_on_nonempty in ES; contradiction|].
      destruct ps as [|p2 ps]; cbn [last] in *.
      * pose proof (split_on_cons_inv _ _ _ _ ES) as [NP [[_ ->]|(s' & X & _)]]; [|symmetry in X; apply split_on_nonempty in X; contradiction].
        exists []. split; [reflexivity|]. split; [intros [X|X]; [congruence | contradiction] | left; reflexivity].
      * destruct B as [-> |[q ->]].
        -- exfalso. cbn [app] in E. rewrite <- E in N. apply N.
           pose proof (split_on_cons_inv _ _ _ _ ES) as [_ [[X _]|(s' & _ & ->)]]; [discriminate|]. apply in_or_app; right; left; reflexivity.
        -- exists ((a :: q) ++ [45]). split; [cbn [app]; f_equal; exact E|]. split; [exact N | right; exists (a :: q); reflexivity].
Qed.

Lemma kernel_version_of k v : kernel_version k = Some v -> version_of k v.
Proof.
  unfold kernel_version. destruct (rev (components k)) as [|z [|d r]] eqn:E; try discriminate.
  destruct (eqb_bytes d (lit "..")); [discriminate|].
  destruct (utf8_decode d) as [s|] eqn:D; [|discriminate]. intros [= <-].
  destruct (last_part s) as (b & EB & N & B).
  exists (rev r), d, z, b. split; [|split; [|split; [exact N | exact B]]].
  - rewrite <- (rev_involutive (components k)), E. cbn [rev]. rewrite <- app_assoc. reflexivity.
  - rewrite <- EB. exact D.
Qed.

Lemma kernel_version_scalar k v : kernel_version k = Some v -> Forall scalar_value v.
Proof.
  unfold kernel_version. destruct (rev (components k)) as [|z [|d r]] eqn:E; try discriminate.
  destruct (eqb_bytes d (lit "..")); [discriminate|].
  destruct (utf8_decode d) as [s|] eqn:D; [|discriminate]. intros [= <-].
  apply utf8_encode_decode_spec in D as [_ D]. rewrite Forall_forall in *. intros x X. apply D.
  assert (forall l x, In x (last (split_on 45 l) []) -> In x l) as L.
  { clear. induction l as [|a l IH]; cbn [split_on]; [auto|]. intros x.
    destruct (N.eqb_spec a 45) as [->|].
    - destruct (split_on 45 l) as [|p ps] eqn:E; [apply split_on_nonempty in E; contradiction|].
      cbn [last] in *. intros H. right. apply IH. exact H.
    - destruct (split_on 45 l) as [|p ps] eqn:E; [apply split_on_nonempty in E; contradiction|].
      destruct ps as [|p2 ps]; cbn [last] in *.
      + intros [->|H]; [left; reflexivity | right; apply IH; exact H].
      + intros H; right; apply IH; exact H. }
  apply L; exact X.
Qed.

Lemma ca_path_file label x : ~ In 47 label -> ca_path e c label x = nixos_file M (content_name M label x).
Proof.
  intros N. rewrite ca_path_shape, nixos_file_eq by exact N. rewrite <- ca_name, (fi_sha _ _ _ FI). reflexivity.
Qed.

(** A freshly built and signed stub is one for its generation. *)
Lemma built_stub g kver kd id image out : ma_gens M g -> PGen.built e c g kver kd id image ->
  sg_sign (e_signer e) image = Some out ->
  stub_at g out (ca_path e c (lit "kernel-" ++ kver) kd) (ca_path e c (lit "initrd-" ++ kver) id).
Proof.
  intros GG [KV KD ID (init & kp & ip & stub & INI & KP & IP & ST & IM)] SG.
  pose proof (kernel_version_slash _ _ KV) as N47.
  assert (~ In 92 kver) as N92.
  { intros X. apply (kernel_version_in _ _ 92 ltac:(lia) KV) in X. destruct (so_names _ SO g GG) as [_ N]. contradiction. }
  pose proof (kernel_version_scalar _ _ KV) as SV.
  assert (forall label, label = lit "kernel-" ++ kver \/ label = lit "initrd-" ++ kver -> ~ In 47 label) as LS.
  { intros label [-> | ->]; apply notin_app; try apply lit_slash_tac; exact N47. }
  assert (forall label x s, label = lit "kernel-" ++ kver \/ label = lit "initrd-" ++ kver ->
    esp_relative_uefi_path (c_esp c) (ca_path e c label x) = Some s ->
    utf8_encode s = lit "\EFI\nixos\" ++ content_name M label x) as UP.
  { intros label x s LB E. rewrite ca_path_file in E by (apply LS; exact LB).
    destruct (section_content label kver x N47 N92 SV LB) as (F & E2 & s0 & D).
    destruct (uefi_round_trip (c_esp c) [lit "EFI"; lit "nixos"; content_name M label x] s0 ltac:(discriminate) F D) as (s' & E3 & E4 & _).
    unfold nixos_file in E. rewrite <- (fi_esp _ _ _ FI) in E. pose proof (eq_trans (eq_sym E) E3) as E5. injection E5 as ->. rewrite E2. exact E4. }
  unfold lanzaboote_image in IM. destruct (e_parse e stub) as [pe0|] eqn:PE; [|discriminate].
  destruct (stub_offset pe0) as [offs| |] eqn:SOF; cbn [bind] in IM; try discriminate. apply ok_or_some in IM.
  assert (ma_parse M stub = Some pe0) as PE2 by (rewrite <- (fi_parse _ _ _ FI); exact PE).
  pose proof (fun E1 E2 => fi_tools _ _ _ FI stub pe0 _ image out ST PE2 E1 E2 IM SG) as HS.
  specialize (HS eq_refl (fun PS => image_sections_beyond pe0 _ offs PS SOF)). destruct HS as [GD HS].
  exists kver, kd, id, init, (os_release_display (os_release_of_generation g)).
  rewrite !ca_path_file by (apply LS; auto). split; [|split; reflexivity].
  split; [apply (fi_store _ _ _ FI); exact KD|]. split.
  { destruct ID as (p & IP1 & IP2). intros NS. rewrite NS in IP2. exists p. split; [exact IP1 | apply (fi_store _ _ _ FI); exact IP2]. }
  split; [exact INI|]. split; [apply os_release_text|]. split; [apply kernel_version_of; exact KV|]. split; [exact GD|]. split; [exact N47|]. split; [exact N92|]. split; [exact SV|].
  rewrite <- (UP _ kd kp (or_introl eq_refl) KP), <- (UP _ id ip (or_intror eq_refl) IP). rewrite <- (fi_sha _ _ _ FI).
  unfold image_sections in HS. cbn in HS.
  repeat split; eapply HS; eauto 10.
Qed.

(** A name that is a single component. *)
Lemma stub_path_single key g : plain_names g ->
  stub_path e c key g = d_linux c ++ [utf8_encode (stub_name (e_sha e) key (c_tries c) g)].
Proof.
  intros [PN _]. unfold stub_path. apply path_join_name.
  - apply utf8_slash. rewrite stub_name_split. unfold stub_prefix.
    assert (forall l, Forall (fun x => x <> 47) l -> ~ In 47 l) as NI.
    { intros l F X. rewrite Forall_forall in F. exact (F _ X eq_refl). }
    assert (~ In 47 ((if 0 <? c_tries c then lit "+" ++ dec (c_tries c) else []) ++ lit ".efi")) as T.
    { apply notin_app; [|apply lit_slash_tac]. destruct (0 <? c_tries c); [|intros []]. apply notin_app; [|apply dec_slash]. intros H; vm_compute in H; intuition discriminate. }
    assert (~ In 47 (lit "nixos-generation-")) as T1 by (intros H; vm_compute in H; intuition discriminate).
    assert (~ In 47 (lit "-specialisation-")) as T2 by (intros H; vm_compute in H; intuition discriminate).
    assert (~ In 47 (lit "-")) as T3 by apply lit_slash_tac.
    assert (forall n, g_specname g = Some n -> ~ In 47 n) as T4 by (intros n E; apply (PN n E)).
    apply notin_app; [|exact T]. destruct (g_specname g) as [n|]; repeat apply notin_app; auto using dec_slash, base32_slash.
  - destruct (stub_name_nixos (e_sha e) key (c_tries c) g) as [r ->]. rewrite utf8_encode_app, app_length. cbn. lia.
Qed.

Lemma stub_name_scalar key t g : plain_names g -> Forall scalar_value (stub_name (e_sha e) key t g).
Proof.
  intros [PN _]. rewrite stub_name_split. unfold stub_prefix.
  assert (forall l, Forall (fun z => z < 128) l -> Forall scalar_value l) as AS.
  { intros l. apply Forall_impl. unfold scalar_value. intros; lia. }
  assert (forall n, Forall scalar_value (dec n)) as SD.
  { intros n. apply AS. eapply Forall_impl; [|apply dec_digits]. cbn; intros; lia. }
  assert (forall b, Forall scalar_value (base32 b)) as SB.
  { intros n. apply AS. eapply Forall_impl; [|apply base32_chars]. cbn; intros; lia. }
  assert (Forall scalar_value (if 0 <? t then lit "+" ++ dec t else [])) as T.
  { destruct (0 <? t); [|constructor]. apply Forall_app. split; [apply AS; repeat constructor | apply SD]. }
  assert (forall n, g_specname g = Some n -> Forall scalar_value n) as T4 by (intros n E; apply (PN n E)).
  destruct (g_specname g) as [n|]; repeat (apply Forall_app; split); auto; apply AS; repeat constructor.
Qed.

Lemma stub_path_named key g : plain_names g ->
  exists n, stub_path e c key g = d_linux c ++ [n] /\ named M key g n.
Proof.
  intros PN. eexists. split; [apply stub_path_single; exact PN|].
  exists (if 0 <? c_tries c then lit "+" ++ dec (c_tries c) else []).
  split; [apply counter_tries, (so_digit _ SO)|].
  rewrite utf8_decode_encode_spec by (apply stub_name_scalar; exact PN). rewrite stub_name_split, (fi_sha _ _ _ FI). reflexivity.
Qed.

(** What can happen to a file named [.efi] in EFI/Linux. *)
Lemma gen_linux (U : generation -> Prop) m o (n : name) : (forall g, U g -> ma_gens M g) -> GA e c U m o -> ends (lit ".efi") n ->
  let p := linux_file M n in
  lookup (apply o m) p = lookup m p \/ lookup (apply o m) p = option_map durable (lookup m p) \/
  (lookup m p = None /\ lookup (apply o m) p = Some NDir) \/
  exists g key out kp ip, U g /\ sg_key (e_signer e) = Some key /\ named M key g n /\
    lookup (apply o m) p = Some (NFile out false) /\ stub_at g out kp ip /\ is_file m kp /\ is_file m ip.
Proof.
  intros UG [PX CH] EN. rewrite linux_file_eq. intros p.
  assert (file_ends (lit ".efi") p) as EP by (exists (d_linux c), n; auto).
  assert (forall q, q <> p -> eqb_path q p = false) as NE by (intros q N; apply eqb_path_false; exact N).
  assert (forall g q, gen_file e c g q -> tmp_path q <> p) as NT.
  { intros g q GF. apply not_eq_sym, efi_ne_tmp; [exact EP | eapply tmp_ends; eauto]. }
  assert (forall g q, gen_lock c g q -> q <> p) as NL.
  { intros g q GL. apply not_eq_sym, efi_ne_lock; [exact EP | eapply gen_lock_ends; eauto]. }
  rewrite lookup_apply.
  destruct CH as [g p0 q Ug Hp BQ | g p0 Ug GF | g p0 y Ug GF | g p0 Ug GF | g label y Ug LB LT | p0
                 | g p0 Ug GL | g p0 y Ug GL | g kver kd id image key out Ug BU K SG LT HK HI | ].
  - destruct (eqb_path q p) eqn:E; [|auto]. apply eqb_path_spec in E; subst q. right; right; left.
    destruct PX as (_ & _ & PX). auto.
  - left. rewrite NE; eauto.
  - left. rewrite NE; eauto.
  - left. rewrite NE; eauto.
  - left. rewrite LT, NE.
    + rewrite NE; [reflexivity|]. eapply NT. constructor; eauto.
    + rewrite ca_path_shape by (eapply ca_label_slash; eauto). apply nixos_ne_linux.
  - left; reflexivity.
  - left. rewrite NE; eauto.
  - left. rewrite NE; eauto.
  - rewrite LT. destruct (eqb_path (stub_path e c key g) p) eqn:E.
    + right; right; right. apply eqb_path_spec in E.
      destruct (stub_path_named key g (so_names _ SO _ (UG _ Ug))) as (n' & E1 & NM).
      assert (n' = n) as -> by (rewrite E1 in E; apply app_inj_tail in E; tauto).
      exists g, key, out, (ca_path e c (lit "kernel-" ++ kver) kd), (ca_path e c (lit "initrd-" ++ kver) id).
      split; [exact Ug|]. split; [exact K|]. split; [exact NM|]. split; [reflexivity|].
      split; [eapply built_stub; eauto|].
      destruct HK as (z & b & HK & _). destruct HI as (z' & b' & HI & _). split; [exists z, b; exact HK | exists z', b'; exact HI].
    + left. rewrite NE; [reflexivity|]. eapply NT. apply gf_stub; eauto.
  - destruct (below (c_esp c) p); auto.
Qed.

Lemma entries_step m o : GR e c m o -> entries_ok M m -> entries_ok M (apply o m).
Proof.
  intros GO EO g key n y b Gg Kk NM L. pose proof (EO g key n) as EG.
  destruct GO as [(U & US & H)|[(m0 & H)|(roots & IR & (q & ->) & _)]].
  - assert (forall g, U g -> ma_gens M g) as UG by (intros g' H'; apply (fi_gens _ _ _ FI); auto).
    pose proof (gen_linux U m o n UG H (named_ends _ _ _ _ NM)) as GL. cbv zeta in GL. destruct GL as [E|[E|[[E1 E]|(g' & key' & out & kp & ip & Ug & K & NM' & E & SA & _)]]];
      rewrite E in L.
    + eapply EG; eauto.
    + destruct (lookup m (linux_file M n)) as [[|y' b']|] eqn:LM; try discriminate. injection L as -> _. eapply EG; eauto.
    + discriminate.
    + injection L as -> _. destruct (prefix_inj M g g' key key' n SO Gg (UG _ Ug) Kk (fi_key _ _ _ FI _ K) NM NM') as [-> ->].
      apply stub_at_for. eauto.
  - rewrite (boot_keeps m0 m o _ H) in L by (right; exists n; apply linux_file_eq). eapply EG; eauto.
  - rewrite lookup_apply in L. destruct (eqb_path q (linux_file M n)); [discriminate|]. eapply EG; eauto.
Qed.

(** ** Selected generations stay bootable *)

Lemma resolve_content label version x :
  ~ In 47 version -> ~ In 92 version -> Forall scalar_value version ->
  label = lit "kernel-" ++ version \/ label = lit "initrd-" ++ version ->
  resolve_efi_path (c_esp c) (lit "\EFI\nixos\" ++ content_name M label x) = Ok (nixos_file M (content_name M label x)).
Proof.
  intros N1 N2 SV LB. destruct (section_content label version x N1 N2 SV LB) as (F & E & s0 & D).
  destruct (uefi_round_trip (c_esp c) [lit "EFI"; lit "nixos"; content_name M label x] s0 ltac:(discriminate) F D) as (s & _ & E2 & _ & R).
  rewrite E. eapply eq_trans; [|eapply eq_trans; [exact R|]]; [f_equal; symmetry; exact E2|]. unfold nixos_file. rewrite (fi_esp _ _ _ FI). reflexivity.
Qed.

Lemma contents_file m label x : contents_ok M m -> lookup m (nixos_file M (content_name M label x)) <> None ->
  is_file m (nixos_file M (content_name M label x)).
Proof.
  intros CO L. specialize (CO (utf8_encode label) x). rewrite <- kernel_file_name in CO.
  destruct (lookup m (nixos_file M (content_name M label x))) as [[|z b]|] eqn:LX; [contradiction | exists z, b; exact LX | congruence].
Qed.

(** [g] has an entry whose files are all referenced. *)
Definition anchored (synced : bool) (g : generation) (roots : list path) (m : fs) : Prop :=
  exists key n y b kp ip,
    sg_key (e_signer e) = Some key /\ named M key g n /\ lookup m (linux_file M n) = Some (NFile y b) /\
    (synced = true -> b = true) /\
    stub_at g y kp ip /\ is_file m kp /\ is_file m ip /\ incl [linux_file M n; kp; ip] roots.

Lemma anchored_boots sy g roots m : contents_ok M m -> anchored sy g roots m -> boots M m g.
Proof.
  intros CO (key & n & y & b & kp & ip & K & NM & L & _ & SA & (kx & kb & FK) & (ix & ib & FI') & _).
  exists key, n, y, b. split; [apply (fi_key _ _ _ FI); exact K|]. split; [exact NM|]. split; [exact L|].
  eapply stub_bootable; eauto; congruence.
Qed.

Lemma done_anchored g s s' : ma_gens M g -> contents_ok M (s_fs s') -> entries_ok M (s_fs s') -> done_gen e c g s s' ->
  anchored false g (s_roots s') (s_fs s').
Proof.
  intros Gg CO EO [_ [(F & _ & key & t & n & kp & ip & extra & K & EF & R & _)
                |(kver & kd & id & image & key & out & extra & lock & BU & K & SG & _ & R & L & HK & HI & _)]].
  - destruct EF as (_ & FD & stub & b & k & i & L & R1 & R2 & R3 & R4 & P1 & P2).
    apply find_some in FD as [_ FD].
    apply (proj1 (regex_recognised e ltac:(rewrite (fi_digit _ _ _ FI); apply (so_digit _ SO)) key g n)) in FD.
    apply recognised_named in FD. rewrite F in *. rewrite <- linux_file_eq in L, R.
    pose proof (EO g key n stub b Gg (fi_key _ _ _ FI _ K) FD L) as ST.
    apply stub_at_for in ST as (kp' & ip' & ST). pose proof ST as ST'.
    destruct ST as (v & kc & ic & init & text & (_ & _ & _ & _ & _ & _ & N1 & N2 & SV & K1 & K2 & I1 & I2 & _) & -> & ->).
    rewrite <- (fi_parse _ _ _ FI) in K1, I1. apply has_section_read in K1, I1.
    assert (k = lit "\EFI\nixos\" ++ content_name M (lit "kernel-" ++ v) kc) as -> by congruence.
    assert (i = lit "\EFI\nixos\" ++ content_name M (lit "initrd-" ++ v) ic) as -> by congruence.
    pose proof (resolve_content (lit "kernel-" ++ v) v kc N1 N2 SV (or_introl eq_refl)) as Q2.
    pose proof (resolve_content (lit "initrd-" ++ v) v ic N1 N2 SV (or_intror eq_refl)) as Q4.
    pose proof (eq_trans (eq_sym R2) Q2) as Q2'. pose proof (eq_trans (eq_sym R4) Q4) as Q4'. injection Q2' as ->. injection Q4' as ->.
    exists key, n, stub, b, (kernel_file v kc), (initrd_file v ic).
    assert (forall label x, present (s_fs s) (nixos_file M (content_name M label x)) = true -> is_file (s_fs s) (nixos_file M (content_name M label x))) as PF.
    { intros label x P. apply contents_file; [exact CO|]. apply present_lookup in P; [exact P|].
      unfold nixos_file. intros E. apply app_eq_nil in E as [_ E]. discriminate. }
    split; [exact K|]. split; [exact FD|]. split; [exact L|]. split; [discriminate|]. split; [exact ST'|].
    split; [apply PF; exact P1|]. split; [apply PF; exact P2|].
    rewrite R. intros q Hq. apply in_or_app; right. apply in_or_app; left. exact Hq.
  - destruct (stub_path_named key g (so_names _ SO _ Gg)) as (n & E & NM). rewrite <- linux_file_eq in E. rewrite E in *.
    exists key, n, out, false, (ca_path e c (lit "kernel-" ++ kver) kd), (ca_path e c (lit "initrd-" ++ kver) id).
    split; [exact K|]. split; [exact NM|]. split; [exact L|]. split; [discriminate|]. split; [eapply built_stub; eauto|].
    destruct HK as (kx & kb & HK & _). destruct HI as (ix & ib & HI & _).
    split; [exists kx, kb; exact HK|]. split; [exists ix, ib; exact HI|]. rewrite R.
    intros q [<- |[<- |[<- |[]]]]; [left; reflexivity | right; apply in_or_app; right | right; apply in_or_app; right]; cbn; auto.
Qed.

Lemma kernel_ends label x : file_ends (lit ".efi") (nixos_file M (content_name M label x)).
Proof.
  rewrite kernel_file_name, nixos_file_eq. exists (d_nixos c). eexists. split; [reflexivity|].
  exists (utf8_encode label ++ lit "-" ++ base32 (ma_sha M x)). rewrite <- !app_assoc. reflexivity.
Qed.

Lemma stub_at_shape g y kp ip : stub_at g y kp ip ->
  file_ends (lit ".efi") kp /\ file_ends (lit ".efi") ip /\ area kp /\ area ip.
Proof.
  intros (v & k & i & init & text & _ & -> & ->). unfold kernel_file, initrd_file.
  split; [apply kernel_ends|]. split; [apply kernel_ends|].
  split; left; eexists; apply nixos_file_eq.
Qed.

Lemma reach_keeps U s s' p : reach (GA e c U) s s' -> file_ends (lit ".efi") p -> is_file (s_fs s) p -> is_file (s_fs s') p.
Proof.
  intros R EP. apply (reach_invariant (GA e c U) (fun m => is_file m p)) with (2 := R).
  intros m o GO H. eapply gen_keeps_file; eauto.
Qed.

(** What processing a generation does to an entry. *)
Lemma done_linux g s s' n : ma_gens M g -> done_gen e c g s s' -> ends (lit ".efi") n ->
  (lookup (s_fs s') (linux_file M n) = lookup (s_fs s) (linux_file M n) \/
   lookup (s_fs s) (linux_file M n) = None /\ lookup (s_fs s') (linux_file M n) = Some NDir) \/
  exists key out kp ip, sg_key (e_signer e) = Some key /\ named M key g n /\
    lookup (s_fs s') (linux_file M n) = Some (NFile out false) /\ stub_at g out kp ip /\
    is_file (s_fs s') kp /\ is_file (s_fs s') ip /\ incl [linux_file M n; kp; ip] (s_roots s').
Proof.
  intros Gg [_ [(F & _ & _)|(kver & kd & id & image & key & out & extra & lock & BU & K & SG & _ & R & L' & HK & HI & LK & FR)]] EN.
  - left; left. rewrite F. reflexivity.
  - destruct (stub_path_named key g (so_names _ SO _ Gg)) as (n' & E' & NM'). rewrite <- linux_file_eq in E'.
    destruct (list_eq_dec N.eq_dec n n') as [<-|NN].
    + right. rewrite E' in *.
      exists key, out, (ca_path e c (lit "kernel-" ++ kver) kd), (ca_path e c (lit "initrd-" ++ kver) id).
      split; [exact K|]. split; [exact NM'|]. split; [exact L'|]. split; [eapply built_stub; eauto|].
      destruct HK as (kx & kb & HK & _). destruct HI as (ix & ib & HI & _).
      split; [exists kx, kb; exact HK|]. split; [exists ix, ib; exact HI|]. rewrite R.
      intros q [<- |[<- |[<- |[]]]]; [left; reflexivity | right; apply in_or_app; right | right; apply in_or_app; right]; cbn; auto.
    + assert (file_ends (lit ".efi") (linux_file M n)) as EL.
      { rewrite linux_file_eq. exists (d_linux c), n. split; [reflexivity | exact EN]. }
      assert (forall q, In q lock -> file_ends (lit ".pcrlock") q) as LE.
      { intros q Hq. destruct (c_pcrlock c) as [d|] eqn:PL; [|subst lock; contradiction]. destruct LK as [-> _].
        destruct Hq as [<-|[]]. apply (gen_lock_ends c g). exists d. auto. }
      pose proof (bu_kver _ _ _ _ _ _ _ BU) as KV. apply kernel_version_slash in KV.
      assert (~ In 47 (lit "kernel-" ++ kver) /\ ~ In 47 (lit "initrd-" ++ kver)) as [S1 S2] by (split; apply notin_app; try apply lit_slash_tac; exact KV).
      assert (~ In (linux_file M n) ([ca_path e c (lit "kernel-" ++ kver) kd; ca_path e c (lit "initrd-" ++ kver) id; stub_path e c key g] ++ lock)) as X1.
      { intros X. apply in_app_or in X as [X|X].
        ++ destruct X as [X|[X|[X|[]]]].
           ** rewrite ca_path_shape, linux_file_eq in X by assumption. revert X. apply nixos_ne_linux.
           ** rewrite ca_path_shape, linux_file_eq in X by assumption. revert X. apply nixos_ne_linux.
           ** apply NN. rewrite E' in X. unfold linux_file in X. apply app_inv_head in X. congruence.
        ++ apply LE in X. eapply efi_ne_lock; [exact EL | exact X | reflexivity]. }
      assert (~ In (linux_file M n) (map tmp_path ([ca_path e c (lit "kernel-" ++ kver) kd; ca_path e c (lit "initrd-" ++ kver) id; stub_path e c key g] ++ lock))) as X2.
      { intros X. apply in_map_iff in X as (q & X & Hq).
        eapply (efi_ne_tmp (linux_file M n) (tmp_path q)); [exact EL | | congruence]. apply file_ends_tmp. intros ->.
        apply in_app_or in Hq as [Hq|Hq].
        ++ destruct Hq as [Hq|[Hq|[Hq|[]]]]; [eapply ca_path_ne; [|exact Hq]; assumption | eapply ca_path_ne; [|exact Hq]; assumption | eapply stub_path_ne; exact Hq].
        ++ apply LE in Hq as (d & x & E & _). apply (f_equal (@length _)) in E. rewrite app_length in E. cbn in E. lia. }
      left. exact (FR (linux_file M n) X1 X2).
Qed.

Lemma anchored_next U g g' s s' : ma_gens M g -> ma_gens M g' ->
  reach (GA e c U) s s' -> done_gen e c g' s s' ->
  anchored false g (s_roots s) (s_fs s) -> anchored false g (s_roots s') (s_fs s').
Proof.
  intros Gg Gg' RC DN (key & n & y & b & kp & ip & K & NM & L & _ & SA & FK & FII & IR).
  destruct (stub_at_shape _ _ _ _ SA) as (EK & EI & AK & AI).
  destruct (done_linux g' s s' n Gg' DN (named_ends _ _ _ _ NM)) as [[E|[E _]]|(key' & out & kp' & ip' & K' & NM' & L' & SA' & FK' & FI' & IR')]; [|congruence|].
  - exists key, n, y, b, kp, ip. rewrite E. split; [exact K|]. split; [exact NM|]. split; [exact L|]. split; [discriminate|].
    split; [exact SA|]. split; [eapply reach_keeps; eauto|]. split; [eapply reach_keeps; eauto|].
    destruct RC as [_ [RR _]]. eapply incl_tran; eauto.
  - assert (key' = key) as -> by congruence.
    destruct (prefix_inj M g g' key key n SO Gg Gg' (fi_key _ _ _ FI _ K) (fi_key _ _ _ FI _ K) NM NM') as [<- _].
    exists key, n, out, false, kp', ip'. repeat (split; [assumption || discriminate|]). exact IR'.
Qed.

Lemma reach_contents (U : generation -> Prop) s s' : (forall g, U g -> selected c g) -> reach (GA e c U) s s' ->
  contents_ok M (s_fs s) -> contents_ok M (s_fs s').
Proof.
  intros US R. eapply reach_invariant; [|exact R]. intros m o H. apply contents_step. left; eauto.
Qed.

Lemma reach_entries (U : generation -> Prop) s s' : (forall g, U g -> selected c g) -> reach (GA e c U) s s' ->
  entries_ok M (s_fs s) -> entries_ok M (s_fs s').
Proof.
  intros US R. eapply reach_invariant; [|exact R]. intros m o H. apply entries_step. left; eauto.
Qed.

Lemma processed_anchored (U : generation -> Prop) gs s s' : (forall g, U g -> selected c g) -> (forall g, In g gs -> U g) ->
  contents_ok M (s_fs s) -> entries_ok M (s_fs s) -> processed e c U gs s s' ->
  (forall g, ma_gens M g -> anchored false g (s_roots s) (s_fs s) -> anchored false g (s_roots s') (s_fs s')) /\
  forall g, In g gs -> anchored false g (s_roots s') (s_fs s').
Proof.
  intros US GU CO EO PR. induction PR as [s|g0 gs s s1 s2 R D PR IH]; [split; [auto | contradiction]|].
  assert (forall g, U g -> ma_gens M g) as UG by (intros g H; apply (fi_gens _ _ _ FI); auto).
  pose proof (reach_contents U _ _ US R CO) as CO1. pose proof (reach_entries U _ _ US R EO) as EO1.
  assert (ma_gens M g0) as G0 by (apply UG, GU; left; reflexivity).
  destruct IH as [I1 I2]; [intros g H; apply GU; right; exact H | exact CO1 | exact EO1 |]. split.
  - intros g Gg AN. apply I1; [exact Gg|]. exact (anchored_next U g g0 s s1 Gg G0 R D AN).
  - intros g [<-|H]; [|auto]. apply I1; [exact G0|]. eapply done_anchored; eauto.
Qed.

(** ** The rest of a run *)

Lemma gc_keeps roots m o p : GG e c roots m o -> incl (initial_roots c) roots -> area p -> In p roots ->
  lookup (apply o m) p = lookup m p.
Proof.
  intros [(q & ->) CH] IR AP RT. specialize (CH (fi_listings _ _ _ FI)). rewrite lookup_apply.
  destruct (eqb_path q p) eqn:E; [|reflexivity]. apply eqb_path_spec in E; subst q. exfalso.
  inversion CH as [dir q p0 GD BD BQ NR LF]; subst p0.
  apply below_spec in BD as [r ->]. apply below_spec in BQ as [t ->].
  assert (forall d, In d [d_nixos c; d_linux c] -> In d roots) as IN.
  { intros d H. apply IR. unfold initial_roots. destruct H as [<-|[<-|[]]]; apply in_or_app; left; cbn; auto 10. }
  destruct GD as [-> |[-> |(d & PL & ->)]].
  - destruct AP as [[n E]|[n E]].
    + rewrite <- app_assoc in E. apply app_inv_head in E. destruct r as [|z r].
      * apply NR. rewrite app_nil_r. apply IN. left; reflexivity.
      * injection E as -> E. apply app_eq_nil in E as [-> ->]. rewrite app_nil_r in RT. contradiction.
    + rewrite <- app_assoc, d_nixos_r, d_linux_r in E. apply app_inv_head in E. discriminate.
  - destruct AP as [[n E]|[n E]].
    + rewrite <- app_assoc, d_nixos_r, d_linux_r in E. apply app_inv_head in E. discriminate.
    + rewrite <- app_assoc in E. apply app_inv_head in E. destruct r as [|z r].
      * apply NR. rewrite app_nil_r. apply IN. right; left; reflexivity.
      * injection E as -> E. apply app_eq_nil in E as [-> ->]. rewrite app_nil_r in RT. contradiction.
  - apply area_esp in AP as (n & x & E & _). unfold d_lock_lanzaboote in E. rewrite <- !app_assoc in E.
    symmetry in E. eapply lock_apart; eauto.
Qed.

Lemma anchored_like sy g roots m m' : (forall p, area p -> In p roots -> lookup m' p = lookup m p) ->
  anchored sy g roots m -> anchored sy g roots m'.
Proof.
  intros H (key & n & y & b & kp & ip & K & NM & L & SY & SA & (kx & kb & FK) & (ix & ib & FI') & IR).
  destruct (stub_at_shape _ _ _ _ SA) as (_ & _ & AK & AI).
  exists key, n, y, b, kp, ip. split; [exact K|]. split; [exact NM|]. split.
  { rewrite H; [exact L | right; exists n; apply linux_file_eq | apply IR; left; reflexivity]. }
  split; [exact SY|]. split; [exact SA|].
  split; [exists kx, kb; rewrite H; [exact FK | exact AK | apply IR; right; left; reflexivity]|].
  split; [exists ix, ib; rewrite H; [exact FI' | exact AI | apply IR; right; right; left; reflexivity]|]. exact IR.
Qed.

Lemma anchored_gc sy g roots m os : incl (initial_roots c) roots -> steps (GG e c roots) m os ->
  anchored sy g roots m -> anchored sy g roots (apply_all os m).
Proof.
  intros IR ST. apply (steps_invariant (GG e c roots) (anchored sy g roots)) with (2 := ST).
  intros m1 o GO. apply anchored_like. intros p AP RT. eapply gc_keeps; eauto.
Qed.

Lemma anchored_boot m0 sy g roots m os : steps (GB e c m0) m os -> anchored sy g roots m -> anchored sy g roots (apply_all os m).
Proof.
  intros ST. apply (steps_invariant (GB e c m0) (anchored sy g roots)) with (2 := ST).
  intros m1 o GO. apply anchored_like. intros p AP RT. eapply boot_keeps; eauto.
Qed.

Lemma esp_below n x : below (c_esp c) (c_esp c ++ [lit "EFI"; x; n]) = true.
Proof. apply below_app. Qed.

Lemma anchored_sync g roots m : anchored false g roots m -> anchored true g roots (apply (OSyncAll (c_esp c)) m).
Proof.
  intros (key & n & y & b & kp & ip & K & NM & L & SY & SA & (kx & kb & FK) & (ix & ib & FI') & IR).
  destruct (stub_at_shape _ _ _ _ SA) as (_ & _ & AK & AI).
  assert (forall p x f, area p -> lookup m p = Some (NFile x f) -> lookup (apply (OSyncAll (c_esp c)) m) p = Some (NFile x true)) as SN.
  { intros p x f AP LP. rewrite lookup_apply, LP. apply area_esp in AP as (z & w & -> & _). rewrite esp_below. reflexivity. }
  exists key, n, y, true, kp, ip. split; [exact K|]. split; [exact NM|]. split.
  { eapply SN; [|exact L]. right; exists n; apply linux_file_eq. }
  split; [reflexivity|]. split; [exact SA|]. split; [eexists _, _; eapply SN; eauto|]. split; [eexists _, _; eapply SN; eauto | exact IR].
Qed.

(** Changes other than removals. *)
Definition G1 (m : fs) (o : op) : Prop :=
  (exists U : generation -> Prop, (forall g, U g -> selected c g) /\ GA e c U m o) \/ (exists m0, GB e c m0 m o).

Lemma prefix_cut {A} (os rest T C : list A) : T ++ C = os ++ rest ->
  (exists r, T = os ++ r) \/ exists os2 r, os = T ++ os2 /\ C = os2 ++ r.
Proof.
  intros E. apply app_eq_app in E as (l & [[-> ->]|[-> ->]]); [left; eauto | right; eauto].
Qed.

Lemma tops_generations ls : flat_map link_generations ls = flat_map (fun g => g :: g_specs g) (tops ls).
Proof.
  unfold tops, link_generations. induction ls as [|[v l] ls IH]; [reflexivity|]. cbn [flat_map fst snd]. rewrite IH.
  destruct (l_spec l); reflexivity.
Qed.

(** What holds from the sync on: established by processing, kept by the sync,
    by installing the boot loader, and by a collection that spares [roots]. *)
Record lasting (m : fs) (P : bool -> list (N * link) -> list path -> fs -> Prop) : Prop := {
  la_done : forall vs sel got s0 s1, links_versions (c_links c) vs -> newest (c_limit c) vs sel -> loaded e c m sel got s0 ->
    processed e c (fun g => In g (flat_map link_generations got)) (flat_map link_generations got) s0 s1 ->
    (forall g, In g (flat_map link_generations got) -> selected c g) ->
    P false got (s_roots s1) (s_fs s1);
  la_sync : forall got roots m1, P false got roots m1 -> P true got roots (apply (OSyncAll (c_esp c)) m1);
  la_boot : forall got roots m0 m1 o, GB e c m0 m1 o -> P true got roots m1 -> P true got roots (apply o m1);
  la_collect : forall got roots m1 o, incl (initial_roots c) roots -> GG e c roots m1 o ->
    P true got roots m1 -> P true got roots (apply o m1) }.

Lemma synced_lasting P m vs sel got s0 s1 s2 : lasting m P ->
  links_versions (c_links c) vs -> newest (c_limit c) vs sel -> loaded e c m sel got s0 ->
  processed e c (fun g => In g (flat_map link_generations got)) (flat_map link_generations got) s0 s1 ->
  synced_from c s1 s2 ->
  s_fs s2 = apply_all (s_trace s2) m /\ steps G1 m (s_trace s2) /\ incl (initial_roots c) (s_roots s2) /\
  P true got (s_roots s2) (s_fs s2).
Proof.
  intros LA LV NW LD PR SY.
  destruct (parts_core e c m vs sel got s0 s1 s2 LV NW LD PR SY) as (A & TA & FA & SA & IR & SE & _). subst A.
  split; [exact FA|]. split; [eapply steps_weaken; [|exact SA]; intros m' o H; left; eexists; split; [exact SE | exact H]|]. split; [exact IR|].
  destruct SY as (F2 & _ & R2 & _). rewrite F2, R2. apply (la_sync _ _ LA). eapply (la_done _ _ LA); eauto.
Qed.

(** A run installs, then perhaps collects; in the second case and if it
    succeeds, the generations are in place. *)
Lemma run_phases P m : lasting m P ->
  exists os1 os2, s_trace (fst (run_install e c m)) = os1 ++ os2 /\ steps G1 m os1 /\
    (os2 = [] \/ exists vs sel roots, links_versions (c_links c) vs /\ newest (c_limit c) vs sel /\ Forall readable sel /\
       incl (initial_roots c) roots /\ steps (GG e c roots) (apply_all os1 m) os2 /\ P true sel roots (apply_all os1 m)) /\
    (snd (run_install e c m) = Ok tt -> exists vs sel got roots,
       links_versions (c_links c) vs /\ newest (c_limit c) vs sel /\ sub got sel /\ got <> [] /\
       (no_faults e -> flat_map link_generations got = flat_map link_generations sel) /\
       P true got roots (s_fs (fst (run_install e c m)))).
Proof.
  intros LA. pose proof (run_shape_holds e c m) as SH. destruct (run_install e c m) as [s' r]. cbn [fst snd] in *.
  assert (forall m0 got roots m1 os, steps (GB e c m0) m1 os -> P true got roots m1 -> P true got roots (apply_all os m1)) as PB.
  { intros m0 got roots m1 os ST. apply (steps_invariant (GB e c m0)) with (2 := ST). intros m2 o. apply (la_boot _ _ LA). }
  destruct SH as [BAD SM R | vs sel s0 LV NW LD E R | vs sel got s0 LV NW LD NE RA R
    | vs sel got s0 s1 s2 LV NW LD NE PR BR SY QB RB R
    | vs sel got s0 s1 s2 LV NW LD NE PR BR SY RB BD NS R
    | vs sel s0 s1 s2 s3 LV NW LD NE PR BR SY RB BD RC CC].
  - exists [], []. destruct SM as (_ & T & _). split; [exact T|]. split; [exact Logic.I|]. split; [auto | congruence].
  - exists [], []. rewrite E. split; [apply (lo_trace _ _ _ _ _ _ LD)|]. split; [exact Logic.I|]. split; [auto | congruence].
  - apply reach_steps in RA as (os & T & F & ST). rewrite (lo_trace _ _ _ _ _ _ LD) in T. rewrite (lo_fs _ _ _ _ _ _ LD) in F, ST.
    exists os, []. split; [rewrite app_nil_r; exact T|]. split; [|split; [auto | congruence]].
    eapply steps_weaken; [|exact ST]. intros m' o H. left. eexists. split; [|exact H]. intros g Hg.
    exists vs, sel. split; [exact LV|]. split; [exact NW|]. eapply sub_in_map; [apply (lo_sub _ _ _ _ _ _ LD) | exact Hg].
  - destruct (synced_lasting _ _ _ _ _ _ _ _ LA LV NW LD PR SY) as (F2 & S2 & IR & AN).
    apply reach_steps in RB as (os & T & F & ST). exists (s_trace s2 ++ os), [].
    split; [rewrite app_nil_r; exact T|]. split; [|split; [auto | congruence]].
    apply steps_app. split; [exact S2|]. rewrite <- F2. eapply steps_weaken; [|exact ST]. intros m' o H. right; eauto.
  - destruct (synced_lasting _ _ _ _ _ _ _ _ LA LV NW LD PR SY) as (F2 & S2 & IR & AN).
    apply reach_steps in RB as (os & T & F & ST). exists (s_trace s2 ++ os), [].
    split; [rewrite app_nil_r; exact T|]. split.
    { apply steps_app. split; [exact S2|]. rewrite <- F2. eapply steps_weaken; [|exact ST]. intros m' o H. right; eauto. }
    split; [auto|]. intros _. exists vs, sel, got, (s_roots s2). split; [exact LV|]. split; [exact NW|].
    split; [apply (lo_sub _ _ _ _ _ _ LD)|]. split; [exact NE|].
    split; [intros NF; rewrite !tops_generations, (lo_faults _ _ _ _ _ _ LD NF); reflexivity|].
    rewrite F. eapply PB; eauto.
  - destruct (synced_lasting _ _ _ _ _ _ _ _ LA LV NW LD PR SY) as (F2 & S2 & IR & AN).
    pose proof BD as ([QR _] & _).
    apply reach_steps in RB as (os & T & F & ST). apply reach_steps in RC as (os2 & T2 & F3 & ST2).
    assert (s_fs s3 = apply_all (s_trace s2 ++ os) m) as E3 by (rewrite F, apply_all_app, F2; reflexivity).
    assert (P true sel (s_roots s3) (s_fs s3)) as AN3 by (rewrite F, QR; eapply PB; eauto).
    exists (s_trace s2 ++ os), os2. split; [rewrite T2, T; reflexivity|]. split.
    { apply steps_app. split; [exact S2|]. rewrite <- F2. eapply steps_weaken; [|exact ST]. intros m' o H. right; eauto. }
    split.
    + right. exists vs, sel, (s_roots s3). split; [exact LV|]. split; [exact NW|]. split; [apply (lo_readable _ _ _ _ _ _ LD)|].
      rewrite <- E3. split; [rewrite QR; exact IR|]. split; [exact ST2 | exact AN3].
    + intros _. exists vs, sel, sel, (s_roots s3). split; [exact LV|]. split; [exact NW|]. split; [apply sub_refl|]. split; [exact NE|].
      split; [reflexivity|]. rewrite F3. revert AN3.
      apply (steps_invariant (GG e c (s_roots s3)) (P true sel (s_roots s3))) with (2 := ST2).
      intros m2 o. apply (la_collect _ _ LA). rewrite QR; exact IR.
Qed.

(** Every point of a run is one before the collection or one during it. *)
Lemma point_phase P m os : lasting m P -> point e c m os ->
  (steps G1 m os /\ forall p, ~ In (ORemove p) os) \/
  exists vs sel roots os1 os2, links_versions (c_links c) vs /\ newest (c_limit c) vs sel /\ Forall readable sel /\
    os = os1 ++ os2 /\ steps G1 m os1 /\ incl (initial_roots c) roots /\ steps (GG e c roots) (apply_all os1 m) os2 /\
    P true sel roots (apply_all os m).
Proof.
  intros LA [rest PT]. destruct (run_phases P m LA) as (os1 & os2 & T & S1 & C & _). rewrite PT in T. symmetry in T.
  assert (forall os, steps G1 m os -> forall p, ~ In (ORemove p) os) as NR.
  { intros os' ST p H. destruct (steps_In _ _ _ _ ST H) as (m' & [(U & _ & X)|(m0 & X)]); [apply (gen_no_remove e c U m' [ORemove p] (conj X Logic.I) p); left; reflexivity | apply (boot_no_remove e c m0 m' [ORemove p] (conj X Logic.I) p); left; reflexivity]. }
  destruct (prefix_cut _ _ _ _ T) as [(r & ->)|(l & r & -> & ->)].
  - left. apply steps_app in S1 as [S1 _]. split; [exact S1 | apply NR; exact S1].
  - destruct C as [E|(vs & sel & roots & LV & NW & RD & IR & ST & AN)].
    + apply app_eq_nil in E as [-> _]. left. rewrite app_nil_r. split; [exact S1 | apply NR; exact S1].
    + right. apply steps_app in ST as [ST _]. exists vs, sel, roots, os1, l.
      split; [exact LV|]. split; [exact NW|]. split; [exact RD|]. split; [reflexivity|]. split; [exact S1|]. split; [exact IR|]. split; [exact ST|].
      rewrite apply_all_app. revert AN. apply (steps_invariant (GG e c roots) (P true sel roots)) with (2 := ST).
      intros m2 o. apply (la_collect _ _ LA). exact IR.
Qed.

Lemma removal_phase P m os p : lasting m P -> point e c m (os ++ [ORemove p]) ->
  exists vs sel roots, links_versions (c_links c) vs /\ newest (c_limit c) vs sel /\ Forall readable sel /\
    incl (initial_roots c) roots /\ P true sel roots (apply_all os m).
Proof.
  intros LA [rest PT]. destruct (run_phases P m LA) as (os1 & os2 & T & S1 & C & _). rewrite PT in T. symmetry in T.
  rewrite <- app_assoc in T. cbn [app] in T.
  assert (forall r, os1 <> os ++ ORemove p :: r) as NR.
  { intros r E. rewrite E in S1. apply steps_app in S1 as (_ & [(U & _ & _ & X)|(m0 & _ & X)] & _); inversion X. }
  assert (exists l r, os = os1 ++ l /\ os2 = l ++ ORemove p :: r) as (l & r & -> & ->).
  { destruct (prefix_cut _ _ _ _ T) as [([|o r] & E)|(l & r & E1 & E2)].
    - rewrite app_nil_r in E. subst os1. apply app_inv_head in T. exists [], rest. rewrite app_nil_r. auto.
    - subst os1. rewrite <- app_assoc in T. apply app_inv_head in T. cbn [app] in T. injection T as -> _. exfalso. eapply NR; reflexivity.
    - exists l, rest. split; [exact E1|]. subst os. rewrite <- app_assoc in T. apply app_inv_head in T. exact T. }
  destruct C as [E|(vs & sel & roots & LV & NW & RD & IR & ST & AN)]; [destruct l; discriminate|].
  apply steps_app in ST as [ST _]. exists vs, sel, roots. split; [exact LV|]. split; [exact NW|]. split; [exact RD|]. split; [exact IR|].
  rewrite apply_all_app. revert AN. apply (steps_invariant (GG e c roots) (P true sel roots)) with (2 := ST).
  intros m2 o. apply (la_collect _ _ LA). exact IR.
Qed.

Lemma G1_GR m o : G1 m o -> GR e c m o.
Proof. intros [H|H]; [left; exact H | right; left; exact H]. Qed.

Lemma G1_contents m os : steps G1 m os -> contents_ok M m -> contents_ok M (apply_all os m).
Proof. intros ST. eapply steps_invariant; [|exact ST]. intros m' o H. apply contents_step, G1_GR, H. Qed.

Lemma G1_entries m os : steps G1 m os -> entries_ok M m -> entries_ok M (apply_all os m).
Proof. intros ST. eapply steps_invariant; [|exact ST]. intros m' o H. apply entries_step, G1_GR, H. Qed.

(** Before the collection, bootable entries stay bootable. *)
Definition entry_boots (n : name) (m : fs) : Prop :=
  exists g key y b kp ip, ma_gens M g /\ ma_keys M key /\ named M key g n /\
    lookup m (linux_file M n) = Some (NFile y b) /\ stub_at g y kp ip /\ is_file m kp /\ is_file m ip.

Lemma G1_file m o p : G1 m o -> file_ends (lit ".efi") p -> area p -> is_file m p -> is_file (apply o m) p.
Proof.
  intros [(U & _ & H)|(m0 & H)] EP AP IF; [eapply gen_keeps_file; eauto|].
  destruct IF as (x & b & L). exists x, b. rewrite (boot_keeps m0 m o p H AP). exact L.
Qed.

Lemma entry_boots_step n m o : G1 m o -> entry_boots n m -> entry_boots n (apply o m).
Proof.
  intros GO (g & key & y & b & kp & ip & Gg & Kk & NM & L & SA & FK & FII).
  destruct (stub_at_shape _ _ _ _ SA) as (EK & EI & AK & AI).
  pose proof (G1_file m o kp GO EK AK FK) as FK'. pose proof (G1_file m o ip GO EI AI FII) as FI'.
  destruct GO as [(U & US & H)|(m0 & H)].
  - assert (forall g, U g -> ma_gens M g) as UG by (intros g' H'; apply (fi_gens _ _ _ FI); auto).
    pose proof (gen_linux U m o n UG H (named_ends _ _ _ _ NM)) as GL. cbv zeta in GL.
    destruct GL as [E|[E|[[E1 E]|(g' & key' & out & kp' & ip' & Ug & K & NM' & E & SA' & FKK & FII')]]].
    + exists g, key, y, b, kp, ip. rewrite E. auto 10.
    + rewrite L in E. exists g, key, y, true, kp, ip. rewrite E. cbn. auto 10.
    + congruence.
    + exists g', key', out, false, kp', ip'. rewrite E.
      destruct (stub_at_shape _ _ _ _ SA') as (EK' & EI' & AK' & AI').
      split; [auto|]. split; [apply (fi_key _ _ _ FI); exact K|]. split; [exact NM'|]. split; [reflexivity|]. split; [exact SA'|].
      split; eapply G1_file; eauto; left; eauto.
  - exists g, key, y, b, kp, ip. rewrite (boot_keeps m0 m o _ H) by (right; exists n; apply linux_file_eq). auto 10.
Qed.

(** Stubs that were not there before have their files. *)
Definition fresh_ok (m0 : fs) (roots : list path) (m : fs) : Prop :=
  forall n y b, ends (lit ".efi") n -> lookup m (linux_file M n) = Some (NFile y b) ->
    (exists b0, lookup m0 (linux_file M n) = Some (NFile y b0)) \/
    exists g kp ip, stub_at g y kp ip /\ is_file m kp /\ is_file m ip /\ incl [linux_file M n; kp; ip] roots.

Definition fresh_live (m0 : fs) (m : fs) : Prop :=
  forall n y b, ends (lit ".efi") n -> lookup m (linux_file M n) = Some (NFile y b) ->
    (exists b0, lookup m0 (linux_file M n) = Some (NFile y b0)) \/
    exists g kp ip, stub_at g y kp ip /\ is_file m kp /\ is_file m ip.

Lemma fresh_ok_live m0 roots m : fresh_ok m0 roots m -> fresh_live m0 m.
Proof. intros H n y b EN L. destruct (H n y b EN L) as [X|(g & kp & ip & A & B & C & _)]; eauto 10. Qed.

Lemma fresh_live_refl m : fresh_live m m.
Proof. intros n y b _ L. left; eauto. Qed.

Lemma fresh_live_step m0 m o : G1 m o -> fresh_live m0 m -> fresh_live m0 (apply o m).
Proof.
  intros GO FL n y b EN L.
  assert (forall y b, lookup m (linux_file M n) = Some (NFile y b) -> (exists b0, lookup m0 (linux_file M n) = Some (NFile y b0)) \/
    exists g kp ip, stub_at g y kp ip /\ is_file (apply o m) kp /\ is_file (apply o m) ip) as KEEP.
  { intros y' b' L'. destruct (FL n y' b' EN L') as [X|(g & kp & ip & SA & FK & FII)]; [left; exact X|]. right.
    destruct (stub_at_shape _ _ _ _ SA) as (EK & EI & AK & AI).
    exists g, kp, ip. split; [exact SA|]. split; eapply G1_file; eauto. }
  destruct GO as [(U & US & H)|(m1 & H)].
  - assert (forall g, U g -> ma_gens M g) as UG by (intros g' H'; apply (fi_gens _ _ _ FI); auto).
    pose proof (gen_linux U m o n UG H EN) as GL. cbv zeta in GL.
    destruct GL as [E|[E|[[E1 E]|(g' & key' & out & kp' & ip' & Ug & K & NM' & E & SA' & FKK & FII')]]]; rewrite E in L.
    + eapply KEEP; eauto.
    + destruct (lookup m (linux_file M n)) as [[|y' b']|]; try discriminate. injection L as -> _. eapply KEEP; eauto.
    + discriminate.
    + injection L as -> _. right. destruct (stub_at_shape _ _ _ _ SA') as (EK' & EI' & AK' & AI').
      exists g', kp', ip'. split; [exact SA'|]. split; eapply G1_file; eauto; left; eauto.
  - rewrite (boot_keeps m1 m o _ H) in L by (right; exists n; apply linux_file_eq). eapply KEEP; eauto.
Qed.

Lemma fresh_ok_like m0 roots m m' :
  (forall p, area p -> In p roots -> lookup m' p = lookup m p) ->
  (forall n y b, lookup m' (linux_file M n) = Some (NFile y b) -> exists b0, lookup m (linux_file M n) = Some (NFile y b0)) ->
  fresh_ok m0 roots m -> fresh_ok m0 roots m'.
Proof.
  intros H1 H2 FO n y b EN L. destruct (H2 _ _ _ L) as (b1 & L1). destruct (FO n y b1 EN L1) as [X|(g & kp & ip & SA & (kx & kb & FK) & (ix & ib & FI') & IR)]; [left; exact X|].
  right. destruct (stub_at_shape _ _ _ _ SA) as (EK & EI & AK & AI). exists g, kp, ip. split; [exact SA|].
  split; [exists kx, kb; rewrite H1; [exact FK | exact AK | apply IR; right; left; reflexivity]|].
  split; [exists ix, ib; rewrite H1; [exact FI' | exact AI | apply IR; right; right; left; reflexivity]|]. exact IR.
Qed.

Lemma processed_fresh m0 (U : generation -> Prop) gs s s' : (forall g, U g -> selected c g) -> (forall g, In g gs -> U g) ->
  processed e c U gs s s' -> fresh_ok m0 (s_roots s) (s_fs s) -> fresh_ok m0 (s_roots s') (s_fs s').
Proof.
  intros US GU PR. induction PR as [s|g0 gs s s1 s2 R D PR IH]; [auto|]. intros FO.
  assert (ma_gens M g0) as G0 by (apply (fi_gens _ _ _ FI), US, GU; left; reflexivity).
  apply IH; [intros g H; apply GU; right; exact H|]. clear IH PR.
  intros n y b EN L. destruct (done_linux g0 s s1 n G0 D EN) as [[E|[_ E]]|(key & out & kp & ip & K & NM & L' & SA & FK & FII & IR)].
  - rewrite E in L. destruct (FO n y b EN L) as [X|(g & kp & ip & SA & FK & FII & IR)]; [left; exact X|]. right.
    destruct (stub_at_shape _ _ _ _ SA) as (EK & EI & AK & AI).
    exists g, kp, ip. split; [exact SA|]. split; [eapply reach_keeps; eauto|]. split; [eapply reach_keeps; eauto|].
    destruct R as [_ [RR _]]. eapply incl_tran; eauto.
  - congruence.
  - rewrite L' in L. injection L as -> _. right. exists g0, kp, ip. auto.
Qed.

Definition P1 (m : fs) (sy : bool) (got : list (N * link)) (roots : list path) (m1 : fs) : Prop :=
  (forall g, In g (flat_map link_generations got) -> anchored sy g roots m1) /\ fresh_ok m roots m1.

Lemma anchored_lasting m : contents_ok M m -> entries_ok M m -> lasting m (P1 m).
Proof.
  intros CO EO. constructor.
  - intros vs sel got s0 s1 LV NW LD PR SE. rewrite <- (lo_fs _ _ _ _ _ _ LD) in CO, EO. split.
    + intros g Hg. eapply (processed_anchored (fun g => In g (flat_map link_generations got))); eauto.
    + eapply (processed_fresh m (fun g => In g (flat_map link_generations got))); eauto.
      rewrite (lo_fs _ _ _ _ _ _ LD). intros n y b _ L. left; eauto.
  - intros got roots m1 [AN FO]. split; [intros g Hg; apply anchored_sync, AN, Hg|].
    intros n y b EN L. rewrite lookup_apply in L.
    assert (below (c_esp c) (linux_file M n) = true) as BL by (unfold linux_file; rewrite <- (fi_esp _ _ _ FI); apply below_app).
    rewrite BL in L. destruct (lookup m1 (linux_file M n)) as [[|y' b']|] eqn:L1; try discriminate. injection L as -> _.
    destruct (FO n y b' EN L1) as [X|(g & kp & ip & SA & FK & FII & IR)]; [left; exact X|]. right.
    destruct (stub_at_shape _ _ _ _ SA) as (EK & EI & AK & AI). exists g, kp, ip. split; [exact SA|].
    assert (forall p, area p -> is_file m1 p -> is_file (apply (OSyncAll (c_esp c)) m1) p) as SN.
    { intros p AP (x & f & LP). exists x, true. rewrite lookup_apply, LP. apply area_esp in AP as (z & w & -> & _). rewrite esp_below. reflexivity. }
    auto.
  - intros got roots m0 m1 o GO [AN FO]. split.
    + intros g Hg. apply anchored_like with (2 := AN g Hg). intros p AP _. eapply boot_keeps; eauto.
    + apply fresh_ok_like with (3 := FO).
      * intros p AP _. eapply boot_keeps; eauto.
      * intros n y b L. rewrite (boot_keeps m0 m1 o _ GO) in L by (right; exists n; apply linux_file_eq). eauto.
  - intros got roots m1 o IR GO [AN FO]. split.
    + intros g Hg. apply anchored_like with (2 := AN g Hg). intros p AP RT. eapply gc_keeps; eauto.
    + apply fresh_ok_like with (3 := FO).
      * intros p AP RT. eapply gc_keeps; eauto.
      * intros n y b L. destruct GO as [(q & ->) _]. rewrite lookup_apply in L. destruct (eqb_path q (linux_file M n)); [discriminate | eauto].
Qed.

(** For any state before the run, power losses included: there is a synced
    file under the generation's name. *)
Definition posted (sy : bool) (g : generation) (roots : list path) (m : fs) : Prop :=
  exists key n y b, sg_key (e_signer e) = Some key /\ named M key g n /\
    lookup m (linux_file M n) = Some (NFile y b) /\ (sy = true -> b = true) /\ In (linux_file M n) roots.

Lemma done_posted g s s' : ma_gens M g -> done_gen e c g s s' -> posted false g (s_roots s') (s_fs s').
Proof.
  intros Gg [_ [(F & _ & key & t & n & kp & ip & extra & K & EF & R & _)
                |(kver & kd & id & image & key & out & extra & lock & BU & K & SG & _ & R & L & HK & HI & _)]].
  - destruct EF as (_ & FD & stub & b & k & i & L & _).
    apply find_some in FD as [_ FD].
    apply (proj1 (regex_recognised e ltac:(rewrite (fi_digit _ _ _ FI); apply (so_digit _ SO)) key g n)) in FD.
    apply recognised_named in FD. rewrite F in *. rewrite <- linux_file_eq in L, R.
    exists key, n, stub, b. split; [exact K|]. split; [exact FD|]. split; [exact L|]. split; [discriminate|].
    rewrite R. apply in_or_app; right. apply in_or_app; left. left; reflexivity.
  - destruct (stub_path_named key g (so_names _ SO _ Gg)) as (n & E & NM). rewrite <- linux_file_eq in E. rewrite E in *.
    exists key, n, out, false. split; [exact K|]. split; [exact NM|]. split; [exact L|]. split; [discriminate|]. rewrite R. left; reflexivity.
Qed.

Lemma posted_next U g g' s s' : ma_gens M g -> ma_gens M g' -> reach (GA e c U) s s' -> done_gen e c g' s s' ->
  posted false g (s_roots s) (s_fs s) -> posted false g (s_roots s') (s_fs s').
Proof.
  intros Gg Gg' RC DN (key & n & y & b & K & NM & L & _ & IR). destruct RC as [_ [RR _]].
  destruct (done_linux g' s s' n Gg' DN (named_ends _ _ _ _ NM)) as [[E|[E _]]|(key' & out & kp' & ip' & K' & NM' & L' & _ & _ & _ & IR')]; [|congruence|].
  - exists key, n, y, b. rewrite E. split; [exact K|]. split; [exact NM|]. split; [exact L|]. split; [discriminate | auto].
  - exists key, n, out, false. split; [exact K|]. split; [exact NM|]. split; [exact L'|]. split; [discriminate|]. apply IR'. left; reflexivity.
Qed.

Lemma processed_posted (U : generation -> Prop) gs s s' : (forall g, U g -> selected c g) -> (forall g, In g gs -> U g) ->
  processed e c U gs s s' ->
  (forall g, ma_gens M g -> posted false g (s_roots s) (s_fs s) -> posted false g (s_roots s') (s_fs s')) /\
  forall g, In g gs -> posted false g (s_roots s') (s_fs s').
Proof.
  intros US GU PR. induction PR as [s|g0 gs s s1 s2 R D PR IH]; [split; [auto | contradiction]|].
  assert (forall g, U g -> ma_gens M g) as UG by (intros g H; apply (fi_gens _ _ _ FI); auto).
  assert (ma_gens M g0) as G0 by (apply UG, GU; left; reflexivity).
  destruct IH as [I1 I2]; [intros g H; apply GU; right; exact H |]. split.
  - intros g Gg AN. apply I1; [exact Gg|]. exact (posted_next U g g0 s s1 Gg G0 R D AN).
  - intros g [<-|H]; [|auto]. apply I1; [exact G0|]. eapply done_posted; eauto.
Qed.

Lemma posted_lasting m : lasting m (fun sy got roots m1 => forall g, In g (flat_map link_generations got) -> posted sy g roots m1).
Proof.
  constructor.
  - intros vs sel got s0 s1 LV NW LD PR SE g Hg.
    eapply (processed_posted (fun g => In g (flat_map link_generations got))); eauto.
  - intros got roots m1 AN g Hg. destruct (AN g Hg) as (key & n & y & b & K & NM & L & _ & IR).
    exists key, n, y, true. split; [exact K|]. split; [exact NM|]. split; [|split; [reflexivity | exact IR]].
    rewrite lookup_apply, L.
    assert (below (c_esp c) (linux_file M n) = true) as -> by (unfold linux_file; rewrite <- (fi_esp _ _ _ FI); apply below_app). reflexivity.
  - intros got roots m0 m1 o GO AN g Hg. destruct (AN g Hg) as (key & n & y & b & K & NM & L & S & IR).
    exists key, n, y, b. rewrite (boot_keeps m0 m1 o _ GO) by (right; exists n; apply linux_file_eq). auto.
  - intros got roots m1 o RI GO AN g Hg. destruct (AN g Hg) as (key & n & y & b & K & NM & L & S & IR).
    exists key, n, y, b. rewrite (gc_keeps roots m1 o _ GO RI) by (exact IR || (right; exists n; apply linux_file_eq)). auto.
Qed.

Lemma fresh_bootable m0 m : contents_ok M m -> fresh_live m0 m -> forall n y b, ends (lit ".efi") n ->
  lookup m (linux_file M n) = Some (NFile y b) ->
  (exists b0, lookup m0 (linux_file M n) = Some (NFile y b0)) \/ bootable M m y.
Proof.
  intros CO FL n y b EN L. destruct (FL n y b EN L) as [X|(g & kp & ip & SA & (kx & kb & FK) & (ix & ib & FI'))]; [left; exact X|].
  right. eapply stub_bootable; eauto; congruence.
Qed.

Lemma boots_entry m g : ma_gens M g -> entries_ok M m -> boots M m g -> exists n, entry_boots n m /\ exists key, ma_keys M key /\ named M key g n.
Proof.
  intros Gg EO (key & n & y & b & Kk & NM & L & BT). exists n. split; [|eauto].
  pose proof (EO g key n y b Gg Kk NM L) as ST. apply stub_at_for in ST as (kp & ip & SA).
  destruct (bootable_files m g y kp ip SA BT) as [FK FII]. exists g, key, y, b, kp, ip. auto 10.
Qed.

Lemma entry_boots_bootable n m : contents_ok M m -> entry_boots n m -> exists y b, lookup m (linux_file M n) = Some (NFile y b) /\ bootable M m y.
Proof.
  intros CO (g & key & y & b & kp & ip & Gg & Kk & NM & L & SA & (kx & kb & FK) & (ix & ib & FI')).
  exists y, b. split; [exact L|]. eapply stub_bootable; eauto; congruence.
Qed.

Lemma G1_entry_boots n m os : steps G1 m os -> entry_boots n m -> entry_boots n (apply_all os m).
Proof. intros ST. eapply steps_invariant; [|exact ST]. intros m' o H. apply entry_boots_step, H. Qed.
End History.

(** ** Histories *)

Lemma run_ok M e c m os : sound M -> fits M e c -> point e c m os ->
  (contents_ok M m -> contents_ok M (apply_all os m)) /\ (entries_ok M m -> entries_ok M (apply_all os m)).
Proof.
  intros SO FI PT. apply point_steps in PT. split.
  - apply (steps_invariant (GR e c) (contents_ok M)) with (2 := PT). intros m' o. apply contents_step; assumption.
  - apply (steps_invariant (GR e c) (entries_ok M)) with (2 := PT). intros m' o. apply entries_step; assumption.
Qed.

Lemma history_ok M m : sound M -> history M m -> contents_ok M m /\ entries_ok M m.
Proof.
  intros SO H. induction H as [m CO EO | m e c os H [CO EO] FI PT | m g key n n' x b H [CO EO] Gg Kk NM NM' L | m p H [CO EO] | m m' H [CO EO] SM].
  - auto.
  - destruct (run_ok M e c m os SO FI PT) as [A B]. auto.
  - split.
    + intros f z. specialize (CO f z). set (w := f ++ lit "-" ++ base32 (ma_sha M z) ++ lit ".efi") in *.
      assert (forall a, eqb_path (linux_file M a) (nixos_file M w) = false) as NE.
      { intros a. destruct (eqb_path (linux_file M a) (nixos_file M w)) eqn:E; [|reflexivity]. exfalso.
        apply eqb_path_spec in E. unfold linux_file, nixos_file in E. apply app_inv_head in E. discriminate. }
      rewrite lookup_apply, L, !NE. exact CO.
    + intros g2 key2 n2 y b2 G2 K2 N2 L2. rewrite lookup_apply, L in L2.
      destruct (eqb_path (linux_file M n') (linux_file M n2)) eqn:E1.
      * apply eqb_path_spec in E1. unfold linux_file in E1. apply app_inv_head in E1. injection E1 as <-.
        injection L2 as <- _. destruct (prefix_inj M g g2 key key2 n' SO Gg G2 Kk K2 NM' N2) as [<- _].
        eapply EO; [exact Gg | exact Kk | exact NM | exact L].
      * destruct (eqb_path (linux_file M n) (linux_file M n2)); [discriminate|]. eapply EO; eauto.
  - split.
    + intros f z. specialize (CO f z). rewrite lookup_remove. destruct (eqb_path p _); auto.
    + intros g key n y b Gg Kk NM L. rewrite lookup_remove in L. destruct (eqb_path p _); [discriminate|]. eapply EO; eauto.
  - split.
    + intros f z. rewrite SM by (left; eauto). apply CO.
    + intros g key n y b Gg Kk NM L. rewrite SM in L; [eapply EO; eauto|]. right.
      destruct (named_start M key g n NM) as [r ->]. eauto.
Qed.

Lemma rough_ok M m : sound M -> rough_history M m -> contents_ok M m.
Proof.
  intros SO H. induction H as [m CO | m e c os H CO FI PT | m m' H CO AL | m p H CO | m m' H CO SM].
  - exact CO.
  - apply (run_ok M e c m os SO FI PT). exact CO.
  - intros f z. specialize (CO f z). set (w := nixos_file M (f ++ lit "-" ++ base32 (ma_sha M z) ++ lit ".efi")) in *.
    specialize (AL w). destruct (lookup m w) as [[|y [|]]|]; try (rewrite AL; exact CO). destruct CO; discriminate.
  - intros f z. specialize (CO f z). rewrite lookup_remove. destruct (eqb_path p _); auto.
  - intros f z. rewrite SM. apply CO.
Qed.
