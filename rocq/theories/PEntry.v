(** Reading installed entries (C49, C50). *)
From Coq Require Import List NArith Bool Lia Permutation.
From Verif Require Import Base PBase MText PText MVersion MOsRelease MGeneration MNames PNames SNames MFs PFs MPe MTool MInstall PInstall SInstall PFiles PPaths PGen PBoot PGc PSelect PRun PTrace POwned PLoader.
Import ListNotations.
Open Scope N_scope.

Lemma slice_some l a b d : slice l a b = Some d -> a <= b ->
  exists before after, l = before ++ d ++ after /\ N.of_nat (length before) = a /\ N.of_nat (length d) = b - a.
Proof.
  unfold slice. destruct (_ && _) eqn:E; [|discriminate]. apply andb_true_iff in E as [E1 E2]. apply N.leb_le in E1, E2.
  intros [= <-] _. exists (firstn (N.to_nat a) l), (skipn (N.to_nat (b - a)) (skipn (N.to_nat a) l)).
  rewrite firstn_skipn, firstn_skipn. split; [reflexivity|]. rewrite firstn_length, firstn_length, skipn_length. lia.
Qed.

Lemma slice_app before d after :
  slice (before ++ d ++ after) (N.of_nat (length before)) (N.of_nat (length before) + N.of_nat (length d)) = Some d.
Proof.
  unfold slice. rewrite !app_length.
  replace (N.of_nat (length before) <=? N.of_nat (length before) + N.of_nat (length d)) with true by (symmetry; apply N.leb_le; lia).
  replace (N.of_nat (length before) + N.of_nat (length d) <=? N.of_nat (length before + (length d + length after))) with true
    by (symmetry; apply N.leb_le; lia).
  cbn [andb]. f_equal. replace (N.to_nat (N.of_nat (length before) + N.of_nat (length d) - N.of_nat (length before))) with (length d) by lia.
  rewrite Nnat.Nat2N.id, skipn_app, skipn_all, PeanoNat.Nat.sub_diag. cbn [skipn app].
  rewrite firstn_app, firstn_all, PeanoNat.Nat.sub_diag. apply app_nil_r.
Qed.

Lemma has_section_read parse file n d : has_section parse file n d <-> read_section_data parse file n = Ok (Some d).
Proof.
  split.
  - intros (p & pre & s & post & before & after & P & L & F & S & V & E & B & D). unfold read_section_data. rewrite P.
    pose proof (find_section_spec (pe_sections p) n _ eq_refl) as FS.
    destruct (find_section (pe_sections p) n) as [[s'|]|u|]; cbn [bind].
    + destruct FS as (pre' & post' & L' & F' & S'). assert (s' = s) as -> by (eapply first_unique; eauto).
      apply N.leb_le in V. rewrite V. rewrite <- B, <- D, E, slice_app. reflexivity.
    + rewrite L in FS. apply Forall_app in FS as [_ FS]. inversion FS as [|? ? (m & N & NE) _]; subst. congruence.
    + contradiction.
    + destruct FS as (pre' & s' & post' & L' & F' & S'). assert (s' = s) as -> by (eapply first_unique; eauto). congruence.
  - intros H. apply read_some in H as (p & pre & s & post & P & L & F & S & V & SL).
    apply slice_some in SL as (before & after & E & B & D); [|lia].
    exists p, pre, s, post, before, after. repeat (split; [assumption|]). lia.
Qed.

Lemma resolve_panic esp k : resolve_efi_path esp k = Panic <-> k = [].
Proof. unfold resolve_efi_path. destruct k as [|x k]; [tauto|]. destruct (utf8_decode k); split; discriminate. Qed.

Section Entry.
Variable e : env.
Variable c : config.
Hypothesis HL : honest_listings e.
Hypothesis DC : digit_class (e_digit e).

Lemma regex_recognised key g n :
  match utf8_decode n with
  | Some s => stub_regex (e_digit e) (stub_prefix (e_sha e) key g) s
  | None => false
  end = true <-> recognised e key g n.
Proof.
  unfold recognised. destruct (utf8_decode n) as [s|].
  - rewrite (stub_regex_spec _ _ _ DC). split; intros (cnt & C & E); exists cnt; (split; [exact C|]); [rewrite E; reflexivity | injection E as E; exact E].
  - split; [discriminate | intros (cnt & _ & E); discriminate].
Qed.

Lemma linux_in_esp n : d_linux c ++ [n] = in_esp c [lit "EFI"; lit "Linux"; n].
Proof. unfold d_linux, d_efi, in_esp. rewrite <- !app_assoc. reflexivity. Qed.

Lemma entry_found_intact m t key g n kp ip : entry_found e c m t key g n kp ip -> intact e c m key g.
Proof.
  intros (D & F & stub & b & k & i & L & R1 & R2 & R3 & R4 & P1 & P2).
  apply find_some in F as [_ F]. rewrite regex_recognised in F.
  exists n, stub, b, k, i, kp, ip. rewrite <- linux_in_esp, !has_section_read. auto 10.
Qed.

Lemma register_outcome g s :
  (forall key n y b sec, sg_key (e_signer e) = Some key -> recognised e key g n ->
     lookup (s_fs s) (in_esp c [lit "EFI"; lit "Linux"; n]) = Some (NFile y b) -> In sec [lit ".linux"; lit ".initrd"] ->
     ~ section_panics (e_parse e) y sec /\ ~ section_empty (e_parse e) y sec) ->
  let '(s', r) := register_installed_generation e c g s in
  s_fs s' = s_fs s /\ s_trace s' = s_trace s /\ r <> Panic /\
  (no_faults e -> sg_key (e_signer e) <> None -> exists b, r = Ok b) /\
  (r = Ok true -> exists key, sg_key (e_signer e) = Some key /\ intact e c (s_fs s) key g).
Proof.
  intros NP.
  pose proof (sat_register e c (fun _ _ => True) g s (fun r s' =>
    s_fs s' = s_fs s /\ s_trace s' = s_trace s /\ r <> Panic /\
    (no_faults e -> sg_key (e_signer e) <> None -> exists b, r = Ok b) /\
    (r = Ok true -> exists key, sg_key (e_signer e) = Some key /\ intact e c (s_fs s) key g))) as [_ H].
  - intros s' (F & T & _) N. repeat (split; [auto; discriminate|]). split; [|discriminate]. intros NF K. destruct (K (N NF)).
  - intros s' t key (F & T & _) K (n & stub & b & FD & L & sec & IN & P). exfalso.
    apply find_some in FD as [_ FD]. rewrite regex_recognised in FD. rewrite linux_in_esp in L.
    destruct (NP key n stub b sec K FD L IN) as [N1 N2]. destruct P as [P|(k & P & R)].
    + apply read_panic in P. contradiction.
    + apply resolve_panic in R as ->. apply read_empty in P. contradiction.
  - intros s' (F & T & _) (key & t & n & kp & ip & ex & K & EF & _).
    repeat (split; [auto; discriminate|]). split; [eauto|]. intros _. exists key. split; [exact K|]. eapply entry_found_intact; exact EF.
  - intros s' key (F & T & _) _. repeat (split; [auto; discriminate|]). split; [eauto | discriminate].
  - destruct (register_installed_generation e c g s) as [s' r]. exact H.
Qed.
End Entry.

(** ** C49 *)

Lemma credentials_foreign c r : separate c -> ~ owned c (in_esp c ([lit "loader"; lit "credentials"] ++ r)).
Proof.
  intros SP H. remember (in_esp c ([lit "loader"; lit "credentials"] ++ r)) as q eqn:E.
  destruct H as [n r'|a y r'|p H| |p H|d n r' PL|d n r' PL]; unfold in_esp in E.
  - apply app_inv_head in E. discriminate.
  - apply app_inv_head in E. discriminate.
  - unfold boot_paths, in_esp in H. destruct (c_arch c); destruct H as [<- |[<- |[]]]; apply app_inv_head in E; discriminate.
  - apply app_inv_head in E. discriminate.
  - unfold temporary_paths, in_esp in H. destruct (c_arch c); destruct H as [<- |[<- |[<- |[]]]]; apply app_inv_head in E; discriminate.
  - destruct (SP d PL) as [S1 S2]. apply app_eq_app in E as (t & [[E1 E2]|[E1 E2]]); [apply S1 | apply S2]; exists t; exact E1.
  - destruct (SP d PL) as [S1 S2]. apply app_eq_app in E as (t & [[E1 E2]|[E1 E2]]); [apply S1 | apply S2]; exists t; exact E1.
Qed.

Lemma global_credentials e c m os r :
  separate c -> honest_listings e -> point e c m os ->
  let p := in_esp c ([lit "loader"; lit "credentials"] ++ r) in
  node_like (lookup (apply_all os m) p) (lookup m p).
Proof.
  intros SP HL PT p. destruct (foreign_untouched e c m os p HL PT (credentials_foreign c r SP)) as [H|(L & _ & q & O & A)]; [exact H|].
  exfalso. apply (credentials_foreign c (skipn 2 (skipn (length (c_esp c)) q)) SP).
  destruct A as (t & ->). unfold p, in_esp in *. rewrite <- app_assoc in O |- *.
  rewrite skipn_app, skipn_all, PeanoNat.Nat.sub_diag. cbn [skipn app] in *. exact O.
Qed.
