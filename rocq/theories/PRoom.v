(** Room on the ESP (C82). *)
From Coq Require Import List NArith Bool Lia.
From Verif Require Import Base PBase MText MOsRelease MGeneration MNames MTool MFs PFs MInstall PInstall SCommon SNames SInstall SExact SRoom PSelect.
Import ListNotations.
Open Scope nat_scope.

(** ** The size of a file system *)

Lemma used_cons p n m : used ((p, n) :: m) = size n + used m.
Proof. reflexivity. Qed.

Lemma used_remove p m : used (fs_remove p m) <= used m.
Proof.
  unfold fs_remove. induction m as [|[q n] m IH]; [reflexivity|]. cbn [filter fst].
  destruct (negb (eqb_path q p)); rewrite ?used_cons; lia.
Qed.

Lemma used_remove_here p n m : lookup m p = Some n -> size n + used (fs_remove p m) <= used m.
Proof.
  unfold fs_remove. induction m as [|[q x] m IH]; [discriminate|]. cbn [filter fst lookup].
  destruct (eqb_path q p) eqn:E; cbn [negb]; intros L; rewrite ?used_cons.
  - injection L as ->. pose proof (used_remove p m) as U. unfold fs_remove in U. lia.
  - specialize (IH L). lia.
Qed.

Lemma size_durable n : size (durable n) = size n.
Proof. destruct n; reflexivity. Qed.

Lemma used_sync d m : used (map (fun x => if MFs.below d (fst x) then (fst x, durable (snd x)) else x) m) = used m.
Proof.
  induction m as [|[q n] m IH]; [reflexivity|]. cbn [map fst snd].
  destruct (MFs.below d q); rewrite !used_cons, IH, ?size_durable; reflexivity.
Qed.

Definition adds (o : op) : nat := match o with OWrite _ x => length x | _ => 0 end.
Definition written (os : list op) : nat := list_sum (map adds os).

Lemma written_app a b : written (a ++ b) = written a + written b.
Proof. unfold written. rewrite map_app, list_sum_app. reflexivity. Qed.

Lemma used_apply o m : used (apply o m) <= used m + adds o.
Proof.
  destruct o as [p|p|p x|p|d|a b|p|p]; cbn [apply adds]; unfold fs_insert; rewrite ?used_cons.
  - cbn [size]. pose proof (used_remove p m). lia.
  - cbn [size length]. pose proof (used_remove p m). lia.
  - cbn [size]. pose proof (used_remove p m). lia.
  - destruct (lookup m p) as [n|] eqn:L; [|lia]. rewrite used_cons, size_durable. pose proof (used_remove_here p n m L). lia.
  - rewrite used_sync. lia.
  - destruct (lookup m a) as [n|] eqn:L; [|lia]. rewrite used_cons. pose proof (used_remove_here a n m L). pose proof (used_remove b (fs_remove a m)). lia.
  - lia.
  - pose proof (used_remove p m). lia.
Qed.

Lemma used_all os m : used (apply_all os m) <= used m + written os.
Proof.
  revert m. induction os as [|o os IH]; intros m.
  - unfold apply_all, written. cbn [fold_left map list_sum fold_right]. lia.
  - change (apply_all (o :: os) m) with (apply_all os (apply o m)). change (written (o :: os)) with (adds o + written os).
    specialize (IH (apply o m)). pose proof (used_apply o m). lia.
Qed.

(** ** What a piece of code writes *)

Definition costs {A} (b : nat) (m : I A) : Prop :=
  forall s, written (s_trace (fst (m s))) <= written (s_trace s) + b.

Lemma costs_le {A} b b' (m : I A) : costs b m -> b <= b' -> costs b' m.
Proof. intros H L s. specialize (H s). lia. Qed.

Lemma costs_bind {A B} b1 b2 (m : I A) (k : A -> I B) :
  costs b1 m -> (forall s s' a, m s = (s', Ok a) -> costs b2 (k a)) -> costs (b1 + b2) (ibind m k).
Proof.
  intros H1 H2 s. specialize (H1 s). unfold ibind. destruct (m s) as [s' [a|u|]] eqn:E; cbn [fst] in *; [|lia|lia].
  specialize (H2 s s' a E s'). lia.
Qed.

(** The first part writes nothing. *)
Lemma costs_then {A B} b (m : I A) (k : A -> I B) :
  costs 0 m -> (forall s s' a, m s = (s', Ok a) -> costs b (k a)) -> costs b (ibind m k).
Proof. intros H1 H2. exact (costs_bind 0 b m k H1 H2). Qed.

Lemma costs_ret {A} b (a : A) : costs b (iret a).
Proof. intros s. apply PeanoNat.Nat.le_add_r. Qed.
Lemma costs_fail {A} b : costs b (ifail : I A).
Proof. intros s. apply PeanoNat.Nat.le_add_r. Qed.
Lemma costs_panic {A} b : costs b (ipanic : I A).
Proof. intros s. apply PeanoNat.Nat.le_add_r. Qed.
Lemma costs_lift {A} b (r : res unit A) : costs b (ilift r).
Proof. intros s. apply PeanoNat.Nat.le_add_r. Qed.
Lemma costs_get {A} b (f : st -> A) : costs b (iget f).
Proof. intros s. apply PeanoNat.Nat.le_add_r. Qed.
Lemma costs_emit o : costs (adds o) (iemit o).
Proof. intros s. cbn [iemit fst s_trace]. rewrite written_app. change (written [o]) with (adds o + 0). lia. Qed.
Lemma costs_roots b l : costs b (iroots l).
Proof. intros s. apply PeanoNat.Nat.le_add_r. Qed.
Lemma costs_attempt {A} b (m : I A) : costs b m -> costs b (iattempt m).
Proof. intros H s. specialize (H s). unfold iattempt. destruct (m s) as [s' [a|u|]]; exact H. Qed.
Lemma costs_for {A} b (l : list A) (f : A -> I unit) : (forall x, In x l -> costs b (f x)) -> costs (length l * b) (ifor l f).
Proof.
  induction l as [|x l IH]; intros H; [apply costs_ret|]. cbn [ifor length Nat.mul]. apply costs_bind; [apply H; left; reflexivity|].
  intros ? ? ? _. apply IH. intros y Y. apply H. right. exact Y.
Qed.
Lemma costs_for0 {A} (l : list A) (f : A -> I unit) : (forall x, In x l -> costs 0 (f x)) -> costs 0 (ifor l f).
Proof. intros H. eapply costs_le; [apply (costs_for 0); exact H | lia]. Qed.

Section Costs.
Variable e : env.
Hypothesis NF : no_faults e.

Lemma costs_fault b : costs b (ifault e).
Proof. intros s. apply PeanoNat.Nat.le_add_r. Qed.
Lemma costs_guard b : costs b (iguard e).
Proof. unfold iguard. apply costs_then; [apply costs_fault|]. intros ? ? [|x] _; [apply costs_ret | apply costs_fail]. Qed.
Lemma costs_exists b p : costs b (iexists e p).
Proof. unfold iexists. apply costs_then; [apply costs_fault|]. intros ? ? [|x] _; [apply costs_get | apply costs_ret]. Qed.
Lemma costs_is_dir b p : costs b (iis_dir e p).
Proof. unfold iis_dir. apply costs_then; [apply costs_fault|]. intros ? ? [|x] _; [apply costs_get | apply costs_ret]. Qed.
Lemma costs_read b p : costs b (iread e p).
Proof.
  unfold iread. apply costs_then; [apply costs_guard|]. intros ? ? ? _. apply costs_then; [apply costs_get|].
  intros ? ? [[|x y]|] _; [apply costs_fail | apply costs_ret | apply costs_fail].
Qed.
Lemma costs_source b x : costs b (isource e x).
Proof. unfold isource. apply costs_then; [apply costs_guard|]. intros ? ? ? _. apply costs_lift. Qed.
Lemma source_val x s s' d : isource e x s = (s', Ok d) -> x = Some d.
Proof.
  unfold isource, iguard, ifault, ibind. destruct (e_fault e (s_tick s)); cbn; [|discriminate].
  unfold ilift, ok_or. destruct x; intros H; injection H as _ H; congruence.
Qed.
Lemma lift_val {A} (r : res unit A) s s' a : ilift r s = (s', Ok a) -> r = Ok a.
Proof. intros H. injection H as _ H. exact H. Qed.
Lemma ok_or_val {A} (x : option A) s s' a : ilift (ok_or x tt) s = (s', Ok a) -> x = Some a.
Proof. intros H. apply lift_val in H. destruct x; cbn in H; congruence. Qed.

Lemma costs_create b p : costs b (icreate e p).
Proof.
  unfold icreate. apply costs_then; [apply costs_guard|]. intros ? ? ? _. apply costs_then; [apply costs_get|].
  intros ? ? [] _; [eapply costs_le; [apply costs_emit | cbn; lia] | apply costs_fail].
Qed.
Lemma costs_write p x : costs (length x) (iwrite e p x).
Proof.
  unfold iwrite. apply costs_then; [apply costs_fault|]. intros ? ? f H. unfold ifault in H. rewrite NF in H. injection H as _ <-.
  exact (costs_emit (OWrite p x)).
Qed.
Lemma costs_sync b p : costs b (isync e p).
Proof. unfold isync. apply costs_then; [apply costs_guard|]. intros ? ? ? _. eapply costs_le; [apply costs_emit | cbn; lia]. Qed.
Lemma costs_rename b p q : costs b (irename e p q).
Proof.
  unfold irename. apply costs_then; [apply costs_guard|]. intros ? ? ? _. apply costs_then; [apply costs_get|].
  intros ? ? [] _; [eapply costs_le; [apply costs_emit | cbn; lia] | apply costs_fail].
Qed.
Lemma costs_mkdirs b done rest : costs b (imkdirs e done rest).
Proof.
  revert done. induction rest as [|n rest IH]; intros done; cbn [imkdirs]; [apply costs_ret|].
  apply costs_then; [apply costs_get|]. intros ? ? [] _; [apply IH|].
  apply costs_then; [apply costs_guard|]. intros ? ? ? _. apply costs_then; [apply costs_get|].
  intros ? ? [] _; [|apply costs_fail]. apply costs_then; [eapply costs_le; [apply costs_emit | cbn; lia]|]. intros ? ? ? _. apply IH.
Qed.
Lemma costs_parent b p : costs b (ensure_parent_dir e p).
Proof. unfold ensure_parent_dir. apply costs_then; [apply costs_attempt, costs_mkdirs|]. intros ? ? ? _. apply costs_ret. Qed.
Lemma costs_perm b p : costs b (set_permission_bits e p).
Proof.
  unfold set_permission_bits. apply costs_then; [apply costs_guard|]. intros ? ? ? _. apply costs_then; [apply costs_guard|]. intros ? ? ? _.
  apply costs_then; [apply costs_get|]. intros ? ? [] _; [eapply costs_le; [apply costs_emit | cbn; lia] | apply costs_fail].
Qed.

Lemma costs_copy b x to : (forall d, x = Some d -> length d <= b) -> costs b (atomic_copy e x to).
Proof.
  intros H. unfold atomic_copy. apply costs_then; [apply costs_source|]. intros ? ? d E. apply source_val in E. specialize (H d E).
  apply costs_then; [apply costs_create|]. intros ? ? ? _. replace b with (b + 0) by lia.
  apply costs_bind; [eapply costs_le; [apply costs_write | exact H]|]. intros ? ? ? _.
  apply costs_then; [apply costs_sync|]. intros ? ? ? _. apply costs_rename.
Qed.
Lemma costs_force b x to : (forall d, x = Some d -> length d <= b) -> costs b (force_install e x to).
Proof.
  intros H. unfold force_install. apply costs_then; [apply costs_parent|]. intros ? ? ? _. replace b with (b + 0) by lia.
  apply costs_bind; [apply costs_copy; exact H|]. intros ? ? ? _. apply costs_perm.
Qed.
Lemma costs_install_file b x to : (forall d, x = Some d -> length d <= b) -> costs b (install_file e x to).
Proof.
  intros H. unfold install_file. apply costs_then; [apply costs_exists|]. intros ? ? ex _. apply costs_then.
  { destruct ex; [|apply costs_ret]. apply costs_then; [apply costs_source|]. intros ? ? ? _. apply costs_then; [apply costs_read|]. intros ? ? ? _. apply costs_ret. }
  intros ? ? [] _; [apply costs_force; exact H | apply costs_ret].
Qed.
Lemma costs_signed b x to : (forall d y, x = Some d -> sg_sign (e_signer e) d = Some y -> length y <= b) -> costs b (install_signed e x to).
Proof.
  intros H. unfold install_signed, sign_and_copy. apply costs_then; [apply costs_parent|]. intros ? ? ? _. replace b with (b + 0) by lia.
  apply costs_bind; [|intros ? ? ? _; apply costs_rename].
  apply costs_then; [apply costs_source|]. intros ? ? d E. apply source_val in E. destruct (sg_sign (e_signer e) d) as [y|] eqn:S; [|apply costs_fail].
  apply costs_then; [apply costs_create|]. intros ? ? ? _. eapply costs_le; [apply costs_write | eapply H; eauto].
Qed.
Lemma costs_lock b x to : (forall d y, x = Some d -> e_lock e d = Some y -> length y <= b) -> costs b (lock_pe e x to).
Proof.
  intros H. unfold lock_pe. apply costs_then; [apply costs_source|]. intros ? ? d E. apply source_val in E.
  destruct (e_lock e d) as [y|] eqn:S; [|apply costs_fail]. apply costs_then; [apply costs_parent|]. intros ? ? ? _.
  apply costs_then; [apply costs_create|]. intros ? ? ? _. eapply costs_le; [apply costs_write | eapply H; eauto].
Qed.

Lemma costs_remove_dir p : costs 0 (remove_dir_all e p).
Proof.
  unfold remove_dir_all. apply costs_then; [apply costs_get|]. intros ? ? st0 _. apply costs_for0. intros q _.
  apply costs_then; [apply costs_guard|]. intros ? ? ? _. apply costs_emit.
Qed.
Lemma costs_collect dir f : costs 0 (collect_garbage_with_filter e dir f).
Proof.
  unfold collect_garbage_with_filter. apply costs_then; [apply costs_get|]. intros ? ? st0 _. apply costs_for0. intros q _.
  destruct (existsb _ _); [apply costs_ret|]. destruct (negb _); [apply costs_ret|]. apply costs_then; [apply costs_is_dir|].
  intros ? ? [] _; [apply costs_remove_dir|]. apply costs_then; [apply costs_fault|]. intros ? ? f' _. apply costs_then; [apply costs_get|].
  intros ? ? here _. destruct f'; [|apply costs_ret]. destruct here; [apply costs_emit | apply costs_ret].
Qed.

Variable c : config.

Lemma costs_key b : costs b (get_public_key e).
Proof. apply costs_source. Qed.

Lemma costs_registered b prefix : costs b (read_installed_generation e c prefix).
Proof.
  unfold read_installed_generation. apply costs_then; [apply costs_guard|]. intros ? ? ? _. apply costs_then; [apply costs_get|]. intros ? ? st0 _.
  destruct (negb _); [apply costs_fail|]. destruct (find _ _); [|apply costs_fail].
  apply costs_then; [apply costs_read|]. intros ? ? stub _. apply costs_then; [apply costs_lift|]. intros ? ? k _.
  apply costs_then; [apply costs_lift|]. intros ? ? k' _. apply costs_then; [apply costs_lift|]. intros ? ? kp _.
  apply costs_then; [apply costs_lift|]. intros ? ? i _. apply costs_then; [apply costs_lift|]. intros ? ? i' _.
  apply costs_then; [apply costs_lift|]. intros ? ? ip _. apply costs_then; [apply costs_exists|]. intros ? ? kx _.
  destruct (negb kx); [apply costs_fail|]. apply costs_then; [apply costs_exists|]. intros ? ? ix _. destruct (negb ix); [apply costs_fail | apply costs_ret].
Qed.

Lemma costs_register b g : costs b (register_installed_generation e c g).
Proof.
  unfold register_installed_generation. apply costs_then; [apply costs_key|]. intros ? ? key _.
  apply costs_then; [apply costs_attempt, costs_registered|]. intros ? ? [[[st kp] ip]|] _; [|apply costs_ret].
  apply costs_then; [apply costs_roots|]. intros ? ? ? _. destruct (c_pcrlock c) as [d|]; [|apply costs_ret].
  apply costs_then; [apply costs_exists|]. intros ? ? [] _; [|apply costs_ret]. apply costs_then; [apply costs_roots|]. intros ? ? ? _. apply costs_ret.
Qed.

Lemma costs_ca b x label : (forall d, x = Some d -> length d <= b) -> costs b (install_nixos_ca e c x label).
Proof.
  intros H. unfold install_nixos_ca. apply costs_then; [apply costs_source|]. intros ? ? d _. apply costs_then; [apply costs_roots|]. intros ? ? ? _.
  replace b with (b + 0) by lia. apply costs_bind; [apply costs_install_file; exact H|]. intros ? ? ? _. apply costs_ret.
Qed.

Lemma ca_val x label s s' to : install_nixos_ca e c x label s = (s', Ok to) -> exists d, x = Some d /\ to = content_path e c label d.
Proof.
  unfold install_nixos_ca, ibind. destruct (isource e x s) as [s1 [d|u|]] eqn:E; try discriminate. apply source_val in E.
  cbn [iroots]. destruct (install_file e x _ _) as [s2 [[]|u|]]; try discriminate. intros H. injection H as _ <-. exists d. split; [exact E|].
  unfold content_path, d_nixos, d_efi. rewrite <- app_assoc. reflexivity.
Qed.

Lemma costs_initrd b bs : costs b (initrd_location e bs).
Proof.
  unfold initrd_location. destruct (bs_initrd_secrets bs) as [script|]; destruct (bs_initrd bs) as [p|]; try apply costs_fail; try apply costs_panic; try apply costs_ret.
  apply costs_then; [apply costs_source|]. intros ? ? d _. apply costs_then; [apply costs_guard|]. intros ? ? ? _.
  apply costs_then; [apply costs_source|]. intros ? ? ? _. apply costs_ret.
Qed.

Lemma initrd_val g s s' x d : initrd_location e (g_spec g) s = (s', Ok x) -> x = Some d -> initrd_of e g d.
Proof.
  unfold initrd_location, initrd_of. destruct (bs_initrd_secrets (g_spec g)) as [script|]; destruct (bs_initrd (g_spec g)) as [p|]; try discriminate.
  - unfold ibind. intros H ->. destruct (isource e (e_store e (components p)) s) as [s1 [d1|u|]] eqn:E1; try discriminate. apply source_val in E1.
    destruct (iguard e s1) as [s2 [[]|u|]]; try discriminate.
    destruct (isource e (e_secrets e script d1) s2) as [s3 [d2|u|]] eqn:E2; try discriminate. apply source_val in E2.
    injection H as _ ->. exists p, d1. auto.
  - intros H ->. injection H as _ H. exists p, d. auto.
Qed.

Variable z : sizes.
Hypothesis W : within e c z.

Lemma costs_generation g : selected c g ->
  costs (z_kernel z + z_initrd z + z_stub z + z_component z) (install_generation e c g).
Proof.
  intros S. unfold install_generation. apply costs_then; [apply costs_register|]. intros ? ? [] _; [apply costs_ret|].
  apply costs_then; [apply costs_guard|]. intros ? ? ? _. apply costs_then; [apply costs_lift|]. intros ? ? kver KV. apply ok_or_val in KV.
  rewrite <- !PeanoNat.Nat.add_assoc. apply costs_bind; [apply costs_ca; intros d E; exact (wi_kernel _ _ _ W g d S E)|]. intros ? ? kt KT. apply ca_val in KT as (kd' & KD' & ->).
  apply costs_then; [apply costs_initrd|]. intros i0 i1 ini EI.
  apply costs_bind; [apply costs_ca; intros d E; exact (wi_initrd _ _ _ W g d S (initrd_val g i0 i1 ini d EI E))|]. intros ? ? it IT. apply ca_val in IT as (id' & ID' & ->).
  apply costs_then; [apply costs_lift|]. intros ? ? cmd CM. apply lift_val in CM.
  apply costs_then; [apply costs_lift|]. intros ? ? kp KP. apply ok_or_val in KP. apply costs_then; [apply costs_lift|]. intros ? ? ip IP. apply ok_or_val in IP.
  apply costs_then; [apply costs_source|]. intros ? ? kd KD. apply source_val in KD. apply costs_then; [apply costs_source|]. intros ? ? id ID. apply source_val in ID.
  apply costs_then; [apply costs_source|]. intros ? ? stub ST. apply source_val in ST. apply costs_then; [apply costs_guard|]. intros ? ? ? _.
  apply costs_then; [apply costs_lift|]. intros ? ? image IM. apply lift_val in IM.
  assert (image_of e c g image) as IO .
  { exists stub, cmd, kver, kp, kd, ip, id. assert (kd' = kd) as -> by congruence. assert (id' = id) as -> by congruence.
    pose proof (initrd_val g i0 i1 ini id EI ID). auto 10. }
  rewrite PeanoNat.Nat.add_comm. apply costs_bind.
  { destruct (c_pcrlock c) as [d|]; [|apply costs_ret]. replace (z_component z) with (z_component z + 0) by lia.
    apply costs_bind; [|intros ? ? ? _; apply costs_roots].
    apply costs_lock. intros y x [= <-] L. exact (wi_component _ _ _ W g image x S IO L). }
  intros ? ? ? _. apply costs_then; [apply costs_key|]. intros ? ? key _. apply costs_then; [apply costs_roots|]. intros ? ? ? _.
  apply costs_signed. intros y x [= <-] L. exact (wi_stub _ _ _ W g image x S IO L).
Qed.

Lemma costs_newer b x p : costs b (newer_systemd_boot e x p).
Proof.
  unfold newer_systemd_boot. apply costs_then; [apply costs_exists|]. intros ? ? ex _. destruct (negb ex); [apply costs_ret|].
  apply costs_then; [apply costs_source|]. intros ? ? f _. apply costs_then; [apply costs_lift|]. intros ? ? fv _.
  apply costs_then; [apply costs_attempt; apply costs_then; [apply costs_read|]; intros ? ? t _; apply costs_lift|].
  intros ? ? [v|] _; apply costs_ret.
Qed.

Lemma costs_verify b p : costs b (verify_path e p).
Proof. unfold verify_path. apply costs_then; [apply costs_guard|]. intros ? ? ? _. apply costs_get. Qed.

Lemma costs_loader : costs (2 * z_systemd z + z_component z + z_conf z) (install_systemd_boot e c).
Proof.
  unfold install_systemd_boot. cbv zeta.
  apply costs_then; [apply costs_newer|]. intros ? ? n1 _. apply costs_then; [destruct n1; [apply costs_ret | apply costs_newer]|]. intros ? ? nw _.
  apply costs_then; [apply costs_verify|]. intros ? ? s1 _. apply costs_then; [destruct s1; [apply costs_verify | apply costs_ret]|]. intros ? ? sg _.
  apply costs_then; [destruct (c_pcrlock c); [apply costs_exists | apply costs_ret]|]. intros ? ? ms _.
  apply costs_bind.
  - destruct (nw || negb sg || negb ms); [|apply costs_ret]. rewrite PeanoNat.Nat.add_comm. apply costs_bind.
    { destruct (c_pcrlock c) as [d|]; [|apply costs_ret]. apply costs_lock. intros y x E L. exact (wi_loader _ _ _ W y x E L). }
    intros ? ? ? _. replace (2 * z_systemd z) with (2 * z_systemd z + 0) by lia. apply costs_bind.
    { apply (costs_for (z_systemd z) [p_fallback c; p_systemd c]). intros p _. apply costs_signed. intros y x E L. exact (wi_systemd _ _ _ W y x E L). }
    intros ? ? ? _. destruct (c_pcrlock c) as [d|]; [apply costs_rename | apply costs_ret].
  - intros ? ? ? _. apply costs_install_file. exact (wi_conf _ _ _ W).
Qed.

Lemma costs_collect_all : costs 0 (collect_all e c).
Proof.
  unfold collect_all. apply costs_then; [apply costs_get|]. intros ? ? [|b l] _; [|apply costs_ret].
  apply costs_then; [apply costs_collect|]. intros ? ? ? _. apply costs_then; [apply costs_collect|]. intros ? ? ? _.
  destruct (c_pcrlock c); [apply costs_collect | apply costs_ret].
Qed.
End Costs.

(** ** A run *)

Lemma few_selected sel : length (flat_map link_generations sel) <= length sel + list_sum (map specialisations sel).
Proof.
  induction sel as [|[v l] sel IH]; [reflexivity|]. cbn [flat_map length]. rewrite app_length.
  change (list_sum (map specialisations ((v, l) :: sel))) with (specialisations (v, l) + list_sum (map specialisations sel)).
  assert (length (link_generations (v, l)) <= S (specialisations (v, l))) as H; [|lia].
  unfold link_generations, specialisations. cbn [snd fst]. destruct (l_spec l) as [b|]; [|cbn; lia].
  unfold parse_boot_json. cbn [length g_specs]. rewrite map_length. lia.
Qed.

Lemma peak e c m z vs : no_faults e -> within e c z -> links_versions (c_links c) vs -> exists sel, newest (c_limit c) vs sel /\
  forall os, point e c m os -> used (apply_all os m) <= used m + room z (length sel + list_sum (map specialisations sel)).
Proof.
  intros NF W LV. destruct (install_selected e c m vs NF LV) as (sel & s0 & NW & [_ T0] & R).
  exists sel. split; [exact NW|]. intros os [rest P]. pose proof (used_all os m) as U.
  assert (written os <= room z (length sel + list_sum (map specialisations sel))) as B; [|lia].
  assert (written (s_trace (fst (run_install e c m))) <= room z (length (flat_map link_generations sel))) as T.
  { rewrite R. clear R. destruct (flat_map link_generations sel) as [|g gs] eqn:E; [cbn [fst]; rewrite T0; apply PeanoNat.Nat.le_0_l|].
    rewrite <- E. assert (written (s_trace s0) = 0) as Z by (rewrite T0; reflexivity).
    assert (costs (room z (length (flat_map link_generations sel)))
              (let* _ := ifor (flat_map link_generations sel) (install_generation e c) in finish e c)) as C.
    { unfold room. apply costs_bind.
      - apply costs_for. intros g' G. apply costs_generation; [exact NF | exact W |]. exists vs, sel. auto.
      - intros _ _ _ _. unfold finish. apply costs_then.
        + apply costs_then; [apply costs_guard|]. intros _ _ _ _. apply costs_then; [apply costs_get|]. intros _ _ d _.
          destruct (negb d); [apply costs_fail|]. apply costs_then; [apply costs_guard|]. intros _ _ _ _. apply (costs_emit (OSyncAll (c_esp c))).
        + intros _ _ _ _. rewrite <- (PeanoNat.Nat.add_0_r (2 * z_systemd z + z_component z + z_conf z)). apply costs_bind; [apply costs_loader; assumption|].
          intros _ _ _ _. apply costs_collect_all. }
    specialize (C s0). rewrite Z in C. exact C. }
  rewrite P, written_app in T. unfold room in *. pose proof (few_selected sel) as F.
  assert (length (flat_map link_generations sel) * (z_kernel z + z_initrd z + z_stub z + z_component z)
          <= (length sel + list_sum (map specialisations sel)) * (z_kernel z + z_initrd z + z_stub z + z_component z)) as X
    by (apply PeanoNat.Nat.mul_le_mono_r; exact F).
  lia.
Qed.
