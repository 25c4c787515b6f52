(** Proofs for C29, C35, C42, C44, C53, C54. *)
From Coq Require Import List NArith Bool Lia ZArith ZifyBool ZifyNat ZifyN.
From Verif Require Import Base PBase MText MCpio MPe MFirmware MStub PMonad SFirmware.
Import ListNotations.
Open Scope N_scope.
Ltac Zify.zify_post_hook ::= Z.to_euclidean_division_equations.

(** ** C29 *)
Lemma secure_boot_spec : forall fw h,
  exists answer off,
    get_secure_boot_status fw h =
      (h ++ [EvGet (lit "SecureBoot") global_vendor 1 answer], Ok (negb off)) /\
    (off = true <-> answer = GOk [0] \/ answer = GErr NOT_FOUND).
Proof.
  intros fw h. unfold get_secure_boot_status, get_variable, call, mbind, ret.
  set (a := fw_get fw h _ _ 1).
  exists a. fold global_vendor.
  destruct a as [[|v [|]]|e].
  - exists false; split; [reflexivity|]. split; [discriminate|intros [H|H]; discriminate].
  - exists (v =? 0); split; [reflexivity|]. split.
    + intros H; apply N.eqb_eq in H; subst; auto.
    + intros [H|H]; [|discriminate]. injection H as H. subst; reflexivity.
  - exists false; split; [reflexivity|]. split; [discriminate|intros [H|H]; discriminate].
  - destruct e; try (exists false; split; [reflexivity|]; split;
      [discriminate | intros [H|H]; discriminate]).
    exists true; split; [reflexivity|]. split; auto.
Qed.

(** ** C53 *)
Lemma from_le_number : forall l, from_le l = le_number l.
Proof. induction l as [|b l IH]; cbn [from_le fold_right le_number]; [reflexivity|]. unfold from_le in IH; rewrite IH; reflexivity. Qed.

Lemma mask_ones : features_mask = N.ones 11.
Proof. reflexivity. Qed.

Lemma mask_known : forall v, (N.land v features_mask =? v) = true <-> known_features v.
Proof.
  intros v. rewrite mask_ones, N.land_ones, N.eqb_eq. unfold known_features.
  change (2 ^ 11) with 2048. split; intros H; [|apply N.mod_small; auto].
  rewrite <- H. apply N.mod_lt; discriminate.
Qed.

Lemma loader_features_spec : forall fw h, exists answer r,
  get_loader_features fw h = (h ++ [EvGet (lit "LoaderFeatures") systemd_vendor 8 answer], r) /\
  features_spec answer r.
Proof.
  intros fw h. unfold get_loader_features, get_variable, call, mbind.
  set (a := fw_get fw h _ _ 8). exists a. fold systemd_vendor. change loader_vendor with systemd_vendor.
  destruct a as [d|e]; cbn [features_spec].
  - destruct (len d =? 8) eqn:E; cbn [negb].
    + rewrite from_le_number. unfold len in E. apply N.eqb_eq in E.
      destruct (N.land (le_number d) features_mask =? le_number d) eqn:K.
      * eexists; split; [reflexivity|]. right; right. apply mask_known in K. repeat split; auto. lia.
      * eexists; split; [reflexivity|]. right; left. repeat split; auto; [lia|].
        rewrite <- mask_known. congruence.
    + eexists; split; [reflexivity|]. left. unfold len in E. split; [lia|reflexivity].
  - destruct e; (eexists; split; [reflexivity|]); try (right; split; [discriminate|reflexivity]).
    left; auto.
Qed.

(** ** C54 *)
Lemma part_uuid_first : forall nodes,
  match part_uuid nodes with
  | Ok g => first_gpt nodes g
  | Err e => e = UNSUPPORTED /\ forall n g, In n nodes -> ~ gpt_node n g
  | Panic => False
  end.
Proof.
  assert (Step : forall n ns, (forall g, ~ gpt_node n g) ->
    match part_uuid ns with
    | Ok g => first_gpt ns g
    | Err e => e = UNSUPPORTED /\ forall m g, In m ns -> ~ gpt_node m g
    | Panic => False
    end ->
    match part_uuid ns with
    | Ok g => first_gpt (n :: ns) g
    | Err e => e = UNSUPPORTED /\ forall m g, In m (n :: ns) -> ~ gpt_node m g
    | Panic => False
    end).
  { intros n ns Hn H. destruct (part_uuid ns) as [g|e|]; auto.
    - destruct H as (b & m & a & -> & G & Hb). exists (n :: b), m, a. repeat split; try apply G.
      intros x g' [<-|I]; auto.
    - destruct H as [-> H]; split; auto. intros m g [<-|I]; auto. }
  induction nodes as [|n ns IH].
  - split; [reflexivity|]. intros n g [].
  - cbn [part_uuid]. destruct (is_hard_drive n) eqn:E; cbn [negb].
    + destruct (dp_hd n) as [[| |g]|] eqn:S;
        try (apply Step; [intros g' (_ & _ & G); congruence | exact IH]).
      exists [], n, ns. unfold is_hard_drive in E. apply andb_prop in E; destruct E as [E1 E2].
      apply N.eqb_eq in E1, E2.
      split; [reflexivity|]. split; [repeat split; auto|]. intros m g' [].
    + apply Step; [|exact IH]. intros g' (T & U & _). unfold is_hard_drive in E.
      rewrite T, U in E. discriminate.
Qed.

(** ** C35 *)
Lemma nth_error_skipn_add : forall {A} n (l : list A) i, nth_error (skipn n l) i = nth_error l (n + i).
Proof.
  induction n as [|n IH]; intros l i; [reflexivity|].
  destruct l as [|x l]; cbn; [destruct i; reflexivity | apply IH].
Qed.

Lemma load_file_null_size : forall initrd buffer,
  load_file initrd None buffer = (Some INVALID_PARAMETER, None, buffer).
Proof. reflexivity. Qed.

Lemma load_file_too_small : forall initrd n buffer,
  buffer = None \/ n < N.of_nat (length initrd) ->
  load_file initrd (Some n) buffer = (Some BUFFER_TOO_SMALL, Some (N.of_nat (length initrd)), buffer).
Proof.
  intros initrd n buffer H. cbn [load_file]. unfold len. destruct buffer as [m|]; [|reflexivity].
  destruct H as [H|H]; [discriminate|]. replace (n <? N.of_nat (length initrd)) with true by lia. reflexivity.
Qed.

Lemma load_file_success : forall initrd n mem,
  N.of_nat (length initrd) <= n -> n <= N.of_nat (length mem) ->
  exists mem',
    load_file initrd (Some n) (Some mem) = (None, Some n, Some mem') /\
    same_except_prefix mem mem' initrd.
Proof.
  intros initrd n mem H1 H2. cbn [load_file]. unfold len.
  replace (n <? N.of_nat (length initrd)) with false by lia.
  eexists; split; [reflexivity|]. unfold same_except_prefix.
  split; [|split].
  - rewrite app_length, skipn_length. lia.
  - intros i Hi. apply nth_error_app1; auto.
  - intros i Hi. rewrite nth_error_app2 by auto. rewrite nth_error_skipn_add. f_equal. lia.
Qed.

Lemma load_file_query : forall initrd n mem,
  exists k,
    load_file initrd (Some n) None = (Some BUFFER_TOO_SMALL, Some k, None) /\
    (N.of_nat (length mem) = k ->
     load_file initrd (Some k) (Some mem) = (None, Some k, Some initrd)).
Proof.
  intros initrd n mem. exists (N.of_nat (length initrd)). split; [reflexivity|]. intros H.
  cbn [load_file]. unfold len.
  replace (N.of_nat (length initrd) <? N.of_nat (length initrd)) with false by lia.
  rewrite skipn_all2 by lia. rewrite app_nil_r. reflexivity.
Qed.

(** ** C44 *)
Lemma land_mask : forall r, N.land r 0xFFFFF = r mod 1048576.
Proof. intros r. change 0xFFFFF with (N.ones 20). apply N.land_ones. Qed.

Lemma firmware_info_text : forall vendor r,
  firmware_info vendor r = vendor ++ [32] ++ version_text (r / 65536) (r mod 1048576).
Proof.
  intros vendor r. unfold firmware_info, version_text, dec2.
  rewrite N.shiftr_div_pow2. change (2 ^ 16) with 65536. rewrite land_mask. reflexivity.
Qed.

Definition pad2 (n : N) : str := if n <? 10 then [48] ++ dec n else dec n.

Lemma pad2_value : forall n, digits_value (pad2 n) = n.
Proof.
  intros n; unfold pad2. destruct (n <? 10); [|apply dec_value].
  rewrite <- (dec_value n) at 2. reflexivity.
Qed.

Lemma split_dot : forall a b p q : list N,
  Forall (fun c => 48 <= c <= 57) a -> Forall (fun c => 48 <= c <= 57) b ->
  a ++ 46 :: p = b ++ 46 :: q -> a = b /\ p = q.
Proof.
  induction a as [|x a IH]; intros [|y b] p q Fa Fb E; cbn in E.
  - injection E as ->; auto.
  - injection E as E _; subst. inversion Fb; lia.
  - injection E as E _; subst. inversion Fa; lia.
  - injection E as -> E. inversion Fa; inversion Fb; subst.
    destruct (IH _ _ _ H2 H6 E); subst; auto.
Qed.

Lemma version_text_inj : forall a b c d, version_text a b = version_text c d -> a = c /\ b = d.
Proof.
  intros a b c d E. unfold version_text in E. cbn [app] in E.
  apply split_dot in E; try apply dec_digits. destruct E as [E1 E2].
  split; [apply dec_inj; auto|].
  change (pad2 b = pad2 d) in E2.
  rewrite <- (pad2_value b), <- (pad2_value d), E2. reflexivity.
Qed.

Lemma firmware_info_right_iff : forall vendor r,
  firmware_info vendor r = vendor ++ [32] ++ version_text (r / 65536) (r mod 65536) <->
  (r / 65536) mod 16 = 0.
Proof.
  intros vendor r. rewrite firmware_info_text. split.
  - intros E. apply app_inv_head, app_inv_head, version_text_inj in E. lia.
  - intros E. do 3 f_equal. lia.
Qed.

(** ** C42 *)
Lemma variable_exists_run : forall fw n v h,
  exists a, variable_exists fw n v h =
    (h ++ [EvGet n v 1 a],
     match a with
     | GOk _ => Ok true
     | GErr BUFFER_TOO_SMALL => Ok true
     | GErr NOT_FOUND => Ok false
     | GErr e => Err e
     end) /\ a = fw_get fw h n v 1.
Proof.
  intros fw n v h. exists (fw_get fw h n v 1). split; [|reflexivity].
  unfold variable_exists, get_variable, call, mbind.
  destruct (fw_get fw h n v 1) as [d|[]]; reflexivity.
Qed.

Lemma set_variable_run : forall fw n v d h,
  set_variable fw n v d h =
    (h ++ [EvSet n v 6 d (fw_set fw h n v d)],
     match fw_set fw h n v d with None => Ok tt | Some e => Err e end).
Proof. intros. unfold set_variable, call, mbind. destruct (fw_set fw h n v d); reflexivity. Qed.

(** What [ensure_efi_variable] does, for fallbacks that emit only events [P]. *)
Lemma ensure_run : forall fw n v (P : event -> Prop) fallback h h' r,
  emits P fallback ->
  ensure_efi_variable fw n v fallback h = (h', r) ->
  exists a mid, a = fw_get fw h n v 1 /\ Forall P mid /\
    ((exists d, a = GOk d) \/ a = GErr BUFFER_TOO_SMALL ->
       h' = h ++ [EvGet n v 1 a] /\ r = Ok tt) /\
    (forall e, a = GErr e -> e <> BUFFER_TOO_SMALL ->
       exists r1, fallback (h ++ [EvGet n v 1 a]) = (h ++ [EvGet n v 1 a] ++ mid, r1) /\
       match r1 with
       | Ok d => h' = h ++ [EvGet n v 1 a] ++ mid ++
                   [EvSet n v 6 d (fw_set fw (h ++ [EvGet n v 1 a] ++ mid) n v d)]
       | Err _ => h' = h ++ [EvGet n v 1 a] ++ mid
       | Panic => r = Panic
       end).
Proof.
  intros fw n v P fallback h h' r HP H. unfold ensure_efi_variable in H.
  destruct (variable_exists_run fw n v h) as (a & E & Ea).
  unfold mbind at 1 in H. unfold attempt in H. rewrite E in H.
  destruct (fallback (h ++ [EvGet n v 1 a])) as [hf rf] eqn:Ef.
  destruct (HP _ _ _ Ef) as (mid & -> & Fm).
  exists a, mid. split; [exact Ea|]. split; [exact Fm|].
  assert (Set_case : (v0 <- fallback;; set_variable fw n v v0) (h ++ [EvGet n v 1 a]) = (h', r) ->
    exists r1, fallback (h ++ [EvGet n v 1 a]) = (h ++ [EvGet n v 1 a] ++ mid, r1) /\
       match r1 with
       | Ok d => h' = h ++ [EvGet n v 1 a] ++ mid ++
                   [EvSet n v 6 d (fw_set fw (h ++ [EvGet n v 1 a] ++ mid) n v d)]
       | Err _ => h' = h ++ [EvGet n v 1 a] ++ mid
       | Panic => r = Panic
       end).
  { intros S. exists rf. rewrite Ef, <- app_assoc. split; [reflexivity|].
    unfold mbind in S. rewrite Ef in S. destruct rf as [d|e|].
    - rewrite set_variable_run, <- !app_assoc in S. congruence.
    - rewrite <- app_assoc in S. congruence.
    - congruence. }
  split.
  - intros [[d ->] | ->]; inversion H; auto.
  - intros e -> Hne. rewrite Ef. rewrite <- Ef. clear Ef.
    destruct e; try (apply Set_case; exact H). congruence.
Qed.

Lemma guarded_app : forall a b, guarded a -> guarded b -> guarded (a ++ b).
Proof.
  intros a b Ha Hb pre n at0 d r post E I.
  apply app_eq_app in E. destruct E as [l [[E1 E2] | [E1 E2]]].
  - destruct l as [|x l].
    + cbn in E2. destruct (Hb [] n at0 d r post) as (p & e & m & Ep & R & F); auto.
      destruct p; discriminate.
    + cbn in E2. injection E2 as <- ->. eapply Ha; eauto.
  - subst pre. destruct (Hb l n at0 d r post) as (p & e & m & -> & R & F); auto.
    exists (a ++ p), e, m. rewrite <- app_assoc. auto.
Qed.

Lemma guarded_no_set : forall es, Forall (fun e => ~ is_set e) es -> guarded es.
Proof.
  intros es F pre n a d r post E I. subst. apply Forall_app in F; destruct F as [_ F].
  inversion F; subst. exfalso; apply H1; exact Logic.I.
Qed.

Lemma guarded_other : forall n v a d r,
  v = systemd_vendor -> ~ In n loader_variables -> guarded [EvSet n v a d r].
Proof.
  intros n v a d r -> N pre n' a' d' r' post E I.
  destruct pre as [|x [|]]; cbn in E; try discriminate. congruence.
Qed.

Lemma guarded_after_missing : forall n a mid d r at0,
  (exists e, a = GErr e /\ e <> BUFFER_TOO_SMALL) -> Forall (fun e => ~ is_set e) mid ->
  guarded (EvGet n systemd_vendor 1 a :: mid ++ [EvSet n systemd_vendor at0 d r]).
Proof.
  intros n a mid d r at0 (e & -> & He) F pre n' a' d' r' post E I.
  destruct pre as [|x pre]; cbn in E; [discriminate|].
  injection E as <- E.
  apply (app_split_notin is_set) in E; [| auto | exact Logic.I].
  destruct E as (p2 & -> & E). destruct p2 as [|y [|]]; cbn in E; try discriminate.
  injection E as -> -> -> ->. rewrite app_nil_r.
  exists [], (EvGet n' systemd_vendor 1 (GErr e)), mid. cbn. auto.
Qed.

(** Code whose events are guarded. *)
Definition guardedM {A} (m : M A) : Prop :=
  forall h h' r, m h = (h', r) -> exists es, h' = h ++ es /\ guarded es.

Lemma guardedM_no_set : forall {A} (m : M A), emits (fun e => ~ is_set e) m -> guardedM m.
Proof.
  intros A m Hm h h' r H. destruct (Hm _ _ _ H) as (es & -> & F).
  exists es; split; auto using guarded_no_set.
Qed.
Lemma guardedM_bind : forall {A B} (m : M A) (k : A -> M B),
  guardedM m -> (forall a, guardedM (k a)) -> guardedM (mbind m k).
Proof.
  intros A B m k Hm Hk h h' r H; apply mbind_inv in H.
  destruct H as [(h1 & a & H1 & H2) | [(e & H1 & ->) | (H1 & ->)]].
  - destruct (Hm _ _ _ H1) as (e1 & -> & F1). destruct (Hk _ _ _ _ H2) as (e2 & -> & F2).
    exists (e1 ++ e2); rewrite app_assoc; auto using guarded_app.
  - eapply Hm; eauto.
  - eapply Hm; eauto.
Qed.
Lemma guardedM_attempt : forall {A} (m : M A), guardedM m -> guardedM (attempt m).
Proof.
  intros A m Hm h h' r H; apply attempt_inv in H.
  destruct H as [(a & H1 & ->) | [(e & H1 & ->) | (H1 & ->)]]; eapply Hm; eauto.
Qed.
Lemma guardedM_expect : forall {A} (m : M A), guardedM m -> guardedM (expect m).
Proof.
  intros A m Hm h h' r H; apply expect_inv in H.
  destruct H as [(a & H1 & ->) | [(e & H1 & ->) | (H1 & ->)]]; eapply Hm; eauto.
Qed.
Lemma guardedM_set : forall fw n d,
  ~ In n loader_variables -> guardedM (set_variable fw n loader_vendor d).
Proof.
  intros fw n d N h h' r H. rewrite set_variable_run in H. inversion H; subst.
  eexists; split; [reflexivity|]. apply guarded_other; auto.
Qed.
Lemma guardedM_ensure : forall fw n fallback,
  emits (fun e => ~ is_set e) fallback ->
  guardedM (ensure_efi_variable fw n loader_vendor fallback).
Proof.
  intros fw n fallback Hf h h' r H.
  destruct (ensure_run _ _ _ _ _ _ _ _ Hf H) as (a & mid & Ea & F & H1 & H2).
  assert (C : ((exists d, a = GOk d) \/ a = GErr BUFFER_TOO_SMALL) \/
              (exists e, a = GErr e /\ e <> BUFFER_TOO_SMALL)).
  { destruct a as [d|e]; eauto. destruct e; eauto; right; eexists; (split; [reflexivity|discriminate]). }
  destruct C as [C|C].
  - destruct (H1 C) as [-> _]. eexists; split; [reflexivity|]. apply guarded_no_set.
    constructor; auto.
  - pose proof C as (e & Ee & He). destruct (H2 e Ee He) as (r1 & Er1 & H3).
    destruct r1 as [d|e1|].
    + rewrite H3. eexists; split; [reflexivity|]. apply guarded_after_missing; auto.
    + rewrite H3. eexists; split; [reflexivity|]. apply guarded_no_set. constructor; auto.
    + unfold ensure_efi_variable in H. unfold mbind at 1, attempt in H.
      destruct (variable_exists_run fw n loader_vendor h) as (a' & Ev & Ea'). rewrite Ev in H.
      rewrite <- Ea in Ea'. subst a'.
      assert (h' = h ++ [EvGet n loader_vendor 1 a] ++ mid).
      { subst a. rewrite Ee in *. destruct e; try congruence; unfold mbind in H; rewrite Er1 in H; congruence. }
      subst h'. eexists; split; [reflexivity|]. apply guarded_no_set. constructor; auto.
Qed.

Lemma no_set_device_path : forall fw,
  emits (fun e => ~ is_set e)
    (g <- disk_get_part_uuid fw ;; ret (utf16_bytes (guid_text g))).
Proof. intros fw. unfold disk_get_part_uuid. emitsM; cbn; auto. Qed.

Lemma no_set_image_text : forall fw,
  emits (fun e => ~ is_set e) (r <- call (fw_image_text fw) EvImageText ;; answer r).
Proof. intros fw. emitsM; cbn; auto. Qed.

Lemma not_loader : forall n, negb (existsb (eqb_bytes n) loader_variables) = true -> ~ In n loader_variables.
Proof.
  intros n H I. apply negb_true_iff in H. assert (existsb (eqb_bytes n) loader_variables = true).
  { apply existsb_exists. exists n; split; auto. apply eqb_bytes_refl. }
  congruence.
Qed.

Lemma guardedM_export : forall fw nm, guardedM (export_efi_variables fw nm).
Proof.
  intros fw nm. unfold export_efi_variables.
  repeat first
    [ apply guardedM_no_set; solve [emitsM; cbn; auto]
    | apply guardedM_attempt; apply guardedM_ensure;
      first [apply no_set_device_path | apply no_set_image_text | apply emits_ret]
    | apply guardedM_attempt; apply guardedM_set; apply not_loader; reflexivity
    | apply guardedM_bind; [|intros] ].
Qed.

(** ** Existing values survive *)
Definition keeps (st : vstore) (n : str) (d : bytes) {A} (m : M A) : Prop :=
  forall h h' r, m h = (h', r) ->
    store_after st h n systemd_vendor = Some d -> store_after st h' n systemd_vendor = Some d.

Lemma store_after_app : forall st a b, store_after st (a ++ b) = store_after (store_after st a) b.
Proof. intros; apply fold_left_app. Qed.

Lemma store_no_set : forall es st, Forall (fun e => ~ is_set e) es -> store_after st es = st.
Proof.
  induction es as [|e es IH]; intros st F; [reflexivity|]. inversion F; subst.
  change (store_after (apply_set st e) es = st). rewrite (IH _ H2). destruct e; try reflexivity. exfalso; apply H1; exact I.
Qed.

Lemma keeps_no_set : forall st n d {A} (m : M A), emits (fun e => ~ is_set e) m -> keeps st n d m.
Proof.
  intros st n d A m Hm h h' r H K. destruct (Hm _ _ _ H) as (es & -> & F).
  rewrite store_after_app, store_no_set; auto.
Qed.
Lemma keeps_bind : forall st n d {A B} (m : M A) (k : A -> M B),
  keeps st n d m -> (forall a, keeps st n d (k a)) -> keeps st n d (mbind m k).
Proof.
  intros st n d A B m k Hm Hk h h' r H K; apply mbind_inv in H.
  destruct H as [(h1 & a & H1 & H2) | [(e & H1 & ->) | (H1 & ->)]].
  - eapply Hk; eauto.
  - eapply Hm; eauto.
  - eapply Hm; eauto.
Qed.
Lemma keeps_attempt : forall st n d {A} (m : M A), keeps st n d m -> keeps st n d (attempt m).
Proof.
  intros st n d A m Hm h h' r H; apply attempt_inv in H.
  destruct H as [(a & H1 & ->) | [(e & H1 & ->) | (H1 & ->)]]; eapply Hm; eauto.
Qed.
Lemma keeps_expect : forall st n d {A} (m : M A), keeps st n d m -> keeps st n d (expect m).
Proof.
  intros st n d A m Hm h h' r H; apply expect_inv in H.
  destruct H as [(a & H1 & ->) | [(e & H1 & ->) | (H1 & ->)]]; eapply Hm; eauto.
Qed.

Lemma store_set_other : forall st n n' v a d r,
  n' <> n -> apply_set st (EvSet n' v a d r) n systemd_vendor = st n systemd_vendor.
Proof.
  intros st n n' v a d r Hn. cbn. destruct r; [reflexivity|].
  apply eqb_bytes_false in Hn. rewrite Hn. reflexivity.
Qed.

Lemma keeps_set : forall st n d fw n' d',
  n' <> n -> keeps st n d (set_variable fw n' loader_vendor d').
Proof.
  intros st n d fw n' d' Hn h h' r H K. rewrite set_variable_run in H. inversion H; subst.
  rewrite store_after_app. cbn [store_after fold_left]. rewrite store_set_other; auto.
Qed.

Lemma keeps_ensure : forall st n d fw n' fallback,
  answers_from st fw -> emits (fun e => ~ is_set e) fallback ->
  keeps st n d (ensure_efi_variable fw n' loader_vendor fallback).
Proof.
  intros st n d fw n' fallback HA Hf h h' r H K.
  destruct (guardedM_ensure fw n' fallback Hf _ _ _ H) as (es & -> & _).
  destruct (ensure_run _ _ _ _ _ _ _ _ Hf H) as (a & mid & Ea & F & H1 & H2).
  destruct (eqb_bytes n' n) eqn:En.
  - apply eqb_bytes_spec in En; subst n'.
    assert (C : (exists d, a = GOk d) \/ a = GErr BUFFER_TOO_SMALL).
    { pose proof (HA h n systemd_vendor 1) as X. rewrite K in X.
      change loader_vendor with systemd_vendor in Ea. rewrite <- Ea in X.
      destruct (N.of_nat (length d) <=? 1); eauto. }
    destruct (H1 C) as [E _]. rewrite E, store_after_app, store_no_set; auto.
  - apply eqb_bytes_false in En.
    destruct a as [d0|e].
    + destruct H1 as [E _]; [eauto|]. rewrite E, store_after_app, store_no_set; auto.
    + destruct (match e with BUFFER_TOO_SMALL => true | _ => false end) eqn:B.
      { destruct H1 as [E _]; [right; destruct e; congruence|]. rewrite E, store_after_app, store_no_set; auto. }
      assert (NB : e <> BUFFER_TOO_SMALL) by (intros ->; discriminate).
      destruct (H2 e eq_refl NB) as (r1 & Er1 & H3). destruct r1 as [d1|e1|].
      * rewrite H3. rewrite !app_assoc, store_after_app. cbn [store_after fold_left].
        rewrite store_set_other by auto. change (store_after st ((h ++ [EvGet n' loader_vendor 1 (GErr e)]) ++ mid) n systemd_vendor = Some d).
        rewrite <- app_assoc, store_after_app, store_no_set; auto. constructor; auto.
      * rewrite H3, store_after_app, store_no_set; auto. constructor; auto.
      * unfold ensure_efi_variable in H. unfold mbind at 1, attempt in H.
        destruct (variable_exists_run fw n' loader_vendor h) as (a' & Ev & Ea'). rewrite Ev in H.
        rewrite <- Ea in Ea'. subst a'.
        assert (X : h ++ es = h ++ [EvGet n' loader_vendor 1 (GErr e)] ++ mid).
        { destruct e; try congruence; unfold mbind in H; rewrite Er1 in H; congruence. }
        rewrite X, store_after_app, store_no_set; auto. constructor; auto.
Qed.

Lemma loader_neq : forall n n', In n loader_variables ->
  negb (existsb (eqb_bytes n') loader_variables) = true -> n' <> n.
Proof. intros n n' I N ->. apply (not_loader n N I). Qed.

Lemma keeps_export : forall st n d fw nm,
  answers_from st fw -> In n loader_variables -> keeps st n d (export_efi_variables fw nm).
Proof.
  intros st n d fw nm HA Hn. unfold export_efi_variables.
  repeat first
    [ apply keeps_no_set; solve [emitsM; cbn; auto]
    | apply keeps_attempt; apply keeps_ensure; [exact HA|];
      first [apply no_set_device_path | apply no_set_image_text | apply emits_ret]
    | apply keeps_attempt; apply keeps_set; apply loader_neq; [exact Hn | reflexivity]
    | apply keeps_bind; [|intros] ].
Qed.

(** ** All are attempted *)
Lemma guid_text_spec : forall g, guid_text g = guid_notation g.
Proof. intros g. unfold guid_text, guid_notation, guid_bytes_order. cbn [map concat join_dash]. rewrite !app_nil_r, <- !app_assoc. reflexivity. Qed.

Lemma utf16_ascii : forall s, Forall (fun c => c < 128) s -> utf16_bytes s = ascii16 s.
Proof.
  induction s as [|c s IH]; intros F; [reflexivity|]. inversion F; subst.
  unfold utf16_bytes in *. cbn [flat_map]. unfold utf16_char at 1.
  replace (c <? 65536) with true by lia. unfold le16 in *. cbn [app flat_map ascii16].
  rewrite IH by auto. rewrite N.mod_small, N.div_small by lia. reflexivity.
Qed.

Lemma utf16_utf16 : forall s, Forall scalar s -> utf16 s (utf16_bytes s).
Proof.
  induction s as [|c s IH]; intros F; [constructor|]. inversion F as [|? ? C F']; subst. specialize (IH F').
  change (utf16_bytes (c :: s)) with (le16 (utf16_char c ++ flat_map utf16_char s)). unfold utf16_char at 1.
  destruct (c <? 65536) eqn:B.
  - change (le16 ([c] ++ flat_map utf16_char s)) with (c mod 256 :: c / 256 :: utf16_bytes s).
    pose proof (N.div_mod c 256 ltac:(discriminate)). pose proof (N.mod_lt c 256 ltac:(discriminate)).
    apply ut_basic; [lia | assumption | apply N.div_lt_upper_bound; lia | unfold scalar in C; lia | exact IH].
  - set (d := c - 65536). set (x := 55296 + d / 1024). set (y := 56320 + d mod 1024).
    change (le16 ([x; y] ++ flat_map utf16_char s)) with (x mod 256 :: x / 256 :: y mod 256 :: y / 256 :: utf16_bytes s).
    pose proof (N.div_mod x 256 ltac:(discriminate)). pose proof (N.mod_lt x 256 ltac:(discriminate)).
    pose proof (N.div_mod y 256 ltac:(discriminate)). pose proof (N.mod_lt y 256 ltac:(discriminate)).
    pose proof (N.div_mod d 1024 ltac:(discriminate)). pose proof (N.mod_lt d 1024 ltac:(discriminate)).
    assert (d / 1024 < 1024). { apply N.div_lt_upper_bound; [discriminate|]. unfold scalar in C; unfold d; lia. }
    assert (c = 65536 + d) by (unfold d; lia). clearbody d.
    generalize dependent (x mod 256). generalize dependent (x / 256). generalize dependent (y mod 256). generalize dependent (y / 256).
    intros yh yl EY LY xh xl EX LX. unfold x, y in *. apply ut_pair; try lia. exact IH.
Qed.

Lemma utf16_unique : forall b s t, utf16 s b -> utf16 t b -> s = t.
Proof.
  intros b s t S. revert t. induction S; intros t T; inversion T; subst; try reflexivity; try lia.
  - f_equal. apply IHS. assumption.
  - f_equal. apply IHS. assumption.
Qed.

Lemma hex_byte_ascii : forall b, b < 256 -> Forall (fun c => c < 128) (hex_byte b).
Proof.
  intros b Hb. unfold hex_byte, hex_char.
  repeat constructor; [destruct (b / 16 <? 10) eqn:E | destruct (b mod 16 <? 10) eqn:E]; lia.
Qed.

Lemma guid_notation_ascii : forall g, Forall (fun b => b < 256) g -> Forall (fun c => c < 128) (guid_notation g).
Proof.
  intros g F.
  assert (X : forall i, Forall (fun c => c < 128) (hex_byte (nth i g 0))).
  { intros i. apply hex_byte_ascii. destruct (Nat.lt_ge_cases i (length g)).
    - rewrite Forall_forall in F. apply F, nth_In; auto.
    - rewrite nth_overflow by auto. reflexivity. }
  unfold guid_notation, guid_bytes_order. cbn [map concat join_dash].
  repeat first [ apply X | apply Forall_nil | apply Forall_cons; [reflexivity|] | apply Forall_app; split ].
Qed.

Definition never_panics {A} (m : M A) : Prop := forall h, snd (m h) <> Panic.

Lemma ensure_attempted : forall fw n fallback h,
  emits (fun e => ~ is_set e) fallback -> never_panics fallback ->
  exists es x, attempt (ensure_efi_variable fw n loader_vendor fallback) h = (h ++ es, Ok x) /\
    exists a, In (EvGet n systemd_vendor 1 a) es /\
      (forall e, a = GErr e -> e <> BUFFER_TOO_SMALL ->
        exists h1 mid r1, fallback h1 = (h1 ++ mid, r1) /\ (forall x, In x mid -> In x es) /\
          match r1 with
          | Ok d => exists r, In (EvSet n systemd_vendor 6 d r) es
          | Err _ => True
          | Panic => False
          end).
Proof.
  intros fw n fallback h Hf Hp. unfold attempt.
  destruct (ensure_efi_variable fw n loader_vendor fallback h) as [h' r] eqn:H.
  destruct (guardedM_ensure fw n fallback Hf _ _ _ H) as (es & -> & _).
  destruct (ensure_run _ _ _ _ _ _ _ _ Hf H) as (a & mid & Ea & F & H1 & H2).
  assert (NP : r <> Panic).
  { intros ->. unfold ensure_efi_variable in H. unfold mbind at 1, attempt in H.
    destruct (variable_exists_run fw n loader_vendor h) as (a' & Ev & Ea'). rewrite Ev in H.
    assert (NF : forall h, snd ((v <- fallback ;; set_variable fw n loader_vendor v) h) <> Panic).
    { intros h0. unfold mbind. specialize (Hp h0). destruct (fallback h0) as [hf [d|e|]]; [|discriminate|exfalso; apply Hp; reflexivity].
      rewrite set_variable_run. destruct (fw_set fw hf n loader_vendor d); discriminate. }
    destruct a' as [d|[]]; cbn in H; try discriminate;
      match type of H with ?m ?h0 = _ => apply (NF h0); change (snd (m h0) = Panic); rewrite H; reflexivity end. }
  assert (R : exists x, match r with
                        | Ok a => (h ++ es, Ok (inl a))
                        | Err e => (h ++ es, Ok (inr e))
                        | Panic => (h ++ es, Panic)
                        end = (h ++ es, Ok (E := status) x)).
  { destruct r; try congruence; eauto. }
  destruct R as [x R]. exists es, x. split; [exact R|]. exists a.
  assert (IG : In (EvGet n systemd_vendor 1 a) es).
  { destruct a as [d|e].
    - destruct H1 as [E _]; [eauto|]. apply app_inv_head in E. rewrite E. left; reflexivity.
    - destruct (match e with BUFFER_TOO_SMALL => true | _ => false end) eqn:B.
      + destruct H1 as [E _]; [right; destruct e; congruence|]. apply app_inv_head in E. rewrite E. left; reflexivity.
      + assert (NB : e <> BUFFER_TOO_SMALL) by (intros ->; discriminate).
        destruct (H2 e eq_refl NB) as (r1 & Er1 & H3). destruct r1; [| |congruence];
          apply app_inv_head in H3; rewrite H3; left; reflexivity. }
  split; [exact IG|]. intros e Ee He.
  destruct (H2 e Ee He) as (r1 & Er1 & H3).
  exists (h ++ [EvGet n systemd_vendor 1 a]), mid, r1. rewrite <- app_assoc. split; [exact Er1|].
  destruct r1 as [d|e1|]; [| |congruence]; apply app_inv_head in H3; rewrite H3.
  - split.
    + intros y I. apply in_or_app; right. apply in_or_app; left; auto.
    + eexists. apply in_or_app; right. apply in_or_app; right. left. reflexivity.
  - split; [|exact I]. intros y I. apply in_or_app; right; auto.
Qed.


Lemma device_path_run : forall fw h,
  exists mid r, (g <- disk_get_part_uuid fw ;; ret (utf16_bytes (guid_text g))) h = (h ++ mid, r) /\
    mid = [EvDevicePath (fw_device_path fw h)] /\
    match r with
    | Ok d => exists nodes g, fw_device_path fw h = inl nodes /\ first_gpt nodes g /\
                d = utf16_bytes (guid_text g)
    | Err _ => (exists e, fw_device_path fw h = inr e) \/
               (exists nodes, fw_device_path fw h = inl nodes /\ forall n g, In n nodes -> ~ gpt_node n g)
    | Panic => False
    end.
Proof.
  intros fw h. unfold disk_get_part_uuid, call, mbind, answer, lift, ret, fail.
  destruct (fw_device_path fw h) as [nodes|e] eqn:E.
  - pose proof (part_uuid_first nodes) as P. destruct (part_uuid nodes) as [g|e|]; [| |contradiction].
    + do 2 eexists; split; [reflexivity|]. split; [reflexivity|]. eauto.
    + destruct P as [-> P]. do 2 eexists; split; [reflexivity|]. split; [reflexivity|]. eauto.
  - do 2 eexists; split; [reflexivity|]. split; [reflexivity|]. eauto.
Qed.

Lemma export_attempts : forall fw nm h h' r,
  guids_are_bytes fw -> fw_open_image fw h = None -> Forall scalar nm ->
  export_efi_variables fw nm h = (h', r) ->
  r = Ok tt /\ exists es, h' = h ++ es /\
    (forall n, In n loader_variables -> attempted es n) /\
    (exists d r1, utf16 nm d /\ In (EvSet (lit "StubInfo") systemd_vendor 6 d r1) es) /\
    (exists r2, In (EvSet (lit "StubFeatures") systemd_vendor 6 [1; 0; 0; 0; 0; 0; 0; 0] r2) es).
Proof.
  intros fw nm h h' r HG Ho Hnm H. unfold export_efi_variables in H.
  unfold mbind at 1 in H. unfold call at 1 in H. rewrite Ho in H. cbn [check] in H.
  unfold mbind at 1, ret at 1 in H.
  set (h0 := h ++ [EvOpenImage None]) in *.
  edestruct (ensure_attempted fw (lit "LoaderDevicePartUUID")
    (g <- disk_get_part_uuid fw ;; ret (utf16_bytes (guid_text g))) h0) as (e1 & x1 & R1 & a1 & I1 & K1).
  { apply no_set_device_path. }
  { intros hh. destruct (device_path_run fw hh) as (m & rr & -> & _ & D). cbn. destruct rr; try discriminate. contradiction. }
  unfold mbind at 1 in H. rewrite R1 in H.
  edestruct (ensure_attempted fw (lit "LoaderImageIdentifier")
    (r <- call (fw_image_text fw) EvImageText ;; answer r) (h0 ++ e1)) as (e2 & x2 & R2 & a2 & I2 & K2).
  { apply no_set_image_text. }
  { intros hh. unfold mbind, call, answer. destruct (fw_image_text fw hh); discriminate. }
  unfold mbind at 1 in H. rewrite R2 in H.
  match type of H with context[ensure_efi_variable fw (lit "LoaderFirmwareInfo") _ ?f] =>
    edestruct (ensure_attempted fw (lit "LoaderFirmwareInfo") f ((h0 ++ e1) ++ e2)) as (e3 & x3 & R3 & a3 & I3 & K3);
    [apply emits_ret | intros hh; discriminate|] end.
  unfold mbind at 1 in H. rewrite R3 in H.
  match type of H with context[ensure_efi_variable fw (lit "LoaderFirmwareType") _ ?f] =>
    edestruct (ensure_attempted fw (lit "LoaderFirmwareType") f (((h0 ++ e1) ++ e2) ++ e3)) as (e4 & x4 & R4 & a4 & I4 & K4);
    [apply emits_ret | intros hh; discriminate|] end.
  unfold mbind at 1 in H. rewrite R4 in H.
  unfold mbind at 1, attempt at 1 in H. rewrite set_variable_run in H.
  set (h4 := (((h0 ++ e1) ++ e2) ++ e3) ++ e4) in *.
  set (r5 := fw_set fw h4 (lit "StubInfo") loader_vendor (utf16_bytes nm)) in *.
  assert (H' : (_ <- attempt (set_variable fw (lit "StubFeatures") loader_vendor [1; 0; 0; 0; 0; 0; 0; 0]) ;; ret tt)
     (h4 ++ [EvSet (lit "StubInfo") loader_vendor 6 (utf16_bytes nm) r5]) = (h', r)).
  { destruct r5; exact H. }
  clear H. unfold mbind at 1, attempt at 1 in H'. rewrite set_variable_run in H'.
  set (h5 := h4 ++ [EvSet (lit "StubInfo") loader_vendor 6 (utf16_bytes nm) r5]) in *.
  set (r6 := fw_set fw h5 (lit "StubFeatures") loader_vendor [1; 0; 0; 0; 0; 0; 0; 0]) in *.
  assert (H : (h5 ++ [EvSet (lit "StubFeatures") loader_vendor 6 [1; 0; 0; 0; 0; 0; 0; 0] r6], Ok tt) = (h', r)).
  { destruct r6; exact H'. }
  clear H'. inversion H; subst h' r; clear H. split; [reflexivity|].
  exists ([EvOpenImage None] ++ e1 ++ e2 ++ e3 ++ e4 ++
          [EvSet (lit "StubInfo") loader_vendor 6 (utf16_bytes nm) r5;
           EvSet (lit "StubFeatures") loader_vendor 6 [1; 0; 0; 0; 0; 0; 0; 0] r6]).
  split; [unfold h5, h4, h0; rewrite <- !app_assoc; reflexivity|].
  split; [|split].
  - assert (In1 : forall x, In x e1 -> In x ([EvOpenImage None] ++ e1 ++ e2 ++ e3 ++ e4 ++
          [EvSet (lit "StubInfo") loader_vendor 6 (utf16_bytes nm) r5;
           EvSet (lit "StubFeatures") loader_vendor 6 [1; 0; 0; 0; 0; 0; 0; 0] r6]))
      by (intros x I; rewrite !in_app_iff; auto 10).
    assert (In2 : forall x, In x e2 -> In x ([EvOpenImage None] ++ e1 ++ e2 ++ e3 ++ e4 ++
          [EvSet (lit "StubInfo") loader_vendor 6 (utf16_bytes nm) r5;
           EvSet (lit "StubFeatures") loader_vendor 6 [1; 0; 0; 0; 0; 0; 0; 0] r6]))
      by (intros x I; rewrite !in_app_iff; auto 10).
    assert (In3 : forall x, In x e3 -> In x ([EvOpenImage None] ++ e1 ++ e2 ++ e3 ++ e4 ++
          [EvSet (lit "StubInfo") loader_vendor 6 (utf16_bytes nm) r5;
           EvSet (lit "StubFeatures") loader_vendor 6 [1; 0; 0; 0; 0; 0; 0; 0] r6]))
      by (intros x I; rewrite !in_app_iff; auto 10).
    assert (In4 : forall x, In x e4 -> In x ([EvOpenImage None] ++ e1 ++ e2 ++ e3 ++ e4 ++
          [EvSet (lit "StubInfo") loader_vendor 6 (utf16_bytes nm) r5;
           EvSet (lit "StubFeatures") loader_vendor 6 [1; 0; 0; 0; 0; 0; 0; 0] r6]))
      by (intros x I; rewrite !in_app_iff; auto 10).
    match type of In1 with forall x, _ -> In x ?l => set (es := l) in * end.
    intros n [<- | [<- | [<- | [<- | []]]]].
    + exists a1. split; [auto|]. intros e Ee He.
      destruct (K1 e Ee He) as (hh & mid & rr & Rf & Sub & Res).
      destruct (device_path_run fw hh) as (m' & r' & Rf' & Em & D). rewrite Rf in Rf'.
      apply pair_equal_spec in Rf'. destruct Rf' as [Eh <-]. apply app_inv_head in Eh. subst m' mid.
      specialize (Sub _ (or_introl eq_refl)). apply In1 in Sub.
      destruct rr as [d|e'|]; [| |contradiction].
      * left. destruct Res as [r0 Res]. exists d, r0. split; [auto|].
        left. split; [reflexivity|]. destruct D as (nodes & g & Ed & Fg & ->).
        rewrite Ed in Sub. exists nodes, g. split; [exact Sub|]. split; [exact Fg|].
        rewrite guid_text_spec. apply utf16_ascii, guid_notation_ascii.
        destruct Fg as (b & n & af & -> & G & _). eapply HG; [exact Ed| |apply G].
        apply in_or_app; right; left; reflexivity.
      * right; left. split; [reflexivity|]. destruct D as [[e0 D] | (nodes & D & ND)]; rewrite D in Sub; [right; eauto|].
        left. exists nodes. split; [exact Sub|]. intros g (b & n & af & -> & G & _).
        apply (ND n g); auto. apply in_or_app; right; left; reflexivity.
    + exists a2. split; [auto|]. intros e Ee He.
      destruct (K2 e Ee He) as (hh & mid & rr & Rf & Sub & Res).
      unfold mbind, call, answer in Rf.
      destruct (fw_image_text fw hh) as [d|e'] eqn:Et; unfold ret, fail in Rf;
        apply pair_equal_spec in Rf; destruct Rf as [Eh <-]; apply app_inv_head in Eh; subst mid;
        specialize (Sub _ (or_introl eq_refl)); apply In2 in Sub.
      * left. destruct Res as [r0 Res]. exists d, r0. split; [auto|]. right; left; auto.
      * right; right. split; [reflexivity|]. eauto.
    + exists a3. split; [auto|]. intros e Ee He.
      destruct (K3 e Ee He) as (hh & mid & rr & Rf & Sub & Res).
      unfold ret in Rf. apply pair_equal_spec in Rf; destruct Rf as [_ <-]. destruct Res as [r0 Res].
      left. do 2 eexists. split; [apply In3; exact Res|]. right; right; left; reflexivity.
    + exists a4. split; [auto|]. intros e Ee He.
      destruct (K4 e Ee He) as (hh & mid & rr & Rf & Sub & Res).
      unfold ret in Rf. apply pair_equal_spec in Rf; destruct Rf as [_ <-]. destruct Res as [r0 Res].
      left. do 2 eexists. split; [apply In4; exact Res|]. right; right; right; reflexivity.
  - exists (utf16_bytes nm), r5. split; [apply utf16_utf16; exact Hnm|]. rewrite !in_app_iff. right; right; right; right; right. left; reflexivity.
  - exists r6. rewrite !in_app_iff. right; right; right; right; right. right; left; reflexivity.
Qed.
