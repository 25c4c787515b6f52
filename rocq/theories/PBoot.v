(** The boot loader phase of a run (install.rs:437-519,679-697). *)
From Coq Require Import List NArith Bool Lia.
From Verif Require Import Base PBase MText PText MVersion MGeneration MNames MFs PFs MPe MTool MInstall PInstall SInstall PFiles PPaths PGen.
Import ListNotations.
Open Scope N_scope.

Lemma suf_ne t1 t2 a b : length t1 = length t2 -> t1 <> t2 -> file_ends t1 a -> file_ends t2 b -> a <> b.
Proof.
  intros L N H1 H2 ->. destruct (file_ends_both _ _ _ H1 H2) as (n & A & B). apply N. eapply ends_unique; eauto.
Qed.

Lemma file_ends_snoc t d n : file_ends t (d ++ [n ++ t]).
Proof. exists d, (n ++ t). split; [reflexivity | exists n; reflexivity]. Qed.

Lemma file_ends_4 p : file_ends (lit "..tmp") p -> file_ends (lit ".tmp") p.
Proof. intros (d & n & -> & H). exists d, n. split; [reflexivity|]. exact (ends_tail [46] (lit ".tmp") n H). Qed.

Lemma file_ends_lock4 p : file_ends (lit ".pcrlock") p -> file_ends (lit "lock") p.
Proof. intros (d & n & -> & H). exists d, n. split; [reflexivity|]. exact (ends_tail (lit ".pcr") (lit "lock") n H). Qed.

Section Boot.
Variable e : env.
Variable c : config.

Definition is_boot (p : path) : Prop := p = p_fallback c \/ p = p_systemd c.

Lemma tmp_boot_ends p : is_boot p \/ p = p_conf c -> file_ends (lit ".tmp") (tmp_path p).
Proof.
  intros H. apply file_ends_4, file_ends_tmp. intros E.
  destruct H as [[-> | ->] | ->]; unfold p_fallback, p_systemd, p_conf in E; apply app_eq_nil in E as [_ E]; discriminate.
Qed.

Lemma fallback_ends : file_ends (lit ".EFI") (p_fallback c).
Proof.
  unfold p_fallback. destruct (c_arch c).
  - exact (file_ends_snoc (lit ".EFI") (d_boot c) (lit "BOOTX64")).
  - exact (file_ends_snoc (lit ".EFI") (d_boot c) (lit "BOOTAA64")).
Qed.

Lemma systemd_ends : file_ends (lit ".efi") (p_systemd c).
Proof.
  unfold p_systemd. destruct (c_arch c).
  - exact (file_ends_snoc (lit ".efi") (d_systemd c) (lit "systemd-bootx64")).
  - exact (file_ends_snoc (lit ".efi") (d_systemd c) (lit "systemd-bootaa64")).
Qed.

Lemma conf_ends : file_ends (lit "conf") (p_conf c).
Proof. exact (file_ends_snoc (lit "conf") (d_loader c) (lit "loader.")). Qed.

Lemma bootlock_ends d n : file_ends (lit "lock") (p_lock_bootloader d n).
Proof.
  unfold p_lock_bootloader. replace (n ++ lit ".pcrlock") with ((n ++ lit ".pcr") ++ lit "lock") by (rewrite <- app_assoc; reflexivity).
  apply file_ends_snoc.
Qed.

Lemma fallback_ne_systemd : p_fallback c <> p_systemd c.
Proof. apply (suf_ne (lit ".EFI") (lit ".efi")); [reflexivity | discriminate | apply fallback_ends | apply systemd_ends]. Qed.

Lemma next_ne_current d : p_lock_bootloader d (lit "next") <> p_lock_bootloader d (lit "current").
Proof. unfold p_lock_bootloader. intros E. apply app_inj_tail in E as [_ E]. discriminate. Qed.

Lemma boot_ne_tmp p q : is_boot p -> is_boot q \/ q = p_conf c -> p <> tmp_path q.
Proof.
  intros [-> | ->] H.
  - eapply (suf_ne (lit ".EFI") (lit ".tmp")); [reflexivity | discriminate | apply fallback_ends | apply tmp_boot_ends; exact H].
  - eapply (suf_ne (lit ".efi") (lit ".tmp")); [reflexivity | discriminate | apply systemd_ends | apply tmp_boot_ends; exact H].
Qed.

Lemma boot_ne_lock p d n : is_boot p -> p <> p_lock_bootloader d n.
Proof.
  intros [-> | ->].
  - eapply (suf_ne (lit ".EFI") (lit "lock")); [reflexivity | discriminate | apply fallback_ends | apply bootlock_ends].
  - eapply (suf_ne (lit ".efi") (lit "lock")); [reflexivity | discriminate | apply systemd_ends | apply bootlock_ends].
Qed.

Lemma lock_ne_tmp_boot d n q : is_boot q \/ q = p_conf c -> p_lock_bootloader d n <> tmp_path q.
Proof.
  intros H. eapply (suf_ne (lit "lock") (lit ".tmp")); [reflexivity | discriminate | apply bootlock_ends | apply tmp_boot_ends; exact H].
Qed.

Lemma boot_ne p : is_boot p \/ p = p_conf c -> p <> [].
Proof.
  intros [[-> | ->] | ->]; unfold p_fallback, p_systemd, p_conf; intros E; apply app_eq_nil in E as [_ E]; discriminate.
Qed.

Lemma boot_ne_conf p : is_boot p -> p <> p_conf c.
Proof.
  intros [-> | ->].
  - eapply (suf_ne (lit ".EFI") (lit "conf")); [reflexivity | discriminate | apply fallback_ends | apply conf_ends].
  - eapply (suf_ne (lit ".efi") (lit "conf")); [reflexivity | discriminate | apply systemd_ends | apply conf_ends].
Qed.

(** ** The decision *)

Let shipped := shipped_systemd_boot e c.

(** Both versions are readable. *)
Definition versioned (m : fs) (p : path) : Prop :=
  exists x v w, shipped = Some x /\ systemd_boot_version (e_parse e) x = Ok v /\ boot_version e m p = Ok w.

Lemma sat_newer G p s (Q : res unit bool -> st -> Prop) : p <> [] ->
  (forall s', same s s' -> (no_faults e -> forall x v, shipped = Some x -> systemd_boot_version (e_parse e) x <> Ok v) ->
     Q (Err tt) s') ->
  (forall s', same s s' ->
     (exists x, shipped = Some x /\ systemd_boot_version (e_parse e) x = Panic) \/ boot_version e (s_fs s) p = Panic ->
     Q Panic s') ->
  (forall s' b, same s s' -> (no_faults e -> (b = true <-> out_of_date e shipped (s_fs s) p)) ->
     (b = false -> present (s_fs s) p = true /\ ~ out_of_date e shipped (s_fs s) p /\ versioned (s_fs s) p) -> Q (Ok b) s') ->
  sat G (newer_systemd_boot e shipped p) s Q.
Proof.
  intros PN HE HP HO. unfold newer_systemd_boot. apply sat_bind, sat_exists; cbn [after]. intros ex X1 X2.
  destruct ex; cbn [negb].
  2: { apply sat_ret. apply HO; [apply same_ticked | | discriminate]. intros NF. split; [intros _|reflexivity].
       left. symmetry. exact (X2 NF). }
  specialize (X1 eq_refl). apply sat_bind, sat_source; cbn [after].
  { intros N. apply HE; [repeat split|]. intros NF x v E. rewrite (N NF) in E. discriminate. }
  intros x Hx. apply sat_bind_lift.
  { intros E. apply HP; [repeat split|]. left. eauto. }
  { intros [] E. apply HE; [repeat split|]. intros _ x' v E'. congruence. }
  intros v V. apply sat_bind, sat_attempt, sat_bind, sat_read; cbn [after]; cbn [ticked s_fs].
  { intros N. apply sat_ret. apply HO; [repeat split | | discriminate]. intros NF. split; [intros _|reflexivity].
    right. exists x, v. split; [exact Hx|]. split; [exact V|]. left. unfold boot_version.
    destruct (lookup (s_fs s) p) as [[|y b]|] eqn:L; auto. destruct (N NF y b eq_refl). }
  intros y b L. apply sat_lift.
  assert (boot_version e (s_fs s) p = systemd_boot_version (e_parse e) y) as BV by (unfold boot_version; rewrite L; reflexivity).
  destruct (systemd_boot_version (e_parse e) y) as [w|[]|] eqn:W; cbn [after].
  - apply sat_ret. apply HO; [repeat split | |].
    + intros _. split.
      * intros G1. right. exists x, v. split; [exact Hx|]. split; [exact V|]. right. exists w. split; [congruence | exact G1].
      * intros [Z|(x' & v' & E1 & E2 & [Z|(w' & Z & GT)])]; try congruence.
    + intros GF. split; [exact X1|]. split; [|exists x, v, w; split; [exact Hx|]; split; [exact V|]; congruence]. intros [Z|(x' & v' & E1 & E2 & [Z|(w' & Z & GT)])]; try congruence.
  - apply sat_ret. apply HO; [repeat split | | discriminate]. intros _. split; [intros _|reflexivity].
    right. exists x, v. split; [exact Hx|]. split; [exact V|]. left. exact BV.
  - apply HP; [repeat split|]. right. exact BV.
Qed.

Lemma sat_verify G p s (Q : res unit bool -> st -> Prop) :
  (forall s', same s s' -> ~ no_faults e -> Q (Err tt) s') ->
  (forall s' b, same s s' -> (b = true <-> verified e (s_fs s) p) -> Q (Ok b) s') ->
  sat G (verify_path e p) s Q.
Proof.
  intros HE HO. unfold verify_path, iguard. apply sat_bind, sat_bind, sat_fault; cbn [after].
  destruct (e_fault e (s_tick s)) eqn:FT.
  - apply sat_ret; cbn [after]. apply sat_get. apply HO; [apply same_ticked|]. cbn [ticked s_fs]. unfold verified. tauto.
  - apply sat_fail; cbn [after]. apply HE; [apply same_ticked|]. intros NF. rewrite NF in FT. discriminate.
Qed.

Lemma current_path d : p_lock_bootloader d (lit "current") = d ++ [lit "630-bootloader.pcrlock.d"; lit "current.pcrlock"].
Proof. unfold p_lock_bootloader, d_lock_bootloader. rewrite <- app_assoc. reflexivity. Qed.

(** The files are as the first run of checks expects. *)
Definition needed (m : fs) : Prop :=
  out_of_date e shipped m (p_fallback c) \/ out_of_date e shipped m (p_systemd c) \/
  ~ verified e m (p_fallback c) \/ ~ verified e m (p_systemd c) \/
  exists d, c_pcrlock c = Some d /\ present m (d ++ [lit "630-bootloader.pcrlock.d"; lit "current.pcrlock"]) = false.

Definition boot_fine (m : fs) : Prop :=
  (forall p, is_boot p -> present m p = true /\ ~ out_of_date e shipped m p /\ versioned m p /\ verified e m p) /\
  (forall d, c_pcrlock c = Some d -> present m (p_lock_bootloader d (lit "current")) = true).

Definition decide : I bool :=
  let* newer1 := newer_systemd_boot e shipped (p_fallback c) in
  let* newer := (if newer1 then iret true else newer_systemd_boot e shipped (p_systemd c)) in
  let* signed1 := verify_path e (p_fallback c) in
  let* signed := (if signed1 then verify_path e (p_systemd c) else iret false) in
  let* measured := match c_pcrlock c with
                   | Some d => iexists e (p_lock_bootloader d (lit "current"))
                   | None => iret true
                   end in
  iret (newer || negb signed || negb measured).

Definition update_boot : I unit :=
  let* _ := match c_pcrlock c with
            | Some d => lock_pe e shipped (p_lock_bootloader d (lit "next"))
            | None => iret tt
            end in
  let* _ := ifor [p_fallback c; p_systemd c] (install_signed e shipped) in
  match c_pcrlock c with
  | Some d => irename e (p_lock_bootloader d (lit "next")) (p_lock_bootloader d (lit "current"))
  | None => iret tt
  end.

Lemma install_systemd_boot_split s :
  install_systemd_boot e c s =
  (let* b := decide in
   let* _ := (if b then update_boot else iret tt) in
   install_file e (e_store e (components (c_conf c))) (p_conf c)) s.
Proof.
  unfold install_systemd_boot, decide, update_boot, ibind. cbv zeta. fold shipped.
  destruct (newer_systemd_boot e shipped (p_fallback c) s) as [s1 [n1|u|]]; auto.
  destruct ((if n1 then iret true else newer_systemd_boot e shipped (p_systemd c)) s1) as [s2 [n2|u|]]; auto.
  destruct (verify_path e (p_fallback c) s2) as [s3 [g1|u|]]; auto.
  destruct ((if g1 then verify_path e (p_systemd c) else iret false) s3) as [s4 [g2|u|]]; auto.
  destruct (c_pcrlock c) as [d|].
  - destruct (iexists e (p_lock_bootloader d (lit "current")) s4) as [s5 [me|u|]]; auto.
  - reflexivity.
Qed.

Lemma sat_decide G s (Q : res unit bool -> st -> Prop) :
  (forall s', same s s' -> (no_faults e -> forall x v, shipped = Some x -> systemd_boot_version (e_parse e) x <> Ok v) ->
     Q (Err tt) s') ->
  (forall s', same s s' ->
     (exists x, shipped = Some x /\ systemd_boot_version (e_parse e) x = Panic) \/
     (exists p, is_boot p /\ boot_version e (s_fs s) p = Panic) -> Q Panic s') ->
  (forall s' b, same s s' -> (no_faults e -> (b = true <-> needed (s_fs s))) ->
     (b = false -> boot_fine (s_fs s)) -> Q (Ok b) s') ->
  sat G decide s Q.
Proof.
  intros HE HP HO. unfold decide.
  assert (is_boot (p_fallback c)) as BF by (left; reflexivity).
  assert (is_boot (p_systemd c)) as BS by (right; reflexivity).
  apply sat_bind, sat_newer; cbn [after]; [apply boot_ne; auto | intros s' SM N; apply HE; assumption | |].
  { intros s' SM [Z|Z]; apply HP; auto. right; eauto. }
  intros s1 b1 SM1 N1 F1. apply sat_bind.
  assert (forall Q' : res unit bool -> st -> Prop,
    (forall s', same s s' -> (no_faults e -> forall x v, shipped = Some x -> systemd_boot_version (e_parse e) x <> Ok v) ->
       Q' (Err tt) s') ->
    (forall s', same s s' ->
       (exists x, shipped = Some x /\ systemd_boot_version (e_parse e) x = Panic) \/
       (exists p, is_boot p /\ boot_version e (s_fs s) p = Panic) -> Q' Panic s') ->
    (forall s' b, same s s' ->
       (no_faults e -> (b = true <-> out_of_date e shipped (s_fs s) (p_fallback c) \/ out_of_date e shipped (s_fs s) (p_systemd c))) ->
       (b = false -> forall p, is_boot p -> present (s_fs s) p = true /\ ~ out_of_date e shipped (s_fs s) p /\ versioned (s_fs s) p) -> Q' (Ok b) s') ->
    sat G (if b1 then iret true else newer_systemd_boot e shipped (p_systemd c)) s1 Q') as NEWER.
  { intros Q' QE QP QO. destruct b1.
    - apply sat_ret. apply QO; [exact SM1 | | discriminate]. intros NF. split; [|reflexivity]. intros _. left. apply N1; auto.
    - pose proof SM1 as (SF & _). apply sat_newer; [apply boot_ne; auto | | |].
      + intros s' SM N. apply QE; [eapply same_trans; eauto | exact N].
      + rewrite SF. intros s' SM Z. apply QP; [eapply same_trans; eauto|]. destruct Z as [Z|Z]; auto. right; eauto.
      + rewrite SF. intros s' b SM N F. apply QO; [eapply same_trans; eauto | |].
        * intros NF. rewrite (N NF). specialize (N1 NF). split; [auto|]. intros [Z|Z]; [|exact Z].
          apply N1 in Z. discriminate.
        * intros -> p [-> | ->]; auto. }
  apply NEWER; cbn [after]; [exact HE | exact HP |]. clear NEWER.
  intros s2 b2 SM2 N2 F2. apply sat_bind, sat_verify; cbn [after].
  { intros s' SM NF. apply HE; [eapply same_trans; eauto | intros X; contradiction]. }
  intros s3 g1 SM3 V1. pose proof SM2 as (SF2 & _). rewrite SF2 in V1.
  assert (same s s3) as SM03 by (eapply same_trans; eauto). clear SM3.
  apply sat_bind.
  assert (forall Q' : res unit bool -> st -> Prop,
    (forall s', same s s' -> ~ no_faults e -> Q' (Err tt) s') ->
    (forall s' b, same s s' -> (b = true <-> verified e (s_fs s) (p_fallback c) /\ verified e (s_fs s) (p_systemd c)) -> Q' (Ok b) s') ->
    sat G (if g1 then verify_path e (p_systemd c) else iret false) s3 Q') as SIGNED.
  { intros Q' QE QO. destruct g1.
    - pose proof SM03 as (SF & _). apply sat_verify.
      + intros s' SM NF. apply QE; [eapply same_trans; eauto | exact NF].
      + rewrite SF. intros s' b SM V. apply QO; [eapply same_trans; eauto|]. rewrite V. intuition.
    - apply sat_ret. apply QO; [exact SM03|]. split; [discriminate|]. intros [Z _]. apply V1 in Z. discriminate. }
  apply SIGNED; cbn [after]; [intros s' SM NF; apply HE; [exact SM | intros X; contradiction] |]. clear SIGNED.
  intros s4 g SM4 V4. apply sat_bind.
  assert (forall Q' : res unit bool -> st -> Prop,
    (forall s' b, same s s' ->
       (no_faults e -> (b = false <-> exists d, c_pcrlock c = Some d /\ present (s_fs s) (p_lock_bootloader d (lit "current")) = false)) ->
       (b = true -> forall d, c_pcrlock c = Some d -> present (s_fs s) (p_lock_bootloader d (lit "current")) = true) -> Q' (Ok b) s') ->
    sat G (match c_pcrlock c with Some d => iexists e (p_lock_bootloader d (lit "current")) | None => iret true end) s4 Q') as MEAS.
  { intros Q' QO. destruct (c_pcrlock c) as [d|].
    - pose proof SM4 as (SF & _). apply sat_exists. rewrite SF. intros b B1 B2. apply QO.
      + eapply same_trans; [exact SM4 | apply same_ticked].
      + intros NF. rewrite (B2 NF). split; [intros X; eauto|]. intros (d' & [= <-] & X). exact X.
      + intros -> d' [= <-]. auto.
    - apply sat_ret. apply QO; [exact SM4 | |].
      + intros _. split; [discriminate|]. intros (d' & X & _). discriminate.
      + intros _ d' X. discriminate. }
  apply MEAS; cbn [after]. clear MEAS. intros s5 me SM5 M5 M5'. apply sat_ret. apply HO; [exact SM5 | |].
  - intros NF. unfold needed. specialize (N2 NF). specialize (M5 NF).
    rewrite !orb_true_iff, !negb_true_iff, N2, M5.
    split.
    + intros [[[Z|Z]|Z]|(d & Z1 & Z2)]; [tauto | tauto | |].
      * destruct (sg_verify (e_signer e) (match lookup (s_fs s) (p_fallback c) with Some (NFile y _) => Some y | _ => None end)) eqn:Y1.
        -- right; right; right; left. intros Y2. assert (g = true) by (apply V4; split; [exact Y1 | exact Y2]). congruence.
        -- right; right; left. unfold verified. congruence.
      * right; right; right; right. exists d. rewrite <- current_path. auto.
    + intros [Z|[Z|[Z|[Z|(d & Z1 & Z2)]]]]; [tauto | tauto | | |].
      * left; right. destruct g; [|reflexivity]. destruct (proj1 V4 eq_refl). contradiction.
      * left; right. destruct g; [|reflexivity]. destruct (proj1 V4 eq_refl). contradiction.
      * right. exists d. rewrite current_path. auto.
  - intros B. apply orb_false_iff in B as [B B3]. apply orb_false_iff in B as [B1 B2].
    apply negb_false_iff in B2, B3. subst. destruct (proj1 V4 eq_refl) as [W1 W2].
    split; [|auto]. intros p BP. destruct (F2 eq_refl p BP) as (P1 & P2 & P3). split; [exact P1|]. split; [exact P2|]. split; [exact P3|].
    destruct BP as [-> | ->]; assumption.
Qed.

(** ** Changes *)

Inductive boot_change (m0 m : fs) : op -> Prop :=
| B_mkdir p q : is_boot p \/ p = p_conf c -> below q (parent p) = true -> boot_change m0 m (OMkdir q)
| B_mkdir_lock d q : c_pcrlock c = Some d -> below q (d_lock_bootloader d) = true -> boot_change m0 m (OMkdir q)
| B_create p : is_boot p \/ p = p_conf c -> boot_change m0 m (OCreate (tmp_path p))
| B_write p x : is_boot p \/ p = p_conf c -> boot_change m0 m (OWrite (tmp_path p) x)
| B_sync : boot_change m0 m (OSync (tmp_path (p_conf c)))
| B_boot p x out : is_boot p -> (no_faults e -> needed m0) -> shipped = Some x -> sg_sign (e_signer e) x = Some out ->
    lookup m (tmp_path p) = Some (NFile out false) ->
    (forall d, c_pcrlock c = Some d -> exists lo b, e_lock e x = Some lo /\
       lookup m (p_lock_bootloader d (lit "next")) = Some (NFile lo b)) ->
    boot_change m0 m (ORename (tmp_path p) p)
| B_conf x : e_store e (components (c_conf c)) = Some x -> lookup m (tmp_path (p_conf c)) = Some (NFile x true) ->
    boot_change m0 m (ORename (tmp_path (p_conf c)) (p_conf c))
| B_chmod : boot_change m0 m (OChmod (p_conf c))
| B_next_create d : c_pcrlock c = Some d ->
    (forall p, lookup m0 p <> None -> p <> p_lock_bootloader d (lit "next") -> lookup m p = lookup m0 p) ->
    boot_change m0 m (OCreate (p_lock_bootloader d (lit "next")))
| B_next_write d x : c_pcrlock c = Some d ->
    (forall p, lookup m0 p <> None -> p <> p_lock_bootloader d (lit "next") -> lookup m p = lookup m0 p) ->
    boot_change m0 m (OWrite (p_lock_bootloader d (lit "next")) x)
| B_current d x out : c_pcrlock c = Some d -> shipped = Some x -> sg_sign (e_signer e) x = Some out ->
    (forall p, is_boot p -> lookup m p = Some (NFile out false)) ->
    (exists lo b, e_lock e x = Some lo /\ lookup m (p_lock_bootloader d (lit "next")) = Some (NFile lo b)) ->
    boot_change m0 m (ORename (p_lock_bootloader d (lit "next")) (p_lock_bootloader d (lit "current"))).

Definition GB (m0 m : fs) (o : op) : Prop := posix m o /\ boot_change m0 m o.

Definition boot_frame : list path :=
  [p_fallback c; p_systemd c; p_conf c] ++
  match c_pcrlock c with Some d => [p_lock_bootloader d (lit "next"); p_lock_bootloader d (lit "current")] | None => [] end.

(** Outcome of an update. *)
Definition updated (m' : fs) : Prop :=
  exists x out, shipped = Some x /\ sg_sign (e_signer e) x = Some out /\
    (forall p, is_boot p -> lookup m' p = Some (NFile out false)) /\
    (forall d, c_pcrlock c = Some d -> exists lo b, e_lock e x = Some lo /\
       lookup m' (p_lock_bootloader d (lit "current")) = Some (NFile lo b)).

Lemma sat_update_boot m0 s (Q : res unit unit -> st -> Prop) :
  s_fs s = m0 -> (no_faults e -> needed m0) ->
  (forall s', quiet s s' -> Q (Err tt) s') ->
  (forall s', quiet s s' -> updated (s_fs s') -> frame boot_frame (s_fs s) (s_fs s') -> Q (Ok tt) s') ->
  sat (GB m0) update_boot s Q.
Proof.
  intros M0 ND HE HO. unfold update_boot. apply sat_bind.
  assert (is_boot (p_fallback c)) as BF by (left; reflexivity).
  assert (is_boot (p_systemd c)) as BS by (right; reflexivity).
  assert (forall Q' : res unit unit -> st -> Prop,
    (forall s', quiet s s' -> Q' (Err tt) s') ->
    (forall s', quiet s s' ->
       frame (match c_pcrlock c with Some d => [p_lock_bootloader d (lit "next")] | None => [] end) (s_fs s) (s_fs s') ->
       (forall d, c_pcrlock c = Some d -> exists x lo b, shipped = Some x /\ e_lock e x = Some lo /\
          lookup (s_fs s') (p_lock_bootloader d (lit "next")) = Some (NFile lo b)) -> Q' (Ok tt) s') ->
    sat (GB m0) (match c_pcrlock c with
                 | Some d => lock_pe e shipped (p_lock_bootloader d (lit "next"))
                 | None => iret tt
                 end) s Q') as NEXT.
  { intros Q' QE QO. destruct (c_pcrlock c) as [d|] eqn:PL.
    - apply sat_lock_pe.
      + unfold p_lock_bootloader. intros X. apply app_eq_nil in X as [_ X]. discriminate.
      + intros m q BQ PX. split; [exact PX|]. eapply B_mkdir_lock; [exact PL|].
        unfold p_lock_bootloader in BQ. rewrite parent_app in BQ. exact BQ.
      + intros m PX K. split; [exact PX|]. apply B_next_create; [exact PL|]. rewrite <- M0. intros; apply K; auto.
      + intros m x PX K. split; [exact PX|]. apply B_next_write; [exact PL|]. rewrite <- M0. intros; apply K; auto.
      + intros s' A _. apply QE; exact A.
      + intros s' x lo A K E1 E2 L. apply QO; [exact A | |].
        * apply frame_lock. exact K.
        * intros d' [= <-]. exists x, lo, false. auto.
    - apply sat_ret. apply QO; [apply quiet_refl | apply frame_refl |]. intros d' X; discriminate. }
  apply NEXT; cbn [after]; [exact HE|]. clear NEXT. intros s1 Q1 F1 N1.
  assert (forall d m p, c_pcrlock c = Some d -> is_boot p -> touches (s_fs s1) m p ->
            lookup m (p_lock_bootloader d (lit "next")) = lookup (s_fs s1) (p_lock_bootloader d (lit "next"))) as KN.
  { intros d m p PL BP T. destruct (N1 d PL) as (x & lo & b & _ & _ & L).
    destruct (T (p_lock_bootloader d (lit "next"))) as [X|(X & _)].
    - intros X. eapply boot_ne_lock; [exact BP | symmetry; exact X].
    - apply lock_ne_tmp_boot; auto.
    - exact X.
    - congruence. }
  assert (forall p, is_boot p -> signed_rules (GB m0) shipped p) as SR.
  { intros p BP. unfold signed_rules. split; [|split]; intros; (split; [assumption|]).
    - eapply B_mkdir; [left; exact BP | assumption].
    - apply B_create; auto.
    - apply B_write; auto. }
  cbn [ifor]. apply sat_bind, sat_bind, sat_install_signed; cbn [after];
    [apply boot_ne; auto | apply SR; exact BF | | |].
  { intros m x out PX E1 E2 T _ L. split; [exact PX|]. eapply B_boot; eauto.
    intros d PL. destruct (N1 d PL) as (x' & lo & b & E3 & E4 & L'). exists lo, b.
    split; [congruence|]. rewrite (KN d m _ PL BF T). exact L'. }
  { intros s' A _ _. apply HE. eapply quiet_trans; eauto. }
  intros s2 x out Q2 T2 E1 E2 L2 L2'.
  apply sat_bind, sat_install_signed; cbn [after];
    [apply boot_ne; auto | apply SR; exact BS | | |].
  { intros m x' out' PX E1' E2' T _ L. split; [exact PX|]. eapply B_boot; eauto.
    intros d PL. destruct (N1 d PL) as (x'' & lo & b & E3 & E4 & L'). exists lo, b.
    split; [congruence|].
    assert (lookup (s_fs s2) (p_lock_bootloader d (lit "next")) = Some (NFile lo b)) as L3 by (rewrite (KN d _ _ PL BF T2); exact L').
    destruct (T (p_lock_bootloader d (lit "next"))) as [X|(X & _)]; [| | congruence | congruence].
    - intros X. eapply boot_ne_lock; [exact BS | symmetry; exact X].
    - apply lock_ne_tmp_boot; auto. }
  { intros s' A _ _. apply HE. eapply quiet_trans; [eapply quiet_trans; eauto | exact A]. }
  intros s3 x' out' Q3 T3 E1' E2' L3 L3'. assert (x' = x) as -> by congruence. assert (out' = out) as -> by congruence.
  apply sat_ret; cbn [after].
  assert (quiet s s3) as QQ by (eapply quiet_trans; [eapply quiet_trans; eauto | exact Q3]).
  assert (forall p, is_boot p -> lookup (s_fs s3) p = Some (NFile out false)) as LB.
  { intros p [-> | ->]; [|exact L3]. rewrite <- L2. destruct (T3 (p_fallback c)) as [X|(X & _)]; [| | exact X | congruence].
    - apply fallback_ne_systemd.
    - apply boot_ne_tmp; auto. }
  assert (forall d, c_pcrlock c = Some d -> exists lo b, e_lock e x = Some lo /\
            lookup (s_fs s3) (p_lock_bootloader d (lit "next")) = Some (NFile lo b)) as LN.
  { intros d PL. destruct (N1 d PL) as (x'' & lo & b & E3 & E4 & L'). exists lo, b. split; [congruence|].
    rewrite <- L', <- (KN d _ _ PL BF T2).
    destruct (T3 (p_lock_bootloader d (lit "next"))) as [X|(X & _)]; [| | exact X |].
    - intros X. eapply boot_ne_lock; [exact BS | symmetry; exact X].
    - apply lock_ne_tmp_boot; auto.
    - rewrite (KN d _ _ PL BF T2) in X. congruence. }
  assert (frame ((match c_pcrlock c with Some d => [p_lock_bootloader d (lit "next")] | None => [] end) ++ [p_fallback c] ++ [p_systemd c])
            (s_fs s) (s_fs s3)) as FR.
  { eapply frame_trans; [exact F1|]. eapply frame_trans; apply touches_frame; eauto. }
  unfold updated, boot_frame in *. destruct (c_pcrlock c) as [d|] eqn:PL.
  - destruct (LN d eq_refl) as (lo & b & E3 & L4).
    apply sat_rename.
    { intros _. apply HE. exact QQ. }
    intros PX. split.
    { split; [exact PX|]. eapply B_current; eauto. }
    apply HO; cbn [emitted ticked s_fs].
    + exact QQ.
    + exists x, out. split; [exact E1|]. split; [exact E2|]. split.
      * intros p BP. rewrite lookup_apply, L4.
        destruct (eqb_path (p_lock_bootloader d (lit "current")) p) eqn:X;
          [apply eqb_path_spec in X; symmetry in X; destruct (boot_ne_lock _ _ _ BP X)|].
        destruct (eqb_path (p_lock_bootloader d (lit "next")) p) eqn:Y;
          [apply eqb_path_spec in Y; symmetry in Y; destruct (boot_ne_lock _ _ _ BP Y)|]. auto.
      * intros d' [= <-]. exists lo, b. split; [exact E3|]. rewrite lookup_apply, L4, eqb_path_refl. reflexivity.
    + intros q H1 H2. rewrite lookup_apply, L4.
      destruct (eqb_path (p_lock_bootloader d (lit "current")) q) eqn:X.
      { apply eqb_path_spec in X. exfalso. apply H1. rewrite <- X. cbn. auto 10. }
      destruct (eqb_path (p_lock_bootloader d (lit "next")) q) eqn:Y.
      { apply eqb_path_spec in Y. exfalso. apply H1. rewrite <- Y. cbn. auto 10. }
      apply FR.
      * intros Z. apply H1. cbn in Z |- *. tauto.
      * intros Z. apply H2. cbn in Z |- *. tauto.
  - apply sat_ret. apply HO; [exact QQ | |].
    + exists x, out. split; [exact E1|]. split; [exact E2|]. split; [exact LB|]. intros d X; discriminate.
    + intros q H1 H2. apply FR.
      * intros Z. apply H1. cbn in Z |- *. tauto.
      * intros Z. apply H2. cbn in Z |- *. tauto.
Qed.

(** The whole phase. *)
Definition boot_done (s s' : st) : Prop :=
  quiet s s' /\ frame boot_frame (s_fs s) (s_fs s') /\
  (exists x y b, e_store e (components (c_conf c)) = Some x /\ lookup (s_fs s') (p_conf c) = Some (NFile y b) /\ e_sha e y = e_sha e x) /\
  exists b, (no_faults e -> (b = true <-> needed (s_fs s))) /\
    (b = true -> updated (s_fs s')) /\
    (b = false -> boot_fine (s_fs s) /\
       (forall p, p <> p_conf c -> p <> tmp_path (p_conf c) -> lookup (s_fs s) p <> None -> lookup (s_fs s') p = lookup (s_fs s) p)).

Lemma sat_install_boot m0 s (Q : res unit unit -> st -> Prop) :
  s_fs s = m0 ->
  (forall s', quiet s s' -> Q (Err tt) s') ->
  (forall s', quiet s s' ->
     (exists x, shipped = Some x /\ systemd_boot_version (e_parse e) x = Panic) \/
     (exists p, is_boot p /\ boot_version e (s_fs s) p = Panic) -> Q Panic s') ->
  (forall s', boot_done s s' -> Q (Ok tt) s') ->
  sat (GB m0) (install_systemd_boot e c) s Q.
Proof.
  intros M0 HE HP HO.
  assert (sat (GB m0) (let* b := decide in
                       let* _ := (if b then update_boot else iret tt) in
                       install_file e (e_store e (components (c_conf c))) (p_conf c)) s Q) as H.
  2: { unfold sat in *. rewrite install_systemd_boot_split. exact H. }
  apply sat_bind, sat_decide; cbn [after].
  { intros s' SM _. apply HE, same_quiet, SM. }
  { intros s' SM P. apply HP; [apply same_quiet, SM | exact P]. }
  intros s1 b SM1 B1 B2. pose proof SM1 as (SF1 & _).
  assert (p_conf c <> tmp_path (p_conf c)) as CT.
  { intros X. symmetry in X. revert X. apply tmp_path_neq. apply boot_ne; auto. }
  assert (forall s2, quiet s s2 -> frame boot_frame (s_fs s) (s_fs s2) ->
    (b = true -> updated (s_fs s2)) -> (b = false -> s_fs s2 = s_fs s) ->
    sat (GB m0) (install_file e (e_store e (components (c_conf c))) (p_conf c)) s2 Q) as CONF.
  { intros s2 Q2 F2 U2 N2. apply sat_install_file.
    - apply boot_ne; auto.
    - unfold copy_rules. split; [|split; [|split; [|split; [|split]]]]; intros; (split; [assumption|]).
      + eapply B_mkdir; [right; reflexivity | assumption].
      + apply B_create; auto.
      + apply B_write; auto.
      + apply B_sync.
      + eapply B_conf; eauto.
      + apply B_chmod.
    - intros s' A _ _. apply HE. eapply quiet_trans; eauto.
    - intros s' x A T E R. apply HO. split; [eapply quiet_trans; eauto|]. split; [|split].
      + pose proof (frame_trans _ _ _ _ _ F2 (touches_frame _ _ _ T)) as F. intros q H1 H2. apply F.
        * intros Z. apply H1. rewrite in_app_iff in Z. destruct Z as [Z|[<-|[]]]; [exact Z|]. unfold boot_frame. cbn. auto.
        * intros Z. apply H2. rewrite map_app, in_app_iff in Z. destruct Z as [Z|[<-|[]]]; [exact Z|]. unfold boot_frame. cbn. auto.
      + destruct R as [R|[SM (y & b' & L & S)]].
        * exists x, x, true. auto.
        * exists x, y, b'. destruct SM as (SF & _). rewrite SF. auto.
      + exists b. split; [exact B1|]. split.
        * intros Hb. destruct (U2 Hb) as (x0 & out & E1 & E2 & L1 & L2). exists x0, out.
          split; [exact E1|]. split; [exact E2|]. split.
          -- intros p BP. rewrite <- (L1 p BP). destruct (T p) as [X|(X & _)]; [| | exact X |].
             ++ apply boot_ne_conf; exact BP.
             ++ apply boot_ne_tmp; auto.
             ++ rewrite (L1 p BP) in X. discriminate.
          -- intros d PL. destruct (L2 d PL) as (lo & b' & E3 & L3). exists lo, b'. split; [exact E3|].
             rewrite <- L3. destruct (T (p_lock_bootloader d (lit "current"))) as [X|(X & _)]; [| | exact X | congruence].
             ++ eapply (suf_ne (lit "lock") (lit "conf")); [reflexivity | discriminate | apply bootlock_ends | apply conf_ends].
             ++ apply lock_ne_tmp_boot; auto.
        * intros Hb. split; [auto|]. intros p N1 N2' L. rewrite (N2 Hb) in T.
          destruct (T p N1 N2') as [X|(X & _)]; [exact X | congruence]. }
  apply sat_bind. destruct b.
  - apply sat_update_boot; cbn [after].
    + congruence.
    + intros NF. rewrite <- M0. apply B1; auto.
    + intros s' A. apply HE. eapply quiet_trans; [apply same_quiet; exact SM1 | exact A].
    + intros s2 A UP F. apply CONF; auto; [|rewrite <- SF1; exact F | discriminate].
      eapply quiet_trans; [apply same_quiet; exact SM1 | exact A].
  - apply sat_ret; cbn [after]. apply CONF; auto; [apply same_quiet; exact SM1 | | discriminate].
    rewrite SF1. apply frame_refl.
Qed.

(** Nothing to do. *)
Lemma sat_boot_idle G s x y b v f :
  no_faults e -> ~ needed (s_fs s) ->
  shipped = Some f -> systemd_boot_version (e_parse e) f = Ok v ->
  (forall p, is_boot p -> boot_version e (s_fs s) p <> Panic) ->
  e_store e (components (c_conf c)) = Some x -> lookup (s_fs s) (p_conf c) = Some (NFile y b) -> e_sha e x = e_sha e y ->
  sat G (install_systemd_boot e c) s (fun r s' => r = Ok tt /\ same s s').
Proof.
  intros NF NB SH V NP E L S.
  assert (sat G (let* b := decide in
                 let* _ := (if b then update_boot else iret tt) in
                 install_file e (e_store e (components (c_conf c))) (p_conf c)) s (fun r s' => r = Ok tt /\ same s s')) as H.
  2: { unfold sat in *. rewrite install_systemd_boot_split. exact H. }
  apply sat_bind, sat_decide; cbn [after].
  - intros s' SM N. destruct (N NF f v SH V).
  - intros s' SM [(x' & E1 & E2)|(p & BP & E1)]; [congruence | destruct (NP p BP E1)].
  - intros s1 d SM B1 B2. destruct d.
    + destruct NB. apply B1; auto.
    + apply sat_bind, sat_ret; cbn [after]. pose proof SM as (SF & _).
      eapply sat_mono; [eapply sat_install_file_same; eauto|].
      * apply boot_ne; auto.
      * rewrite SF; exact L.
      * intros r s' _ [-> SM']. split; [reflexivity | eapply same_trans; eauto].
Qed.
End Boot.
