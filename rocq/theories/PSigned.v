(** Proofs about signatures after a key appears (C73). *)
From Coq Require Import List NArith Bool Lia.
From Verif Require Import Base PBase MText MGeneration MNames MPe MFs MTool MInstall SCommon SNames SInstall SHistory SRepeat SSigned.
From Verif Require Import PFs PInstall PImage PFiles PPaths PGen PBoot PGc PSelect PRun PTrace POwned PLoader PEntry PHistory PHistories PRepeat PTwice.
Import ListNotations.
Open Scope N_scope.

Section Key.
Variables (M : machine) (key : bytes) (verifies : bytes -> bool).
Hypothesis SO : sound M.
Hypothesis KK : ma_keys M key.

(** The same machine with stubs that verify. *)
Definition strict : machine :=
  Machine (ma_esp M) (ma_sha M) (ma_parse M) (ma_digit M) (ma_store M) (ma_gens M) (ma_keys M)
    (fun y => ma_good M y /\ verifies y = true).

Lemma strict_sound : sound strict.
Proof. destruct SO as [A B C D E]. split; assumption. Qed.

Lemma strict_fits e c : fits M e c -> trusted key verifies e -> sg_key (e_signer e) = Some key -> fits strict e c.
Proof.
  intros [F1 F2 F3 F4 F5 F6 F7 F8 F9 F10] T K. destruct (T K) as [S _]. split; try assumption.
  intros stub p sections image out A B C D E F. destruct (F10 stub p sections image out A B C D E F) as [G H].
  split; [split; [exact G | eapply S; exact F] | exact H].
Qed.

Lemma signed_step e c m o : fits M e c -> trusted key verifies e -> GR e c m o ->
  signed_entries M key verifies m -> signed_entries M key verifies (apply o m).
Proof.
  intros FI T GO SE g n y b Gg NM L.
  destruct GO as [(U & US & H)|[(m0 & H)|(roots & IR & (q & ->) & _)]].
  - assert (forall g, U g -> ma_gens M g) as UG by (intros g' H'; apply (fi_gens _ _ _ FI); auto).
    pose proof (gen_linux M e c SO FI U m o n UG H (named_ends _ _ _ _ NM)) as GL. cbv zeta in GL.
    destruct GL as [E|[E|[[E1 E]|(g' & key' & out & kp & ip & Ug & K & NM' & E & _)]]]; rewrite E in L.
    + eapply SE; eauto.
    + destruct (lookup m (linux_file M n)) as [[|y' b']|] eqn:LM; try discriminate. injection L as -> _. eapply SE; eauto.
    + discriminate.
    + destruct (prefix_inj M g g' key key' n SO Gg (UG _ Ug) KK (fi_key _ _ _ FI _ K) NM NM') as [<- <-].
      pose proof (gen_linux strict e c strict_sound (strict_fits e c FI T K) U m o n UG H (named_ends _ _ _ _ NM)) as GL.
      cbv zeta in GL. change (linux_file strict n) with (linux_file M n) in GL.
      destruct GL as [E'|[E'|[[E1 E']|(g2 & key2 & out2 & kp2 & ip2 & _ & _ & _ & E' & SA & _)]]].
      * rewrite E' in E. eapply SE; [exact Gg | exact NM|]. rewrite E. exact L.
      * rewrite E' in E. destruct (lookup m (linux_file M n)) as [[|y' b']|] eqn:LM; try discriminate.
      * congruence.
      * rewrite E' in E. injection E as <-. injection L as <- _.
        assert (stub_for strict g2 out2) as SFO by (apply (stub_at_for strict); exists kp2, ip2; exact SA).
        destruct SFO as (? & ? & ? & ? & ? & _ & _ & _ & _ & _ & [_ V] & _). exact V.
  - rewrite (boot_keeps M e c FI m0 m o _ H) in L by (right; exists n; apply (linux_file_eq M e c FI)). eapply SE; eauto.
  - rewrite lookup_apply in L. destruct (eqb_path q (linux_file M n)); [discriminate|]. eapply SE; eauto.
Qed.

Lemma since_key_ok m : since_key M key verifies m -> history M m /\ signed_entries M key verifies m.
Proof.
  induction 1 as [m H NO | m e c os H [HI SE] FI T PT | m g k n n' x b H [HI SE] Gg Kk NM NM' L | m p H [HI SE] | m m' H [HI SE] SM].
  - split; [exact H|]. intros g n y b Gg NM L. rewrite (NO g n Gg NM) in L. discriminate.
  - split; [eapply hi_run; eauto|]. apply point_steps in PT.
    apply (steps_invariant (GR e c) (signed_entries M key verifies)) with (2 := PT); [|exact SE].
    intros m' o. apply signed_step; assumption.
  - split; [eapply hi_count; eauto|]. intros g2 n2 y b2 G2 N2 L2. rewrite lookup_apply, L in L2.
    destruct (eqb_path (linux_file M n') (linux_file M n2)) eqn:E1.
    + apply eqb_path_spec in E1. unfold linux_file in E1. apply app_inv_head in E1. injection E1 as <-.
      injection L2 as <- _. destruct (prefix_inj M g g2 k key n' SO Gg G2 Kk KK NM' N2) as [<- ->].
      eapply SE; [exact Gg | exact NM | exact L].
    + destruct (eqb_path (linux_file M n) (linux_file M n2)); [discriminate|]. eapply SE; eauto.
  - split; [apply hi_remove; exact HI|]. intros g n y b Gg NM L. rewrite lookup_remove in L.
    destruct (eqb_path p _); [discriminate|]. eapply SE; eauto.
  - split; [eapply hi_other; eauto|]. intros g n y b Gg NM L. rewrite SM in L; [eapply SE; eauto|]. right.
    destruct (named_start M key g n NM) as [r ->]. eauto.
Qed.

Section Run.
Variables (e : env) (c : config) (m : fs).
Hypothesis FI : fits M e c.
Hypothesis TR : trusted key verifies e.
Hypothesis KE : sg_key (e_signer e) = Some key.
Hypothesis SK : since_key M key verifies m.
Notation m1 := (s_fs (fst (run_install e c m))).

Lemma after_since : since_key M key verifies m1.
Proof. rewrite final_fs. eapply sk_run; [exact SK | exact FI | exact TR | apply final_point]. Qed.

Lemma done_signed s s' : boot_done e c s s' -> loaders_signed verifies c (s_fs s').
Proof.
  intros (_ & _ & _ & b & _ & UP & FN) p IN. destruct (TR KE) as (TS & TV & TN).
  assert (is_boot c p) as HP by (apply boot_paths_is; exact IN).
  destruct b.
  - destruct (UP eq_refl) as (x & out & SH & SG & FL & _). exists out, false. split; [apply FL; exact HP | eapply TS; exact SG].
  - destruct (FN eq_refl) as [[FP _] FR]. destruct (FP p HP) as (_ & _ & (x & v & w & _ & _ & W) & VF). destruct (boot_not_conf c p HP) as [N1 N2].
    unfold boot_version in W. unfold verified in VF. destruct (lookup (s_fs s) p) as [[|z zb]|] eqn:L; try discriminate.
    exists z, zb. split; [rewrite FR; [exact L | exact N1 | exact N2 | congruence]|]. rewrite <- TV. exact VF.
Qed.

Lemma gc_loaders roots s s' : reach (GG e c roots) s s' -> loaders_signed verifies c (s_fs s) -> loaders_signed verifies c (s_fs s').
Proof.
  intros RG LS p IN. destruct (LS p IN) as (y & b & L & V). exists y, b. split; [|exact V].
  apply (reach_invariant (GG e c roots) (fun m => lookup m p = Some (NFile y b))) with (2 := RG); [|exact L].
  intros m' o GO E. rewrite (gc_outside M e c FI roots m' o p GO); [exact E|].
  apply (boot_outside M e c FI). left. apply boot_paths_is. exact IN.
Qed.

Lemma all_signed_after : tree_ok m -> no_faults e -> complete_listings e -> all_readable c -> distinct c -> settled M c m ->
  snd (run_install e c m) = Ok tt ->
  loaders_signed verifies c m1 /\ entries_signed M verifies m1 /\
  forall g, always_selected c g ->
    exists n y b, named M key g n /\ lookup m1 (linux_file M n) = Some (NFile y b) /\ bootable M m1 y /\ verifies y = true.
Proof.
  intros TO NF CL AR DC ST OK. destruct (since_key_ok m SK) as [HI SE]. destruct (history_ok M m SO HI) as [CO EO].
  destruct (run_result M SO e c FI m CO EO TO NF CL AR DC ST OK) as (key' & vs & sel & l & s2 & s3 & R & BD & RG).
  assert (key' = key) as -> by (pose proof (re_key _ _ _ _ _ _ _ _ R); congruence).
  destruct (since_key_ok _ after_since) as [HI1 SE1].
  pose proof (re_held _ _ _ _ _ _ _ _ R) as HL. rewrite Forall_forall in HL.
  assert (forall t, In t l -> ma_gens M (t_g t)) as GU.
  { intros t Ht. apply (fi_gens _ _ _ FI). exists vs, sel. split; [apply (re_versions _ _ _ _ _ _ _ _ R)|].
    split; [apply (re_newest _ _ _ _ _ _ _ _ R)|]. rewrite <- (re_gens _ _ _ _ _ _ _ _ R). apply in_map. exact Ht. }
  split; [|split].
  - eapply gc_loaders; [exact RG | eapply done_signed; exact BD].
  - intros n tx y b DN L. assert (lookup m1 (linux_file M n) <> None) as LN by congruence.
    rewrite (linux_file_eq M e c FI) in LN. destruct (re_linux _ _ _ _ _ _ _ _ R _ LN) as [X|X].
    { eexists. reflexivity. }
    { unfold linux_filter. rewrite rev_unit, DN. reflexivity. }
    { destruct (linux_not_initial M e c FI _ X). }
    apply in_flat_map in X as (t & Ht & X). destruct (HL t Ht) as (NM & _ & SA & _).
    unfold ent_roots in X. apply in_app_or in X as [[X|[X|[X|[]]]]|X].
    + rewrite (linux_file_eq M e c FI) in X. apply app_inv_head in X. injection X as X. rewrite X in NM.
      eapply SE1; [apply (GU t Ht) | exact NM | exact L].
    + exfalso. destruct SA as (v & k & i & init & text & _ & SKK & _). rewrite SKK in X. unfold kernel_file in X.
      rewrite (nixos_file_eq M e c FI), d_nixos_r, d_linux_r in X. apply app_inv_head in X. discriminate.
    + exfalso. destruct SA as (v & k & i & init & text & _ & _ & SI). rewrite SI in X. unfold initrd_file in X.
      rewrite (nixos_file_eq M e c FI), d_nixos_r, d_linux_r in X. apply app_inv_head in X. discriminate.
    + exfalso. destruct (c_pcrlock c) as [d|] eqn:PL; [|contradiction]. destruct X as [X|[]].
      rewrite d_linux_r in X. unfold component in X. eapply (lock_apart M e c FI d _ _ PL). symmetry. exact X.
  - intros g AS. specialize (AS vs sel (re_versions _ _ _ _ _ _ _ _ R) (re_newest _ _ _ _ _ _ _ _ R)).
    rewrite <- (re_gens _ _ _ _ _ _ _ _ R) in AS. apply in_map_iff in AS as (t & <- & Ht).
    destruct (HL t Ht) as (NM & (b & L) & SA & FK & FI2 & _). exists (t_n t), (t_y t), b.
    split; [exact NM|]. split; [exact L|]. split; [|eapply SE1; [apply (GU t Ht) | exact NM | exact L]].
    destruct (history_ok M _ SO HI1) as [CO1 EO1]. destruct FK as (zk & bk & FK). destruct FI2 as (zi & bi & FI2).
    eapply stub_bootable; [exact CO1 | exact SA | congruence | congruence].
Qed.
End Run.
End Key.
