(** When a run is bound to succeed: C59. *)
From Coq Require Import List NArith Bool Permutation.
From Verif Require Import Base MText MGeneration MNames MPe MFs MTool MInstall SNames SInstall SImage SHistory SPanic SProgress PFs PInstall PLoader PProgress.
From Verif Require Import XWorld XMachine PHistories Properties_History.
Import ListNotations.
Open Scope N_scope.

(** C59: with complete inputs, working tools, no I/O error and nothing in the
    way, a run does not fail, whatever else is on the ESP. *)
Theorem C59_no_error : forall M e c m,
  sound M -> fits M e c -> no_faults e -> ready e c -> clear c m -> snd (run_install e c m) <> Err tt.
Proof. intros M e c m SO FI NF RE. exact (no_error M e c SO FI NF RE m). Qed.
Print Assumptions C59_no_error.

(** With a history of installer runs and a usable boot loader, it does not
    panic either: it succeeds. *)
Theorem C59_progress : forall M e c m,
  sound M -> fits M e c -> history M m -> no_faults e -> ready e c -> clear c m ->
  ~ bad_loader e c m -> ~ bad_signed e c -> snd (run_install e c m) = Ok tt.
Proof. intros M e c m SO FI HI NF RE. exact (progress M e c SO FI NF RE m HI). Qed.
Print Assumptions C59_progress.

(** No run puts anything in the way of later ones, wherever it ends. *)
Theorem C59_clear : forall M e c m os,
  sound M -> fits M e c -> point e c m os -> clear c m -> clear c (apply_all os m).
Proof. intros M e c m os SO FI. exact (clear_point M e c SO FI m os). Qed.
Print Assumptions C59_clear.

(** So after any number of runs to the same places, each completed, failed or
    killed anywhere, a run without errors succeeds. *)
Theorem C59_retry : forall M e c m m',
  sound M -> fits M e c -> no_faults e -> ready e c -> ~ bad_signed e c ->
  history M m -> clear c m -> ~ bad_loader e c m -> attempts M c m m' ->
  snd (run_install e c m') = Ok tt.
Proof. exact retry. Qed.
Print Assumptions C59_retry.

(** ** Examples *)

(** Two generations and a specialisation, boot counting and measurements. *)
Definition x_cp : config := x_config 0 3 (Some [lit "var"; lit "pcrlock.d"]) [x_link1; x_link2].

Lemma x_fits_p fault : fits x_m (x_env x_files fault) x_cp.
Proof. apply x_fit; [apply incl_refl | discriminate | intros d r [= <- <-]; discriminate]. Qed.

Lemma x_versions_p vs : links_versions (c_links x_cp) vs -> vs = [(1, x_link1); (2, x_link2)].
Proof.
  intros LV. cbn [c_links x_cp x_config] in LV. inversion LV as [|? [v1 l1] ? vs1 [E1 F1] LV1]; subst. inversion LV1 as [|? [v2 l2] ? vs2 [E2 F2] LV2]; subst.
  inversion LV2; subst. cbn [fst snd] in *. subst. vm_compute in F1, F2. injection F1 as <-. injection F2 as <-. reflexivity.
Qed.

Lemma x_gens_p g : selected x_cp g ->
  In g [x_gen1; parse_boot_json 2 (Some (Date 2024 5 6)) x_two; hd x_gen1 (g_specs (parse_boot_json 2 (Some (Date 2024 5 6)) x_two))].
Proof. intros H. exact (fi_gens _ _ _ (x_fits_p x_good) g H). Qed.

Lemma x_ready fault : ready (x_env x_files fault) x_cp.
Proof.
  constructor.
  - intros l [<-|[<-|[]]]; vm_compute; discriminate.
  - intros vs sel LV (skipped & PM & _ & SK & _) E. rewrite (SK eq_refl) in PM. cbn [app] in PM.
    rewrite (x_versions_p vs LV) in PM. assert (In x_gen1 (flat_map link_generations sel)) as H.
    { apply in_flat_map. exists (1, x_link1). split; [eapply Permutation_in; [exact PM | left; reflexivity] | left; reflexivity]. }
    rewrite E in H. exact H.
  - intros g H. apply x_gens_p in H as [<-|[<-|[<-|[]]]].
    1: exists (lit "kernel one"), [lit "nix"; lit "store"], (lit "aaa-linux-6.1"), (lit "bzImage"), (lit "aaa-linux-6.1").
    2, 3: exists (lit "kernel two"), [lit "nix"; lit "store"], (lit "ccc-linux-6.6"), (lit "bzImage"), (lit "ccc-linux-6.6").
    all: split; [vm_compute; reflexivity|]; split; [vm_compute; reflexivity|]; split; [discriminate | vm_compute; reflexivity].
  - intros g H. apply x_gens_p in H as [<-|[<-|[<-|[]]]].
    1: exists (lit "/nix/store/bbb-initrd/initrd"), (lit "initrd one").
    2, 3: exists (lit "/nix/store/ddd-initrd/initrd"), (lit "initrd two").
    all: split; [reflexivity|]; split; [vm_compute; reflexivity | discriminate].
  - intros g H. apply x_gens_p in H as [<-|[<-|[<-|[]]]]; vm_compute; discriminate.
  - exists x_stub. eexists. split; [vm_compute; reflexivity|]. split; [vm_compute; reflexivity|]. split; [discriminate|]. split; [discriminate|].
    intros g sp l SE AR EC.
    assert (forallb (fun s : str * bytes => N.of_nat (length (snd s)) <? 65536) (stub_contents sp) = true) as FB.
    { destruct AR as (init & kver & kd & p & id & kpath & ipath & I1 & I2 & I3 & I4 & I5 & I6 & I7 & ->).
      apply x_gens_p in SE as [<-|[<-|[<-|[]]]].
      all: vm_compute in I1, I2, I3, I4; injection I1 as <-; injection I2 as <-; injection I3 as <-; injection I4 as <-.
      all: vm_compute in I5; injection I5 as <-; vm_compute in I6, I7; injection I6 as <-; injection I7 as <-; vm_compute; reflexivity. }
    cbn [x_env e_objcopy e_signer e_lock x_signer local_signer sg_sign]. unfold x_objcopy.
    rewrite <- EC in FB.
    assert (forallb (fun s : str * bytes * N => N.of_nat (length (snd (fst s))) <? 65536) l = true) as FB2.
    { clear EC. induction l as [|a l IH]; [reflexivity|]. cbn [map forallb] in FB |- *. apply andb_true_iff in FB as [F1 F2]. rewrite F1. exact (IH F2). }
    match goal with |- context[if ?b then _ else _] => replace b with true by (symmetry; exact FB2) end. eexists. split; [reflexivity|]. split; [discriminate | intros _; discriminate].
  - exists (x_boot (lit "257.2")). eexists. split; [vm_compute; reflexivity|]. split; [vm_compute; reflexivity|]. split; [discriminate | intros _; discriminate].
  - vm_compute. discriminate.
  - discriminate.
Qed.

Lemma x_lookup m q n : lookup m q = Some n -> In (q, n) m.
Proof.
  induction m as [|[p k] m IH]; cbn; [discriminate|]. destruct (eqb_path p q) eqn:E; [|auto].
  apply eqb_path_spec in E as ->. intros [= ->]. auto.
Qed.

Lemma x_clear_p : clear x_cp x_esp.
Proof.
  constructor.
  - right. vm_compute. reflexivity.
  - intros d q x b D [t A] L. apply x_lookup in L.
    assert (length d <= 3)%nat as LD by (vm_compute in D; repeat (destruct D as [<-|D]; [vm_compute; repeat constructor|]); destruct D).
    destruct L as [[=]|[[=]|[[=]|[[= <- <- <-]|[[= <- <- <-]|[]]]]]].
    all: apply (f_equal (@length _)) in A; rewrite app_length in A; cbn [length] in A; Lia.lia.
  - intros d n D _ L. apply x_lookup in L. vm_compute in D.
    destruct L as [[= E]|[[= E]|[[= E]|[[=]|[[=]|[]]]]]].
    all: repeat (destruct D as [<-|D]; [discriminate|]); destruct D.
Qed.

Lemma x_no_loader : ~ bad_loader x_world x_cp x_esp.
Proof. intros (p & y & b & IN & L & _). vm_compute in IN. destruct IN as [<-|[<-|[]]]; vm_compute in L; discriminate. Qed.

Lemma x_good_signed fault : ~ bad_signed (x_env x_files fault) x_cp.
Proof.
  intros (x & out & ST & SG & U). vm_compute in ST. injection ST as <-. vm_compute in SG. injection SG as <-.
  apply version_panic in U. vm_compute in U. discriminate.
Qed.

Example C59_progress_ex :
  sound x_m /\ fits x_m x_world x_cp /\ history x_m x_esp /\ no_faults x_world /\ ready x_world x_cp /\ clear x_cp x_esp /\
  ~ bad_loader x_world x_cp x_esp /\ ~ bad_signed x_world x_cp.
Proof.
  split; [apply x_m_sound|]. split; [apply x_fits_p|]. split; [apply x_history_esp|]. split; [intros t; reflexivity|].
  split; [apply x_ready|]. split; [apply x_clear_p|]. split; [apply x_no_loader | apply x_good_signed].
Qed.

(** An I/O error in the middle of a run: a stub is half written. *)
Definition x_broken : env := x_env x_files (x_fail_at 37 (Some [1; 2; 3])).
Definition x_failed : fs := s_fs (fst (run_install x_broken x_cp x_esp)).
(** Then a run that is killed after 20 operations. *)
Definition x_killed : fs := apply_all (firstn 20 (x_trace x_cp x_failed)) x_failed.

Example C59_retry_ex :
  snd (run_install x_broken x_cp x_esp) = Err tt /\ existsb (fun q => match snd q with NFile [1; 2; 3] _ => true | _ => false end) x_failed = true /\
  length x_killed <> length x_failed /\ attempts x_m x_cp x_esp x_killed /\ snd (run_install x_world x_cp x_killed) = Ok tt.
Proof.
  split; [vm_compute; reflexivity|]. split; [vm_compute; reflexivity|]. split; [vm_compute; discriminate|]. split; [|vm_compute; reflexivity].
  apply (at_run _ _ _ x_failed x_world x_cp); [|apply x_fits_p | repeat split | apply x_good_signed |].
  - unfold x_failed. rewrite final_fs. apply (at_run _ _ _ _ x_broken x_cp); [apply at_none | apply x_fits_p | repeat split | apply x_good_signed | apply final_point].
  - exists (skipn 20 (x_trace x_cp x_failed)). symmetry. apply firstn_skipn.
Qed.

(** Without [clear] a run can fail: here a file is where a directory is
    needed. *)
Example C59_clear_needed :
  let m := [([lit "boot"], NDir); ([lit "boot"; lit "EFI"], NFile (lit "not a directory") true)] in
  ready x_world x_cp /\ no_faults x_world /\ ~ clear x_cp m /\ snd (run_install x_world x_cp m) = Err tt.
Proof.
  cbv zeta. split; [apply x_ready|]. split; [intros t; reflexivity|]. split; [|vm_compute; reflexivity].
  intros [_ H _]. refine (H [lit "boot"; lit "EFI"; lit "nixos"] [lit "boot"; lit "EFI"] (lit "not a directory") true _ _ _).
  - left. reflexivity.
  - exists [lit "nixos"]. reflexivity.
  - vm_compute. reflexivity.
Qed.
