(** Proofs about the command line (C57). *)
From Coq Require Import List NArith Bool Lia.
From Verif Require Import Base PBase MText MGeneration MNames MFs MTool MInstall PSelect MCli SCli SInstall.
Import ListNotations.
Open Scope N_scope.

Lemma system_cases s a : from_nixos_system s = Some a <->
  s = lit "x86_64-linux" /\ a = X86 \/ s = lit "aarch64-linux" /\ a = AArch64.
Proof.
  unfold from_nixos_system. destruct (eqb_bytes s (lit "x86_64-linux")) eqn:E1.
  - apply eqb_bytes_spec in E1 as ->. split; [intros [= <-]; auto | intros [[_ ->]|[X _]]; [reflexivity | discriminate]].
  - destruct (eqb_bytes s (lit "aarch64-linux")) eqn:E2.
    + apply eqb_bytes_spec in E2 as ->. split; [intros [= <-]; auto | intros [[X _]|[_ ->]]; [discriminate | reflexivity]].
    + split; [discriminate|]. intros [[-> _]|[-> _]]; discriminate.
Qed.

Lemma signer_asked w a pub priv : a_public_key a = Some pub -> a_private_key a = Some priv ->
  asked_signer w a (choose_signer w (a_allow_unsigned a) pub priv).
Proof.
  intros E1 E2. exists pub, priv. split; [exact E1|]. split; [exact E2|]. cbn zeta. unfold choose_signer.
  rewrite <- unsigned_choice. destruct (use_empty_key_pair _ _ _); (split; [|intros N]).
  - cbn. auto.
  - destruct N. reflexivity.
  - discriminate.
  - cbn. auto.
Qed.

Lemma map_Forall2 {A B} (f : A -> B) l : Forall2 (fun p x => x = f p) l (map f l).
Proof. induction l; cbn; constructor; auto. Qed.

(** An installation that is started is the one asked for. *)
Lemma cli_runs w a m : starts w a ->
  exists sg c, asked_signer w a sg /\ asked_config w a c /\
    lzbt w a m = (s_fs (fst (run_install (w_env w sg) c m)), s_trace (fst (run_install (w_env w sg) c m)),
                  match snd (run_install (w_env w sg) c m) with Ok _ => 0 | Err _ => 1 | Panic => 101 end).
Proof.
  intros (S1 & S2 & S3 & S4). unfold lzbt, cli_install.
  destruct (w_stub w) as [stub|] eqn:ES; [|congruence]. destruct (a_public_key a) as [pub|] eqn:E1; [|congruence].
  destruct (a_private_key a) as [priv|] eqn:E2; [|congruence].
  destruct (from_nixos_system (a_system a)) as [ar|] eqn:E3.
  2: { exfalso. assert (from_nixos_system (a_system a) <> None) as X; [|congruence].
       destruct S4 as [->| ->]; discriminate. }
  set (c := Config _ _ _ _ _ _ _ _ _). exists (choose_signer w (a_allow_unsigned a) pub priv), c.
  split; [apply signer_asked; assumption|]. split.
  - apply system_cases in E3. subst c. unfold asked_config. cbn [c_arch c_stub c_esp c_systemd c_conf c_limit c_tries c_pcrlock c_links].
    split; [tauto|]. split; [exact ES|]. do 3 (split; [reflexivity|]).
    do 2 (split; [intros n ->; reflexivity|]; split; [intros ->; reflexivity|]).
    split; [intros d ->; reflexivity|]. split; [intros ->; reflexivity|]. apply map_Forall2.
  - destruct (run_install _ c m) as [s r]. cbn [fst snd]. unfold exit_status. reflexivity.
Qed.

(** Otherwise nothing happens. *)
Lemma cli_refuses w a m : ~ starts w a -> exists n, lzbt w a m = (m, [], n) /\ n <> 0 /\
  (n = 101 -> a_public_key a = None \/ a_private_key a = None).
Proof.
  intros NS. unfold lzbt, cli_install.
  destruct (w_stub w) as [stub|] eqn:ES; [|exists 1; cbn; split; [reflexivity | split; [discriminate | discriminate]]].
  destruct (a_public_key a) as [pub|] eqn:E1; [|exists 101; cbn; split; [reflexivity | split; [discriminate | auto]]].
  destruct (a_private_key a) as [priv|] eqn:E2; [|exists 101; cbn; split; [reflexivity | split; [discriminate | auto]]].
  destruct (from_nixos_system (a_system a)) as [ar|] eqn:E3; [|exists 1; cbn; split; [reflexivity | split; discriminate]].
  exfalso. apply NS. apply system_cases in E3. unfold starts. rewrite ES, E1, E2. repeat split; try discriminate. tauto.
Qed.

Lemma cli_exit w a m : snd (lzbt w a m) = 0 <->
  exists sg c, asked_signer w a sg /\ asked_config w a c /\ lzbt w a m =
    (s_fs (fst (run_install (w_env w sg) c m)), s_trace (fst (run_install (w_env w sg) c m)), 0) /\
    snd (run_install (w_env w sg) c m) = Ok tt.
Proof.
  split.
  - intros Z. assert (starts w a) as SA.
    { unfold starts. unfold lzbt, cli_install in Z. destruct (w_stub w); [|discriminate].
      destruct (a_public_key a); [|discriminate]. destruct (a_private_key a); [|discriminate].
      destruct (from_nixos_system (a_system a)) as [ar|] eqn:E; [|discriminate]. apply system_cases in E.
      repeat split; try discriminate. tauto. }
    destruct (cli_runs w a m SA) as (sg & c & A1 & A2 & A3). exists sg, c. rewrite A3 in *. cbn [snd] in Z.
    destruct (snd (run_install (w_env w sg) c m)) as [[]| |]; [auto | discriminate | discriminate].
  - intros (sg & c & _ & _ & -> & _). reflexivity.
Qed.
