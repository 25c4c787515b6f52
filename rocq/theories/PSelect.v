(** Proofs about the selection of generations (install.rs:109-133,177-225). *)
From Coq Require Import List NArith Bool Lia Permutation Sorted.
From Verif Require Import Base MGeneration MNames MFs PFs MTool MInstall PInstall SInstall PFiles PGc.
Import ListNotations.
Open Scope N_scope.

Lemma ifor_app {A} (a b : list A) f s : ifor (a ++ b) f s = ibind (ifor a f) (fun _ => ifor b f) s.
Proof.
  revert s; induction a as [|x a IH]; intros s; cbn [ifor app]; [reflexivity|].
  unfold ibind in *. destruct (f x s) as [s1 [[]|u|]]; auto.
Qed.

Lemma ifor_nested (gs : list generation) f s :
  ifor gs (fun g => let* _ := f g in ifor (g_specs g) f) s = ifor (flat_map (fun g => g :: g_specs g) gs) f s.
Proof.
  revert s; induction gs as [|g gs IH]; intros s; [reflexivity|].
  cbn [flat_map]. rewrite ifor_app. cbn [ifor]. unfold ibind.
  destruct (f g s) as [s1 [[]|u|]]; auto.
  destruct (ifor (g_specs g) f s1) as [s2 [[]|u|]]; auto.
Qed.

Definition tops (ls : list (N * link)) : list generation :=
  flat_map (fun vl => match l_spec (snd vl) with
                      | Some b => [parse_boot_json (fst vl) (l_time (snd vl)) b]
                      | None => []
                      end) ls.

Lemma generations_nofault e ls s :
  no_faults e ->
  exists s', generations_from_links e ls s = (s', Ok (tops ls)) /\ s_fs s' = s_fs s /\ s_trace s' = s_trace s.
Proof.
  intros NF. revert s; induction ls as [|[v l] ls IH]; intros s; cbn [generations_from_links].
  - exists s. auto.
  - unfold generation_from_link, ifault, ibind at 1 2. rewrite NF. cbn [tops flat_map fst snd].
    destruct (l_spec l) as [b|] eqn:E; cbn [iret ibroken ibind].
    + unfold iret. unfold ibind. destruct (IH (ticked s)) as (s' & H & F & T). unfold ticked in H. rewrite H.
      exists s'. cbn in *. auto.
    + unfold iret, ibind, ibroken. cbn.
      destruct (IH (with_broken v (ticked s))) as (s' & H & F & T). unfold with_broken, ticked in H. cbn in H. rewrite H.
      exists s'. auto.
Qed.

Lemma tops_generations ls : flat_map (fun g => g :: g_specs g) (tops ls) = flat_map link_generations ls.
Proof.
  unfold tops. induction ls as [|[v l] ls IH]; [reflexivity|].
  cbn [flat_map]. rewrite flat_map_app, IH. unfold link_generations. cbn [fst snd].
  destruct (l_spec l); cbn [flat_map app]; [rewrite app_nil_r|]; reflexivity.
Qed.

Lemma install_selected e c m vs :
  no_faults e -> links_versions (c_links c) vs ->
  exists sel s0, newest (c_limit c) vs sel /\ untouched m s0 /\
    run_install e c m =
      match flat_map link_generations sel with
      | [] => (s0, Err tt)
      | gs => (let* _ := ifor gs (install_generation e c) in finish e c) s0
      end.
Proof.
  intros NF LV. apply parse_links_spec in LV.
  exists (limit_links (c_limit c) (sort_links vs)).
  destruct (generations_nofault e (limit_links (c_limit c) (sort_links vs)) (start c m) NF) as (s0 & E & F & T).
  exists s0. split; [apply limit_links_newest|]. split; [split; assumption|].
  unfold run_install, install. rewrite LV. unfold ibind at 1. cbn [ok_or ilift].
  set (sel := limit_links (c_limit c) (sort_links vs)) in *.
  unfold install_generations_from_links. unfold ibind at 1 2. rewrite E.
  rewrite <- tops_generations. destruct (tops sel) as [|g gs] eqn:TP; [reflexivity|].
  unfold ibind at 1. rewrite ifor_nested. cbn [flat_map].
  change ((g :: g_specs g) ++ flat_map (fun g0 => g0 :: g_specs g0) gs)
    with (g :: (g_specs g ++ flat_map (fun g0 => g0 :: g_specs g0) gs)).
  unfold finish, ibind. destruct (ifor _ _ s0) as [s1 [[]|u|]]; reflexivity.
Qed.

Lemma parse_abort e c m :
  (exists l, In l (c_links c) /\ link_version (l_name l) = None) ->
  untouched m (fst (run_install e c m)) /\ snd (run_install e c m) = Err tt.
Proof.
  intros (l & H & N). unfold run_install, install.
  assert (parse_links (c_links c) = None) as ->.
  { revert H. generalize (c_links c). induction l0 as [|x ls IH]; cbn; [contradiction|].
    intros [->|H]; [rewrite N; reflexivity|]. rewrite (IH H). destruct (link_version (l_name x)); reflexivity. }
  cbn. repeat split.
Qed.

Lemma unsigned_choice allow pub priv :
  use_empty_key_pair allow pub priv = true <-> allow = true /\ pub <> Some true /\ priv <> Some true.
Proof.
  unfold use_empty_key_pair. rewrite !andb_true_iff.
  destruct allow, pub as [[]|], priv as [[]|]; cbn; intuition congruence.
Qed.

Lemma signing_failure e key sbsign sbverify from to s x :
  e_signer e = local_signer key sbsign sbverify -> from = Some x -> sbsign x = None -> to <> [] ->
  snd (install_signed e from to s) = Err tt /\
  lookup (s_fs (fst (install_signed e from to s))) to = lookup (s_fs s) to.
Proof.
  intros ES F N TO.
  assert (sat (fun m o => True) (install_signed e from to) s
            (fun r s' => r = Err tt /\ lookup (s_fs s') to = lookup (s_fs s) to)) as [_ H].
  { unfold install_signed. apply sat_bind.
    eapply sat_mono; [apply sat_ensure_parent_dir; auto|]. cbn [after]. intros r s1 _ (-> & _ & O & _); cbn [after].
    destruct (snoc_facts to TO) as (_ & _ & _ & B). rewrite parent_tmp in O.
    assert (lookup (s_fs s1) to = lookup (s_fs s) to) as L.
    { destruct (O to) as [X|(_ & _ & X)]; [exact X | congruence]. }
    apply sat_bind. unfold sign_and_copy. apply sat_bind, sat_source; cbn [after].
    - intros _. auto.
    - intros y Y. rewrite ES. cbn [local_signer sg_sign]. replace y with x by congruence. rewrite N.
      apply sat_fail; cbn [after]. auto. }
  exact H.
Qed.
