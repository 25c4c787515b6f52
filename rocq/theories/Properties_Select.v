(** C01, C04, C05, C47: selection of links, garbage collection, choice of the
    signer. *)
From Coq Require Import List NArith Bool Lia Permutation Sorted.
From Verif Require Import Base MText MOsRelease MGeneration MNames MFs MTool MInstall SInstall PFs PGc PSelect.
Import ListNotations.
Open Scope N_scope.

(** A small environment for the examples: no tool succeeds, no errors. *)
Definition ex_env : env :=
  Env (fun _ => None) (fun x => x) (fun _ => None) (fun _ _ => None) (fun _ _ => None) empty_signer
      (fun _ => None) (fun c => (48 <=? c) && (c <=? 57)) (fun _ l => l) (fun _ l => l) (fun _ => NoFault).

Definition ex_link (n : str) : link := Link (Some n) None None.

(** C01: a run without I/O errors installs exactly the generations (and their
    specialisations) of the selected links, oldest first, before anything
    else; the selected links are the newest ones ([newest]). *)
Theorem C01_limit : forall e c m vs,
  no_faults e -> links_versions (c_links c) vs ->
  exists sel s0, newest (c_limit c) vs sel /\ untouched m s0 /\
    run_install e c m =
      match flat_map link_generations sel with
      | [] => (s0, Err tt)
      | gs => (let* _ := ifor gs (install_generation e c) in finish e c) s0
      end.
Proof. exact install_selected. Qed.
Print Assumptions C01_limit.

(** The selection itself, also with I/O errors. *)
Theorem C01_selection : forall n vs, newest n vs (limit_links n (sort_links vs)).
Proof. exact limit_links_newest. Qed.
Print Assumptions C01_selection.

Example C01_limit_ex :
  no_faults ex_env /\
  let ls := [ex_link (lit "system-12-link"); ex_link (lit "system-3-link"); ex_link (lit "system-7-link")] in
  let vs := [(12, ex_link (lit "system-12-link")); (3, ex_link (lit "system-3-link")); (7, ex_link (lit "system-7-link"))] in
  links_versions ls vs /\
  limit_links 2 (sort_links vs) = [(7, ex_link (lit "system-7-link")); (12, ex_link (lit "system-12-link"))] /\
  limit_links 0 (sort_links vs) = [(3, ex_link (lit "system-3-link")); (7, ex_link (lit "system-7-link")); (12, ex_link (lit "system-12-link"))].
Proof.
  split; [intros t; reflexivity|]. repeat split. repeat constructor.
Qed.

(** C04: a link without a number between its dashes aborts the run before any
    change (what counts as a number: [C04_link_version]). *)
Theorem C04_abort : forall e c m,
  (exists l, In l (c_links c) /\ link_version (l_name l) = None) ->
  untouched m (fst (run_install e c m)) /\ snd (run_install e c m) = Err tt.
Proof. exact parse_abort. Qed.
Print Assumptions C04_abort.

Example C04_abort_ex :
  exists l, In l [ex_link (lit "system-12-link"); ex_link (lit "system-12x-link")] /\ link_version (l_name l) = None.
Proof. exists (ex_link (lit "system-12x-link")). split; [right; left; reflexivity | reflexivity]. Qed.

(** C05: what a collection removes, whatever order the walk has. *)
Theorem C05_exact : forall e, no_faults e -> complete_listings e -> forall dir pred s s' r,
  tree_ok (s_fs s) ->
  collect_garbage_with_filter e dir pred s = (s', r) ->
  r = Ok tt /\
  forall p, (garbage (s_fs s) (s_roots s) dir pred p -> lookup (s_fs s') p = None) /\
            (~ garbage (s_fs s) (s_roots s) dir pred p -> lookup (s_fs s') p = lookup (s_fs s) p).
Proof. exact collect_exact. Qed.
Print Assumptions C05_exact.

(** A tree with a kept file, an unreferenced file, an unreferenced directory
    containing a referenced file, and a file outside. *)
Definition ex_tree : fs :=
  [ ([lit "b"], NDir); ([lit "b"; lit "keep"], NFile [1] true); ([lit "b"; lit "drop"], NFile [2] true);
    ([lit "b"; lit "d"], NDir); ([lit "b"; lit "d"; lit "x"], NFile [3] true); ([lit "o"], NFile [4] true) ].
Definition ex_roots : list path := [[lit "b"]; [lit "b"; lit "keep"]; [lit "b"; lit "d"; lit "x"]].

Example C05_exact_ex :
  no_faults ex_env /\ complete_listings ex_env /\ tree_ok ex_tree /\
  garbage ex_tree ex_roots [lit "b"] (fun _ => true) [lit "b"; lit "d"; lit "x"] /\
  ~ garbage ex_tree ex_roots [lit "b"] (fun _ => true) [lit "b"; lit "keep"] /\
  s_fs (fst (collect_garbage_with_filter ex_env [lit "b"] (fun _ => true) (St ex_tree [] ex_roots [] 0))) =
    [ ([lit "b"], NDir); ([lit "b"; lit "keep"], NFile [1] true); ([lit "o"], NFile [4] true) ].
Proof.
  split; [intros t; reflexivity|]. split; [split; intros t l; apply Permutation_refl|].
  split.
  - apply tree_check_ok. vm_compute. reflexivity.
  - split.
    + split; [vm_compute; discriminate|]. exists [lit "b"; lit "d"].
      split; [vm_compute; discriminate|]. split; [eexists; reflexivity|]. split; [eexists; reflexivity|].
      split; [|reflexivity]. intros [H|[H|[H|[]]]]; discriminate.
    + split; [|vm_compute; reflexivity].
      intros (_ & q & _ & [r1 E1] & [r2 E2] & NI & _). apply NI. subst q.
      destruct r1 as [|x [|y r1]]; cbn in E2.
      * left; reflexivity.
      * inversion E2; subst. right; left; reflexivity.
      * exfalso. apply (f_equal (@length _)) in E2. cbn in E2. discriminate.
Qed.

(** C47: the unsigned mode is used iff it is allowed and neither key file is
    known to exist. *)
Theorem C47_unsigned : forall allow pub priv,
  use_empty_key_pair allow pub priv = true <->
  allow = true /\ pub <> Some true /\ priv <> Some true.
Proof. exact unsigned_choice. Qed.
Print Assumptions C47_unsigned.

(** In every other case the keys are used: a failing signing tool aborts the
    installation of the file, and nothing appears under its name. *)
Theorem C47_signing_failure : forall e key sbsign sbverify from to s x,
  e_signer e = local_signer key sbsign sbverify -> from = Some x -> sbsign x = None -> to <> [] ->
  snd (install_signed e from to s) = Err tt /\
  lookup (s_fs (fst (install_signed e from to s))) to = lookup (s_fs s) to.
Proof. exact signing_failure. Qed.
Print Assumptions C47_signing_failure.

Example C47_signing_failure_ex : exists key sbsign sbverify x,
  local_signer key sbsign sbverify = Signer (Some [1]) (fun _ => None) (fun f => match f with Some _ => true | None => false end) /\
  sbsign x = None.
Proof. exists (Some [1]), (fun _ => None), (fun _ => true), [7]. split; reflexivity. Qed.
