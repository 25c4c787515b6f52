(** C74: what is read from boot.json. *)
From Coq Require Import List NArith Bool Permutation.
From Verif Require Import Base MText MGeneration MInstall SInstall MOsRelease SOsRelease SMenu MBootspec SBootspec PBootspec PMenu Tests.
Import ListNotations.
Open Scope N_scope.

(** ** C74 *)

(** What is read is what the document says. *)
Theorem C74_reads : forall ord, (forall l, Permutation (ord l) l) -> forall j b, generation_v1 ord j = Some b -> agrees j b.
Proof. exact read_agrees. Qed.
Print Assumptions C74_reads.

(** Every well-formed document is read. *)
Theorem C74_well_formed : forall ord j, well_formed j -> exists b, generation_v1 ord j = Some b.
Proof. exact read_well_formed. Qed.
Print Assumptions C74_well_formed.

(** A link with a well-formed document stands for the system and its
    specialisations: for nothing else, for all of them, for each once. *)
Theorem C74_generations : forall ord v nm t j synth, (forall l, Permutation (ord l) l) -> well_formed j ->
  let gs := link_generations (v, link_of nm t ord (Some j) synth) in
  (forall g, In g gs -> stands_for v t j g) /\
  (exists g, In g gs /\ g_specname g = None) /\
  (forall n s, specialisation j n s -> exists g, In g gs /\ g_specname g = Some n) /\
  NoDup (map g_specname gs).
Proof.
  intros ord v nm t j synth PO W.
  assert (generation_v1 ord j <> None) as NN by (destruct (read_well_formed ord j W) as [b ->]; discriminate).
  split; [|exact (link_complete ord v nm t j synth PO NN)]. intros g. exact (link_sound ord v nm t j synth g PO NN).
Qed.
Print Assumptions C74_generations.

(** Without a document that can be read, the bootspec is the synthesised one;
    without that either, the link counts as malformed. *)
Theorem C74_fallback : forall ord nm t doc synth,
  (forall j, doc = Some j -> generation_v1 ord j = None) -> l_spec (link_of nm t ord doc synth) = synth.
Proof. exact link_fallback. Qed.
Print Assumptions C74_fallback.

(** Entries from documents of the same NixOS option [sortKey] (or all without
    it) are ordered by age. *)
Theorem C74_order : forall v v' t t' j j' g h e f gi gl gd hi hl hd,
  stands_for v t j g -> stands_for v' t' j' h ->
  (forall d, d = j \/ (exists n, specialisation j n d) \/ d = j' \/ (exists n, specialisation j' n d) ->
     forall k, ~ given_key d k) \/
  (exists k, forall d, d = j \/ (exists n, specialisation j n d) \/ d = j' \/ (exists n, specialisation j' n d) -> given_key d k) ->
  menu_ready g -> menu_ready h -> preferred g h ->
  entry_of (utf8_encode (os_release_display (os_release_of_generation g))) gi gl gd = Some e ->
  entry_of (utf8_encode (os_release_display (os_release_of_generation h))) hi hl hd = Some f ->
  (exhausted e = true -> exhausted f = true) -> above e f.
Proof.
  intros v v' t t' j j' g h e f gi gl gd hi hl hd (_ & _ & d & D & _ & S) (_ & _ & d' & D' & _ & S') K R R' P E F X.
  assert (d = j \/ (exists n, specialisation j n d) \/ d = j' \/ (exists n, specialisation j' n d)) as Q.
  { destruct (g_specname g) as [n|]; [right; left; exists n; exact D | left; exact D]. }
  assert (d' = j \/ (exists n, specialisation j n d') \/ d' = j' \/ (exists n, specialisation j' n d')) as Q'.
  { destruct (g_specname h) as [n|]; [right; right; right; exists n; exact D' | right; right; left; exact D']. }
  apply (menu_order_generation g h e f gi gl gd hi hl hd R R'); try assumption.
  destruct K as [K|(k & K)].
  - rewrite (sorted_by_default d _ (K d Q) S). symmetry. apply (sorted_by_default d' _ (K d' Q') S').
  - rewrite (sorted_by_given d k _ (K d Q) S). symmetry. apply (sorted_by_given d' k _ (K d' Q') S').
Qed.
Print Assumptions C74_order.

(** ** The document of the repository's tests *)

(** rust/tool/systemd/tests/integration/common.rs:54-106 *)
Definition doc_system (toplevel : str) (v : N) : json :=
  JObject [ (lit "init", JString (lit "init-v" ++ dec v));
            (lit "initrd", JString (store_dir toplevel ++ lit "/initrd"));
            (lit "kernel", JString (store_dir toplevel ++ lit "/kernel"));
            (lit "kernelParams", JArray [JString (lit "amd_iommu=on"); JString (lit "loglevel=4")]);
            (lit "label", JString (lit "LanzaOS"));
            (lit "toplevel", JString toplevel);
            (lit "system", JString (lit "x86_64-linux")) ].
Definition doc_key (k : str) : json := JObject [(lit "sort_key", JString k)].
Definition doc_rescue (toplevel : str) (v : N) : json :=
  JObject [ (lit "org.nixos.bootspec.v1", doc_system toplevel v);
            (lit "org.nix-community.lanzaboote", doc_key (lit "lanzaboote2"));
            (lit "org.nixos.specialisation.v1", JObject []) ].
Definition doc (toplevel : str) (v : N) : json :=
  JObject [ (lit "org.nixos.bootspec.v1", doc_system toplevel v);
            (lit "org.nix-community.lanzaboote", doc_key (lit "lanzaboote"));
            (lit "org.nixos.specialisation.v1", JObject [(lit "rescue", doc_rescue toplevel v)]) ].

(** Reading it gives the links of [Tests]. *)
Example C74_document :
  link_of (Some (lit "system-1-link")) (Some (Date 1970 1 1)) (fun l => l) (Some (doc top1 1)) None = t_link top1 1.
Proof. vm_compute. reflexivity. Qed.

Lemma doc_members l : NoDup (map fst l) -> an_object (JObject l).
Proof. intros H. exists l. auto. Qed.

Ltac names := apply doc_members; vm_compute; repeat constructor; cbn [In]; intuition discriminate.
Ltac get := apply member_get; vm_compute; reflexivity.

Lemma doc_fields toplevel v j :
  an_object j -> member (lit "org.nixos.bootspec.v1") (doc_system toplevel v) j ->
  (forall ss, member (lit "org.nixos.specialisation.v1") ss j -> an_object ss /\ (forall n s, member n s ss -> well_formed s)) -> well_formed j.
Proof.
  intros A B C. apply (wf_intro j (doc_system toplevel v) A B); [names| | | | | | | | |exact C].
  - eexists; apply member_get; reflexivity.
  - right. right. eexists. apply member_get; reflexivity.
  - left. intros w H. apply member_get in H. discriminate.
  - eexists; apply member_get; reflexivity.
  - exists [lit "amd_iommu=on"; lit "loglevel=4"]. apply member_get; reflexivity.
  - eexists; apply member_get; reflexivity.
  - eexists; apply member_get; reflexivity.
  - eexists; apply member_get; reflexivity.
Qed.

Example C74_well_formed_ex : forall toplevel v, well_formed (doc toplevel v) /\
  specialisation (doc toplevel v) (lit "rescue") (doc_rescue toplevel v) /\
  given_key (doc toplevel v) (lit "lanzaboote") /\ given_key (doc_rescue toplevel v) (lit "lanzaboote2").
Proof.
  intros toplevel v. split; [|split; [|split]].
  - apply (doc_fields toplevel v); [names | apply member_get; reflexivity|].
    intros ss H. apply member_get in H. injection H as <-. split; [names|].
    intros n s H. apply member_in in H. destruct H as [[= <- <-]|[]].
    apply (doc_fields toplevel v); [names | apply member_get; reflexivity|].
    intros ss H. apply member_get in H. injection H as <-. split; [names|]. intros n s H. apply member_in in H. destruct H.
  - eexists. split; apply member_get; reflexivity.
  - exists (doc_key (lit "lanzaboote")). split; [|left]; apply member_get; reflexivity.
  - exists (doc_key (lit "lanzaboote2")). split; [|left]; apply member_get; reflexivity.
Qed.

(** A document of an older system without the extension, with a repeated member
    that must not decide, and one that is malformed. *)
Example C74_older :
  generation_v1 (fun l => l) (JObject [(lit "org.nixos.bootspec.v1", doc_system top1 3)]) =
    Some (Bootspec (lit "init-v3") (Some (store_dir top1 ++ lit "/initrd")) None (store_dir top1 ++ lit "/kernel")
            [lit "amd_iommu=on"; lit "loglevel=4"] (lit "LanzaOS") top1 None []) /\
  (forall g, In g (link_generations (3, link_of None None (fun l => l) (Some (JObject [(lit "org.nixos.bootspec.v1", doc_system top1 3)])) None)) ->
     g_sort_key g = lit "lanzaboote") /\
  generation_v1 (fun l => l) (JObject [(lit "org.nixos.bootspec.v1", doc_system top1 3); (lit "org.nixos.bootspec.v1", doc_system top2 3)]) = None /\
  generation_v1 (fun l => l) (JObject [(lit "org.nixos.bootspec.v1", JObject [(lit "init", JString [])])]) = None.
Proof.
  split; [vm_compute; reflexivity|]. split; [|split; vm_compute; reflexivity].
  intros g [<-|[]]. reflexivity.
Qed.

Example C74_order_ex :
  let j := JObject [(lit "org.nixos.bootspec.v1", doc_system top1 3)] in
  (forall d, d = j \/ (exists n, specialisation j n d) \/ d = j \/ (exists n, specialisation j n d) -> forall k, ~ given_key d k).
Proof.
  cbv zeta. assert (forall n d, ~ specialisation (JObject [(lit "org.nixos.bootspec.v1", doc_system top1 3)]) n d) as NS.
  { intros n d (ss & H & _). apply member_get in H. discriminate. }
  intros d H k (v & K & _). assert (d = JObject [(lit "org.nixos.bootspec.v1", doc_system top1 3)]) as ->
    by (destruct H as [H|[[n H]|[H|[n H]]]]; try assumption; destruct (NS n d H)).
  apply member_get in K. discriminate.
Qed.
