(** Specification of C74: what a boot.json document says. *)
From Coq Require Import List NArith Bool.
From Verif Require Import Base MText MGeneration MBootspec.
Import ListNotations.
Open Scope N_scope.

(** The value of a member is the last one with its name. *)
Definition member (k : str) (v : json) (j : json) : Prop :=
  exists a b, j = JObject (a ++ (k, v) :: b) /\ ~ In k (map fst b).
Definition no_member (k : str) (j : json) : Prop := forall v, ~ member k v j.
Definition text_member (k : str) (t : str) (j : json) : Prop := member k (JString t) j.
(** A path that may be left out. *)
Definition maybe_path (k : str) (p : option bytes) (j : json) : Prop :=
  match p with
  | Some b => exists t, text_member k t j /\ b = utf8_encode t
  | None => no_member k j \/ member k JNull j
  end.

(** The key entries are sorted by: given in the document's lanzaboote extension,
    or "lanzaboote". *)
Definition given_key (j : json) (k : str) : Prop :=
  exists v, member (lit "org.nix-community.lanzaboote") v j /\ (text_member (lit "sort_key") k v \/ v = JArray [JString k]).
Definition sorted_by (j : json) (k : str) : Prop :=
  given_key j k \/ (forall k', ~ given_key j k') /\ k = lit "lanzaboote".

Definition specialisation (j : json) (n : str) (s : json) : Prop :=
  exists ss, member (lit "org.nixos.specialisation.v1") ss j /\ member n s ss.

(** What a bootspec has from its own part of the document. *)
Definition says (j : json) (b : bootspec) : Prop :=
  exists v, member (lit "org.nixos.bootspec.v1") v j /\
    (exists t, text_member (lit "init") t v /\ bs_init b = utf8_encode t) /\
    maybe_path (lit "initrd") (bs_initrd b) v /\
    maybe_path (lit "initrdSecrets") (bs_initrd_secrets b) v /\
    (exists t, text_member (lit "kernel") t v /\ bs_kernel b = utf8_encode t) /\
    member (lit "kernelParams") (JArray (map JString (bs_params b))) v /\
    text_member (lit "label") (bs_label b) v /\
    (exists t, text_member (lit "toplevel") t v /\ bs_toplevel b = utf8_encode t).

(** A bootspec agrees with a document, including all its specialisations. *)
Inductive agrees : json -> bootspec -> Prop :=
| agrees_intro j b :
    says j b ->
    match bs_sort_key b with Some k => given_key j k | None => forall k, ~ given_key j k end ->
    NoDup (map fst (bs_specs b)) ->
    (forall n b', In (n, b') (bs_specs b) -> exists s, specialisation j n s /\ agrees s b') ->
    (forall n s, specialisation j n s -> In n (map fst (bs_specs b))) ->
    agrees j b.

(** ** Well-formed documents *)

(** An object that has no name twice. *)
Definition an_object (j : json) : Prop := exists l, j = JObject l /\ NoDup (map fst l).
Definition has_text (k : str) (j : json) : Prop := exists t, text_member k t j.
Definition may_have_text (k : str) (j : json) : Prop := no_member k j \/ member k JNull j \/ has_text k j.

Inductive well_formed : json -> Prop :=
| wf_intro j v :
    an_object j -> member (lit "org.nixos.bootspec.v1") v j -> an_object v ->
    has_text (lit "init") v -> may_have_text (lit "initrd") v -> may_have_text (lit "initrdSecrets") v ->
    has_text (lit "kernel") v -> (exists l, member (lit "kernelParams") (JArray (map JString l)) v) ->
    has_text (lit "label") v -> has_text (lit "toplevel") v -> has_text (lit "system") v ->
    (forall ss, member (lit "org.nixos.specialisation.v1") ss j -> an_object ss /\ (forall n s, member n s ss -> well_formed s)) ->
    well_formed j.

(** ** Generations *)

(** What stands on the ESP for a document: an entry for itself and one for each
    of its specialisations. *)
Definition stands_for (v : N) (t : option date) (j : json) (g : generation) : Prop :=
  g_version g = v /\ g_build_time g = t /\
  exists d, match g_specname g with None => d = j | Some n => specialisation j n d end /\
    agrees d (g_spec g) /\ sorted_by d (g_sort_key g).
