(** C75, C76: what is on the ESP after a successful run, and how much of it. *)
From Coq Require Import List NArith Bool Permutation Lia.
From Verif Require Import Base PBase MText PText MGeneration MNames MPe MFs MTool MInstall SCommon SNames SInstall PFs PInstall.
From Verif Require Import XWorld SHistory PHistory PHistories XMachine Properties_History SRepeat PRepeat PTwice Properties_Repeat SExact PExact.
Import ListNotations.
Open Scope N_scope.

(** ** C75 *)

(** After a successful run on an ESP with any history, the entries of NixOS are
    exactly one for each selected generation and specialisation, EFI/nixos holds
    nothing that is not named by one of them, and the pcrlock directory holds
    exactly their components. *)
Theorem C75_exact : forall M e c m, sound M -> fits M e c -> history M m ->
  tree_ok m -> no_faults e -> complete_listings e -> all_readable c -> distinct c -> settled M c m ->
  snd (run_install e c m) = Ok tt ->
  let m1 := s_fs (fst (run_install e c m)) in
  exists key vs sel l, sg_key (e_signer e) = Some key /\ links_versions (c_links c) vs /\ newest (c_limit c) vs sel /\
    map fst l = flat_map link_generations sel /\ NoDup (map snd l) /\
    exact_entries M key l m1 /\ exact_files M l m1 /\
    forall d, c_pcrlock c = Some d -> exact_components d l m1.
Proof.
  intros M e c m SO FI HI TO NF CL AR DC ST OK. exact (exact_after M SO e c m FI HI TO NF CL AR DC ST OK).
Qed.
Print Assumptions C75_exact.

(** The number of entries is that of the selected generations and specialisations. *)
Theorem C75_number : forall M e c m, sound M -> fits M e c -> history M m ->
  tree_ok m -> no_faults e -> complete_listings e -> all_readable c -> distinct c -> settled M c m ->
  snd (run_install e c m) = Ok tt ->
  exists vs sel, links_versions (c_links c) vs /\ newest (c_limit c) vs sel /\
    number (listed M (s_fs (fst (run_install e c m)))) (length (flat_map link_generations sel)).
Proof.
  intros M e c m SO FI HI TO NF CL AR DC ST OK.
  destruct (exact_after M SO e c m FI HI TO NF CL AR DC ST OK) as (key & vs & sel & l & _ & LV & NW & GE & ND & EE & _).
  exists vs, sel. split; [exact LV|]. split; [exact NW|]. rewrite <- GE, map_length. eapply entries_number; eauto.
Qed.
Print Assumptions C75_number.

(** ** C76 *)

(** Without specialisations, a limit on generations limits the entries and the
    variants of the stub that systemd-pcrlock has to allow for. *)
Theorem C76_limit_partial : forall M e c m, sound M -> fits M e c -> history M m ->
  tree_ok m -> no_faults e -> complete_listings e -> all_readable c -> distinct c -> settled M c m ->
  snd (run_install e c m) = Ok tt -> c_limit c <> 0 -> no_specialisations c ->
  let m1 := s_fs (fst (run_install e c m)) in
  at_most (listed M m1) (N.to_nat (c_limit c)) /\
  forall d, c_pcrlock c = Some d -> at_most (variant d m1) (N.to_nat (c_limit c)).
Proof.
  intros M e c m SO FI HI TO NF CL AR DC ST OK NZ NS.
  destruct (exact_after M SO e c m FI HI TO NF CL AR DC ST OK) as (key & vs & sel & l & _ & LV & NW & GE & ND & EE & _ & EC).
  assert (length l <= N.to_nat (c_limit c))%nat as LE.
  { rewrite <- (map_length fst), GE. pose proof (few_generations c vs sel LV NW NS) as F.
    destruct NW as (sk & _ & _ & _ & LN & _). specialize (LN NZ). lia. }
  split; [eapply at_most_le; [apply number_at_most; eapply entries_number; eauto | exact LE]|].
  intros d PL. eapply at_most_le; [apply components_at_most; apply EC; exact PL | exact LE].
Qed.
Print Assumptions C76_limit_partial.

(** With specialisations: the number of variants is that of the selected systems
    and all their specialisations, so the limit is kept if and only if this
    number is within it. *)
Theorem C76_variants : forall M e c m d, sound M -> fits M e c -> history M m ->
  tree_ok m -> no_faults e -> complete_listings e -> all_readable c -> distinct c -> settled M c m ->
  snd (run_install e c m) = Ok tt -> c_pcrlock c = Some d -> apart c ->
  let m1 := s_fs (fst (run_install e c m)) in
  exists vs sel, links_versions (c_links c) vs /\ newest (c_limit c) vs sel /\
    number (variant d m1) (length sel + list_sum (map specialisations sel)) /\
    forall k, at_most (variant d m1) k <-> (length sel + list_sum (map specialisations sel) <= k)%nat.
Proof.
  intros M e c m d SO FI HI TO NF CL AR DC ST OK PL AP m1.
  destruct (exact_after M SO e c m FI HI TO NF CL AR DC ST OK) as (key & vs & sel & l & _ & LV & NW & GE & ND & EE & _ & EC).
  exists vs, sel. split; [exact LV|]. split; [exact NW|].
  assert (number (variant d m1) (length sel + list_sum (map specialisations sel))) as N.
  { rewrite <- (generations_number sel (AR vs sel LV NW)), <- GE, map_length.
    apply components_number; [|rewrite GE; exact (AP vs sel LV NW) | exact (EC d PL)].
    intros g n I. apply (so_names _ SO). apply (fi_gens _ _ _ FI). exists vs, sel. split; [exact LV|]. split; [exact NW|].
    rewrite <- GE. apply (in_map fst _ _ I). }
  split; [exact N|]. intros k. apply number_at_most_iff. exact N.
Qed.
Print Assumptions C76_variants.

(** ** Examples *)

(** Two generations, one with a specialisation, with measured boot, on an ESP
    with an old entry. *)
Example C75_exact_ex :
  sound x_m /\ fits x_m x_world x_c3 /\ history x_m x_esp /\ tree_ok x_esp /\ no_faults x_world /\ complete_listings x_world /\
  all_readable x_c3 /\ distinct x_c3 /\ settled x_m x_c3 x_esp /\ snd (run_install x_world x_c3 x_esp) = Ok tt /\
  listed x_m x_esp (lit "nixos-old.efi") /\ ~ listed x_m (x_after x_c3 x_esp) (lit "nixos-old.efi").
Proof.
  split; [apply x_m_sound|]. split; [apply x_c3_fits|]. split; [apply x_history_esp|]. split; [apply x_tree; vm_compute; reflexivity|].
  split; [apply x_faultless|]. split; [apply x_complete|]. split; [apply x_c3_readable|]. split; [apply x_c3_distinct|].
  split.
  { intros d g key n y b _ _ _ NM L. pose proof (x_no_entries [x_link1; x_link2] x_esp eq_refl g key n NM) as X.
    change (linux_file (x_machine [x_link1; x_link2]) n) with (linux_file x_m n) in X. rewrite X in L. discriminate. }
  split; [vm_compute; reflexivity|]. split.
  - split; [eexists; vm_compute; reflexivity | vm_compute; discriminate].
  - intros [_ X]. apply X. vm_compute. reflexivity.
Qed.

Definition x_c1m : config := x_config 1 0 (Some x_lockdir) [x_link1].
Example C76_limit_ex :
  sound x_m /\ fits x_m x_world x_c1m /\ history x_m x_esp /\ tree_ok x_esp /\ no_faults x_world /\ complete_listings x_world /\
  all_readable x_c1m /\ distinct x_c1m /\ settled x_m x_c1m x_esp /\
  snd (run_install x_world x_c1m x_esp) = Ok tt /\ c_limit x_c1m <> 0 /\ no_specialisations x_c1m /\
  variant x_lockdir (x_after x_c1m x_esp) (component x_lockdir x_gen1).
Proof.
  split; [apply x_m_sound|].
  split; [apply (x_fit [x_link1; x_link2] x_good); [intros l [<-|[]]; left; reflexivity | discriminate | intros d r [= <- _]; discriminate]|].
  split; [apply x_history_esp|]. split; [apply x_tree; vm_compute; reflexivity|]. split; [apply x_faultless|]. split; [apply x_complete|].
  assert (forall vs sel, links_versions (c_links x_c1m) vs -> newest (c_limit x_c1m) vs sel -> sel = [(1, x_link1)]) as SEL.
  { intros vs sel LV (sk & PM & _ & _ & LN & _). inversion LV as [|? [v l] ? vs' [E1 E2] LV']; subst. inversion LV'; subst. cbn [snd fst] in *. subst l.
    assert (v = 1) as -> by (vm_compute in E2; congruence).
    apply Permutation_length_1_inv in PM. destruct sk as [|a sk]; [exact PM|]. injection PM as -> PM. apply app_eq_nil in PM as [-> ->]. discriminate (LN ltac:(discriminate)). }
  split; [intros vs sel LV NW; rewrite (SEL vs sel LV NW); repeat constructor; discriminate|].
  split; [intros vs sel LV NW; rewrite (SEL vs sel LV NW); vm_compute; repeat constructor; intros []|].
  split.
  { intros d g key n y b _ _ _ NM L. pose proof (x_no_entries [x_link1; x_link2] x_esp eq_refl g key n NM) as X.
    change (linux_file (x_machine [x_link1; x_link2]) n) with (linux_file x_m n) in X. rewrite X in L. discriminate. }
  split; [vm_compute; reflexivity|]. split; [discriminate|]. split.
  - intros l b [<-|[]] [= <-]. reflexivity.
  - split; [eexists _, []; reflexivity | vm_compute; discriminate].
Qed.

(** Two systems, of which one has a specialisation, make three variants. *)
Example C76_variants_ex :
  sound x_m /\ fits x_m x_world x_c3 /\ history x_m x_esp /\ tree_ok x_esp /\ no_faults x_world /\ complete_listings x_world /\
  all_readable x_c3 /\ distinct x_c3 /\ settled x_m x_c3 x_esp /\ snd (run_install x_world x_c3 x_esp) = Ok tt /\
  c_pcrlock x_c3 = Some x_lockdir /\ apart x_c3 /\ number (variant x_lockdir (x_after x_c3 x_esp)) 3.
Proof.
  assert (apart x_c3) as AP.
  { intros vs sel LV NW. rewrite (x_c3_sel vs sel LV NW). vm_compute. repeat (constructor; [cbn [In]; intuition discriminate|]). constructor. }
  assert (snd (run_install x_world x_c3 x_esp) = Ok tt) as OK by (vm_compute; reflexivity).
  assert (tree_ok x_esp) as TO by (apply x_tree; vm_compute; reflexivity).
  split; [apply x_m_sound|]. split; [apply x_c3_fits|]. split; [apply x_history_esp|]. split; [exact TO|].
  split; [apply x_faultless|]. split; [apply x_complete|]. split; [apply x_c3_readable|]. split; [apply x_c3_distinct|].
  split; [apply x_esp_settled|]. split; [exact OK|]. split; [reflexivity|]. split; [exact AP|].
  destruct (C76_variants x_m x_world x_c3 x_esp x_lockdir x_m_sound x_c3_fits x_history_esp TO x_faultless x_complete x_c3_readable x_c3_distinct
    (x_esp_settled x_c3) OK eq_refl AP) as (vs & sel & LV & NW & N & _).
  rewrite (x_c3_sel vs sel LV NW) in N. exact N.
Qed.

(** One generation with eight specialisations. *)
Definition x_eight : link :=
  x_link (lit "system-1-link")
    (Some (x_spec (lit "/nix/store/aaa-linux-6.1/bzImage") (lit "/nix/store/bbb-initrd/initrd") (lit "/nix/store/one")
       (map (fun a => ([a], x_spec (lit "/nix/store/aaa-linux-6.1/bzImage") (lit "/nix/store/bbb-initrd/initrd")
                              (lit "/nix/store/one-" ++ [a]) [])) (lit "abcdefgh")))).
Definition x_c8 : config := x_config 1 0 (Some x_lockdir) [x_eight].
Definition x_m8 : machine := x_machine [x_eight].
Definition x_variants : list path :=
  map (component x_lockdir) (link_generations (1, x_eight)).

(** The assertion of the NixOS module (a limit from 1 to 8 with measured boot,
    nix/modules/lanzaboote.nix:432-440) does not keep systemd-pcrlock's limit of
    eight: specialisations are counted as well. *)
Theorem C76_refuted : exists M e c m d,
  sound M /\ fits M e c /\ history M m /\ no_faults e /\ c_pcrlock c = Some d /\ 0 < c_limit c <= 8 /\
  snd (run_install e c m) = Ok tt /\ ~ at_most (variant d (s_fs (fst (run_install e c m)))) 8.
Proof.
  exists x_m8, x_world, x_c8, x_esp, x_lockdir.
  split; [apply x_sound; vm_compute; reflexivity|].
  split; [apply (x_fit [x_eight] x_good); [apply incl_refl | discriminate | intros d r [= <- _]; discriminate]|].
  split; [apply x_start; vm_compute; reflexivity|]. split; [apply x_faultless|]. split; [reflexivity|].
  split; [vm_compute; split; congruence|]. split; [vm_compute; reflexivity|].
  intros H. specialize (H x_variants).
  assert (NoDup x_variants) as ND.
  { vm_compute. repeat (constructor; [intros X; cbn [In] in X; repeat (destruct X as [X|X]; [discriminate X|]); exact X|]). constructor. }
  specialize (H ND). assert (length x_variants <= 8)%nat as L; [|vm_compute in L; lia].
  apply H. intros p Hp. unfold variant.
  assert (forallb (fun p => match lookup (s_fs (fst (run_install x_world x_c8 x_esp))) p with Some _ => true | None => false end) x_variants = true) as F
    by (vm_compute; reflexivity).
  rewrite forallb_forall in F. specialize (F p Hp). split; [|destruct (lookup _ p); congruence].
  apply in_map_iff in Hp as (g & <- & _). exists (utf8_encode (dec (g_version g) ++ match g_specname g with Some n => lit "-" ++ n | None => [] end ++ lit ".pcrlock")), [].
  unfold component. rewrite <- app_assoc. reflexivity.
Qed.
Print Assumptions C76_refuted.
