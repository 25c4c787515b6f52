(** Room on the ESP: C82. *)
From Coq Require Import List NArith Bool Lia.
From Verif Require Import Base MText MOsRelease MGeneration MNames MPe MTool MFs MInstall SCommon SNames SInstall SHistory SExact SRoom
  PBase PText PFs PPaths POwned PRoom PNames XWorld XMachine Properties_Run.
Import ListNotations.
Open Scope N_scope.

(** A run without I/O errors never needs more than what is in use and the room
    for the selected systems, their specialisations and the boot loader. *)
Theorem C82_peak : forall e c m z vs, no_faults e -> within e c z -> links_versions (c_links c) vs ->
  exists sel, newest (c_limit c) vs sel /\
    forall os, point e c m os -> (used (apply_all os m) <= used m + room z (length sel + list_sum (map specialisations sel)))%nat.
Proof. exact peak. Qed.
Print Assumptions C82_peak.

(** With any I/O errors: a run that never has room for an entry for every
    selected generation removes nothing, so it does not make room either. *)
Theorem C82_stuck : forall e c m (k : nat), digit_class (e_digit e) ->
  (forall os, point e c m os -> (forall g, always_selected c g -> has_entry e c (apply_all os m) g) -> (k < used (apply_all os m))%nat) ->
  (forall os, point e c m os -> (used (apply_all os m) <= k)%nat) ->
  forall os p, ~ point e c m (os ++ [ORemove p]).
Proof.
  intros e c m k DC FULL LIM os p P.
  destruct (removal_late e c m os p DC P) as (before & after & vs & sel & -> & LV & NW & _ & ENT).
  assert (point e c m before) as PB.
  { destruct P as [rest P]. exists ((OSyncAll (c_esp c) :: after) ++ [ORemove p] ++ rest). rewrite P. rewrite <- !app_assoc. reflexivity. }
  specialize (LIM before PB). assert (k < used (apply_all before m))%nat; [|lia]. apply FULL; [exact PB|].
  intros g S. apply ENT. exact (S vs sel LV NW).
Qed.
Print Assumptions C82_stuck.

(** ** Examples *)

(** Generation 1 is installed, and generation 2 with a specialisation is to
    replace it. *)
Definition r_old : fs := s_fs (fst (run_install x_world (x_config 0 0 None [x_link1]) x_esp)).
Definition r_c : config := x_config 0 0 None [x_link2].
Definition r_new : fs := s_fs (fst (run_install x_world r_c r_old)).

(** Before the run and after it all fits in 1000 bytes, but not in between: what
    is no longer needed is removed last. *)
Theorem C82_refuted : exists e c m (k : nat),
  no_faults e /\ snd (run_install e c m) = Ok tt /\
  (used m <= k)%nat /\ (used (s_fs (fst (run_install e c m))) <= k)%nat /\
  exists os, point e c m os /\ (k < used (apply_all os m))%nat.
Proof.
  exists x_world, r_c, r_old, 1000%nat. split; [intros t; reflexivity|]. split; [vm_compute; reflexivity|].
  split; [apply PeanoNat.Nat.leb_le; vm_compute; reflexivity|]. split; [apply PeanoNat.Nat.leb_le; vm_compute; reflexivity|].
  exists (firstn 15 (s_trace (fst (run_install x_world r_c r_old)))). split.
  - exists (skipn 15 (s_trace (fst (run_install x_world r_c r_old)))). symmetry. apply firstn_skipn.
  - apply PeanoNat.Nat.ltb_lt. vm_compute. reflexivity.
Qed.
Print Assumptions C82_refuted.

(** The write that does not fit fails (step 49). *)
Definition r_full : env := x_env x_files (x_fail_at 49 None).

Lemma point_firstn e c m os : point e c m os -> os = firstn (length os) (s_trace (fst (run_install e c m))).
Proof. intros [rest ->]. rewrite firstn_app, PeanoNat.Nat.sub_diag, firstn_all, app_nil_r. reflexivity. Qed.

Lemma prefixes_all {A} (f : list A -> bool) (l : list A) :
  forallb (fun n => f (firstn n l)) (seq 0 (S (length l))) = true -> forall os rest, l = os ++ rest -> f os = true.
Proof.
  intros H os rest ->. rewrite forallb_forall in H. specialize (H (length os)).
  rewrite firstn_app, PeanoNat.Nat.sub_diag, firstn_all, app_nil_r in H. apply H. apply in_seq. rewrite app_length. lia.
Qed.

(** The specialisation has no entry at any point of that run. *)
Definition r_debug : generation := nth 1 (link_generations (2, x_link2)) (parse_boot_json 0 None x_one).
Definition r_prefix : bytes := utf8_encode (stub_prefix x_sha x_key r_debug).
Definition r_ends (y : bytes) : bool := eqb_bytes (skipn (length y - 4) y) (lit ".efi").
Definition r_entry (p : path) : bool :=
  match p with
  | _ :: _ :: _ :: x :: r => starts_with r_prefix x && r_ends (last (x :: r) [])
  | _ => false
  end.

Lemma r_ends_app x : r_ends (x ++ lit ".efi") = true.
Proof.
  unfold r_ends. rewrite app_length, PeanoNat.Nat.add_sub, skipn_app, PeanoNat.Nat.sub_diag, skipn_all. reflexivity.
Qed.

Lemma r_entry_is p : is_entry r_full r_c r_debug p -> r_entry p = true.
Proof.
  intros (key & cnt & [= <-] & CNT & H). cbv zeta in H. rewrite !utf8_encode_app in H.
  change (utf8_encode (stub_prefix (e_sha r_full) x_key r_debug)) with r_prefix in H.
  change (utf8_encode (lit ".efi")) with (lit ".efi") in H.
  set (n := utf8_encode cnt) in *. clearbody n.
  assert (forall q, (exists y, exists t, q = (r_prefix ++ y) :: t) -> (exists a x, q = a ++ [x ++ lit ".efi"]) ->
            r_entry (in_esp r_c ([lit "EFI"; lit "Linux"] ++ q)) = true) as K.
  { intros q (y & t & E) (a & x & E'). subst q. change (starts_with r_prefix (r_prefix ++ y) && r_ends (last ((r_prefix ++ y) :: t) []) = true).
    rewrite starts_with_app, E', last_last. rewrite r_ends_app. reflexivity. }
  destruct H as [->| ->].
  - apply (K [_]); [exists (n ++ lit ".efi"), []; reflexivity | exists [], (r_prefix ++ n); rewrite <- app_assoc; reflexivity].
  - apply K.
    + destruct (components_start r_prefix (n ++ lit ".efi")) as (y & cs & E); [| |eauto].
      * vm_compute. intuition discriminate.
      * apply PeanoNat.Nat.leb_le. vm_compute. reflexivity.
    + rewrite app_assoc. destruct (components_end (r_prefix ++ n) (lit ".efi")) as (cs & x & E & _); [| |eauto].
      * vm_compute. intuition discriminate.
      * apply PeanoNat.Nat.leb_le. vm_compute. reflexivity.
Qed.

Lemma r_sel vs sel : links_versions (c_links r_c) vs -> newest (c_limit r_c) vs sel -> sel = [(2, x_link2)].
Proof.
  intros LV (sk & PM & _ & SK & _ & _). rewrite (SK eq_refl) in PM. inversion LV as [|? [v l] ? vs' [E1 E2] LV']; subst. inversion LV'; subst. cbn [snd fst app] in *. subst l.
  assert (v = 2) as -> by (vm_compute in E2; congruence). apply Permutation.Permutation_length_1_inv in PM. exact PM.
Qed.

(** The run ends with an error; the old generation is still there, and in the
    way of the next run as well. *)
Example C82_stuck_ex :
  digit_class (e_digit r_full) /\ snd (run_install r_full r_c r_old) = Err tt /\
  (forall os, point r_full r_c r_old os -> (used (apply_all os r_old) <= 1000)%nat) /\
  (forall os, point r_full r_c r_old os -> (forall g, always_selected r_c g -> has_entry r_full r_c (apply_all os r_old) g) ->
     (1000 < used (apply_all os r_old))%nat).
Proof.
  split; [exact (proj1 C12_deletion_late_ex)|]. split; [vm_compute; reflexivity|]. split.
  - intros os [rest P]. apply PeanoNat.Nat.leb_le.
    refine (prefixes_all (fun l => Nat.leb (used (apply_all l r_old)) 1000) (s_trace (fst (run_install r_full r_c r_old))) _ os rest P).
    vm_compute. reflexivity.
  - intros os [rest P] H. exfalso. destruct (H r_debug) as (p & x & b & EN & L).
    { intros vs sel LV NW. rewrite (r_sel vs sel LV NW). right. left. reflexivity. }
    apply r_entry_is in EN.
    assert (forallb (fun q => negb (r_entry (fst q))) (apply_all os r_old) = true) as NO.
    { refine (prefixes_all (fun l => forallb (fun q => negb (r_entry (fst q))) (apply_all l r_old)) (s_trace (fst (run_install r_full r_c r_old))) _ os rest P).
      vm_compute. reflexivity. }
    assert (exists n, In (p, n) (apply_all os r_old)) as [n I] by (apply lookup_In; rewrite L; discriminate).
    rewrite forallb_forall in NO. specialize (NO _ I). cbn [fst] in NO. rewrite EN in NO. discriminate.
Qed.

(** The sizes of the files of the example. *)
Definition r_sizes : sizes := Sizes 10 10 500 40 100 10.

Lemma r_initrd g id : In g (link_generations (2, x_link2)) -> initrd_of x_world g id -> id = lit "initrd two".
Proof.
  intros [<-|[<-|[]]] (p & d & E & S & D); vm_compute in E; injection E as <-; vm_compute in S; injection S as <-; exact D.
Qed.

Lemma r_image g y : In g (link_generations (2, x_link2)) -> image_of x_world r_c g y -> (length y <= 450)%nat.
Proof.
  intros G (stub & cmd & kver & kp & kd & ip & id & ST & CM & KV & KD & ID & KP & IP & IM).
  apply (r_initrd g id G) in ID. subst id. apply PeanoNat.Nat.leb_le.
  destruct G as [<-|[<-|[]]]; vm_compute in ST; injection ST as <-; vm_compute in CM; injection CM as <-; vm_compute in KV; injection KV as <-;
    vm_compute in KD; injection KD as <-; vm_compute in KP; injection KP as <-; vm_compute in IP; injection IP as <-;
    vm_compute in IM; injection IM as <-; vm_compute; reflexivity.
Qed.

Lemma r_selected g : selected r_c g -> In g (link_generations (2, x_link2)).
Proof. intros (vs & sel & LV & NW & G). rewrite (r_sel vs sel LV NW) in G. cbn [flat_map] in G. rewrite app_nil_r in G. exact G. Qed.

Lemma r_lock_length b x : e_lock x_world b = Some x -> length x = 37%nat.
Proof. intros [= <-]. reflexivity. Qed.

Example C82_peak_ex :
  no_faults x_world /\ within x_world r_c r_sizes /\ links_versions (c_links r_c) [(2, x_link2)] /\
  room r_sizes 2 = 1370%nat.
Proof.
  split; [intros t; reflexivity|]. split; [constructor|].
  - intros g x S K. apply r_selected in S. apply PeanoNat.Nat.leb_le.
    destruct S as [<-|[<-|[]]]; vm_compute in K; injection K as <-; reflexivity.
  - intros g x S K. apply r_selected in S. rewrite (r_initrd g x S K). apply PeanoNat.Nat.leb_le. reflexivity.
  - intros g y x S IO [= <-]. apply r_selected in S. pose proof (r_image g y S IO) as L. rewrite app_length.
    change (length (x_sig x_key)) with 10%nat. cbn [r_sizes z_stub]. lia.
  - intros g y x S IO L. rewrite (r_lock_length y x L). apply PeanoNat.Nat.leb_le. reflexivity.
  - intros y x K S. vm_compute in K. injection K as <-. injection S as <-. apply PeanoNat.Nat.leb_le. vm_compute. reflexivity.
  - intros y x K L. rewrite (r_lock_length y x L). apply PeanoNat.Nat.leb_le. reflexivity.
  - intros x K. vm_compute in K. injection K as <-. apply PeanoNat.Nat.leb_le. reflexivity.
  - split; [|reflexivity]. repeat constructor; vm_compute; reflexivity.
Qed.
