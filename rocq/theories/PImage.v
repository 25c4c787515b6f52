(** Proofs for C26: the layout of the sections added to a stub, and reading
    them back in memory. *)
From Coq Require Import List ZArith NArith Bool Lia ZifyBool ZifyNat ZifyN Permutation.
From Verif Require Import Base PBase MText MPe MTool SCommon SInstall SStub SImage PPe PMonad PFirmware PStub PStubRun.
Import ListNotations.
Open Scope N_scope.

(** ** Layout *)

Lemma ascending_tail s l : ascending (s :: l) -> ascending l.
Proof. intros A a x b t c ->. apply (A (s :: a) x b t c). reflexivity. Qed.

Lemma ascending_last l s : ascending (l ++ [s]) -> forall t, In t l -> s_vaddr t + s_vsize t <= s_vaddr s.
Proof.
  intros A t H. apply in_split in H as (a & b & ->). apply (A a t b s []). rewrite <- app_assoc. reflexivity.
Qed.

Lemma image_sections_consecutive sp offs : consecutive offs (image_sections sp offs).
Proof. unfold image_sections. repeat (apply consecutive_cons). constructor. Qed.

Lemma image_sections_beyond p sp offs : proper_stub p -> stub_offset p = Ok offs -> beyond p (image_sections sp offs).
Proof.
  intros (NE & A & ST) SO. exists offs. split; [apply image_sections_consecutive|].
  unfold stub_offset in SO. unfold base_of. destruct (pe_image_base p) as [base|]; [|discriminate]. destruct (rev (pe_sections p)) as [|s r] eqn:E; [discriminate|].
  assert (pe_sections p = rev r ++ [s]) as E2 by (rewrite <- (rev_involutive (pe_sections p)), E; reflexivity).
  injection SO as <-. intros t H.
  assert (In s (pe_sections p)) as HS by (rewrite E2; apply in_or_app; right; left; reflexivity).
  destruct (ST _ HS) as [L _]. rewrite N.mod_small by (unfold two32; lia).
  rewrite E2 in H. apply in_app_or in H as [H|[<-|[]]]; [|lia].
  rewrite E2 in A. pose proof (ascending_last _ _ A t H). lia.
Qed.

(** ** Disjoint sections *)

Definition disjoint (s t : section) : Prop :=
  s_vsize s = 0 \/ s_vsize t = 0 \/ s_vaddr s + s_vsize s <= s_vaddr t \/ s_vaddr t + s_vsize t <= s_vaddr s.

Lemma disjoint_sym s t : disjoint s t -> disjoint t s.
Proof. unfold disjoint. tauto. Qed.

Lemma pairs_app {A} (R : A -> A -> Prop) a b : ForallOrdPairs R a -> ForallOrdPairs R b ->
  (forall x y, In x a -> In y b -> R x y) -> ForallOrdPairs R (a ++ b).
Proof.
  induction a as [|x a IH]; intros PA PB H; [exact PB|]. inversion PA; subst. cbn [app]. constructor.
  - apply Forall_app. split; [assumption|]. apply Forall_forall. intros y Hy. apply H; [left; reflexivity | exact Hy].
  - apply IH; auto. intros u v Hu Hv. apply H; [right; exact Hu | exact Hv].
Qed.

Lemma pairs_perm {A} (R : A -> A -> Prop) a b : (forall x y, R x y -> R y x) -> Permutation a b ->
  ForallOrdPairs R a -> ForallOrdPairs R b.
Proof.
  intros SY P. induction P as [|x a b P IH|x y a|a b c P1 IH1 P2 IH2]; intros H.
  - constructor.
  - inversion H; subst. constructor; [|auto]. eapply Permutation_Forall; eauto.
  - inversion H as [|? ? F1 H1]; subst. inversion H1 as [|? ? F2 H2]; subst. inversion F1; subst.
    constructor; [constructor; auto|]. constructor; auto.
  - auto.
Qed.

Lemma pairs_split {A} (R : A -> A -> Prop) a x b : ForallOrdPairs R (a ++ x :: b) -> Forall (R x) b.
Proof.
  induction a as [|y a IH]; intros H; inversion H; subst; auto.
Qed.

Lemma ascending_pairs l : ascending l -> ForallOrdPairs disjoint l.
Proof.
  induction l as [|s l IH]; intros A; [constructor|]. constructor; [|apply IH; eapply ascending_tail; exact A].
  apply Forall_forall. intros t H. apply in_split in H as (b & c & ->). right; right; left. apply (A [] s b t c). reflexivity.
Qed.

Lemma kept_pairs l l' : Forall2 kept l l' -> ForallOrdPairs disjoint l -> ForallOrdPairs disjoint l'.
Proof.
  intros F. induction F as [|s t l l' K F IH]; intros P; [constructor|]. inversion P as [|? ? FA P2]; subst. constructor; [|auto].
  destruct K as (_ & K1 & K2). rewrite Forall_forall in *. intros u Hu.
  assert (exists v, In v l /\ kept v u) as (v & HV & _ & V1 & V2).
  { clear - F Hu. induction F as [|a b l l' K F IH]; [destruct Hu|]. destruct Hu as [<-|Hu]; [exists a; split; [left|]; auto|].
    destruct (IH Hu) as (v & ? & ?). exists v. split; [right|]; auto. }
  specialize (FA v HV). unfold disjoint in *. rewrite K1, K2, V1, V2. exact FA.
Qed.

Lemma added_above base file from l new : consecutive from l -> Forall2 (added base file) l new ->
  forall s, In s new -> from <= base + s_vaddr s.
Proof.
  intros C. revert new. induction C as [|from n d l C IH]; intros new F s H; inversion F as [|? t ? r K F2]; subst; [destruct H|].
  destruct H as [<-|H].
  - destruct K as (_ & K & _). lia.
  - specialize (IH _ F2 s H). lia.
Qed.

Lemma added_pairs base file from l new : consecutive from l -> Forall2 (added base file) l new -> ForallOrdPairs disjoint new.
Proof.
  intros C. revert new. induction C as [|from n d l C IH]; intros new F; inversion F as [|? t ? r K F2]; subst; [constructor|].
  constructor; [|apply IH; exact F2]. apply Forall_forall. intros u Hu. destruct K as (_ & K1 & K2 & _).
  pose proof (added_above _ _ _ _ _ C F2 u Hu). right; right; left. lia.
Qed.

Lemma kept_from l l' t : Forall2 kept l l' -> In t l' -> exists s, In s l /\ kept s t.
Proof.
  intros F. induction F as [|a b l l' K F IH]; intros H; [destruct H|]. destruct H as [<-|H]; [exists a; split; [left|]; auto|].
  destruct (IH H) as (v & ? & ?). exists v. split; [right|]; auto.
Qed.

Lemma extended_pairs p l file old new q : ascending (pe_sections p) -> beyond p l ->
  Permutation (pe_sections q) (old ++ new) -> Forall2 kept (pe_sections p) old ->
  Forall2 (added (base_of p) file) l new -> ForallOrdPairs disjoint (pe_sections q).
Proof.
  intros A (from & C & B) P FK FA. eapply pairs_perm; [exact disjoint_sym | apply Permutation_sym; exact P|].
  apply pairs_app.
  - eapply kept_pairs; [exact FK | apply ascending_pairs; exact A].
  - eapply added_pairs; eauto.
  - intros x y HX HY. destruct (kept_from _ _ _ FK HX) as (s & HS & _ & K1 & K2).
    pose proof (added_above _ _ _ _ _ C FA y HY). specialize (B s HS). right; right; left. lia.
Qed.

(** ** The loader *)

Lemma poke_at im pos d i : pos <= N.of_nat (length im) ->
  nth_error (poke im pos d) (N.to_nat i) =
    if (pos <=? i) && (i <? pos + N.of_nat (length d)) then nth_error d (N.to_nat (i - pos)) else nth_error im (N.to_nat i).
Proof.
  intros H. unfold poke.
  assert (length (firstn (N.to_nat pos) im) = N.to_nat pos) as L by (rewrite firstn_length; lia).
  destruct (pos <=? i) eqn:E1; cbn [andb].
  - rewrite nth_error_app2 by lia. rewrite L. destruct (i <? pos + N.of_nat (length d)) eqn:E2.
    + rewrite nth_error_app1 by lia. f_equal. lia.
    + rewrite nth_error_app2 by lia.
      rewrite nth_error_skipn. f_equal. lia.
  - rewrite nth_error_app1 by lia. apply nth_error_firstn. lia.
Qed.

Lemma poke_length im pos d : pos <= N.of_nat (length im) -> (length im <= length (poke im pos d))%nat.
Proof. intros H. unfold poke. rewrite !app_length, firstn_length, skipn_length. lia. Qed.

(** What loading a section writes. *)
Lemma efi_section_at file im s size i : (s_vsize s = 0 -> s_rawsize s = 0) ->
  s_vaddr s + s_vsize s <= size -> size <= N.of_nat (length im) ->
  ~ (s_vaddr s <= i < s_vaddr s + s_vsize s) ->
  nth_error (efi_section file im s) (N.to_nat i) = nth_error im (N.to_nat i).
Proof.
  intros Z C L O. unfold efi_section.
  set (n := if (s_vsize s =? 0) || (s_rawsize s <? s_vsize s) then s_rawsize s else s_vsize s).
  assert (n <= s_vsize s) as NV.
  { unfold n. destruct (s_vsize s =? 0) eqn:E1; cbn [orb]; [rewrite Z; lia|]. destruct (s_rawsize s <? s_vsize s) eqn:E2; lia. }
  assert (N.of_nat (length (firstn (N.to_nat n) (skipn (N.to_nat (s_rawptr s)) file))) <= n) as LD by (rewrite firstn_length; lia).
  set (d := firstn (N.to_nat n) (skipn (N.to_nat (s_rawptr s)) file)) in *.
  pose proof (poke_length im (s_vaddr s) d ltac:(lia)) as L2.
  rewrite poke_at by lia. rewrite repeat_length.
  destruct ((s_vaddr s + n <=? i) && (i <? s_vaddr s + n + N.of_nat (N.to_nat (s_vsize s - n)))) eqn:E; [lia|].
  rewrite poke_at by lia. destruct ((s_vaddr s <=? i) && (i <? s_vaddr s + N.of_nat (length d))) eqn:E2; [lia | reflexivity].
Qed.

Lemma efi_section_length file im s size : (s_vsize s = 0 -> s_rawsize s = 0) ->
  s_vaddr s + s_vsize s <= size -> size <= N.of_nat (length im) ->
  size <= N.of_nat (length (efi_section file im s)).
Proof.
  intros Z C L. unfold efi_section.
  set (n := if (s_vsize s =? 0) || (s_rawsize s <? s_vsize s) then s_rawsize s else s_vsize s).
  assert (n <= s_vsize s) as NV.
  { unfold n. destruct (s_vsize s =? 0) eqn:E1; cbn [orb]; [rewrite Z; lia|]. destruct (s_rawsize s <? s_vsize s) eqn:E2; lia. }
  set (d := firstn (N.to_nat n) (skipn (N.to_nat (s_rawptr s)) file)).
  pose proof (poke_length im (s_vaddr s) d ltac:(lia)) as L2.
  pose proof (poke_length (poke im (s_vaddr s) d) (s_vaddr s + n) (repeat 0 (N.to_nat (s_vsize s - n))) ltac:(lia)) as L3. lia.
Qed.

Lemma efi_section_own before d after im s size i : s_vsize s <= s_rawsize s -> N.of_nat (length before) = s_rawptr s ->
  N.of_nat (length d) = s_vsize s -> s_vaddr s + s_vsize s <= size -> size <= N.of_nat (length im) ->
  i < s_vsize s ->
  nth_error (efi_section (before ++ d ++ after) im s) (N.to_nat (s_vaddr s + i)) = nth_error d (N.to_nat i).
Proof.
  intros V B D C L HI. unfold efi_section.
  assert ((if (s_vsize s =? 0) || (s_rawsize s <? s_vsize s) then s_rawsize s else s_vsize s) = s_vsize s) as ->.
  { destruct (s_vsize s =? 0) eqn:E1; [lia|]. destruct (s_rawsize s <? s_vsize s) eqn:E2; [lia|]. reflexivity. }
  assert (firstn (N.to_nat (s_vsize s)) (skipn (N.to_nat (s_rawptr s)) (before ++ d ++ after)) = d) as ->.
  { rewrite <- B, <- D, !Nat2N.id, skipn_app, skipn_all, PeanoNat.Nat.sub_diag. cbn [skipn app].
    rewrite firstn_app, firstn_all, PeanoNat.Nat.sub_diag. cbn [firstn]. apply app_nil_r. }
  pose proof (poke_length im (s_vaddr s) d ltac:(lia)) as L2.
  rewrite poke_at by lia. rewrite repeat_length.
  destruct ((s_vaddr s + s_vsize s <=? s_vaddr s + i) && (s_vaddr s + i <? s_vaddr s + s_vsize s + N.of_nat (N.to_nat (s_vsize s - s_vsize s)))) eqn:E; [lia|].
  rewrite poke_at by lia. destruct ((s_vaddr s <=? s_vaddr s + i) && (s_vaddr s + i <? s_vaddr s + N.of_nat (length d))) eqn:E2; [|lia].
  f_equal. lia.
Qed.

Lemma efi_sections_keep file size l : forall im, (forall s, In s l -> s_vsize s = 0 -> s_rawsize s = 0) ->
  covers size l -> size <= N.of_nat (length im) ->
  size <= N.of_nat (length (fold_left (efi_section file) l im)) /\
  forall i, (forall s, In s l -> ~ (s_vaddr s <= i < s_vaddr s + s_vsize s)) ->
    nth_error (fold_left (efi_section file) l im) (N.to_nat i) = nth_error im (N.to_nat i).
Proof.
  induction l as [|s l IH]; intros im Z C L; [split; auto|]. cbn [fold_left].
  destruct (IH (efi_section file im s)) as [L2 K2].
  - intros t H. apply Z. right; exact H.
  - intros t H. apply C. right; exact H.
  - apply efi_section_length; [apply Z; left; reflexivity | apply C; left; reflexivity | exact L].
  - split; [exact L2|]. intros i O. rewrite K2 by (intros t H; apply O; right; exact H).
    apply (efi_section_at file im s size); [apply Z; left; reflexivity | apply C; left; reflexivity | exact L | apply O; left; reflexivity].
Qed.

(** Disjoint sections are read back. *)
Lemma read_back file headers size a s b before d after :
  ForallOrdPairs disjoint (a ++ s :: b) -> (forall t, In t (a ++ s :: b) -> s_vsize t = 0 -> s_rawsize t = 0) ->
  covers size (a ++ s :: b) -> file = before ++ d ++ after -> N.of_nat (length before) = s_rawptr s ->
  N.of_nat (length d) = s_vsize s -> s_vsize s <= s_rawsize s ->
  let im := efi_image file headers size (a ++ s :: b) in
  size <= N.of_nat (length im) /\
  forall i, i < s_vsize s -> nth_error im (N.to_nat (s_vaddr s + i)) = nth_error d (N.to_nat i).
Proof.
  intros DJ Z C E B D V. cbv zeta. unfold efi_image. rewrite fold_left_app. cbn [fold_left].
  set (im0 := poke (repeat 0 (N.to_nat size)) 0 (firstn (N.to_nat headers) file)).
  assert (size <= N.of_nat (length im0)) as L0.
  { pose proof (poke_length (repeat 0 (N.to_nat size)) 0 (firstn (N.to_nat headers) file) ltac:(lia)) as L. rewrite repeat_length in L. fold im0 in L. lia. }
  destruct (efi_sections_keep file size a im0) as [L1 _];
    [intros t H; apply Z; apply in_or_app; left; exact H | intros t H; apply C; apply in_or_app; left; exact H | exact L0 |].
  set (im1 := fold_left (efi_section file) a im0) in *.
  assert (s_vaddr s + s_vsize s <= size) as CS by (apply C; apply in_or_app; right; left; reflexivity).
  pose proof (efi_section_length file im1 s size (Z s ltac:(apply in_or_app; right; left; reflexivity)) CS L1) as L2.
  destruct (efi_sections_keep file size b (efi_section file im1 s)) as [L3 K3];
    [intros t H; apply Z; apply in_or_app; right; right; exact H | intros t H; apply C; apply in_or_app; right; right; exact H | exact L2 |].
  split; [exact L3|]. intros i HI. rewrite K3.
  - rewrite E. apply efi_section_own with (size := size); auto.
  - intros t H X. apply pairs_split in DJ. rewrite Forall_forall in DJ. specialize (DJ t H). unfold disjoint in DJ. lia.
Qed.

(** In a well laid out file the sections found by name are in memory. *)
Lemma disjoint_loads parse file q : parse file = Some q -> ForallOrdPairs disjoint (pe_sections q) ->
  (forall s, In s (pe_sections q) -> s_vsize s = 0 -> s_rawsize s = 0) -> loads_well parse file.
Proof.
  intros PQ DJ Z q' n d headers size PQ' _ (q2 & a & s & b & before & after & P2 & E & FA & SN & V & FE & BE & DE) C.
  assert (q' = q) as -> by congruence. assert (q2 = q) as -> by congruence.
  destruct (read_back file headers size a s b before d after) as [L R]; try (rewrite <- E); auto.
  rewrite <- E in L, R. split; [exact L|]. exists a, s, b. split; [exact E|]. split; [exact SN|]. split.
  - intros t H. rewrite Forall_forall in FA. destruct (FA t H) as (m & -> & NE). congruence.
  - split; [exact DE|]. split.
    + intros i H1 H2. split; [symmetry; apply R; exact H1|].
      assert (s_vaddr s + s_vsize s <= size) by (apply C; rewrite E; apply in_or_app; right; left; reflexivity). lia.
    + intros i H1 H2. lia.
Qed.

(** The tools: an extended stub has the sections, and they are in memory. *)
Lemma extended_loads parse p l file : proper_stub p -> beyond p l -> extended parse p l file -> loads_well parse file.
Proof.
  intros (_ & A & _) B (q & old & new & PQ & PM & FK & FA & Z). apply (disjoint_loads parse file q PQ); [|exact Z].
  eapply extended_pairs; eauto.
Qed.

Lemma extended_sections parse p l file : proper_stub p -> map (fun s => fst (fst s)) l = stub_sections -> extended parse p l file ->
  forall n d a, In (n, d, a) l -> has_section parse file n d.
Proof.
  intros (_ & _ & ST) NS (q & old & new & PQ & PM & FK & FA & Z) n d a H.
  assert (NoDup stub_sections) as ND.
  { repeat (constructor; [intros X; vm_compute in X; repeat (destruct X as [X|X]; [discriminate X|]); exact X|]). constructor. }
  rewrite <- NS in ND.
  assert (forall t, In t (pe_sections q) -> exists m, s_name t = Some m) as NM.
  { intros t HT. apply (Permutation_in _ PM) in HT. apply in_app_or in HT as [HT|HT].
    - destruct (kept_from _ _ _ FK HT) as (s & HS & K & _). destruct (ST s HS) as (_ & m & E & _). exists m. congruence.
    - clear - FA HT. induction FA as [|[[n d] v] t' l new K FA IH]; [destruct HT|]. destruct HT as [<-|HT]; [|auto]. exists n. apply K. }
  assert (forall t, In t (pe_sections q) -> s_name t = Some n -> added (base_of p) file (n, d, a) t) as UN.
  { intros t HT TN. apply (Permutation_in _ PM) in HT. apply in_app_or in HT as [HT|HT].
    - destruct (kept_from _ _ _ FK HT) as (s & HS & K & _). destruct (ST s HS) as (_ & m & E & N). contradiction N.
      assert (m = n) as -> by congruence. rewrite <- NS. apply in_map_iff. exists (n, d, a). auto.
    - clear - FA HT TN H ND. induction FA as [|[[n' d'] a'] t' l new K FA IH]; [destruct HT|]. cbn [map fst] in ND. inversion ND as [|? ? NI ND2]; subst.
      assert (forall w, In w new -> exists x, In x l /\ s_name w = Some (fst (fst x))) as W.
      { clear - FA. induction FA as [|[[n d] a] t l new K FA IH]; intros w [].
        - subst w. exists (n, d, a). split; [left; reflexivity | apply K].
        - destruct (IH w H) as (x & ? & ?). exists x. split; [right|]; auto. }
      destruct H as [H|H].
      + injection H as -> -> ->. destruct HT as [<-|HT]; [exact K|]. destruct (W t HT) as (x & X1 & X2).
        contradiction NI. apply in_map_iff. exists x. split; [congruence | exact X1].
      + destruct HT as [<-|HT]; [|auto]. destruct K as (K & _). contradiction NI. apply in_map_iff. exists (n, d, a). split; [cbn; congruence | exact H]. }
  assert (exists t, In t (pe_sections q) /\ s_name t = Some n) as (t & HT & TN).
  { assert (exists t, In t new /\ s_name t = Some n) as (t & H1 & H2).
    { clear - FA H. induction FA as [|[[n' d'] a'] t l new K FA IH]; [destruct H|]. destruct H as [H|H].
      - injection H as -> -> ->. exists t. split; [left; reflexivity | apply K].
      - destruct (IH H) as (t' & ? & ?). exists t'. split; [right|]; auto. }
    exists t. split; [|exact H2]. apply (Permutation_in _ (Permutation_sym PM)). apply in_or_app; right; exact H1. }
  assert (forall secs, (forall u, In u secs -> In u (pe_sections q)) -> In t secs ->
    exists pre s post, secs = pre ++ s :: post /\ Forall (fun u => exists m, s_name u = Some m /\ m <> n) pre /\ s_name s = Some n) as FIRST.
  { induction secs as [|u secs IH]; intros SUB IN; [destruct IN|].
    destruct (NM u (SUB u (or_introl eq_refl))) as [m E]. destruct (list_eq_dec N.eq_dec m n) as [-> |NE].
    - exists [], u, secs. split; [reflexivity|]. split; [constructor | exact E].
    - destruct IN as [-> |IN]; [congruence|]. destruct IH as (pre & s & post & -> & F & SN); [intros v HV; apply SUB; right; exact HV | exact IN|].
      exists (u :: pre), s, post. split; [reflexivity|]. split; [constructor; [exists m; auto | exact F] | exact SN]. }
  destruct (FIRST (pe_sections q) (fun u H => H) HT) as (pre & s & post & E & F & SN).
  assert (In s (pe_sections q)) as HS by (rewrite E; apply in_or_app; right; left; reflexivity).
  destruct (UN s HS SN) as (_ & _ & V & VR & before & after & FE & BE).
  exists q, pre, s, post, before, after. split; [exact PQ|]. split; [exact E|]. split; [exact F|]. split; [exact SN|]. split; [exact VR|]. split; [exact FE|]. split; [exact BE | symmetry; exact V].
Qed.

(** The stub reads what is in memory. *)
Lemma contents_section_data image secs n d size : section_contents image secs n d -> covers size secs ->
  size <= N.of_nat (length image) -> section_data image secs n = Ok (Some d).
Proof.
  intros (a & s & b & E & SN & NA & L & R & Z) C LI.
  assert (find (has_name n) secs = Some s) as F.
  { rewrite E. clear - SN NA. induction a as [|x a IH]; cbn [app find].
    - unfold has_name. rewrite SN, eqb_bytes_refl. reflexivity.
    - unfold has_name at 1. destruct (s_name x) as [m|] eqn:EM.
      + destruct (eqb_bytes m n) eqn:EQ; [apply eqb_bytes_spec in EQ; exfalso; apply (NA x (or_introl eq_refl)); congruence|].
        apply IH. intros t H. apply NA. right; exact H.
      + apply IH. intros t H. apply NA. right; exact H. }
  assert (s_vaddr s + s_vsize s <= size) as CS by (apply C; rewrite E; apply in_or_app; right; left; reflexivity).
  assert (exists d', section_data image secs n = Ok (Some d')) as [d' X].
  { unfold section_data. rewrite F. unfold read_section, slice.
    destruct ((s_vaddr s <=? s_vaddr s + N.min (s_vsize s) (s_rawsize s)) && (s_vaddr s + N.min (s_vsize s) (s_rawsize s) <=? N.of_nat (length image))) eqn:G; [|lia].
    eexists. reflexivity. }
  rewrite X. apply section_data_contents in X. f_equal. f_equal.
  eapply section_contents_unique; [exact X|]. exists a, s, b. auto 10.
Qed.

Lemma image_contents sp offs : map fst (image_sections sp offs) = stub_contents sp.
Proof.
  unfold image_sections, stub_contents. cbv zeta. cbn [map fst].
  replace (join (lit " ") (sp_cmdline sp)) with (match sp_cmdline sp with [] => [] | a :: l => a ++ flat_map (fun w => 32 :: w) l end); [reflexivity|].
  destruct (sp_cmdline sp) as [|a l]; [reflexivity|]. revert a. induction l as [|b l IH]; intros a; [cbn; rewrite app_nil_r; reflexivity|].
  change (join (lit " ") (a :: b :: l)) with (a ++ lit " " ++ join (lit " ") (b :: l)). rewrite <- IH. reflexivity.
Qed.

(** C26: where the sections go. *)
Lemma image_layout parse objcopy stub p sp image :
  parse stub = Some p -> proper_stub p -> lanzaboote_image parse objcopy stub sp = Ok image ->
  exists l, objcopy stub l = Some image /\ map fst l = stub_contents sp /\ beyond p l.
Proof.
  intros PS PR LI. unfold lanzaboote_image in LI. rewrite PS in LI.
  destruct (stub_offset p) as [offs| |] eqn:SO; cbn [bind] in LI; try discriminate.
  exists (image_sections sp offs). split; [|split; [apply image_contents | apply image_sections_beyond; assumption]].
  destruct (objcopy stub (image_sections sp offs)); cbn in LI; [injection LI as ->; reflexivity | discriminate].
Qed.

Lemma contents_names (l : list (str * bytes * N)) sp : map fst l = stub_contents sp -> map (fun s => fst (fst s)) l = stub_sections.
Proof. intros E. rewrite <- (map_map fst fst), E. reflexivity. Qed.

(** The six sections of an image are read back by the stub. *)
Lemma image_read_back parse objcopy stub p sp image file q headers size :
  parse stub = Some p -> proper_stub p -> lanzaboote_image parse objcopy stub sp = Ok image ->
  (forall l, objcopy stub l = Some image -> map fst l = stub_contents sp -> beyond p l -> extended parse p l file) ->
  parse file = Some q -> covers size (pe_sections q) ->
  forall n d, In (n, d) (stub_contents sp) ->
    section_data (efi_image file headers size (pe_sections q)) (pe_sections q) n = Ok (Some d).
Proof.
  intros PS PR LI OB PQ C n d H. destruct (image_layout _ _ _ _ _ _ PS PR LI) as (l & OC & EC & B).
  pose proof (OB l OC EC B) as EX. pose proof (contents_names _ _ EC) as EN.
  assert (exists a, In (n, d, a) l) as [a HA].
  { rewrite <- EC in H. apply in_map_iff in H as ([nd a] & E & H). cbn [fst] in E. exists a. rewrite <- E. exact H. }
  pose proof (extended_sections parse p l file PR EN EX n d a HA) as HS.
  assert (In n stub_sections) as HN by (rewrite <- EN; apply in_map_iff; exists (n, d, a); auto).
  destruct (extended_loads parse p l file PR B EX q n d headers size PQ HN HS C) as [L SC].
  eapply contents_section_data; eauto.
Qed.
