(** Proofs about the PE loader. *)
From Coq Require Import List NArith ZArith Bool Lia Arith.
From Coq Require Import ZifyBool ZifyNat ZifyN.
From Verif Require Import Base MText MPe SPe.
Import ListNotations.
Open Scope N_scope.

Ltac Zify.zify_post_hook ::= Z.to_euclidean_division_equations.

(** ** Pages *)

Lemma bytes_to_pages_least n : n < 2 ^ 64 -> least_pages n (bytes_to_pages n).
Proof.
  change (2 ^ 64) with 18446744073709551616. unfold bytes_to_pages, least_pages, two64. intros H.
  change (2 ^ 12 - 1) with 4095. change (2 ^ 12) with 4096. change (2 ^ (64 - 12)) with 4503599627370496.
  destruct (N.ltb_spec (n + 4095) 18446744073709551616); split; try (intros q Hq); lia.
Qed.

(** ** Slices *)

Lemma slice_some l a b : a <= b -> b <= N.of_nat (length l) ->
  slice l a b = Some (firstn (N.to_nat (b - a)) (skipn (N.to_nat a) l)).
Proof.
  intros H1 H2. unfold slice. apply N.leb_le in H1, H2. now rewrite H1, H2.
Qed.

Lemma slice_length l a b d : slice l a b = Some d -> N.of_nat (length d) = b - a /\ a <= b /\ b <= N.of_nat (length l).
Proof.
  unfold slice. destruct (N.leb_spec a b); [|discriminate]. destruct (N.leb_spec b (N.of_nat (length l))); [|discriminate].
  cbn [andb]. intros [= <-]. rewrite firstn_length, skipn_length. lia.
Qed.

Lemma nth_error_firstn {A} n (l : list A) i : (i < n)%nat -> nth_error (firstn n l) i = nth_error l i.
Proof.
  revert l i; induction n as [|n IH]; intros l i H; [lia|]. destruct l as [|x l]; [now destruct i|].
  destruct i; cbn; auto. apply IH. lia.
Qed.

Lemma nth_error_skipn {A} n (l : list A) i : nth_error (skipn n l) i = nth_error l (n + i).
Proof. revert l; induction n as [|n IH]; intros [|x l]; cbn; auto. now destruct i. Qed.

Lemma slice_nth l a b d i : slice l a b = Some d -> i < b - a ->
  nth_error d (N.to_nat i) = nth_error l (N.to_nat (a + i)).
Proof.
  intros H Hi. apply slice_length in H as Hl. destruct Hl as (_ & H1 & H2). unfold slice in H.
  apply N.leb_le in H1, H2. rewrite H1, H2 in H. injection H as <-.
  rewrite nth_error_firstn by lia. rewrite nth_error_skipn. f_equal. lia.
Qed.

Lemma copy_into_some img a b d : a <= b -> b <= N.of_nat (length img) -> N.of_nat (length d) = b - a ->
  exists img', copy_into img a b d = Some img' /\ length img' = length img /\
    forall i, nth_error img' (N.to_nat i) =
      if (a <=? i) && (i <? b) then nth_error d (N.to_nat (i - a)) else nth_error img (N.to_nat i).
Proof.
  intros H1 H2 H3. unfold copy_into. apply N.leb_le in H1 as E1. apply N.leb_le in H2 as E2. apply N.eqb_eq in H3 as E3.
  rewrite E1, E2, E3. cbn [andb]. eexists. split; [reflexivity|]. split.
  - rewrite !app_length, firstn_length, skipn_length. lia.
  - intros i. destruct (N.leb_spec a i); cbn [andb].
    + rewrite nth_error_app2 by (rewrite firstn_length; lia). rewrite firstn_length.
      destruct (N.ltb_spec i b).
      * rewrite nth_error_app1 by lia. f_equal. lia.
      * rewrite nth_error_app2 by lia. rewrite nth_error_skipn. f_equal. lia.
    + rewrite nth_error_app1 by (rewrite firstn_length; lia). apply nth_error_firstn. lia.
Qed.

(** ** The copy loop *)

Definition fillb (s : section) (i : N) : bool :=
  (s_vaddr s <=? i) && (i <? s_vaddr s + N.min (s_vsize s) (s_rawsize s)).

Lemma fillb_spec s i : fillb s i = true <-> filled_by s i.
Proof. unfold fillb, filled_by. lia. Qed.

Lemma copy_section_cases file img s :
  u32_section s -> s_vaddr s + s_vsize s <= N.of_nat (length img) ->
  (~ data_inside file s /\ copy_section file img s = Err LOAD_ERROR) \/
  (data_inside file s /\ exists img', copy_section file img s = Ok img' /\ length img' = length img /\
     forall i, nth_error img' (N.to_nat i) =
       if fillb s i then nth_error file (N.to_nat (s_rawptr s + (i - s_vaddr s))) else nth_error img (N.to_nat i)).
Proof.
  intros (U1 & U2 & U3 & U4) Hv. unfold copy_section, data_inside.
  change (2 ^ 32) with 4294967296 in *. unfold two64.
  set (k := N.min (s_vsize s) (s_rawsize s)) in *. assert (Hk : k <= s_vsize s) by lia.
  destruct (N.leb_spec 18446744073709551616 (s_rawptr s + k)); [lia|].
  destruct (N.leb_spec 18446744073709551616 (s_vaddr s + k)); [lia|]. cbn [orb].
  destruct (N.ltb_spec (N.of_nat (length img)) (s_vaddr s + k)); [lia|]. cbn [orb].
  destruct (N.ltb_spec (N.of_nat (length file)) (s_rawptr s + k)); [left; split; [lia|reflexivity]|right].
  split; [lia|].
  pose proof (slice_some file (s_rawptr s) (s_rawptr s + k) ltac:(lia) ltac:(lia)) as Es. rewrite Es.
  destruct (slice_length _ _ _ _ Es) as (L & _ & _).
  destruct (copy_into_some img (s_vaddr s) (s_vaddr s + k) (firstn (N.to_nat (s_rawptr s + k - s_rawptr s)) (skipn (N.to_nat (s_rawptr s)) file)))
    as (img' & Ec & Lc & Nc); [lia|lia|lia|].
  rewrite Ec. exists img'. split; [reflexivity|]. split; [assumption|]. intros i. rewrite Nc.
  unfold fillb. fold k. destruct ((s_vaddr s <=? i) && (i <? s_vaddr s + k)) eqn:E; [|reflexivity].
  rewrite (slice_nth _ _ _ _ _ Es) by lia. reflexivity.
Qed.

Definition step_value (file : list N) (i : N) (acc : option N) (s : section) : option N :=
  if fillb s i then nth_error file (N.to_nat (s_rawptr s + (i - s_vaddr s))) else acc.

Lemma copy_sections_cases file secs : forall img,
  Forall u32_section secs -> Forall (fun s => s_vaddr s + s_vsize s <= N.of_nat (length img)) secs ->
  (~ Forall (data_inside file) secs /\ copy_sections file img secs = Err LOAD_ERROR) \/
  (Forall (data_inside file) secs /\ exists img', copy_sections file img secs = Ok img' /\ length img' = length img /\
     forall i, nth_error img' (N.to_nat i) = fold_left (step_value file i) secs (nth_error img (N.to_nat i))).
Proof.
  induction secs as [|s secs IH]; intros img U V; cbn [copy_sections].
  - right. split; [constructor|]. exists img. repeat split; auto.
  - inversion U as [|? ? U1 U2]; inversion V as [|? ? V1 V2]; subst.
    destruct (copy_section_cases file img s U1 V1) as [[H ->]|(H & img' & -> & L & Hn)]; cbn [bind].
    + left. split; auto. inversion 1; auto.
    + assert (V2' : Forall (fun s => s_vaddr s + s_vsize s <= N.of_nat (length img')) secs) by now rewrite L.
      destruct (IH img' U2 V2') as [[H' ->]|(H' & img2 & -> & L2 & Hn2)].
      * left. split; auto. inversion 1; auto.
      * right. split; [constructor; auto|]. exists img2. split; auto. split; [congruence|].
        intros i. rewrite Hn2. cbn [fold_left]. f_equal. apply Hn.
Qed.

Lemma fold_step_value file i secs : forall acc,
  (exists before s after, secs = before ++ s :: after /\ fillb s i = true /\ (forall s', In s' after -> fillb s' i = false) /\
     fold_left (step_value file i) secs acc = nth_error file (N.to_nat (s_rawptr s + (i - s_vaddr s)))) \/
  ((forall s, In s secs -> fillb s i = false) /\ fold_left (step_value file i) secs acc = acc).
Proof.
  induction secs as [|s secs IH]; intros acc.
  - right. split; [contradiction|reflexivity].
  - cbn [fold_left]. destruct (IH (step_value file i acc s)) as [(b & s' & a & -> & E1 & E2 & E3)|[E1 E2]].
    + left. exists (s :: b), s', a. repeat split; auto.
    + rewrite E2. destruct (fillb s i) eqn:Ef.
      * left. exists [], s, secs. repeat split; auto. unfold step_value. now rewrite Ef.
      * right. split; [intros s' [<-|Hs]; auto|]. unfold step_value. now rewrite Ef.
Qed.

Lemma section_ends_some secs : Forall (fun s => s_vaddr s + s_vsize s < 2 ^ 32) secs ->
  section_ends secs = Some (map (fun s => s_vaddr s + s_vsize s) secs).
Proof.
  induction 1 as [|s secs H _ IH]; cbn [section_ends map]; auto.
  change (2 ^ 32) with two32 in H. apply N.ltb_lt in H. now rewrite H, IH.
Qed.

Lemma section_ends_none secs : ~ Forall (fun s => s_vaddr s + s_vsize s < 2 ^ 32) secs -> section_ends secs = None.
Proof.
  induction secs as [|s secs IH]; intros H; cbn [section_ends]; [exfalso; apply H; constructor|].
  destruct (N.ltb_spec (s_vaddr s + s_vsize s) two32); auto.
  rewrite IH; [reflexivity|]. intros F. apply H. constructor; auto.
Qed.

Lemma image_length_furthest secs :
  furthest_end secs (image_length (map (fun s => s_vaddr s + s_vsize s) secs)).
Proof.
  unfold image_length, furthest_end. induction secs as [|s secs [IH1 IH2]]; cbn [map fold_right].
  - split; [contradiction|auto].
  - split.
    + intros s' [-> |Hs]; [lia|]. apply IH1 in Hs. lia.
    + destruct (N.max_spec (s_vaddr s + s_vsize s) (fold_right N.max 0 (map (fun s => s_vaddr s + s_vsize s) secs))) as [[Hm ->]|[Hm ->]].
      * destruct IH2 as [-> |(s' & Hs & E)]; auto. right. exists s'. split; [now right|auto].
      * right. exists s. split; [now left|auto].
Qed.

Lemma furthest_end_unique secs n m : furthest_end secs n -> furthest_end secs m -> n = m.
Proof.
  intros [A1 A2] [B1 B2].
  destruct A2 as [-> |(s & Hs & ->)], B2 as [-> |(s' & Hs' & ->)]; auto.
  - apply A1 in Hs'. lia.
  - apply B1 in Hs. lia.
  - apply A1 in Hs'. apply B1 in Hs. lia.
Qed.

Definition pe_u32 (p : pe) : Prop := Forall u32_section (pe_sections p).

(** The complete behaviour of the loader on a parsed file. *)
Lemma image_load_spec alloc p file :
  pe_u32 p ->
  exists n, furthest_end (pe_sections p) n /\
  image_load alloc (Some p) file =
    (if forallb (fun s => s_vaddr s + s_vsize s <? 2 ^ 32) (pe_sections p) then
       match alloc (bytes_to_pages n) with
       | Some e => Err e
       | None =>
           if forallb (fun s => s_rawptr s + N.min (s_vsize s) (s_rawsize s) <=? N.of_nat (length file)) (pe_sections p) then
             if pe_relocs p then Err INCOMPATIBLE_VERSION
             else if n <=? pe_entry p then Err LOAD_ERROR
             else match copy_sections file (repeat 0 (N.to_nat n)) (pe_sections p) with
                  | Ok img => Ok (img, pe_entry p)
                  | _ => Panic
                  end
           else Err LOAD_ERROR
       end
     else Err LOAD_ERROR) /\
  (Forall (fun s => s_vaddr s + s_vsize s < 2 ^ 32) (pe_sections p) -> Forall (data_inside file) (pe_sections p) ->
   exists img, copy_sections file (repeat 0 (N.to_nat n)) (pe_sections p) = Ok img /\ N.of_nat (length img) = n /\
     forall i, i < n -> exists b, nth_error img (N.to_nat i) = Some b /\ image_byte file (pe_sections p) i b).
Proof.
  intros U. exists (image_length (map (fun s => s_vaddr s + s_vsize s) (pe_sections p))).
  set (n := image_length _). pose proof (image_length_furthest (pe_sections p)) as Fe. fold n in Fe.
  assert (V : Forall (fun s => s_vaddr s + s_vsize s <= N.of_nat (length (repeat 0 (N.to_nat n)))) (pe_sections p)).
  { rewrite repeat_length, N2Nat.id. apply Forall_forall. apply Fe. }
  pose proof (copy_sections_cases file (pe_sections p) (repeat 0 (N.to_nat n)) U V) as C.
  split; [exact Fe|]. split.
  - unfold image_load.
    destruct (forallb (fun s => s_vaddr s + s_vsize s <? 2 ^ 32) (pe_sections p)) eqn:E1.
    + assert (F1 : Forall (fun s => s_vaddr s + s_vsize s < 2 ^ 32) (pe_sections p)).
      { apply Forall_forall. intros s Hs. rewrite forallb_forall in E1. apply E1 in Hs. now apply N.ltb_lt. }
      rewrite section_ends_some by auto. fold n.
      destruct (alloc (bytes_to_pages n)); [reflexivity|].
      destruct (forallb (fun s => s_rawptr s + N.min (s_vsize s) (s_rawsize s) <=? N.of_nat (length file)) (pe_sections p)) eqn:E2.
      * assert (F2 : Forall (data_inside file) (pe_sections p)).
        { apply Forall_forall. intros s Hs. rewrite forallb_forall in E2. apply E2 in Hs. unfold data_inside. now apply N.leb_le. }
        destruct C as [[C _]|(_ & img & -> & L & _)]; [tauto|]. cbn [bind].
        rewrite L, repeat_length, N2Nat.id. destruct (pe_relocs p); auto. 
      * destruct C as [[_ ->]|(F2 & _)]; [reflexivity|].
        exfalso. apply not_true_iff_false in E2. apply E2. apply forallb_forall. intros s Hs.
        rewrite Forall_forall in F2. apply F2 in Hs. unfold data_inside in Hs. now apply N.leb_le.
    + rewrite section_ends_none; auto. intros F. apply not_true_iff_false in E1. apply E1.
      apply forallb_forall. intros s Hs. rewrite Forall_forall in F. apply F in Hs. now apply N.ltb_lt.
  - intros F1 F2. destruct C as [[C _]|(_ & img & E & L & Hn)]; [tauto|].
    exists img. split; auto. rewrite L, repeat_length, N2Nat.id. split; auto. intros i Hi. rewrite Hn.
    assert (H0 : nth_error (repeat 0 (N.to_nat n)) (N.to_nat i) = Some 0) by (apply nth_error_repeat; lia).
    rewrite H0. destruct (fold_step_value file i (pe_sections p) (Some 0)) as [(b & s & a & E1 & E2 & E3 & E4)|[E1 E2]].
    + rewrite E4. assert (Hs : In s (pe_sections p)) by (rewrite E1; apply in_elt).
      rewrite Forall_forall in F2. apply F2 in Hs. unfold data_inside in Hs. apply fillb_spec in E2 as E2'.
      destruct E2' as (A1 & A2 & A3).
      destruct (nth_error file (N.to_nat (s_rawptr s + (i - s_vaddr s)))) as [v|] eqn:Ev.
      * exists v. split; auto. left. exists b, s, a. repeat split; auto.
        intros s' Hs'. rewrite <- fillb_spec, E3; auto.
      * apply nth_error_None in Ev. lia.
    + rewrite E2. exists 0. split; auto. right. split; auto. intros s Hs. rewrite <- fillb_spec, E1; auto.
Qed.

Lemma image_load_not_panic alloc parsed file :
  (forall p, parsed = Some p -> pe_u32 p) -> image_load alloc parsed file <> Panic.
Proof.
  intros U. destruct parsed as [p|]; [|discriminate].
  destruct (image_load_spec alloc p file (U p eq_refl)) as (n & _ & -> & H).
  destruct (forallb (fun s => s_vaddr s + s_vsize s <? 2 ^ 32) (pe_sections p)) eqn:E1; [|discriminate]. destruct (alloc _); [discriminate|].
  destruct (forallb (fun s => s_rawptr s + N.min (s_vsize s) (s_rawsize s) <=? N.of_nat (length file)) (pe_sections p)) eqn:E2; [|discriminate].
  destruct (pe_relocs p); [discriminate|]. destruct (n <=? pe_entry p); [discriminate|].
  destruct H as (img & -> & _); [| |discriminate].
  - apply Forall_forall. intros s Hs. rewrite forallb_forall in E1. apply E1 in Hs. now apply N.ltb_lt.
  - apply Forall_forall. intros s Hs. rewrite forallb_forall in E2. apply E2 in Hs. unfold data_inside. now apply N.leb_le.
Qed.

Lemma image_load_ok alloc parsed file img entry :
  (forall p, parsed = Some p -> pe_u32 p) ->
  image_load alloc parsed file = Ok (img, entry) <->
  exists p, parsed = Some p /\
    Forall (fun s => s_vaddr s + s_vsize s < 2 ^ 32) (pe_sections p) /\
    Forall (data_inside file) (pe_sections p) /\
    pe_relocs p = false /\ entry = pe_entry p /\ entry < N.of_nat (length img) /\
    furthest_end (pe_sections p) (N.of_nat (length img)) /\
    alloc (bytes_to_pages (N.of_nat (length img))) = None /\
    forall i, i < N.of_nat (length img) -> exists b, nth_error img (N.to_nat i) = Some b /\ image_byte file (pe_sections p) i b.
Proof.
  intros U. split.
  - intros E. destruct parsed as [p|]; [|discriminate]. exists p. split; auto.
    destruct (image_load_spec alloc p file (U p eq_refl)) as (n & Fe & Ex & H). rewrite Ex in E. clear Ex.
    destruct (forallb (fun s => s_vaddr s + s_vsize s <? 2 ^ 32) (pe_sections p)) eqn:E1; [|discriminate]. destruct (alloc _) eqn:Ea; [discriminate|].
    destruct (forallb (fun s => s_rawptr s + N.min (s_vsize s) (s_rawsize s) <=? N.of_nat (length file)) (pe_sections p)) eqn:E2; [|discriminate].
    destruct (pe_relocs p); [discriminate|]. destruct (N.leb_spec n (pe_entry p)); [discriminate|].
    assert (F1 : Forall (fun s => s_vaddr s + s_vsize s < 2 ^ 32) (pe_sections p)).
    { apply Forall_forall. intros s Hs. rewrite forallb_forall in E1. apply E1 in Hs. now apply N.ltb_lt. }
    assert (F2 : Forall (data_inside file) (pe_sections p)).
    { apply Forall_forall. intros s Hs. rewrite forallb_forall in E2. apply E2 in Hs. unfold data_inside. now apply N.leb_le. }
    destruct (H F1 F2) as (img' & E3 & L & Hb). rewrite E3 in E. injection E as <- <-. subst n.
    repeat (split; [assumption || reflexivity|]); assumption.
  - intros (p & -> & F1 & F2 & Hr & -> & Hlt & Fe & Ha & Hb).
    destruct (image_load_spec alloc p file (U p eq_refl)) as (n & Fe' & -> & H).
    assert (n = N.of_nat (length img)) as -> by (eapply furthest_end_unique; eauto).
    destruct (H F1 F2) as (img' & E3 & L & Hb'). rewrite E3.
    assert (E1 : forallb (fun s => s_vaddr s + s_vsize s <? 2 ^ 32) (pe_sections p) = true).
    { apply forallb_forall. intros s Hs. rewrite Forall_forall in F1. apply F1 in Hs. now apply N.ltb_lt. }
    assert (E2 : forallb (fun s => s_rawptr s + N.min (s_vsize s) (s_rawsize s) <=? N.of_nat (length file)) (pe_sections p) = true).
    { apply forallb_forall. intros s Hs. rewrite Forall_forall in F2. apply F2 in Hs. now apply N.leb_le. }
    rewrite E1, E2, Ha, Hr. destruct (N.leb_spec (N.of_nat (length img)) (pe_entry p)); [lia|].
    do 2 f_equal.
    (* both images have the same bytes *)
    assert (Hd : forall i b b', image_byte file (pe_sections p) i b -> image_byte file (pe_sections p) i b' -> b = b').
    { intros i b b' [(x & s & y & Ex & Fx & Nx & Vx)|[Nx ->]] [(x' & s' & y' & Ex' & Fx' & Nx' & Vx')|[Nx' ->]]; auto.
      - enough (s = s') by congruence.
        revert x' Ex'. rewrite Ex. clear - Fx Nx Fx' Nx'. induction x as [|z x IH]; intros [|z' x'] E; cbn in E.
        + congruence.
        + injection E as -> ->. exfalso. apply (Nx s'); auto. apply in_elt.
        + injection E as -> <-. exfalso. apply (Nx' s); auto. apply in_elt.
        + injection E as _ E. eauto.
      - exfalso. apply (Nx' s); auto. rewrite Ex. apply in_elt.
      - exfalso. apply (Nx s'); auto. rewrite Ex'. apply in_elt. }
    apply nth_ext with (d := 0) (d' := 0); [lia|]. intros k Hk.
    destruct (Hb' (N.of_nat k)) as (b' & E4 & I4); [lia|]. destruct (Hb (N.of_nat k)) as (b & E5 & I5); [lia|].
    rewrite Nat2N.id in E4, E5. rewrite (nth_error_nth _ _ _ E4), (nth_error_nth _ _ _ E5). eauto.
Qed.

(** ** Cache lines *)

Lemma land_down p : p < 2 ^ 64 -> N.land p (two64 - 16) = p / 16 * 16.
Proof.
  intros H. replace (p / 16 * 16) with (N.shiftl (N.shiftr p 4) 4)
    by (rewrite N.shiftr_div_pow2, N.shiftl_mul_pow2; reflexivity).
  change (two64 - 16) with (N.shiftl (N.ones 60) 4).
  apply N.bits_inj. intros i. rewrite N.land_spec.
  destruct (N.lt_ge_cases i 4).
  - rewrite !N.shiftl_spec_low by auto. apply andb_false_r.
  - rewrite !N.shiftl_spec_high' by auto. rewrite N.shiftr_spec'. replace (i - 4 + 4) with i by lia.
    destruct (N.lt_ge_cases i 64).
    + rewrite N.ones_spec_low by lia. apply andb_true_r.
    + rewrite N.ones_spec_high by lia. rewrite andb_false_r. symmetry.
      destruct (N.eq_dec p 0) as [-> |Hp]; [apply N.bits_0|]. apply N.bits_above_log2.
      apply N.log2_lt_pow2; [lia|]. eapply N.lt_le_trans; [exact H|]. apply N.pow_le_mono_r; lia.
Qed.



Lemma lor_up x : N.lor x 15 = x / 16 * 16 + 15.
Proof.
  assert (E : N.lor x 15 = N.lor (N.shiftl (N.shiftr x 4) 4) 15).
  { apply N.bits_inj. intros i. rewrite !N.lor_spec. change 15 with (N.ones 4).
    destruct (N.lt_ge_cases i 4).
    - rewrite N.ones_spec_low by auto. now rewrite !orb_true_r.
    - rewrite N.shiftl_spec_high' by auto. rewrite N.shiftr_spec'. now replace (i - 4 + 4) with i by lia. }
  rewrite E. rewrite N.shiftr_div_pow2, N.shiftl_mul_pow2. change (2 ^ 4) with 16.
  assert (D : N.land (x / 16 * 16) 15 = 0).
  { change 15 with (N.ones 4). rewrite N.land_ones. change (2 ^ 4) with 16. apply N.mod_mul. lia. }
  rewrite <- N.lxor_lor by auto. rewrite <- N.add_nocarry_lxor by auto. reflexivity.
Qed.

Lemma icache_range_spec ptr len : 0 < ptr + len -> ptr + len <= 2 ^ 64 - 16 ->
  icache_range ptr len = Some (ptr / 16 * 16, (ptr + len - 1) / 16 * 16 + 16).
Proof.
  change (2 ^ 64 - 16) with 18446744073709551600. intros H1 H2. unfold icache_range.
  destruct (N.leb_spec two64 (ptr + len)); unfold two64 in *; [lia|].
  destruct (N.ltb_spec (ptr + len) 1); [lia|].
  fold two64. rewrite land_down by (change (2 ^ 64) with 18446744073709551616; lia). rewrite lor_up. unfold two64.
  destruct (N.leb_spec 18446744073709551616 ((ptr + len - 1) / 16 * 16 + 15 + 1)); [lia|].
  f_equal. f_equal. lia.
Qed.

Lemma in_step_by from to stride a : 0 < stride ->
  In a (step_by from to stride) <-> from <= a /\ a < to /\ (a - from) mod stride = 0.
Proof.
  intros Hs. unfold step_by. rewrite in_map_iff. split.
  - intros (i & <- & Hi). apply in_seq in Hi.
    set (k := N.of_nat i) in *. assert (Hk : k < (to - from + stride - 1) / stride) by lia.
    replace (from + stride * k - from) with (k * stride) by lia. rewrite N.mod_mul by lia.
    assert (stride * ((to - from + stride - 1) / stride) <= to - from + stride - 1) by (apply N.mul_div_le; lia).
    split; [lia|]. split; [|reflexivity]. nia.
  - intros (H1 & H2 & H3). exists (N.to_nat ((a - from) / stride)).
    pose proof (N.div_mod (a - from) stride ltac:(lia)) as D. rewrite H3 in D.
    split; [rewrite N2Nat.id; lia|]. apply in_seq.
    assert ((a - from) / stride < (to - from + stride - 1) / stride); [|lia].
    apply N.lt_le_trans with ((a - from) / stride + 1); [lia|].
    rewrite <- (N.div_add (a - from) 1 stride) by lia. apply N.div_le_mono; [lia|]. nia.
Qed.

Lemma dcache_lines_spec ptr len r : 0 < len \/ ptr mod 16 = 0 -> 0 < ptr + len -> ptr + len <= 2 ^ 64 - 16 ->
  icache_range ptr len = Some r ->
  forall a, In a (dcache_lines r) <-> a mod 16 = 0 /\ overlaps a ptr len.
Proof.
  intros H H0 H1 E a. rewrite icache_range_spec in E by auto. injection E as <-.
  unfold dcache_lines. cbn [fst snd]. rewrite in_step_by by lia. unfold overlaps. split.
  - intros (A & B & C). split; [lia|]. exists (N.max a ptr). lia.
  - intros (A & x & B & C). lia.
Qed.

Lemma icache_lines_cover ptr len r : 0 < len -> ptr + len <= 2 ^ 64 - 16 ->
  icache_range ptr len = Some r ->
  forall a, In a (icache_lines r) <-> a mod 4 = 0 /\ overlaps (a / 16 * 16) ptr len.
Proof.
  intros H H1 E a. rewrite icache_range_spec in E by lia. injection E as <-.
  unfold icache_lines, overlaps. cbn [fst snd]. rewrite in_step_by by lia. split.
  - intros (A & B & C). split; [lia|]. exists (N.max (a / 16 * 16) ptr). lia.
  - intros (A & x & B & C). lia.
Qed.
