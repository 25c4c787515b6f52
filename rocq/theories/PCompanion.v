(** Proofs about the outcome of discovering companion files (C39). *)
From Coq Require Import List NArith ZArith Bool Lia ZifyBool ZifyNat ZifyN Permutation.
From Verif Require Import Base PBase MText PText MCpio SCpio SCompanion PCpio PGate.
Import ListNotations.
Open Scope N_scope.

Ltac Zify.zify_post_hook ::= Z.to_euclidean_division_equations.

(** ** One file *)

Lemma header_bound e h hs : cpio_header e = Some (h, hs) -> hs <= 115 + len (e_name e).
Proof.
  unfold cpio_header. destruct (cu32_max <? _); [discriminate|]. cbv zeta. intros E.
  assert (hs = static_header_len + len (e_name e) + 1 + len (pad4 (static_header_len + len (e_name e) + 1))) as -> by congruence.
  rewrite pad4_len. change static_header_len with 110. lia.
Qed.

(** A file of moderate size can be packed, and the archive grows moderately. *)
Lemma pack_one_moderate c fname contents prefix mode : len (c_buffer c) < 2 ^ 63 -> c_inode c < 2 ^ 31 -> len fname <= 255 -> len prefix <= 255 ->
  len contents <= 2 ^ 32 - 1 ->
  exists c' n, pack_one c fname contents prefix mode = (c', Ok n) /\ c_inode c' = c_inode c + 1 /\ len (c_buffer c') <= len (c_buffer c) + 2 ^ 33.
Proof.
  intros B I F P C. pose proof (pack_one_outcome c fname contents prefix mode B) as O. cbv zeta in O.
  destruct (N.ltb_spec cu32_max (len contents)) as [X|_]; [exfalso; change cu32_max with 4294967295 in X; lia|].
  destruct (N.eqb_spec (c_inode c) cu32_max) as [X|_]; [exfalso; change cu32_max with 4294967295 in X; lia|].
  destruct (N.leb_spec (2 ^ 32 - 1) (len prefix + len fname)) as [X|_]; [exfalso; lia|].
  destruct (N.eqb_spec (len prefix + len fname) (2 ^ 32 - 2)) as [X|_]; [exfalso; lia|]. rewrite andb_false_r in O.
  destruct O as [n O]; [lia | lia|].
  destruct (pack_one_cases c fname contents prefix mode) as [[e E]|(H1 & H2 & H3 & E)]; [rewrite E in O; discriminate O|].
  destruct (cpio_header _) as [[h hs]|] eqn:Eh; [|rewrite E in O; discriminate O]. eexists _, _. split; [exact E|]. split; [reflexivity|].
  cbn [c_buffer]. pose proof (header_len _ _ _ Eh) as (L & _). pose proof (header_bound _ _ _ Eh) as HB. rewrite !len_app.
  assert (len (fst (cpio_contents hs contents)) <= len contents + 3) as CB.
  { unfold cpio_contents. cbn [fst]. rewrite len_app, pad4_len. lia. }
  assert (len (e_name (file_entry c fname contents prefix mode)) <= 511) as NB.
  { cbn [file_entry e_name]. unfold full_name. destruct (list_eq_dec _ _ _); unfold len in *; [lia|].
    rewrite ?app_length. cbn [length]. rewrite ?app_length. change (length (lit "/")) with 1%nat. lia. }
  lia.
Qed.

(** ** All files *)

Section Files.
Variables (read : str -> option bytes) (prefix : bytes) (mode : N).
Hypothesis PL : len prefix <= 255.

Definition fits_in (f : str) : Prop :=
  len (utf8_encode (last_component f)) <= 255 /\ forall d, read f = Some d -> len d <= 2 ^ 32 - 1.

Lemma pack_files_moderate files : forall c, Forall fits_in files -> len (c_buffer c) + len files * 2 ^ 33 < 2 ^ 63 -> c_inode c + len files < 2 ^ 31 ->
  (Exists (fun f => read f = None) files -> exists c', pack_files read c files prefix mode = (c', Panic)) /\
  (Forall (fun f => read f <> None) files -> exists c', pack_files read c files prefix mode = (c', Ok tt) /\
     c_inode c' = c_inode c + len files /\ len (c_buffer c') <= len (c_buffer c) + len files * 2 ^ 33).
Proof.
  induction files as [|f files IH]; intros c F B I.
  - split; [intros X; inversion X|]. intros _. exists c. split; [reflexivity|]. change (len (@nil str)) with 0. lia.
  - inversion F as [|? ? [F1 F2] F3]; subst. assert (len (f :: files) = 1 + len files) as LE by (unfold len; cbn [length]; lia). rewrite LE in *.
    cbn [pack_files]. destruct (read f) as [d|] eqn:R.
    + destruct (pack_one_moderate c (utf8_encode (last_component f)) d prefix mode) as (c1 & n & E & I1 & B1); [lia | lia | exact F1 | exact PL | exact (F2 d eq_refl)|].
      rewrite E. cbn [cthen]. destruct (IH c1 F3) as [A1 A2]; [lia | lia|]. split.
      * intros X. inversion X as [? ? X1|? ? X1]; subst; [congruence | exact (A1 X1)].
      * intros X. inversion X as [|? ? _ X1]; subst. destruct (A2 X1) as (c' & E' & I' & B'). exists c'. split; [exact E'|]. lia.
    + split; [intros _; exists c; reflexivity|]. intros X. inversion X as [|? ? X1 _]; subst. contradiction.
Qed.
End Files.

(** The archive after the directories of the prefix. *)
Definition started (prefix : bytes) (dm : N) : Prop :=
  exists c0, pack_prefix cpio_new prefix dm = (c0, Ok tt) /\ c_inode c0 < 2 ^ 8 /\ len (c_buffer c0) < 2 ^ 16 /\ len prefix <= 255.

Lemma pack_cpio_moderate read files prefix dm am : started prefix dm -> Forall (fits_in read) files -> len files < 2 ^ 29 ->
  (Exists (fun f => read f = None) files -> pack_cpio read files prefix dm am = Panic) /\
  (Forall (fun f => read f <> None) files -> exists b, pack_cpio read files prefix dm am = Ok b).
Proof.
  intros (c0 & E0 & I0 & B0 & PL) F LF. unfold pack_cpio. rewrite E0. cbn [cthen].
  pose proof (sort_paths_perm files) as P.
  assert (len (sort_paths files) = len files) as LS by (unfold len; rewrite (Permutation_length P); reflexivity).
  destruct (pack_files_moderate read prefix am PL (sort_paths files) c0) as [A1 A2];
    [eapply Permutation_Forall; eassumption | rewrite LS; lia | rewrite LS; lia |]. split.
  - intros X. destruct A1 as [c' ->]; [|reflexivity]. apply Exists_exists in X as (f & Hf & R). apply Exists_exists. exists f. split; [|exact R].
    eapply Permutation_in; eassumption.
  - intros X. destruct A2 as (c' & -> & I' & B'); [eapply Permutation_Forall; eassumption|]. cbn [cthen]. rewrite LS in *.
    unfold pack_trailer. destruct (pack_one_moderate c' (lit "TRAILER!!!") [] [] 0) as (c2 & n & -> & _); [lia | lia | cbn; lia | cbn; lia | cbn; lia |].
    cbn [finish]. eauto.
Qed.

(** ** A directory *)

Lemma companion_collects fs dir suffix t prefix dm am : started prefix dm -> collects fs dir suffix (companion_of fs dir suffix t prefix dm am).
Proof.
  intros ST. unfold collects, companion_of, find_files. split; [intros ->; reflexivity|]. intros l ->. split.
  - intros N. rewrite (find_loop_err _ _ _ N). reflexivity.
  - intros NN MO. destruct (map_Some_or_None l) as [N|(es & ->)]; [contradiction|].
    destruct (find_loop dir suffix (map Some es)) as [files|[]|] eqn:Ef;
      [|exfalso; revert Ef; clear; induction es as [|e es IH]; cbn [map find_loop]; [discriminate|]; destruct (find_loop dir suffix (map Some es)); [discriminate | exact IH | discriminate]
       |destruct (find_loop_calm _ _ _ Ef)].
    apply find_loop_spec in Ef as (es' & EE & ->). apply (f_equal (flat_map (fun o => match o with Some x => [x] | None => [] end))) in EE.
    assert (forall k : list dentry, flat_map (fun o => match o with Some x => [x] | None => [] end) (map Some k) = k) as FM by (induction k as [|x k IH]; cbn; [reflexivity | now rewrite IH]).
    rewrite !FM in EE. subst es'. clear FM. cbn [bind].
    set (files := map (fun e => dir ++ [92] ++ de_name e) (filter (picks suffix) es)).
    destruct MO as [ML MF].
    assert (Forall (fits_in (fs_read fs)) files) as FF.
    { unfold files. apply Forall_forall. intros f Hf. apply in_map_iff in Hf as (e & <- & He). apply filter_In in He as [He Hp].
      destruct (MF e (in_map Some _ _ He)) as (M1 & M2 & M3). apply picks_spec in Hp as (_ & AS & _). split; [|exact M3].
      rewrite last_component_join by exact M2. rewrite utf8_ascii by exact AS. exact M1. }
    assert (len files < 2 ^ 29) as LF.
    { unfold files, len. rewrite map_length. rewrite map_length in ML. assert (length (filter (picks suffix) es) <= length es)%nat; [|lia].
      clear. induction es as [|e es IH]; cbn; [lia|]. destruct (picks suffix e); cbn [length]; lia. }
    destruct (pack_cpio_moderate (fs_read fs) files prefix dm am ST FF LF) as [A1 A2]. split.
    + intros (e & He & Hp & R). apply in_map_iff in He as (e' & [= ->] & He).
      assert (Exists (fun f => fs_read fs f = None) files) as X.
      { apply Exists_exists. exists (dir ++ [92] ++ de_name e). split; [|exact R]. unfold files. apply in_map_iff. exists e. split; [reflexivity|].
        apply filter_In. split; [exact He | apply picks_spec; exact Hp]. }
      rewrite (A1 X). destruct files; [inversion X | reflexivity].
    + intros H. destruct A2 as [b E].
      { apply Forall_forall. intros f Hf. unfold files in Hf. apply in_map_iff in Hf as (e & <- & He). apply filter_In in He as [He Hp].
        apply H; [apply in_map; exact He | apply picks_spec; exact Hp]. }
      rewrite E. destruct files; cbn; eauto.
Qed.
