(** Proofs about os-release files. *)
From Coq Require Import List NArith ZArith Bool Lia ZifyBool ZifyNat ZifyN.
From Verif Require Import Base PBase MOsRelease MGeneration SCommon SOsRelease SVersion PVersion.
Import ListNotations.
Open Scope N_scope.

(** ** Trimming *)

Lemma is_whitespace_spec c : is_whitespace c = true <-> In c white_space.
Proof.
  unfold is_whitespace, white_space. cbn [In]. split.
  - intros H. repeat rewrite orb_true_iff in H. repeat rewrite andb_true_iff in H.
    rewrite !N.leb_le, !N.eqb_eq in H. lia.
  - intros H. lia.
Qed.

Lemma trim_end_snoc s c :
  trim_end (s ++ [c]) = if is_whitespace c then trim_end s else s ++ [c].
Proof.
  induction s as [|x s IH].
  - cbn. destruct (is_whitespace c); reflexivity.
  - cbn [app trim_end]. rewrite IH. destruct (is_whitespace c); auto.
    destruct s; reflexivity.
Qed.

Lemma trim_end_rtrim s : trim_end s = rtrim s.
Proof.
  unfold rtrim. induction s as [|c s IH] using rev_ind; [reflexivity|].
  rewrite trim_end_snoc, rev_unit. cbn [drop_white].
  destruct (in_dec N.eq_dec c white_space) as [Hi|Hn].
  - apply is_whitespace_spec in Hi. now rewrite Hi.
  - destruct (is_whitespace c) eqn:E; [apply is_whitespace_spec in E; tauto|].
    cbn. now rewrite rev_involutive.
Qed.

Lemma rtrim_good s : good_end s -> rtrim s = s.
Proof.
  intros H. unfold rtrim. destruct s as [|c s] using rev_ind; [reflexivity|].
  rewrite rev_unit. cbn [drop_white]. destruct (in_dec N.eq_dec c white_space) as [Hi|Hn].
  - exfalso; eapply H; eauto.
  - cbn. now rewrite rev_involutive.
Qed.

(** ** The map *)

Lemma om_get_insert k k' v m :
  om_get k (om_insert k' v m) = if list_eq_dec N.eq_dec k k' then Some v else om_get k m.
Proof.
  induction m as [|[k1 v1] m IH].
  - cbn. destruct (list_eq_dec N.eq_dec k k') as [->|Hn].
    + now rewrite eqb_bytes_refl.
    + apply eqb_bytes_false in Hn. now rewrite Hn.
  - cbn [om_insert]. destruct (eqb_bytes k' k1) eqn:E1.
    + apply eqb_bytes_spec in E1 as ->. cbn [om_get].
      destruct (list_eq_dec N.eq_dec k k1) as [->|Hn].
      * now rewrite eqb_bytes_refl.
      * apply eqb_bytes_false in Hn. now rewrite Hn.
    + destruct (str_ltb k' k1).
      * cbn [om_get]. destruct (list_eq_dec N.eq_dec k k') as [->|Hn].
        -- now rewrite eqb_bytes_refl.
        -- apply eqb_bytes_false in Hn. now rewrite Hn.
      * cbn [om_get]. rewrite IH. destruct (eqb_bytes k k1) eqn:E2; auto.
        apply eqb_bytes_spec in E2 as ->. destruct (list_eq_dec N.eq_dec k1 k') as [->|]; auto.
        now rewrite eqb_bytes_refl in E1.
Qed.

(** Effect of a sequence of assignments. *)
Definition assign_all (l : list (str * str)) (m : omap) : omap :=
  fold_left (fun m kv => om_insert (fst kv) (snd kv) m) l m.

Lemma om_get_assign_all k l m :
  om_get k (assign_all l m) =
  match last_value k l with Some v => Some v | None => om_get k m end.
Proof.
  revert m; induction l as [|[k' v] l IH]; intros m; cbn [assign_all fold_left last_value]; auto.
  unfold assign_all in IH. rewrite IH. cbn [fst snd]. destruct (last_value k l); auto.
  rewrite om_get_insert. destruct (list_eq_dec N.eq_dec k k'); auto.
Qed.

(** Sortedness. *)
Lemma str_ltb_irrefl a : str_ltb a a = false.
Proof. induction a; cbn; auto. rewrite IHa, N.ltb_irrefl. now rewrite andb_false_r. Qed.

Lemma str_ltb_total a b : str_ltb a b = true \/ a = b \/ str_ltb b a = true.
Proof.
  revert b; induction a as [|x a IH]; intros [|y b]; cbn; auto.
  destruct (N.lt_trichotomy x y) as [H|[->|H]].
  - left. apply N.ltb_lt in H. now rewrite H.
  - rewrite N.eqb_refl, N.ltb_irrefl. cbn. destruct (IH b) as [-> | [-> | ->]]; auto.
  - right. right. apply N.ltb_lt in H. now rewrite H.
Qed.

Lemma str_ltb_trans a b c : str_ltb a b = true -> str_ltb b c = true -> str_ltb a c = true.
Proof.
  revert b c; induction a as [|x a IH]; intros [|y b] [|z c]; cbn; auto; try discriminate.
  intros H1 H2. apply orb_true_iff in H1, H2. apply orb_true_iff.
  rewrite !andb_true_iff, !N.ltb_lt, !N.eqb_eq in *.
  destruct H1 as [H1|[-> H1]], H2 as [H2|[-> H2]]; try (left; lia).
  right. split; eauto.
Qed.

Fixpoint om_sorted (m : omap) : Prop :=
  match m with
  | [] => True
  | (k, _) :: m' => Forall (fun kv => str_ltb k (fst kv) = true) m' /\ om_sorted m'
  end.

Lemma om_insert_keys k v m kv : In kv (om_insert k v m) -> kv = (k, v) \/ In kv m.
Proof.
  induction m as [|[k1 v1] m IH]; cbn.
  - intros [<-|[]]; auto.
  - destruct (eqb_bytes k k1) eqn:E.
    + intros [<-|H]; auto.
    + destruct (str_ltb k k1); cbn.
      * intros [<-|[<-|H]]; auto.
      * intros [<-|H]; auto. destruct (IH H); auto.
Qed.

Lemma om_insert_sorted k v m : om_sorted m -> om_sorted (om_insert k v m).
Proof.
  induction m as [|[k1 v1] m IH]; cbn [om_insert om_sorted].
  - repeat constructor.
  - intros [F S]. destruct (eqb_bytes k k1) eqn:E.
    + apply eqb_bytes_spec in E as ->. cbn. auto.
    + destruct (str_ltb k k1) eqn:L; cbn [om_sorted].
      * repeat split; auto. constructor; auto. eapply Forall_impl; [|exact F].
        intros [k2 v2]; cbn. intros H. eapply str_ltb_trans; eauto.
      * split; [|auto]. apply Forall_forall. intros kv H. apply om_insert_keys in H as [->|H].
        -- cbn. destruct (str_ltb_total k k1) as [H|[->|H]]; auto; [congruence|].
           now rewrite eqb_bytes_refl in E.
        -- rewrite Forall_forall in F. auto.
Qed.

Lemma assign_all_sorted l m : om_sorted m -> om_sorted (assign_all l m).
Proof. revert m; induction l; intros m H; cbn; auto. apply IHl. now apply om_insert_sorted. Qed.

(** ** One line *)

Local Notation run := (fold_left os_step).

Ltac ifs := repeat match goal with
  | |- context [if ?b then _ else _] =>
      lazymatch type of b with
      | bool => let E := fresh "E" in destruct b eqn:E
      | _ => let E := fresh "E" in destruct b as [E|E]
      end
  end.

Ltac chars := unfold in_comments, in_blank, in_newline, in_shell_escape, newline, blank in *; cbn [In] in *.

Lemma run_lead lead m v :
  Forall blank lead -> run lead (OV PreKey [] v m) = OV PreKey [] v m.
Proof.
  induction 1 as [|c l H _ IH]; auto. cbn [fold_left os_step].
  destruct (in_comments c) eqn:E; [chars; lia|].
  destruct (in_blank c) eqn:E'; [|chars; lia]. cbn. auto.
Qed.

Lemma run_key_rest r k v m :
  Forall (fun x => ~ newline x /\ x <> 61) r -> run r (OV Key k v m) = OV Key (k ++ r) v m.
Proof.
  intros H; revert k; induction H as [|c l H _ IH]; intros k; [now rewrite app_nil_r|].
  cbn [fold_left os_step].
  destruct (in_newline c) eqn:E; [chars; lia|].
  destruct (N.eqb_spec c 61); [lia|]. rewrite IH. now rewrite <- app_assoc.
Qed.

Lemma run_key key v m : key_ok key -> run key (OV PreKey [] v m) = OV Key key v m.
Proof.
  intros (c & r & -> & H1 & H2 & H3 & H4 & F). cbn [fold_left os_step].
  destruct (in_comments c) eqn:E; [chars; lia|].
  destruct (in_blank c) eqn:E'; [chars; lia|]. cbn [negb app]. now rewrite run_key_rest.
Qed.

Lemma run_single s k v m : ~ In 39 s -> run s (OV SingleQuoteValue k v m) = OV SingleQuoteValue k (v ++ s) m.
Proof.
  revert v; induction s as [|c s IH]; intros v H; [now rewrite app_nil_r|].
  cbn [fold_left os_step]. destruct (N.eqb_spec c 39) as [->|]; [cbn in H; tauto|].
  rewrite IH by (cbn in H; tauto). now rewrite <- app_assoc.
Qed.

Lemma run_double l k v m :
  Forall dchar_ok l ->
  run (flat_map dchar_render l) (OV DoubleQuoteValue k v m) = OV DoubleQuoteValue k (v ++ flat_map dchar_text l) m.
Proof.
  intros H; revert v; induction H as [|d l H _ IH]; intros v; [now rewrite app_nil_r|].
  cbn [flat_map]. rewrite fold_left_app. destruct d as [c|c]; cbn [dchar_render fold_left os_step dchar_text].
  - cbn in H. destruct (N.eqb_spec c 34); [lia|]. destruct (N.eqb_spec c 92); [lia|].
    rewrite IH. now rewrite <- app_assoc.
  - change (92 =? 34) with false. change (92 =? 92) with true. cbn [os_step fold_left].
    destruct (in_shell_escape c) eqn:E.
    + destruct (in_dec N.eq_dec c [34; 92; 96; 36]) as [Hi|Hn]; [|chars; exfalso; apply Hn; lia].
      rewrite IH. now rewrite <- app_assoc.
    + destruct (in_dec N.eq_dec c [34; 92; 96; 36]) as [Hi|Hn]; [chars; lia|].
      destruct (N.eqb_spec c 10) as [->|Hc].
      * cbn [negb]. destruct (N.eq_dec 10 10); [|lia]. now rewrite IH.
      * cbn [negb]. destruct (N.eq_dec c 10); [lia|]. rewrite IH. now rewrite <- app_assoc.
Qed.

Lemma run_segs segs k v m :
  Forall seg_ok segs ->
  run (flat_map seg_render segs) (OV PreValue k v m) = OV PreValue k (v ++ flat_map seg_text segs) m.
Proof.
  intros H; revert v; induction H as [|s l H _ IH]; intros v; [now rewrite app_nil_r|].
  cbn [flat_map]. rewrite fold_left_app. destruct s as [c|s|d]; cbn [seg_render seg_text seg_ok] in *.
  - cbn [fold_left os_step]. destruct (in_newline c) eqn:E; [chars; lia|].
    destruct (N.eqb_spec c 39); [chars; lia|]. destruct (N.eqb_spec c 34); [chars; lia|].
    destruct (N.eqb_spec c 92); [chars; lia|]. destruct (in_blank c) eqn:E'; [|chars; lia].
    cbn [negb]. apply IH.
  - rewrite !fold_left_app. cbn [fold_left os_step].
    change (in_newline 39) with false. change (39 =? 39) with true. cbn [os_step fold_left].
    rewrite run_single by auto. cbn [os_step]. change (39 =? 39) with true. cbn [os_step fold_left].
    rewrite IH. now rewrite <- app_assoc.
  - rewrite !fold_left_app. cbn [fold_left os_step].
    change (in_newline 34) with false. change (34 =? 39) with false. change (34 =? 34) with true. cbn [os_step fold_left].
    rewrite run_double by auto. cbn [os_step]. change (34 =? 34) with true. cbn [os_step fold_left].
    rewrite IH. now rewrite <- app_assoc.
Qed.

Lemma run_value p k v m :
  Forall vchar_ok p ->
  run (flat_map vchar_render p) (OV Value k v m) = OV Value k (v ++ flat_map vchar_text p) m.
Proof.
  intros H; revert v; induction H as [|d l H _ IH]; intros v; [now rewrite app_nil_r|].
  cbn [flat_map]. rewrite fold_left_app. destruct d as [c|c]; cbn [vchar_render fold_left os_step vchar_text].
  - cbn in H. destruct (in_newline c) eqn:E; [chars; lia|]. destruct (N.eqb_spec c 92); [lia|].
    rewrite IH. now rewrite <- app_assoc.
  - change (in_newline 92) with false. change (92 =? 92) with true. cbn [os_step fold_left].
    destruct (in_newline c) eqn:E; cbn [negb].
    + destruct (in_dec N.eq_dec c [10; 13]) as [Hi|Hn]; [|chars; exfalso; apply Hn; lia]. now rewrite IH.
    + destruct (in_dec N.eq_dec c [10; 13]) as [Hi|Hn]; [chars; lia|]. rewrite IH. now rewrite <- app_assoc.
Qed.

Lemma run_plain p k v m :
  plain_ok p ->
  run (flat_map vchar_render p) (OV PreValue k v m) =
  OV (match p with [] => PreValue | _ => Value end) k (v ++ flat_map vchar_text p) m.
Proof.
  intros [H Hs]. destruct H as [|d l H F]; [now rewrite app_nil_r|].
  cbn [flat_map]. rewrite fold_left_app. destruct d as [c|c]; cbn [vchar_render fold_left os_step vchar_text].
  - cbn in H. specialize (Hs c l eq_refl). destruct (in_newline c) eqn:E; [chars; lia|].
    destruct (N.eqb_spec c 39); [lia|]. destruct (N.eqb_spec c 34); [lia|].
    destruct (N.eqb_spec c 92); [lia|]. destruct (in_blank c) eqn:E'; [chars; lia|]. cbn [negb].
    rewrite run_value by auto. now rewrite <- app_assoc.
  - change (in_newline 92) with false. change (92 =? 39) with false. change (92 =? 34) with false.
    change (92 =? 92) with true. cbn [os_step fold_left].
    destruct (in_newline c) eqn:E; cbn [negb].
    + destruct (in_dec N.eq_dec c [10; 13]) as [Hi|Hn]; [|chars; exfalso; apply Hn; lia]. now rewrite run_value.
    + destruct (in_dec N.eq_dec c [10; 13]) as [Hi|Hn]; [chars; lia|]. rewrite run_value by auto. now rewrite <- app_assoc.
Qed.

Lemma run_remark t k v m :
  Forall remark_ok t -> run (flat_map vchar_render t) (OV Comment k v m) = OV Comment k v m.
Proof.
  induction 1 as [|d l H _ IH]; auto.
  cbn [flat_map]. rewrite fold_left_app. destruct d as [c|c]; cbn in H; cbn [vchar_render fold_left os_step].
  - destruct H as [H H']. specialize (H' eq_refl). destruct (N.eqb_spec c 92); [lia|].
    destruct (in_newline c) eqn:E; [chars; lia|]. auto.
  - change (92 =? 92) with true. cbn [os_step fold_left]. destruct (in_newline c) eqn:E; [chars; lia|]. auto.
Qed.

(** The parser's variables after a line. *)
Definition after (l : line) (m : omap) : ovars :=
  match l with
  | Empty _ => OV PreKey [] [] m
  | Remark _ _ _ d => OV (if d then CommentEscape else Comment) [] [] m
  | Bare _ k => OV Key k [] m
  | Assign _ k segs plain =>
      OV (match plain with [] => PreValue | _ => Value end) k
         (flat_map seg_text segs ++ flat_map vchar_text plain) m
  | CutEscape _ k segs plain => OV ValueEscape k (flat_map seg_text segs ++ flat_map vchar_text plain) m
  | CutSingle _ k segs s => OV SingleQuoteValue k (flat_map seg_text segs ++ s) m
  | CutDouble _ k segs l d =>
      OV (if d then DoubleQuoteValueEscape else DoubleQuoteValue) k
         (flat_map seg_text segs ++ flat_map dchar_text l) m
  end.

Lemma run_line l m : line_ok l -> run (line_render l) (OV PreKey [] [] m) = after l m.
Proof.
  destruct l; cbn [line_ok line_render after].
  - apply run_lead.
  - intros (H1 & H2 & H3). rewrite !fold_left_app, run_lead by auto. cbn [fold_left os_step].
    assert (in_comments mark = true) as -> by (chars; lia).
    rewrite run_remark by auto. destruct dangling; reflexivity.
  - intros (H1 & H2). now rewrite fold_left_app, run_lead, run_key by auto.
  - intros (H1 & H2 & H3 & H4). rewrite !fold_left_app, run_lead, run_key by auto.
    cbn [fold_left os_step]. change (in_newline 61) with false. change (61 =? 61) with true. cbn [os_step fold_left].
    now rewrite run_segs, run_plain by auto.
  - intros (H1 & H2 & H3 & H4). rewrite !fold_left_app, run_lead, run_key by auto.
    cbn [fold_left os_step]. change (in_newline 61) with false. change (61 =? 61) with true. cbn [os_step fold_left].
    rewrite run_segs, run_plain by auto. destruct plain; reflexivity.
  - intros (H1 & H2 & H3 & H4). rewrite !fold_left_app, run_lead, run_key by auto.
    cbn [fold_left os_step]. change (in_newline 61) with false. change (61 =? 61) with true. cbn [os_step fold_left].
    rewrite run_segs by auto. cbn [os_step].
    change (in_newline 39) with false. change (39 =? 39) with true. cbn [os_step fold_left].
    now rewrite run_single.
  - intros (H1 & H2 & H3 & H4). rewrite !fold_left_app, run_lead, run_key by auto.
    cbn [fold_left os_step]. change (in_newline 61) with false. change (61 =? 61) with true. cbn [os_step fold_left].
    rewrite run_segs by auto. cbn [os_step].
    change (in_newline 34) with false. change (34 =? 39) with false. change (34 =? 34) with true. cbn [os_step fold_left].
    rewrite run_double by auto. destruct dangling; reflexivity.
Qed.

Lemma run_terminated l t m :
  line_ok l -> complete l -> newline t ->
  run (line_render l ++ [t]) (OV PreKey [] [] m) = OV PreKey [] [] (assign_all (line_assigns l) m).
Proof.
  intros H Hc Ht. rewrite fold_left_app, run_line by auto.
  assert (En : in_newline t = true) by (chars; lia).
  destruct l; cbn [complete] in Hc; try contradiction; cbn [after fold_left line_assigns assign_all fst snd].
  - cbn [os_step]. destruct (in_comments t) eqn:E; [chars; lia|].
    assert (in_blank t = true) as -> by (chars; lia). reflexivity.
  - destruct dangling; cbn [os_step].
    + now rewrite En.
    + destruct (N.eqb_spec t 92); [chars; lia|]. now rewrite En.
  - cbn [os_step]. now rewrite En.
  - destruct plain as [|p plain]; cbn [os_step]; rewrite En, !trim_end_rtrim; reflexivity.
Qed.

Lemma parse_file f :
  file_ok f -> os_release_parse (file_render f) = assign_all (file_assigns f) [].
Proof.
  intros [HL Hlast]. destruct f as [ls last]. cbn [f_lines f_last] in *.
  unfold os_release_parse, file_render, file_assigns. cbn [f_lines f_last].
  assert (Hrun : forall m, run (flat_map (fun lt => line_render (fst lt) ++ [snd lt]) ls) (OV PreKey [] [] m) =
                 OV PreKey [] [] (assign_all (flat_map (fun lt => line_assigns (fst lt)) ls) m)).
  { clear Hlast. induction HL as [|[l t] ls (H1 & H2 & H3) _ IH]; intros m; auto.
    cbn [fst snd] in *.
    cbn [flat_map fst snd]. rewrite fold_left_app, run_terminated by auto. rewrite IH.
    unfold assign_all. now rewrite fold_left_app. }
  rewrite fold_left_app, Hrun, run_line by auto.
  assert (Hsplit : assign_all (flat_map (fun lt => line_assigns (fst lt)) ls ++ line_assigns last) [] =
    assign_all (line_assigns last) (assign_all (flat_map (fun lt => line_assigns (fst lt)) ls) [])).
  { unfold assign_all. now rewrite fold_left_app. }
  rewrite Hsplit.
  generalize (assign_all (flat_map (fun lt => line_assigns (fst lt)) ls) []). intros m. unfold assign_all.
  destruct last; cbn [after line_assigns fold_left fst snd]; rewrite <- ?trim_end_rtrim; auto.
  - destruct dangling; reflexivity.
  - destruct plain; reflexivity.
  - destruct dangling; reflexivity.
Qed.

Lemma parse_file_get f k :
  file_ok f -> om_get k (os_release_parse (file_render f)) = last_value k (file_assigns f).
Proof.
  intros H. rewrite parse_file, om_get_assign_all by auto. now destruct (last_value k _).
Qed.

(** ** Every text is the text of a file *)

Lemma Forall_snoc {A} (P : A -> Prop) l x : Forall P l -> P x -> Forall P (l ++ [x]).
Proof. intros. apply Forall_app. auto. Qed.

Lemma flat_map_snoc {A B} (f : A -> list B) l x : flat_map f (l ++ [x]) = flat_map f l ++ f x.
Proof. rewrite flat_map_app. cbn. now rewrite app_nil_r. Qed.

Lemma plain_snoc p v : plain_ok p -> vchar_ok v ->
  (p = [] -> forall c, v = VChar c -> ~ blank c /\ c <> 39 /\ c <> 34) -> plain_ok (p ++ [v]).
Proof.
  intros [F H] Hv Hs. split; [now apply Forall_snoc|].
  intros c r E. destruct p as [|w p]; cbn in E.
  - injection E as -> _. now apply Hs.
  - injection E as -> _. eapply H; eauto.
Qed.

Definition extend (l : line) (c : N) : Prop :=
  (exists l', line_ok l' /\ line_render l' = line_render l ++ [c]) \/ (complete l /\ newline c).

Ltac apps :=
  repeat (progress cbn [vchar_render dchar_render seg_render tail_render flat_map app]
          || rewrite <- app_assoc || rewrite app_nil_r); reflexivity.

Lemma line_extend l c : line_ok l -> extend l c.
Proof.
  unfold extend. destruct l; cbn [line_ok line_render complete].
  - intros F. destruct (in_newline c) eqn:En; [right; split; auto; chars; lia|]. left.
    destruct (in_blank c) eqn:Eb.
    { exists (Empty (lead ++ [c])). split; [|reflexivity]. apply Forall_snoc; auto. chars; lia. }
    destruct (in_comments c) eqn:Ec.
    { exists (Remark lead c [] false). cbn. split; [|apps].
      repeat split; auto. chars; lia. }
    exists (Bare lead [c]). cbn. split; auto. split; auto. exists c, []. chars.
    repeat split; auto; lia.
  - intros (F & Hm & Ht). destruct dangling.
    + destruct (in_newline c) eqn:En; [right; split; auto; chars; lia|]. left.
      exists (Remark lead mark (text ++ [VEsc c]) false). cbn. split.
      * repeat split; auto. apply Forall_snoc; auto. cbn. split; [chars; lia|discriminate].
      * rewrite flat_map_snoc. cbn. apps.
    + destruct (in_newline c) eqn:En; [right; split; auto; chars; lia|]. left.
      destruct (N.eqb_spec c 92) as [->|Hn].
      * exists (Remark lead mark text true). cbn. split; auto.
        apps.
      * exists (Remark lead mark (text ++ [VChar c]) false). cbn. split.
        -- repeat split; auto. apply Forall_snoc; auto. cbn. split; [chars; lia|auto].
        -- rewrite flat_map_snoc. cbn. apps.
  - intros (F & (x & r & -> & H1 & H2 & H3 & H4 & Fr)).
    destruct (in_newline c) eqn:En; [right; split; auto; chars; lia|]. left.
    destruct (N.eqb_spec c 61) as [->|Hn].
    + exists (Assign lead (x :: r) [] []). cbn. split; [|apps].
      repeat split; auto; try discriminate. exists x, r. auto 10.
    + exists (Bare lead (x :: r ++ [c])). cbn. split; [|apps].
      split; auto. exists x, (r ++ [c]). repeat split; auto. apply Forall_snoc; auto. split; auto. chars; lia.
  - intros (F & Hk & Hs & Hp). destruct (in_newline c) eqn:En; [right; split; auto; chars; lia|]. left.
    destruct (N.eqb_spec c 92) as [->|Hn].
    { exists (CutEscape lead key segs plain). cbn. split; auto. apps. }
    destruct plain as [|p plain].
    + destruct (N.eqb_spec c 39) as [->|Hn1].
      { exists (CutSingle lead key segs []). cbn. split; auto. apps. }
      destruct (N.eqb_spec c 34) as [->|Hn2].
      { exists (CutDouble lead key segs [] false). cbn. split; auto. apps. }
      destruct (in_blank c) eqn:Eb.
      { exists (Assign lead key (segs ++ [Blank c]) []). cbn. split.
        - repeat split; auto; try discriminate. apply Forall_snoc; auto. cbn. chars; lia.
        - rewrite flat_map_snoc. cbn. apps. }
      exists (Assign lead key segs [VChar c]). cbn. split.
      * repeat split; auto; try (intros x r [= <- <-]; chars; lia). repeat constructor; chars; lia.
        intros HB; match goal with H : [VChar c] = VChar ?x :: _ |- _ => injection H as <- _ end; chars; lia.
        match goal with H : [VChar c] = VChar ?x :: _ |- _ => injection H as <- _ end; chars; lia.
        match goal with H : [VChar c] = VChar ?x :: _ |- _ => injection H as <- _ end; chars; lia.
      * apps.
    + exists (Assign lead key segs ((p :: plain) ++ [VChar c])). cbn [line_ok line_render]. split.
      * split; [auto|split; [auto|split; [auto|]]]. apply plain_snoc; auto; [cbn; split; [chars; lia|auto]|discriminate].
      * rewrite flat_map_snoc. apps.
  - intros (F & Hk & Hs & Hp). left.
    exists (Assign lead key segs (plain ++ [VEsc c])). cbn [line_ok line_render]. split.
    + split; [auto|split; [auto|split; [auto|]]]. apply plain_snoc; auto; [exact I|discriminate].
    + rewrite flat_map_snoc. apps.
  - intros (F & Hk & Hs & Hp). left. destruct (N.eqb_spec c 39) as [->|Hn].
    + exists (Assign lead key (segs ++ [Single s]) []). cbn [line_ok line_render]. split.
      * split; [auto|split; [auto|split]]. { apply Forall_snoc; auto. } split; [auto|discriminate].
      * rewrite flat_map_snoc. apps.
    + exists (CutSingle lead key segs (s ++ [c])). cbn [line_ok line_render]. split.
      * repeat split; auto. intros Hi. apply in_app_or in Hi as [Hi|[Hi|[]]]; auto.
      * apps.
  - intros (F & Hk & Hs & Hp). left. destruct dangling.
    + exists (CutDouble lead key segs (l ++ [DEsc c]) false). cbn [line_ok line_render]. split.
      * repeat split; auto. apply Forall_snoc; auto. exact I.
      * rewrite flat_map_snoc. apps.
    + destruct (N.eqb_spec c 34) as [->|Hn].
      { exists (Assign lead key (segs ++ [Double l]) []). cbn [line_ok line_render]. split.
        - split; [auto|split; [auto|split]]. { apply Forall_snoc; auto. } split; [auto|discriminate].
        - rewrite flat_map_snoc. apps. }
      destruct (N.eqb_spec c 92) as [->|Hn'].
      { exists (CutDouble lead key segs l true). cbn [line_ok line_render]. split; auto.
        apps. }
      exists (CutDouble lead key segs (l ++ [DChar c]) false). cbn [line_ok line_render]. split.
      * repeat split; auto. apply Forall_snoc; auto. cbn. auto.
      * rewrite flat_map_snoc. apps.
Qed.

Lemma every_text_is_a_file text : exists f, file_ok f /\ file_render f = text.
Proof.
  induction text as [|c text (f & [HL Hl] & <-)] using rev_ind.
  - exists (File [] (Empty [])). split; [|reflexivity]. split; cbn; auto.
  - destruct f as [ls last]. cbn [f_lines f_last] in *.
    destruct (line_extend last c Hl) as [(l' & Hok & E)|[Hc Hn]].
    + exists (File ls l'). split; [split; auto|]. unfold file_render. cbn [f_lines f_last].
      now rewrite E, app_assoc.
    + exists (File (ls ++ [(last, c)]) (Empty [])). split.
      * split; cbn; auto. apply Forall_snoc; auto.
      * unfold file_render. cbn [f_lines f_last line_render]. rewrite flat_map_snoc. cbn [fst snd].
        now rewrite app_nil_r, <- !app_assoc.
Qed.

(** ** Reading back what was written *)

Definition value_ok (v : list N) : Prop := plain_text v /\ good_start v /\ good_end v.

Definition pair_line (kv : list N * list N) : line * N := (Assign [] (fst kv) [] (map VChar (snd kv)), 10).

Lemma vchar_map_render v : flat_map vchar_render (map VChar v) = v.
Proof. induction v; cbn; auto. now rewrite IHv. Qed.
Lemma vchar_map_text v : flat_map vchar_text (map VChar v) = v.
Proof. induction v; cbn; auto. now rewrite IHv. Qed.

Lemma display_file m :
  os_release_display m = file_render (File (map pair_line m) (Empty [])).
Proof.
  unfold os_release_display, file_render. cbn [f_lines f_last line_render]. rewrite app_nil_r.
  induction m as [|[k v] m IH]; auto. cbn [flat_map map]. rewrite IH. f_equal.
  unfold pair_line. cbn [fst snd line_render flat_map app]. rewrite vchar_map_render.
  now rewrite <- app_assoc.
Qed.

Lemma pair_line_ok k v :
  key_ok k -> value_ok v -> line_ok (fst (pair_line (k, v))) /\ complete (fst (pair_line (k, v))) /\ newline (snd (pair_line (k, v))).
Proof.
  intros Hk (H1 & H2 & H3). unfold pair_line. cbn. repeat split; auto.
  - unfold plain_text in H1. rewrite Forall_forall in *. intros x Hx. apply in_map_iff in Hx as (c & <- & Hc).
    apply H1 in Hc. cbn. unfold newline. split; [lia|]. apply Hc.
  - destruct v as [|y v]; [discriminate|]. cbn in H. injection H as -> _.
    specialize (H2 c v eq_refl). unfold blank. lia.
  - destruct v as [|y v]; [discriminate|]. cbn in H. injection H as -> _. now apply (H2 c v eq_refl).
  - destruct v as [|y v]; [discriminate|]. cbn in H. injection H as -> _. now apply (H2 c v eq_refl).
  - now left.
Qed.

Lemma pair_line_assigns k v :
  good_end k -> value_ok v -> line_assigns (fst (pair_line (k, v))) = [(k, v)].
Proof.
  intros Hk (H1 & H2 & H3). unfold pair_line. cbn [fst snd line_assigns flat_map app].
  rewrite vchar_map_text, (rtrim_good k), (rtrim_good v) by auto. now destruct v.
Qed.

Lemma display_parse m k :
  Forall (fun kv => key_ok (fst kv) /\ good_end (fst kv) /\ value_ok (snd kv)) m ->
  om_get k (os_release_parse (os_release_display m)) = last_value k m.
Proof.
  intros F. rewrite display_file, parse_file_get.
  - unfold file_assigns. cbn [f_lines f_last line_assigns]. rewrite app_nil_r. f_equal.
    induction F as [|[k' v] m (H1 & H2 & H3) _ IH]; auto.
    cbn [map flat_map]. rewrite pair_line_assigns by auto. cbn [app]. now rewrite IH.
  - split; [|constructor]. cbn [f_lines]. apply Forall_map. eapply Forall_impl; [|exact F].
    intros [k' v] (H1 & _ & H3). now apply pair_line_ok.
Qed.

Lemma key_ok_lit k : forallb (fun c => (65 <=? c) && (c <=? 95)) k = true -> k <> [] -> key_ok k /\ good_end k.
Proof.
  intros H Hn. rewrite forallb_forall in H. split.
  - destruct k as [|c r]; [congruence|]. exists c, r.
    assert (Hc := H c (or_introl eq_refl)). unfold blank, newline.
    repeat split; auto; try lia. apply Forall_forall. intros x Hx. specialize (H x (or_intror Hx)). cbn beta in *. lia.
  - intros r c -> Hi. assert (Hc := H c ltac:(apply in_or_app; right; now left)).
    unfold white_space in Hi. cbn [In] in Hi. lia.
Qed.

Lemma numeral_app_zero s v n : numeral s v -> numeral (repeat 48 n ++ s) v.
Proof.
  intros H. induction H as [c Hc|s v c H IH Hc].
  - induction n as [|n IHn]; cbn; [now constructor|].
    clear IHn. assert (numeral (48 :: repeat 48 n) 0).
    { change (48 :: repeat 48 n) with (repeat 48 (S n)). clear. induction n as [|n IH].
      - replace 0 with (48 - 48) by lia. constructor. lia.
      - replace (repeat 48 (S (S n))) with (repeat 48 (S n) ++ [48]) by (symmetry; apply repeat_cons).
        replace 0 with (10 * 0 + (48 - 48)) at 1 by lia. constructor; auto. lia. }
    replace (c - 48) with (10 * 0 + (c - 48)) by lia.
    change (48 :: repeat 48 n ++ [c]) with ((48 :: repeat 48 n) ++ [c]). constructor; auto.
  - rewrite app_assoc. now constructor.
Qed.

Lemma fold_digits_ge l a : a * 10 ^ N.of_nat (length l) <= fold_left (fun acc c => acc * 10 + (c - 48)) l a.
Proof.
  revert a; induction l as [|c l IH]; intros a; cbn [fold_left length].
  - cbn. lia.
  - rewrite Nat2N.inj_succ, N.pow_succ_r'. specialize (IH (a * 10 + (c - 48))).
    eapply N.le_trans; [|exact IH]. transitivity ((a * 10) * 10 ^ N.of_nat (length l)); [lia|].
    apply N.mul_le_mono_r. lia.
Qed.

Lemma dec_length_le n w : n < 10 ^ N.of_nat w -> (1 <= w)%nat -> (length (dec n) <= w)%nat.
Proof.
  intros H Hw. destruct (N.eq_0_gt_0_cases n) as [->|Hn]; [exact Hw|].
  destruct (dec_no_leading_zero n Hn) as (c & l & E & Hc).
  pose proof (dec_digits n) as D. pose proof (dec_value n) as V. rewrite E in *.
  inversion D; subst. cbn [length] in *. destruct (le_lt_dec (S (length l)) w) as [|Hl]; auto. exfalso.
  unfold digits_value in *. cbn [fold_left] in *.
  pose proof (fold_digits_ge l (0 * 10 + (c - 48))) as G.
  assert (10 ^ N.of_nat w <= 10 ^ N.of_nat (length l)) by (apply N.pow_le_mono_r; lia).
  assert (1 * 10 ^ N.of_nat (length l) <= (0 * 10 + (c - 48)) * 10 ^ N.of_nat (length l)) by (apply N.mul_le_mono_r; lia).
  lia.
Qed.

Lemma dec_pad_numeral w n : numeral (dec_pad w n) n.
Proof. apply numeral_app_zero, numeral_dec. Qed.

Lemma dec_pad_length w n : n < 10 ^ N.of_nat w -> (1 <= w)%nat -> length (dec_pad w n) = w.
Proof.
  intros H Hw. unfold dec_pad. rewrite app_length, repeat_length. pose proof (dec_length_le n w H Hw). lia.
Qed.

Definition built (g : generation) : option (N * N * N) :=
  match g_build_time g with Some (Date y m d) => Some (y, m, d) | None => None end.

Lemma date_display_text d : date_text (Some (d_year d, d_month d, d_day d)) (date_display d).
Proof.
  exists (dec_pad 4 (d_year d)), (dec_pad 2 (d_month d)), (dec_pad 2 (d_day d)).
  repeat (split; [apply dec_pad_numeral|]).
  split; [intros; apply dec_pad_length; [cbn; lia|lia]|].
  split; [intros; apply dec_pad_length; [cbn; lia|lia]|].
  split; [intros; apply dec_pad_length; [cbn; lia|lia]|]. reflexivity.
Qed.

Lemma describe_description g : description (g_version g) (g_specname g) (built g) (describe g).
Proof.
  unfold description, describe, describe_specialisation, built.
  exists (dec (g_version g)), (match g_build_time g with Some d => date_display d | None => lit "Unknown" end).
  split; [apply numeral_dec|]. split.
  - destruct (g_build_time g) as [[y m d]|]; [apply (date_display_text (Date y m d))|reflexivity].
  - reflexivity.
Qed.

Lemma numeral_nonempty s v : numeral s v -> s <> [].
Proof. destruct 1; [discriminate|]. now destruct s. Qed.

Lemma date_text_chars b s : date_text b s -> Forall (fun c => c = 45 \/ 48 <= c <= 57 \/ 65 <= c <= 122 /\ c <> 92) s /\ s <> [].
Proof.
  destruct b as [[[y m] d]|]; cbn.
  - intros (ys & ms & ds & Hy & Hm & Hd & _ & _ & _ & ->). split.
    + change (lit "-") with [45]. rewrite !Forall_app. 
      assert (G : forall t v, numeral t v -> Forall (fun c => c = 45 \/ 48 <= c <= 57 \/ 65 <= c <= 122 /\ c <> 92) t).
      { intros t v H. apply numeral_digits in H. destruct H as [H _]. eapply Forall_impl; [|exact H]. cbn beta. intros; lia. }
      split; [eauto|]. cbn [app]. apply Forall_cons; [auto|]. apply Forall_app. split; [eauto|]. apply Forall_cons; eauto.
    + apply numeral_nonempty in Hy. destruct ys; [congruence|discriminate].
  - intros ->. split; [|discriminate]. change (lit "Unknown") with [85;110;107;110;111;119;110].
    repeat (apply Forall_cons; [lia|]). constructor.
Qed.

Lemma good_end_snoc r c : ~ In c white_space -> good_end (r ++ [c]).
Proof. intros H r' c' E. apply app_inj_tail in E as [_ <-]. auto. Qed.

Lemma numeral_chars s v : numeral s v -> Forall (fun c => 48 <= c <= 57) s.
Proof. intros H. now apply numeral_digits in H. Qed.

Lemma description_ok v sp b s :
  description v sp b s -> (forall n, sp = Some n -> plain_text n) -> value_ok s.
Proof.
  intros (nv & t & Hv & Ht & ->) Hsp. destruct Hv as [Hv _].
  apply date_text_chars in Ht as [Ht Hne]. apply numeral_chars in Hv. split; [|split].
  - unfold plain_text. rewrite !Forall_app. split; [|split; [|split; [|split]]].
    + change (lit "Generation ") with [71;101;110;101;114;97;116;105;111;110;32].
      repeat (apply Forall_cons; [lia|]). constructor.
    + eapply Forall_impl; [|exact Hv]. cbn beta; intros; lia.
    + destruct sp as [n|]; [|constructor]. apply Forall_app. split; [|now apply Hsp].
      repeat constructor; discriminate.
    + repeat constructor; discriminate.
    + eapply Forall_impl; [|exact Ht]. cbn beta; intros; lia.
  - intros c r E. lits_in E. cbn [app] in E. injection E as <- _. lia.
  - destruct t as [|c t _] using rev_ind; [congruence|].
    rewrite !app_assoc. apply good_end_snoc. apply Forall_app in Ht as [_ Ht]. inversion Ht; subst.
    unfold white_space. cbn [In]. lia.
Qed.

Lemma os_release_shape g :
  os_release_of_generation g =
  [(lit "ID", g_sort_key g);
   (lit "PRETTY_NAME", bs_label (g_spec g) ++ lit " (" ++ describe g ++ lit ")");
   (lit "VERSION_ID", describe g)].
Proof. reflexivity. Qed.

Lemma osrel_round_trip g :
  value_ok (g_sort_key g) ->
  bs_label (g_spec g) <> [] -> plain_text (bs_label (g_spec g)) -> good_start (bs_label (g_spec g)) ->
  (forall n, g_specname g = Some n -> plain_text n) ->
  exists d, description (g_version g) (g_specname g) (built g) d /\
  forall k, om_get k (os_release_parse (os_release_display (os_release_of_generation g))) =
    if list_eq_dec N.eq_dec k (lit "ID") then Some (g_sort_key g)
    else if list_eq_dec N.eq_dec k (lit "PRETTY_NAME") then
      Some (bs_label (g_spec g) ++ lit " (" ++ d ++ lit ")")
    else if list_eq_dec N.eq_dec k (lit "VERSION_ID") then Some d
    else None.
Proof.
  intros Hk Hl0 Hl1 Hl2 Hsp. exists (describe g). split; [apply describe_description|].
  assert (Hd : value_ok (describe g)) by (eapply description_ok; [apply describe_description|auto]).
  intros k. rewrite display_parse.
  - rewrite os_release_shape. cbn [last_value].
    destruct (list_eq_dec N.eq_dec k (lit "ID")) as [->|H1]; [reflexivity|].
    destruct (list_eq_dec N.eq_dec k (lit "PRETTY_NAME")) as [->|H2]; [reflexivity|].
    destruct (list_eq_dec N.eq_dec k (lit "VERSION_ID")) as [->|H3]; reflexivity.
  - rewrite os_release_shape.
    repeat (apply Forall_cons; [cbn [fst snd];
      match goal with |- key_ok ?k /\ _ => destruct (key_ok_lit k eq_refl ltac:(discriminate)) end;
      split; [auto|split; [auto|]]|]); auto.
    split; [|split].
    + unfold plain_text in *. rewrite !Forall_app. destruct Hd as [Hd _].
      repeat split; auto; repeat constructor; discriminate.
    + intros c r E. destruct (bs_label (g_spec g)) as [|x l]; [congruence|].
      cbn in E. injection E as <- _. now apply (Hl2 x l).
    + change (lit ")") with [41]; rewrite !app_assoc. apply good_end_snoc. unfold white_space. cbn [In]. lia.
Qed.

(** ** Menu titles *)

Lemma split_first (c : N) a b x y :
  a ++ c :: x = b ++ c :: y -> ~ In c a -> ~ In c b -> a = b /\ x = y.
Proof.
  revert b; induction a as [|u a IH]; intros [|w b] E Ha Hb; cbn in *.
  - injection E as ->. auto.
  - injection E as -> _. exfalso; auto.
  - injection E as -> _. exfalso; auto.
  - injection E as -> E. destruct (IH b E) as [-> ->]; auto.
Qed.

Lemma split_last (c : N) a b x y :
  a ++ c :: x = b ++ c :: y -> ~ In c x -> ~ In c y -> a = b /\ x = y.
Proof.
  intros E Hx Hy. apply (f_equal (@rev N)) in E. rewrite !rev_app_distr in E. cbn in E.
  rewrite <- !app_assoc in E. cbn in E. apply split_first in E as [H1 H2].
  - apply (f_equal (@rev N)) in H1, H2. rewrite !rev_involutive in *. auto.
  - now rewrite <- in_rev.
  - now rewrite <- in_rev.
Qed.

Lemma date_text_inj b1 b2 s : date_text b1 s -> date_text b2 s -> b1 = b2.
Proof.
  assert (G : forall y m d, ~ date_text (Some (y, m, d)) (lit "Unknown")).
  { intros y m d (ys & ms & ds & Hy & _ & _ & _ & _ & _ & E). apply numeral_digits in Hy as (Hy & Hn & _).
    destruct ys as [|c ys]; [congruence|]. lits_in E. cbn [app] in E. injection E as <- _. inversion Hy; subst. lia. }
  destruct b1 as [[[y m] d]|], b2 as [[[y' m'] d']|]; intros H1 H2; auto.
  - destruct H1 as (ys & ms & ds & Hy & Hm & Hd & _ & _ & _ & ->).
    destruct H2 as (ys' & ms' & ds' & Hy' & Hm' & Hd' & _ & _ & _ & E).
    change (lit "-") with [45] in E. cbn [app] in E.
    assert (NM : forall t v, numeral t v -> ~ In 45 t).
    { intros t v H Hi. apply numeral_chars in H. rewrite Forall_forall in H. apply H in Hi. lia. }
    apply split_first in E as [-> E]; eauto. apply split_first in E as [-> ->]; eauto.
    rewrite (numeral_fun _ _ _ Hy Hy'), (numeral_fun _ _ _ Hm Hm'), (numeral_fun _ _ _ Hd Hd'). auto.
  - cbn in H2. subst s. now apply G in H1.
  - cbn in H1. subst s. now apply G in H2.
Qed.

Lemma description_inj v1 v2 n1 n2 b1 b2 s :
  description v1 n1 b1 s -> description v2 n2 b2 s -> v1 = v2 /\ n1 = n2 /\ b1 = b2.
Proof.
  intros (d1 & t1 & [Hv1 _] & Ht1 & ->) (d2 & t2 & [Hv2 _] & Ht2 & E).
  apply app_inv_head in E. change (lit ", ") with [44; 32] in E. cbn [app] in E. rewrite !app_assoc in E.
  assert (NC : forall b t, date_text b t -> ~ In 44 (32 :: t)).
  { intros b t H Hi. apply date_text_chars in H as [H _]. rewrite Forall_forall in H.
    destruct Hi as [Hi|Hi]; [discriminate|]. apply H in Hi. lia. }
  apply split_last in E as [E1 E2]; eauto. injection E2 as ->.
  rewrite (date_text_inj b1 b2 _ Ht1 Ht2).
  apply digits_prefix_unique in E1 as [-> E1].
  - rewrite (numeral_fun _ _ _ Hv1 Hv2). split; auto. split; auto.
    destruct n1, n2; cbn in E1; try discriminate; auto. injection E1 as ->. auto.
  - eapply numeral_chars; eauto.
  - eapply numeral_chars; eauto.
  - intros c l Ec. destruct n1; [|discriminate]. cbn in Ec. injection Ec as <- _. lia.
  - intros c l Ec. destruct n2; [|discriminate]. cbn in Ec. injection Ec as <- _. lia.
Qed.

Lemma built_inj g1 g2 : built g1 = built g2 -> g_build_time g1 = g_build_time g2.
Proof.
  unfold built. destruct (g_build_time g1) as [[? ? ?]|], (g_build_time g2) as [[? ? ?]|]; try congruence.
Qed.

Lemma title_get g :
  om_get (lit "PRETTY_NAME") (os_release_of_generation g) =
  Some (bs_label (g_spec g) ++ [32] ++ 40 :: describe g ++ [41]).
Proof. reflexivity. Qed.

Lemma title_inj g1 g2 s :
  om_get (lit "PRETTY_NAME") (os_release_of_generation g1) = Some s ->
  om_get (lit "PRETTY_NAME") (os_release_of_generation g2) = Some s ->
  ~ In 40 (bs_label (g_spec g1)) -> ~ In 40 (bs_label (g_spec g2)) ->
  g_version g1 = g_version g2 /\ g_specname g1 = g_specname g2 /\
  g_build_time g1 = g_build_time g2 /\ bs_label (g_spec g1) = bs_label (g_spec g2).
Proof.
  intros E1 E2 H1 H2. rewrite title_get in E1, E2.
  assert (E : bs_label (g_spec g2) ++ [32] ++ 40 :: describe g2 ++ [41] =
              bs_label (g_spec g1) ++ [32] ++ 40 :: describe g1 ++ [41]) by congruence.
  rewrite !app_assoc in E. apply split_first in E as [El Ed].
  - apply app_inv_tail in El. apply app_inv_tail in Ed.
    pose proof (describe_description g1) as D1. pose proof (describe_description g2) as D2. rewrite Ed in D2.
    destruct (description_inj _ _ _ _ _ _ _ D1 D2) as (? & ? & Hb). apply built_inj in Hb. auto.
  - intros Hi. apply in_app_or in Hi as [Hi|[Hi|[]]]; [auto|discriminate].
  - intros Hi. apply in_app_or in Hi as [Hi|[Hi|[]]]; [auto|discriminate].
Qed.

Lemma title_present g : om_get (lit "PRETTY_NAME") (os_release_of_generation g) <> None.
Proof. rewrite os_release_shape. discriminate. Qed.
