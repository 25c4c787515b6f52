(** Proofs for C69: the order of the boot menu. *)
From Coq Require Import List NArith ZArith Bool Lia.
From Verif Require Import Base MText MFs MOsRelease MGeneration SCommon SOsRelease SMenu SNames SInstall SHistory
  PBase PText PVersion PNames POsRelease PHistory PHistories.
Import ListNotations.
Open Scope N_scope.

Lemma skip_stop p c s : p c = false -> skip p (c :: s) = c :: s.
Proof. intros H. cbn [skip]. now rewrite H. Qed.

Lemma span_app p a b : forallb p a = true -> match b with c :: _ => p c = false | [] => True end -> span p (a ++ b) = (a, b).
Proof.
  intros A B. induction a as [|x a IH]; cbn [app span].
  - destruct b as [|c b]; [reflexivity|]. cbn [span]. now rewrite B.
  - cbn [forallb] in A. apply andb_prop in A as [A1 A2]. rewrite A1, (IH A2). reflexivity.
Qed.

Lemma text_lines_app : forall l cur r, one_line l ->
  text_lines cur (l ++ 10 :: r) = (rev cur ++ l) :: text_lines [] r.
Proof.
  induction l as [|c l IH]; intros cur r (H0 & H10 & H13).
  - cbn. now rewrite app_nil_r.
  - cbn [app text_lines]. destruct (N.eqb_spec c 0) as [->|]; [destruct H0; now left|].
    destruct (N.eqb_spec c 10) as [->|]; [destruct H10; now left|].
    destruct (N.eqb_spec c 13) as [->|]; [destruct H13; now left|]. cbn [orb].
    rewrite IH by (repeat split; intros I; firstorder). cbn [rev]. now rewrite <- app_assoc.
Qed.

(** A line "key=value" that needs no cleaning. *)
Lemma line_pair_ok k v :
  match k with c :: _ => is_blank c = false /\ c <> 35 | [] => False end -> ~ In 61 k ->
  starts 61 v = false -> (starts 34 v && starts 34 (rev v) = false) ->
  match rev v with c :: _ => is_blank c = false | [] => True end ->
  line_pair (k ++ [61] ++ v) = [(k, v)].
Proof.
  intros K NK V Q E. unfold line_pair.
  assert (strip (k ++ [61] ++ v) = k ++ [61] ++ v) as ->.
  { unfold strip. destruct k as [|c k]; [destruct K|]. destruct K as [K _].
    change ((c :: k) ++ [61] ++ v) with (c :: (k ++ [61] ++ v)). rewrite skip_stop by exact K.
    change (c :: (k ++ [61] ++ v)) with ((c :: k) ++ [61] ++ v).
    clear V Q. destruct v as [|d r _] using rev_ind.
    - rewrite rev_app_distr. change (rev ([61] ++ []) ++ rev (c :: k)) with (61 :: rev (c :: k)). rewrite skip_stop by reflexivity.
      change (61 :: rev (c :: k)) with (rev [61] ++ rev (c :: k)). now rewrite <- rev_app_distr, rev_involutive.
    - rewrite rev_unit in E. rewrite !app_assoc, rev_unit, skip_stop by exact E. rewrite <- rev_unit. apply rev_involutive. }
  assert (starts 35 (k ++ [61] ++ v) = false) as ->.
  { destruct k as [|c k]; [destruct K|]. cbn [app starts]. apply N.eqb_neq. tauto. }
  rewrite span_app.
  - cbn [app]. cbn [skip]. rewrite N.eqb_refl.
    assert (skip (fun c => c =? 61) v = v) as ->.
    { destruct v as [|c v]; [reflexivity|]. cbn [starts] in V. now apply skip_stop. }
    unfold unquote. rewrite Q. reflexivity.
  - apply forallb_forall. intros x I. apply negb_true_iff, N.eqb_neq. intros ->. contradiction.
  - reflexivity.
Qed.

(** ** Bytes of a text *)

Lemma utf8_char_high c b : 128 <= c -> In b (utf8_char c) -> 128 <= b.
Proof.
  intros C. unfold utf8_char.
  repeat match goal with |- context [if ?x then _ else _] => destruct x eqn:?H end; cbn [In]; intros I;
    repeat match goal with H : (_ <? _) = _ |- _ => apply N.ltb_lt in H || apply N.ltb_ge in H end; lia.
Qed.

Lemma utf8_char_low c : c < 128 -> utf8_char c = [c].
Proof. intros C. unfold utf8_char. destruct (N.ltb_spec c 0x80); [reflexivity|lia]. Qed.

Lemma utf8_char_nonempty c : utf8_char c <> [].
Proof. unfold utf8_char. repeat match goal with |- context [if ?x then _ else _] => destruct x end; discriminate. Qed.

Lemma one_line_utf8 s : one_line s -> one_line (utf8_encode s).
Proof. intros (A & B & C). repeat split; intros I; apply utf8_encode_In_ascii in I; auto; lia. Qed.

Lemma starts_utf8 c s : c < 128 -> starts c (utf8_encode s) = starts c s.
Proof.
  intros C. destruct s as [|x s]; [reflexivity|]. change (utf8_encode (x :: s)) with (utf8_char x ++ utf8_encode s).
  destruct (N.ltb_spec x 128) as [L|G].
  - rewrite utf8_char_low by exact L. reflexivity.
  - destruct (utf8_char x) as [|b l] eqn:E; [now apply utf8_char_nonempty in E|].
    assert (128 <= b) by (eapply utf8_char_high; [exact G|rewrite E; now left]).
    cbn [app starts]. transitivity false; [apply N.eqb_neq; lia|symmetry; apply N.eqb_neq; lia].
Qed.

Lemma last_utf8 s : match rev (utf8_encode s) with
  | [] => s = []
  | b :: _ => exists r c, s = r ++ [c] /\ (b = c \/ 128 <= b) end.
Proof.
  destruct s as [|x s] using rev_ind; [reflexivity|]. clear IHs.
  rewrite utf8_encode_app, rev_app_distr. cbn [utf8_encode flat_map]. rewrite app_nil_r.
  destruct (N.ltb_spec x 128) as [L|G].
  - rewrite utf8_char_low by exact L. cbn [rev app]. eauto.
  - destruct (rev (utf8_char x)) as [|b l] eqn:E.
    + apply (f_equal (@rev N)) in E. rewrite rev_involutive in E. now apply utf8_char_nonempty in E.
    + cbn [app]. exists s, x. split; [reflexivity|]. right. eapply utf8_char_high; [exact G|].
      apply in_rev. rewrite E. now left.
Qed.

(** ** Reading an entry *)

Lemma one_line_app a b : one_line a -> one_line b -> one_line (a ++ b).
Proof. intros (A & B & C) (D & E & F). repeat split; rewrite in_app_iff; tauto. Qed.

Ltac closed_line := repeat split; vm_compute; intuition discriminate.

Lemma read_entry K L D id l d :
  one_line K -> starts 61 K = false -> starts 34 K = false ->
  match rev K with c :: _ => is_blank c = false | [] => True end ->
  one_line L -> starts 61 L = false ->
  one_line D -> starts 61 D = false -> starts 34 D = false ->
  match rev D with c :: _ => is_blank c = false | [] => True end ->
  entry_of (lit "ID=" ++ K ++ [10] ++ lit "PRETTY_NAME=" ++ L ++ lit " (" ++ D ++ lit ")" ++ [10] ++
            lit "VERSION_ID=" ++ D ++ [10]) id l d =
  Some (Entry (L ++ lit " (" ++ D ++ lit ")") (Some K) (Some D) id l d).
Proof.
  intros K1 K2 K3 K4 L1 L2 D1 D2 D3 D4. unfold entry_of.
  assert (text_lines [] (lit "ID=" ++ K ++ [10] ++ lit "PRETTY_NAME=" ++ L ++ lit " (" ++ D ++ lit ")" ++ [10] ++
            lit "VERSION_ID=" ++ D ++ [10])
     = [lit "ID" ++ [61] ++ K; lit "PRETTY_NAME" ++ [61] ++ L ++ lit " (" ++ D ++ lit ")"; lit "VERSION_ID" ++ [61] ++ D; []]) as ->.
  { replace (lit "ID=" ++ K ++ [10] ++ lit "PRETTY_NAME=" ++ L ++ lit " (" ++ D ++ lit ")" ++ [10] ++ lit "VERSION_ID=" ++ D ++ [10])
      with ((lit "ID" ++ [61] ++ K) ++ 10 :: ((lit "PRETTY_NAME" ++ [61] ++ L ++ lit " (" ++ D ++ lit ")") ++ 10 :: ((lit "VERSION_ID" ++ [61] ++ D) ++ 10 :: []))).
    2:{ change (lit "ID=") with (lit "ID" ++ [61]). change (lit "PRETTY_NAME=") with (lit "PRETTY_NAME" ++ [61]).
        change (lit "VERSION_ID=") with (lit "VERSION_ID" ++ [61]).
        generalize (lit "ID"), (lit "PRETTY_NAME"), (lit "VERSION_ID"), (lit " ("), (lit ")"). intros.
        rewrite <- !app_assoc. cbn [app]. reflexivity. }
    rewrite !text_lines_app; [reflexivity| | |].
    - apply one_line_app; [closed_line|]. apply one_line_app; [closed_line|exact D1].
    - apply one_line_app; [closed_line|]. apply one_line_app; [closed_line|].
      apply one_line_app; [exact L1|]. apply one_line_app; [closed_line|]. apply one_line_app; [exact D1|closed_line].
    - apply one_line_app; [closed_line|]. apply one_line_app; [closed_line|exact K1]. }
  cbn [flat_map]. change (line_pair []) with (@nil (list N * list N)).
  rewrite (line_pair_ok (lit "ID") K), (line_pair_ok (lit "PRETTY_NAME")), (line_pair_ok (lit "VERSION_ID") D);
    try assumption; try (vm_compute; intuition discriminate).
  - now rewrite D3.
  - destruct L as [|c L]; [reflexivity|exact L2].
  - rewrite !rev_app_distr. change (rev (lit ")")) with [41]. cbn [app starts]. change (41 =? 34) with false. now rewrite andb_false_r.
  - rewrite !rev_app_distr. reflexivity.
  - now rewrite K3.
Qed.

(** ** Numbers *)

Lemma digits_of_eq s : digits_of s = digits_value s.
Proof.
  unfold digits_of, digits_value. generalize 0. induction s as [|c s IH]; intros v; [reflexivity|].
  cbn [fold_left]. rewrite IH. f_equal. lia.
Qed.

Lemma numeral_digits_of s v : numeral s v -> digits_of s = v /\ forallb ascii_digit s = true /\ s <> [].
Proof.
  intros H. split; [|split].
  - rewrite digits_of_eq. now apply numeral_digits in H as (_ & _ & H).
  - apply numeral_forallb in H. exact H.
  - now apply numeral_nonempty in H.
Qed.

Lemma digits_of_from s : forall a, fold_left (fun v c => 10 * v + (c - 48)) s a = a * 10 ^ N.of_nat (length s) + digits_of s.
Proof.
  unfold digits_of. induction s as [|c s IH]; intros a; cbn [fold_left length].
  - cbn. lia.
  - rewrite IH, (IH (10 * 0 + _)). rewrite Nat2N.inj_succ, N.pow_succ_r'. ring.
Qed.

Lemma digits_of_cons c s : digits_of (c :: s) = (c - 48) * 10 ^ N.of_nat (length s) + digits_of s.
Proof. unfold digits_of at 1. cbn [fold_left]. rewrite digits_of_from. f_equal. Qed.

Lemma digits_of_bound s : forallb ascii_digit s = true -> digits_of s < 10 ^ N.of_nat (length s).
Proof.
  induction s as [|c s IH]; intros H; [cbn; lia|]. cbn [forallb] in H. apply andb_prop in H as [C H]. specialize (IH H).
  unfold ascii_digit in C. rewrite digits_of_cons. cbn [length]. rewrite Nat2N.inj_succ, N.pow_succ_r'.
  apply andb_prop in C as [C1 C2]. apply N.leb_le in C1, C2. nia.
Qed.

Lemma digits_lex : forall a b, forallb ascii_digit a = true -> forallb ascii_digit b = true -> length a = length b ->
  lex a b = N.compare (digits_of a) (digits_of b).
Proof.
  induction a as [|x a IH]; intros [|y b] A B E; try discriminate E; [reflexivity|].
  cbn [forallb] in A, B. apply andb_prop in A as [X A], B as [Y B]. injection E as E. specialize (IH b A B E).
  pose proof (digits_of_bound a A) as BA. pose proof (digits_of_bound b B) as BB.
  cbn [lex]. rewrite IH, !digits_of_cons, E. rewrite E in BA.
  unfold ascii_digit in X, Y. apply andb_prop in X as [X1 X2], Y as [Y1 Y2]. apply N.leb_le in X1, X2, Y1, Y2.
  destruct (N.compare_spec x y) as [->|L|G].
  - destruct (N.compare_spec (digits_of a) (digits_of b)) as [H|H|H]; symmetry;
      [apply N.compare_eq_iff|apply N.compare_lt_iff|apply N.compare_gt_iff]; lia.
  - symmetry. apply N.compare_lt_iff. nia.
  - symmetry. apply N.compare_gt_iff. nia.
Qed.

(** A plain numeral without its zeros. *)
Lemma plain_skip s v : plain_numeral s v ->
  digits_of (skip (N.eqb 48) s) = v /\ forallb ascii_digit (skip (N.eqb 48) s) = true /\
  match skip (N.eqb 48) s with c :: _ => 49 <= c | [] => True end.
Proof.
  intros [H P]. apply numeral_digits_of in H as (V & D & E). destruct s as [|c s]; [now destruct E|].
  cbn [skip]. destruct (N.eqb_spec 48 c) as [<-|N].
  - specialize (P s eq_refl) as ->. cbn in *. auto.
  - split; [exact V|]. split; [exact D|]. cbn [forallb] in D. apply andb_prop in D as [D _]. unfold ascii_digit in D.
    apply andb_prop in D as [D _]. apply N.leb_le in D. lia.
Qed.

Lemma digits_longer a b : forallb ascii_digit a = true -> forallb ascii_digit b = true ->
  match b with c :: _ => 49 <= c | [] => True end -> (length a < length b)%nat -> digits_of a < digits_of b.
Proof.
  intros A B H L. destruct b as [|c b]; [cbn in L; lia|]. rewrite digits_of_cons.
  pose proof (digits_of_bound a A) as BA.
  assert (10 ^ N.of_nat (length a) <= 10 ^ N.of_nat (length b)) by (apply N.pow_le_mono_r; cbn [length] in L; lia). nia.
Qed.

(** How the segments of two numbers compare. *)
Definition segment_cmp (da db : list N) : comparison :=
  match Nat.compare (length da) (length db) with Eq => lex da db | c => c end.

Lemma segment_cmp_value a b v w : plain_numeral a v -> plain_numeral b w ->
  segment_cmp (skip (N.eqb 48) a) (skip (N.eqb 48) b) = N.compare v w.
Proof.
  intros A B. apply plain_skip in A as (VA & DA & LA). apply plain_skip in B as (VB & DB & LB). unfold segment_cmp.
  destruct (Nat.compare_spec (length (skip (N.eqb 48) a)) (length (skip (N.eqb 48) b))) as [E|L|G].
  - rewrite digits_lex by assumption. now rewrite VA, VB.
  - symmetry. apply N.compare_lt_iff. rewrite <- VA, <- VB. now apply digits_longer.
  - symmetry. apply N.compare_gt_iff. rewrite <- VA, <- VB. now apply digits_longer.
Qed.

(** ** Versions *)

Definition not_digit (s : list N) : Prop := match s with c :: _ => ascii_digit c = false | [] => True end.

Lemma starts_digit c a r : ascii_digit c = false -> a <> [] -> forallb ascii_digit a = true -> starts c (a ++ r) = false.
Proof.
  intros C A D. destruct a as [|x a]; [now destruct A|]. cbn [forallb] in D. apply andb_prop in D as [D _].
  cbn [app starts]. apply N.eqb_neq. intros ->. congruence.
Qed.

(** Two texts that start with numbers. *)
Lemma cmp_numbers fuel a b v w ra rb : plain_numeral a v -> plain_numeral b w -> not_digit ra -> not_digit rb ->
  version_cmp_aux (S fuel) (a ++ ra) (b ++ rb) =
  match N.compare v w with Eq => version_cmp_aux fuel ra rb | c => c end.
Proof.
  intros A B RA RB. cbn [version_cmp_aux].
  pose proof (numeral_digits_of a v (proj1 A)) as (_ & DA & EA).
  pose proof (numeral_digits_of b w (proj1 B)) as (_ & DB & EB).
  assert (forall x r, x <> [] -> forallb ascii_digit x = true -> skip (fun c => negb (version_char c)) (x ++ r) = x ++ r) as SK.
  { intros [|c x] r E D; [now destruct E|]. cbn [forallb] in D. apply andb_prop in D as [D _].
    cbn [app]. apply skip_stop. unfold version_char. rewrite D. reflexivity. }
  rewrite !SK by assumption. clear SK. unfold separator.
  rewrite !(starts_digit 126), !(starts_digit 45), !(starts_digit 94), !(starts_digit 46) by (assumption || reflexivity).
  destruct a as [|x a]; [now destruct EA|]. destruct b as [|y b]; [now destruct EB|].
  change ((x :: a) ++ ra) with (x :: (a ++ ra)). change ((y :: b) ++ rb) with (y :: (b ++ rb)). cbv iota.
  change (x :: (a ++ ra)) with ((x :: a) ++ ra). change (y :: (b ++ rb)) with ((y :: b) ++ rb).
  rewrite !span_app by assumption.
  assert (existsb (fun s => match s with c :: _ => ascii_digit c | [] => false end) [(x :: a) ++ ra; (y :: b) ++ rb] = true) as ->.
  { cbn [existsb app]. cbn [forallb] in DA. apply andb_prop in DA as [DA _]. now rewrite DA. }
  cbn [nonempty]. cbv iota.
  rewrite <- (segment_cmp_value _ _ v w A B). unfold segment_cmp.
  destruct (Nat.compare (length (skip (N.eqb 48) (x :: a))) (length (skip (N.eqb 48) (y :: b)))); reflexivity.
Qed.

Lemma cmp_generation fuel a b :
  version_cmp_aux (S (S fuel)) (lit "Generation " ++ a) (lit "Generation " ++ b) =
  version_cmp_aux (S fuel) (lit " " ++ a) (lit " " ++ b).
Proof. reflexivity. Qed.

Lemma cmp_blank fuel a b : version_cmp_aux fuel (lit " " ++ a) (lit " " ++ b) = version_cmp_aux fuel a b.
Proof. destruct fuel; reflexivity. Qed.

(** A specialisation is older than the generation itself. *)
Lemma cmp_dash fuel c s x : ascii_digit c = true \/ ascii_alpha c = true ->
  version_cmp_aux (S fuel) (lit ", " ++ c :: s) (lit "-" ++ x) = Gt.
Proof.
  intros C. cbn [version_cmp_aux].
  assert (skip (fun c => negb (version_char c)) (lit ", " ++ c :: s) = c :: s) as ->.
  { change (skip (fun c => negb (version_char c)) (lit ", " ++ c :: s)) with (skip (fun c => negb (version_char c)) (c :: s)).
    apply skip_stop. unfold version_char. destruct C as [-> | ->]; [reflexivity|]. now rewrite orb_true_r. }
  change (skip (fun c => negb (version_char c)) (lit "-" ++ x)) with (45 :: x).
  unfold separator. cbn [starts]. change (45 =? 126) with false. change (45 =? 45) with true.
  assert (c =? 126 = false) as ->.
  { apply N.eqb_neq. intros ->. destruct C; discriminate. }
  assert (c =? 45 = false) as ->.
  { apply N.eqb_neq. intros ->. destruct C; discriminate. }
  reflexivity.
Qed.

Lemma version_newer v w a b ra rb : plain_numeral a v -> plain_numeral b w -> not_digit ra -> not_digit rb -> w < v ->
  version_cmp (lit "Generation " ++ a ++ ra) (lit "Generation " ++ b ++ rb) = Gt.
Proof.
  intros A B RA RB L. unfold version_cmp.
  replace (S (length (lit "Generation " ++ a ++ ra) + length (lit "Generation " ++ b ++ rb)))%nat
    with (S (S (10 + length (a ++ ra) + length (lit "Generation " ++ b ++ rb)))%nat)
    by (rewrite !(app_length (lit "Generation ")); change (length (lit "Generation ")) with 11%nat; lia).
  rewrite cmp_generation, cmp_blank, (cmp_numbers _ a b v w) by assumption.
  apply N.compare_gt_iff in L. now rewrite L.
Qed.

Lemma version_main v a b c s x : plain_numeral a v -> plain_numeral b v -> ascii_digit c = true \/ ascii_alpha c = true ->
  version_cmp (lit "Generation " ++ a ++ lit ", " ++ c :: s) (lit "Generation " ++ b ++ lit "-" ++ x) = Gt.
Proof.
  intros A B C. unfold version_cmp.
  replace (S (length (lit "Generation " ++ a ++ lit ", " ++ c :: s) + length (lit "Generation " ++ b ++ lit "-" ++ x)))%nat
    with (S (S (S (9 + length (a ++ lit ", " ++ c :: s) + length (lit "Generation " ++ b ++ lit "-" ++ x))))%nat)
    by (rewrite !(app_length (lit "Generation ")); change (length (lit "Generation ")) with 11%nat; lia).
  rewrite cmp_generation, cmp_blank, (cmp_numbers _ a b v v) by (assumption || reflexivity).
  rewrite N.compare_refl. now apply cmp_dash.
Qed.

(** ** Generations *)

Lemma numeral_ascii s v : numeral s v -> utf8_encode s = s /\ one_line s.
Proof.
  intros H. split.
  - apply utf8_ascii. eapply Forall_impl; [|apply (numeral_chars _ _ H)]. cbn. intros; lia.
  - repeat split; apply (numeral_notin _ _ _ H); lia.
Qed.

Lemma numeral_head s v : numeral s v -> exists c r, s = c :: r /\ ascii_digit c = true.
Proof.
  intros H. apply numeral_digits_of in H as (_ & D & E). destruct s as [|c r]; [now destruct E|].
  cbn [forallb] in D. apply andb_prop in D as [D _]. eauto.
Qed.

Lemma numeral_last s v : numeral s v -> exists r c, s = r ++ [c] /\ ascii_digit c = true.
Proof.
  intros H. inversion H as [c C|q w c Q C]; subst; [exists [], c|exists q, c]; (split; [reflexivity|]);
    unfold ascii_digit; apply andb_true_intro; split; apply N.leb_le; lia.
Qed.

Lemma digit_not_blank c : ascii_digit c = true -> is_blank c = false.
Proof.
  intros D. unfold is_blank, ascii_digit in *. apply andb_prop in D as [D _]. apply N.leb_le in D.
  apply orb_false_intro; apply N.eqb_neq; lia.
Qed.

Lemma date_shape b t : date_text b t ->
  utf8_encode t = t /\ one_line t /\ (exists c r, t = c :: r /\ (ascii_digit c = true \/ ascii_alpha c = true)) /\
  exists r c, t = r ++ [c] /\ is_blank c = false.
Proof.
  destruct b as [[[y m] d]|]; cbn [date_text].
  - intros (ys & ms & ds & Y & M & D & _ & _ & _ & ->).
    pose proof (numeral_ascii _ _ Y) as [Y1 Y2]. pose proof (numeral_ascii _ _ M) as [M1 M2]. pose proof (numeral_ascii _ _ D) as [D1 D2].
    split; [|split; [|split]].
    + rewrite !utf8_encode_app, Y1, M1, D1. reflexivity.
    + repeat (apply one_line_app; try assumption); closed_line.
    + apply numeral_head in Y as (c & r & -> & C). cbn [app]. eauto.
    + apply numeral_last in D as (r & c & -> & C). rewrite !app_assoc. eexists _, c. split; [reflexivity|]. now apply digit_not_blank.
  - intros ->. split; [reflexivity|]. split; [closed_line|]. split.
    + eexists _, _. split; [reflexivity|]. right. reflexivity.
    + exists (lit "Unknow"), 110. split; reflexivity.
Qed.

Lemma entry_read g s id l k : menu_ready g -> menu_text g s ->
  exists d v t c r, plain_numeral v (g_version g) /\
    description (g_version g) (g_specname g)
      (match g_build_time g with Some t => Some (d_year t, d_month t, d_day t) | None => None end) d /\
    utf8_encode d = lit "Generation " ++ v ++ match g_specname g with None => [] | Some n => lit "-" ++ utf8_encode n end ++ lit ", " ++ t /\
    t = c :: r /\ (ascii_digit c = true \/ ascii_alpha c = true) /\
    entry_of (utf8_encode s) id l k =
      Some (Entry (utf8_encode (bs_label (g_spec g) ++ lit " (" ++ d ++ lit ")"))
              (Some (utf8_encode (g_sort_key g))) (Some (utf8_encode d)) id l k).
Proof.
  intros (L1 & L2 & S1 & K1 & K2 & K3 & K4 & K5) (d & D & ->).
  pose proof D as (v & t & V & T & E). pose proof (date_shape _ _ T) as (T1 & T2 & (c & r & T3 & T4) & (tr & tc & T5 & T6)).
  pose proof (numeral_ascii _ _ (proj1 V)) as [V1 V2].
  assert (utf8_encode d = lit "Generation " ++ v ++ match g_specname g with None => [] | Some n => lit "-" ++ utf8_encode n end ++ lit ", " ++ t) as U.
  { rewrite E. destruct (g_specname g); rewrite !utf8_encode_app, V1, T1; reflexivity. }
  exists d, v, t, c, r. do 5 (split; [assumption|]).
  rewrite !utf8_encode_app.
  change (utf8_encode (lit "ID=")) with (lit "ID="). change (utf8_encode [10]) with [10].
  change (utf8_encode (lit "PRETTY_NAME=")) with (lit "PRETTY_NAME="). change (utf8_encode (lit "VERSION_ID=")) with (lit "VERSION_ID=").
  change (utf8_encode (lit " (")) with (lit " ("). change (utf8_encode (lit ")")) with (lit ")").
  apply read_entry.
  - now apply one_line_utf8.
  - rewrite starts_utf8 by lia. destruct (g_sort_key g) as [|x q]; [reflexivity|]. cbn [starts]. apply N.eqb_neq. intros ->. eauto.
  - rewrite starts_utf8 by lia. destruct (g_sort_key g) as [|x q]; [reflexivity|]. cbn [starts]. apply N.eqb_neq. intros ->. eauto.
  - pose proof (last_utf8 (g_sort_key g)) as Z. destruct (rev (utf8_encode (g_sort_key g))) as [|b z]; [exact Logic.I|].
    destruct Z as (q & x & Z & [-> | Z2]); unfold is_blank; apply orb_false_intro; apply N.eqb_neq; try lia; intros ->; eauto.
  - now apply one_line_utf8.
  - rewrite starts_utf8 by lia. destruct (bs_label (g_spec g)) as [|x q]; [reflexivity|]. cbn [starts]. apply N.eqb_neq. intros ->. eauto.
  - rewrite U. apply one_line_app; [closed_line|]. apply one_line_app; [exact V2|].
    apply one_line_app; [|apply one_line_app; [closed_line|exact T2]].
    destruct (g_specname g); [|closed_line]. apply one_line_app; [closed_line|]. apply one_line_utf8. auto.
  - rewrite U. reflexivity.
  - rewrite U. reflexivity.
  - rewrite U, T5, !app_assoc, rev_unit. exact T6.
Qed.

Lemma lex_refl s : lex s s = Eq.
Proof. induction s as [|x s IH]; [reflexivity|]. cbn [lex]. now rewrite N.compare_refl. Qed.

Lemma menu_order g h s t e f gi gl gd hi hl hd :
  menu_ready g -> menu_ready h -> menu_text g s -> menu_text h t -> g_sort_key g = g_sort_key h -> preferred g h ->
  entry_of (utf8_encode s) gi gl gd = Some e -> entry_of (utf8_encode t) hi hl hd = Some f ->
  (exhausted e = true -> exhausted f = true) -> above e f.
Proof.
  intros GR HR GT HT K P E F X.
  destruct (entry_read g s gi gl gd GR GT) as (d & v & dt & c & r & V & _ & U & T & C & E'). rewrite E' in E. injection E as E.
  destruct (entry_read h t hi hl hd HR HT) as (d' & v' & dt' & c' & r' & V' & _ & U' & T' & C' & F'). rewrite F' in F. injection F as F.
  assert (version_cmp (utf8_encode d) (utf8_encode d') = Gt) as VC.
  { rewrite U, U'. destruct P as [P|(P & PG & PH)].
    - apply (version_newer (g_version g) (g_version h)); try assumption.
      + destruct (g_specname g); reflexivity.
      + destruct (g_specname h); reflexivity.
    - rewrite PG. destruct (g_specname h) as [n|]; [|now destruct PH]. rewrite T. cbn [app].
      rewrite <- app_assoc. apply (version_main (g_version g)); try assumption. now rewrite <- P. }
  assert (by_bool (exhausted e) (exhausted f) <> Gt /\
    (by_bool (exhausted e) (exhausted f) = Eq \/ by_bool (exhausted e) (exhausted f) = Lt)) as [_ [B|B]].
  { destruct (exhausted e), (exhausted f); cbn; split; try discriminate; auto; discriminate (X eq_refl). }
  - unfold above, menu_cmp. rewrite B. cbn [then_by]. rewrite <- E, <- F. cbn [en_sort_key en_version version_text].
    rewrite K, lex_refl. cbn [then_by]. rewrite VC. reflexivity.
  - unfold above, menu_cmp. rewrite B. reflexivity.
Qed.

(** With the repository's text. *)
Lemma entry_read_generation g id l k : menu_ready g -> exists d,
  description (g_version g) (g_specname g)
    (match g_build_time g with Some t => Some (d_year t, d_month t, d_day t) | None => None end) d /\
  entry_of (utf8_encode (os_release_display (os_release_of_generation g))) id l k =
    Some (Entry (utf8_encode (bs_label (g_spec g) ++ lit " (" ++ d ++ lit ")"))
            (Some (utf8_encode (g_sort_key g))) (Some (utf8_encode d)) id l k).
Proof.
  intros R. destruct (entry_read g _ id l k R (os_release_text g)) as (d & _ & _ & _ & _ & _ & D & _ & _ & _ & E). eauto.
Qed.

Lemma menu_order_generation g h e f gi gl gd hi hl hd :
  menu_ready g -> menu_ready h -> g_sort_key g = g_sort_key h -> preferred g h ->
  entry_of (utf8_encode (os_release_display (os_release_of_generation g))) gi gl gd = Some e ->
  entry_of (utf8_encode (os_release_display (os_release_of_generation h))) hi hl hd = Some f ->
  (exhausted e = true -> exhausted f = true) -> above e f.
Proof. intros GR HR K P. apply menu_order with (g := g) (h := h); auto using os_release_text. Qed.

Lemma menu_installed M m : sound M -> history M m ->
  forall g h key key' n n' y y' b b', ma_gens M g -> ma_gens M h -> ma_keys M key -> ma_keys M key' ->
    named M key g n -> named M key' h n' ->
    lookup m (linux_file M n) = Some (NFile y b) -> lookup m (linux_file M n') = Some (NFile y' b') ->
    menu_ready g -> menu_ready h -> g_sort_key g = g_sort_key h -> preferred g h ->
    exists o o', has_section (ma_parse M) y (lit ".osrel") o /\ has_section (ma_parse M) y' (lit ".osrel") o' /\
    forall gi gl gd hi hl hd, exists e f,
      entry_of o gi gl gd = Some e /\ entry_of o' hi hl hd = Some f /\
      ((exhausted e = true -> exhausted f = true) -> above e f).
Proof.
  intros SD HM g h key key' n n' y y' b b' G H K K' N N' L L' GR HR SK P.
  destruct (own_stub M m SD HM g key n y b G K N L) as (? & ? & ? & ? & s & _ & _ & _ & T & _ & _ & _ & _ & _ & _ & _ & _ & _ & _ & O).
  destruct (own_stub M m SD HM h key' n' y' b' H K' N' L') as (? & ? & ? & ? & s' & _ & _ & _ & T' & _ & _ & _ & _ & _ & _ & _ & _ & _ & _ & O').
  exists (utf8_encode s), (utf8_encode s'). split; [exact O|]. split; [exact O'|]. intros.
  destruct (entry_read g s gi gl gd GR T) as (? & ? & ? & ? & ? & _ & _ & _ & _ & _ & E).
  destruct (entry_read h s' hi hl hd HR T') as (? & ? & ? & ? & ? & _ & _ & _ & _ & _ & E').
  eexists _, _. split; [exact E|]. split; [exact E'|]. eapply (menu_order g h); eauto.
Qed.
