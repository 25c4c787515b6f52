(** Lemmas about MText.v: the encodings are reversible. *)
From Coq Require Import List NArith ZArith Bool Lia ZifyBool ZifyNat ZifyN.
From Verif Require Import Base PBase MText.
Import ListNotations.
Open Scope N_scope.

Ltac Zify.zify_post_hook ::= Z.to_euclidean_division_equations.

Lemma is_scalar_spec c : is_scalar c = true <-> c < 0xD800 \/ 0xDFFF < c < 0x110000.
Proof. unfold is_scalar. lia. Qed.

(** ** UTF-8 *)

Lemma utf8_decode_char c l :
  is_scalar c = true ->
  utf8_decode (utf8_char c ++ l) = option_map (cons c) (utf8_decode l).
Proof.
  intros Hc. apply is_scalar_spec in Hc. unfold utf8_char.
  destruct (N.ltb_spec c 0x80) as [H1|H1].
  { cbn [app utf8_decode]. destruct (N.ltb_spec c 0x80); [auto|lia]. }
  destruct (N.ltb_spec c 0x800) as [H2|H2].
  { cbn [app utf8_decode].
    destruct (N.ltb_spec (0xC0 + c / 0x40) 0x80); [lia|].
    destruct (N.ltb_spec (0xC0 + c / 0x40) 0xC2); [lia|].
    destruct (N.ltb_spec (0xC0 + c / 0x40) 0xE0); [|lia].
    replace (is_cont (0x80 + c mod 0x40)) with true by (unfold is_cont; lia).
    f_equal. f_equal. lia. }
  destruct (N.ltb_spec c 0x10000) as [H3|H3].
  { cbn [app utf8_decode].
    destruct (N.ltb_spec (0xE0 + c / 0x1000) 0x80); [lia|].
    destruct (N.ltb_spec (0xE0 + c / 0x1000) 0xC2); [lia|].
    destruct (N.ltb_spec (0xE0 + c / 0x1000) 0xE0); [lia|].
    destruct (N.ltb_spec (0xE0 + c / 0x1000) 0xF0); [|lia].
    replace (is_cont (0x80 + (c / 0x40) mod 0x40)) with true by (unfold is_cont; lia).
    replace (is_cont (0x80 + c mod 0x40)) with true by (unfold is_cont; lia).
    set (v := (0xE0 + c / 0x1000 - 0xE0) * 0x1000 + _ + _).
    assert (Hv : v = c) by (unfold v; lia). rewrite Hv.
    replace (0x800 <=? c) with true by lia.
    replace (is_scalar c) with true by (symmetry; apply is_scalar_spec; lia).
    reflexivity. }
  { cbn [app utf8_decode].
    destruct (N.ltb_spec (0xF0 + c / 0x40000) 0x80); [lia|].
    destruct (N.ltb_spec (0xF0 + c / 0x40000) 0xC2); [lia|].
    destruct (N.ltb_spec (0xF0 + c / 0x40000) 0xE0); [lia|].
    destruct (N.ltb_spec (0xF0 + c / 0x40000) 0xF0); [lia|].
    destruct (N.ltb_spec (0xF0 + c / 0x40000) 0xF5); [|lia].
    replace (is_cont (0x80 + (c / 0x1000) mod 0x40)) with true by (unfold is_cont; lia).
    replace (is_cont (0x80 + (c / 0x40) mod 0x40)) with true by (unfold is_cont; lia).
    replace (is_cont (0x80 + c mod 0x40)) with true by (unfold is_cont; lia).
    set (v := (0xF0 + c / 0x40000 - 0xF0) * 0x40000 + _ + _ + _).
    assert (Hv : v = c) by (unfold v; lia). rewrite Hv.
    replace (0x10000 <=? c) with true by lia.
    replace (is_scalar c) with true by (symmetry; apply is_scalar_spec; lia).
    reflexivity. }
Qed.

Lemma utf8_decode_encode s :
  Forall (fun c => is_scalar c = true) s -> utf8_decode (utf8_encode s) = Some s.
Proof.
  induction s as [|c s IH]; intros H; [reflexivity|].
  inversion H; subst. cbn [utf8_encode flat_map].
  rewrite utf8_decode_char by auto. unfold utf8_encode in IH. now rewrite IH.
Qed.

Lemma utf8_decode_app a sa b :
  utf8_decode a = Some sa -> utf8_decode (a ++ b) = option_map (app sa) (utf8_decode b).
Proof.
  remember (length a) as n eqn:Hn. revert a sa Hn.
  induction n as [n IH] using lt_wf_ind. intros a sa Hn E.
  destruct a as [|x a].
  { cbn in E. injection E as <-. cbn. destruct (utf8_decode b); auto. }
  cbn [utf8_decode app] in *.
  assert (Hrec : forall (c : N) (t : bytes), (length t < n)%nat ->
            option_map (cons c) (utf8_decode t) = Some sa ->
            option_map (cons c) (utf8_decode (t ++ b)) = option_map (app sa) (utf8_decode b)).
  { intros c t Ht E'. destruct (utf8_decode t) as [st|] eqn:Et; [|discriminate].
    injection E' as <-. rewrite (IH (length t) Ht t st eq_refl Et).
    destruct (utf8_decode b); reflexivity. }
  cbn in Hn.
  destruct (x <? 0x80). { apply Hrec; auto. lia. }
  destruct (x <? 0xC2); [discriminate|].
  destruct (x <? 0xE0).
  { destruct a as [|y a]; [discriminate|]. cbn [app]. cbn in Hn.
    destruct (is_cont y); [|discriminate]. apply Hrec; auto. lia. }
  destruct (x <? 0xF0).
  { destruct a as [|y [|z a]]; try discriminate. cbn [app]. cbn in Hn. cbv zeta in *.
    destruct (is_cont y && is_cont z && _ && _); [|discriminate]. apply Hrec; auto. lia. }
  destruct (x <? 0xF5); [|discriminate].
  destruct a as [|y [|z [|w a]]]; try discriminate. cbn [app]. cbn in Hn. cbv zeta in *.
  destruct (is_cont y && is_cont z && is_cont w && _ && _); [|discriminate]. apply Hrec; auto. lia.
Qed.

Lemma utf8_encode_decode l s :
  utf8_decode l = Some s ->
  utf8_encode s = l /\ Forall (fun c => is_scalar c = true) s.
Proof.
  remember (length l) as n eqn:Hn. revert l s Hn.
  induction n as [n IH] using lt_wf_ind. intros l s Hn E.
  destruct l as [|a l].
  { cbn in E. injection E as <-. split; [reflexivity|constructor]. }
  cbn [utf8_decode] in E. cbn in Hn.
  assert (Hrec : forall (c : N) (t p : bytes), (length t < n)%nat -> is_scalar c = true ->
            utf8_char c = p -> option_map (cons c) (utf8_decode t) = Some s ->
            utf8_encode s = p ++ t /\ Forall (fun c => is_scalar c = true) s).
  { intros c t p Ht Hc Hp E'. destruct (utf8_decode t) as [st|] eqn:Et; [|discriminate].
    injection E' as <-. destruct (IH (length t) Ht t st eq_refl Et) as [H1 H2].
    split; [|constructor; auto]. cbn [utf8_encode flat_map]. rewrite Hp. f_equal. exact H1. }
  destruct (N.ltb_spec a 0x80) as [H1|H1].
  { apply (Hrec a l [a]); auto; try lia.
    - apply is_scalar_spec; lia.
    - unfold utf8_char. destruct (N.ltb_spec a 0x80); auto; lia. }
  destruct (N.ltb_spec a 0xC2) as [H2|H2]; [discriminate|].
  destruct (N.ltb_spec a 0xE0) as [H3|H3].
  { destruct l as [|b l]; [discriminate|]. cbn in Hn.
    destruct (is_cont b) eqn:Eb; [|discriminate]. unfold is_cont in Eb.
    set (v := (a - 0xC0) * 0x40 + (b - 0x80)) in *.
    apply (Hrec v l [a; b]); auto; try lia.
    - apply is_scalar_spec; unfold v; lia.
    - unfold utf8_char. destruct (N.ltb_spec v 0x80); [unfold v in *; lia|].
      destruct (N.ltb_spec v 0x800); [|unfold v in *; lia].
      unfold v; repeat f_equal; lia. }
  destruct (N.ltb_spec a 0xF0) as [H4|H4].
  { destruct l as [|b [|c l]]; try discriminate. cbn in Hn. cbv zeta in E.
    set (v := (a - 0xE0) * 0x1000 + (b - 0x80) * 0x40 + (c - 0x80)) in *.
    destruct (is_cont b && is_cont c && (0x800 <=? v) && is_scalar v) eqn:Ec; [|discriminate].
    rewrite !andb_true_iff in Ec. destruct Ec as [[[Eb Ec] Ev] Es]. unfold is_cont in *.
    apply (Hrec v l [a; b; c]); auto; try lia.
    unfold utf8_char. destruct (N.ltb_spec v 0x80); [lia|].
    destruct (N.ltb_spec v 0x800); [lia|].
    destruct (N.ltb_spec v 0x10000); [|unfold v in *; lia].
    unfold v; repeat f_equal; lia. }
  destruct (N.ltb_spec a 0xF5) as [H5|H5]; [|discriminate].
  destruct l as [|b [|c [|d l]]]; try discriminate. cbn in Hn. cbv zeta in E.
  set (v := (a - 0xF0) * 0x40000 + (b - 0x80) * 0x1000 + (c - 0x80) * 0x40 + (d - 0x80)) in *.
  destruct (is_cont b && is_cont c && is_cont d && (0x10000 <=? v) && is_scalar v) eqn:Ec; [|discriminate].
  rewrite !andb_true_iff in Ec. destruct Ec as [[[[Eb Ec] Ed] Ev] Es]. unfold is_cont in *.
  apply (Hrec v l [a; b; c; d]); auto; try lia.
  unfold utf8_char. destruct (N.ltb_spec v 0x80); [lia|].
  destruct (N.ltb_spec v 0x800); [lia|].
  destruct (N.ltb_spec v 0x10000); [lia|].
  unfold v; repeat f_equal; lia.
Qed.

Lemma utf8_encode_app a b : utf8_encode (a ++ b) = utf8_encode a ++ utf8_encode b.
Proof. apply flat_map_app. Qed.

Lemma utf8_encode_inj a b :
  Forall (fun c => is_scalar c = true) a -> Forall (fun c => is_scalar c = true) b ->
  utf8_encode a = utf8_encode b -> a = b.
Proof.
  intros Ha Hb E. apply utf8_decode_encode in Ha, Hb. congruence.
Qed.

Lemma utf8_ascii s : Forall (fun c => c < 128) s -> utf8_encode s = s.
Proof.
  induction 1 as [|c s Hc _ IH]; [reflexivity|].
  unfold utf8_encode in *. cbn [flat_map]. rewrite IH. unfold utf8_char.
  destruct (N.ltb_spec c 0x80); auto; lia.
Qed.

Lemma ascii_scalar s : Forall (fun c => c < 128) s -> Forall (fun c => is_scalar c = true) s.
Proof. apply Forall_impl. intros c Hc. apply is_scalar_spec. lia. Qed.

Lemma utf8_decode_ascii s : Forall (fun c => c < 128) s -> utf8_decode s = Some s.
Proof.
  intros H. rewrite <- (utf8_ascii s H) at 1. apply utf8_decode_encode, ascii_scalar, H.
Qed.

Lemma utf8_char_bytes c : is_scalar c = true -> Forall (fun b => b < 256) (utf8_char c).
Proof.
  intros H. apply is_scalar_spec in H. unfold utf8_char.
  destruct (N.ltb_spec c 0x80); [repeat constructor; lia|].
  destruct (N.ltb_spec c 0x800); [repeat constructor; lia|].
  destruct (N.ltb_spec c 0x10000); repeat constructor; lia.
Qed.

(** An ASCII byte in the encoding comes from the same character. *)
Lemma utf8_encode_In_ascii b s : b < 128 -> In b (utf8_encode s) -> In b s.
Proof.
  intros Hb H. unfold utf8_encode in H. apply in_flat_map in H as (c & Hc & H).
  unfold utf8_char in H.
  destruct (N.ltb_spec c 0x80). { destruct H as [->|[]]; auto. }
  exfalso.
  destruct (N.ltb_spec c 0x800); [cbn [In] in H; lia|].
  destruct (N.ltb_spec c 0x10000); cbn [In] in H; lia.
Qed.

Lemma utf8_encode_In_ascii_conv b s : b < 128 -> In b s -> In b (utf8_encode s).
Proof.
  intros Hb H. unfold utf8_encode. apply in_flat_map. exists b. split; auto.
  unfold utf8_char. destruct (N.ltb_spec b 0x80); [now left|lia].
Qed.

(** ** Base32 *)

Lemma bits_value_range l : bits_value l < 2 ^ N.of_nat (length l).
Proof.
  unfold bits_value.
  assert (H : forall l a, fold_left (fun acc b => 2 * acc + (if b : bool then 1 else 0)) l a
              < (a + 1) * 2 ^ N.of_nat (length l)).
  { clear l. induction l as [|b l IH]; intros a.
    - cbn. lia.
    - cbn [fold_left length]. eapply N.lt_le_trans; [apply IH|].
      rewrite Nat2N.inj_succ, N.pow_succ_r'.
      destruct b; nia. }
  specialize (H l 0). lia.
Qed.

Lemma bits_value_inj a b : length a = length b -> bits_value a = bits_value b -> a = b.
Proof.
  assert (G : forall a b x y, length a = length b ->
     fold_left (fun acc b => 2 * acc + (if b : bool then 1 else 0)) a x =
     fold_left (fun acc b => 2 * acc + (if b : bool then 1 else 0)) b y -> x = y /\ a = b).
  { clear. induction a as [|p a IH] using rev_ind; intros b x y Hl E.
    - destruct b; [|discriminate]. cbn in E. auto.
    - destruct b as [|q b] using rev_ind.
      { rewrite app_length in Hl. cbn in Hl. lia. }
      rewrite !app_length in Hl. cbn in Hl.
      rewrite !fold_left_app in E. cbn [fold_left] in E.
      assert (p = q) by (destruct p, q; auto; lia). subst.
      destruct (IH b x y) as [-> ->]; auto; [lia|]. destruct q; lia. }
  intros Hl E. eapply G; eauto.
Qed.

Lemma b32_char_inj a b : a < 32 -> b < 32 -> b32_char a = b32_char b -> a = b.
Proof.
  unfold b32_char. intros Ha Hb. destruct (N.ltb_spec a 26), (N.ltb_spec b 26); lia.
Qed.

Lemma b32_char_range a : a < 32 -> 97 <= b32_char a <= 122 \/ 50 <= b32_char a <= 55.
Proof. unfold b32_char. intros Ha. destruct (N.ltb_spec a 26); lia. Qed.

Lemma bits8_length b : length (bits8 b) = 8%nat.
Proof. reflexivity. Qed.

Lemma bits8_inj a b : a < 256 -> b < 256 -> bits8 a = bits8 b -> a = b.
Proof.
  intros Ha Hb E. unfold bits8 in E. cbn [map] in E.
  injection E as E7 E6 E5 E4 E3 E2 E1 E0.
  apply N.bits_inj. intros n.
  destruct (N.lt_ge_cases n 8) as [Hn|Hn].
  - assert (n = 0 \/ n = 1 \/ n = 2 \/ n = 3 \/ n = 4 \/ n = 5 \/ n = 6 \/ n = 7) as Hc by lia.
    repeat (destruct Hc as [->|Hc]; [assumption|]). now subst.
  - assert (G : forall x, x < 256 -> N.testbit x n = false).
    { intros x Hx. destruct (N.eq_dec x 0) as [->|Hz]; [apply N.bits_0|].
      apply N.bits_above_log2. apply N.log2_lt_pow2; [lia|].
      eapply N.lt_le_trans; [apply Hx|]. change 256 with (2 ^ 8). apply N.pow_le_mono_r; lia. }
    now rewrite !G.
Qed.

Lemma flat_bits_length l : length (flat_map bits8 l) = (8 * length l)%nat.
Proof. induction l as [|b l IH]; auto. cbn [flat_map]. rewrite app_length, IH, bits8_length. cbn. lia. Qed.

Lemma flat_bits_inj a b :
  Forall (fun x => x < 256) a -> Forall (fun x => x < 256) b ->
  flat_map bits8 a = flat_map bits8 b -> a = b.
Proof.
  revert b; induction a as [|x a IH]; intros b Ha Hb E; destruct b as [|y b]; auto.
  - apply (f_equal (@length bool)) in E. rewrite !flat_bits_length in E. cbn in E. lia.
  - apply (f_equal (@length bool)) in E. rewrite !flat_bits_length in E. cbn in E. lia.
  - cbn [flat_map] in E. inversion Ha; inversion Hb; subst.
    assert (bits8 x = bits8 y /\ flat_map bits8 a = flat_map bits8 b) as [E1 E2].
    { apply app_eq_app in E. destruct E as (t & [[E1 E2]|[E1 E2]]);
        apply (f_equal (@length bool)) in E1 as EL; rewrite app_length, !bits8_length in EL;
        (destruct t; [|cbn in EL; lia]); rewrite app_nil_r in E1; cbn in E2; auto. }
    f_equal; auto using bits8_inj.
Qed.

Ltac five l IH :=
  let a := fresh "a" in let b := fresh "b" in let c := fresh "c" in
  let d := fresh "d" in let e := fresh "e" in
  destruct l as [|a [|b [|c [|d [|e l]]]]].

Lemma b32_groups_inj a b :
  length a = length b -> b32_groups a = b32_groups b -> a = b.
Proof.
  remember (length a) as n eqn:Hn. revert a b Hn.
  induction n as [n IH] using lt_wf_ind. intros l m Hn Hl E.
  assert (G : forall x y, length x = 5%nat -> length y = 5%nat ->
    b32_char (bits_value x) = b32_char (bits_value y) -> x = y).
  { intros x y Hx Hy H. apply bits_value_inj; [congruence|].
    apply b32_char_inj; auto.
    - pose proof (bits_value_range x) as R. rewrite Hx in R. exact R.
    - pose proof (bits_value_range y) as R. rewrite Hy in R. exact R. }
  destruct l as [|a1 [|a2 [|a3 [|a4 [|a5 l]]]]]; destruct m as [|b1 [|b2 [|b3 [|b4 [|b5 m]]]]];
    cbn [length] in *; try lia; auto; cbn [b32_groups] in E;
    injection E as E;
    try (apply G in E; [|reflexivity|reflexivity]; injection E; intros; subst; reflexivity).
  match goal with H : b32_groups l = b32_groups m |- _ => rename H into ET end.
  apply G in E; [|reflexivity|reflexivity]. injection E as -> -> -> -> ->.
  do 5 f_equal. eapply (IH (length l)); auto; lia.
Qed.

Lemma b32_groups_length l : length (b32_groups l) = ((length l + 4) / 5)%nat.
Proof.
  remember (length l) as n eqn:Hn. revert l Hn.
  induction n as [n IH] using lt_wf_ind. intros l Hn.
  destruct l as [|a1 [|a2 [|a3 [|a4 [|a5 l]]]]]; cbn [length] in Hn; subst n; try reflexivity.
  cbn [b32_groups length]. rewrite (IH (length l)) by (auto; lia).
  replace (S (S (S (S (S (length l))))) + 4)%nat with (1 * 5 + (length l + 4))%nat by lia.
  rewrite Nat.div_add_l by lia. lia.
Qed.

Lemma b32_groups_chars l :
  Forall (fun c => 97 <= c <= 122 \/ 50 <= c <= 55) (b32_groups l).
Proof.
  remember (length l) as n eqn:Hn. revert l Hn.
  induction n as [n IH] using lt_wf_ind. intros l Hn.
  assert (G : forall a b c d e, 97 <= b32_char (bits_value [a;b;c;d;e]) <= 122 \/
                                50 <= b32_char (bits_value [a;b;c;d;e]) <= 55).
  { intros. apply b32_char_range. exact (bits_value_range [a;b;c;d;e]). }
  destruct l as [|a1 [|a2 [|a3 [|a4 [|a5 l]]]]]; cbn [length] in Hn; subst n;
    cbn [b32_groups]; try (apply Forall_cons; [apply G|apply Forall_nil]); [apply Forall_nil|apply Forall_cons; [apply G|]].
  eapply (IH (length l)); auto; lia.
Qed.

Lemma base32_inj a b :
  Forall (fun x => x < 256) a -> Forall (fun x => x < 256) b -> length a = length b ->
  base32 a = base32 b -> a = b.
Proof.
  unfold base32. intros Ha Hb Hl E. apply flat_bits_inj; auto.
  apply b32_groups_inj; auto. rewrite !flat_bits_length. congruence.
Qed.

Lemma base32_length l : length (base32 l) = ((8 * length l + 4) / 5)%nat.
Proof. unfold base32. now rewrite b32_groups_length, flat_bits_length. Qed.

Lemma base32_chars l : Forall (fun c => 97 <= c <= 122 \/ 50 <= c <= 55) (base32 l).
Proof. apply b32_groups_chars. Qed.

(** ** JSON *)

Lemma join_dec_chars l : Forall (fun c => 48 <= c <= 57 \/ c = 44) (join [44] (map dec l)).
Proof.
  assert (D : forall n, Forall (fun c => 48 <= c <= 57 \/ c = 44) (dec n)).
  { intros n. eapply Forall_impl; [|apply dec_digits]. cbn beta; intros; lia. }
  induction l as [|x [|y l] IH]; cbn [map join]; auto.
  apply Forall_app; split; auto. constructor; [auto|]. exact IH.
Qed.

Lemma join_dec_inj a b x y :
  join [44] (map dec a) ++ 93 :: x = join [44] (map dec b) ++ 93 :: y -> a = b /\ x = y.
Proof.
  revert b; induction a as [|p a IH]; intros b.
  - destruct b as [|q b]; cbn [map join].
    + intros [= ->]. auto.
    + intros E. exfalso. destruct (dec q) as [|c l] eqn:Eq; [now apply dec_nonempty in Eq|].
      pose proof (dec_digits q) as D. rewrite Eq in D. inversion D; subst.
      destruct b; cbn in E; injection E as E _; lia.
  - destruct b as [|q b].
    + intros E. exfalso. destruct (dec p) as [|c l] eqn:Eq; [now apply dec_nonempty in Eq|].
      pose proof (dec_digits p) as D. rewrite Eq in D. inversion D; subst.
      cbn [map join] in E. rewrite Eq in E. destruct a; cbn in E; injection E as E _; lia.
    + assert (F : forall n l z, exists c t, join [44] (map dec (n :: l)) ++ 93 :: z = dec n ++ c :: t
                 /\ ((c = 93 /\ l = [] /\ t = z) \/ (c = 44 /\ l <> [] /\ t = join [44] (map dec l) ++ 93 :: z))).
      { intros n l z. destruct l as [|m l]; cbn [map join].
        - exists 93, z. split; auto.
        - exists 44, (join [44] (map dec (m :: l)) ++ 93 :: z). split.
          + cbn [map]. rewrite <- !app_assoc. reflexivity.
          + right. repeat split; auto. discriminate. }
      destruct (F p a x) as (c & t & -> & Hc). destruct (F q b y) as (d & u & -> & Hd).
      intros E. apply digits_prefix_unique in E as [E1 E2]; auto using dec_digits;
        try (intros ? ? [= <- <-]; lia).
      apply dec_inj in E1. subst q. injection E2 as E2 E3. subst d u.
      destruct Hc as [(-> & -> & ->)|(-> & Ha & ->)], Hd as [(E & -> & ?)|(E & Hb & E3)];
        try discriminate; auto.
      destruct (IH b E3) as [-> ->]. auto.
Qed.

Lemma json_stub_inputs_inj t1 k1 t2 k2 :
  json_stub_inputs t1 k1 = json_stub_inputs t2 k2 -> t1 = t2 /\ k1 = k2.
Proof.
  unfold json_stub_inputs, json_bytes. rewrite <- !app_assoc. intros E.
  apply app_inv_head in E. lits_in E. cbn [app] in E.
  injection E as E.
  apply join_dec_inj in E as [-> E]. split; auto.
  injection E as E.
  apply join_dec_inj in E as [-> _]. auto.
Qed.

Lemma json_stub_inputs_ascii t k : Forall (fun c => c < 128) (json_stub_inputs t k).
Proof.
  assert (J : forall l, Forall (fun c => c < 128) (json_bytes l)).
  { intros l. unfold json_bytes. rewrite !Forall_app. repeat split.
    - repeat constructor.
    - eapply Forall_impl; [|apply join_dec_chars]. cbn beta; intros; lia.
    - repeat constructor. }
  unfold json_stub_inputs. rewrite !Forall_app. repeat split; auto;
    lits; repeat (apply Forall_cons; [reflexivity|]); apply Forall_nil.
Qed.
