(** Proofs about histories of runs (C07-C10, parts of C11 and C13). *)
From Coq Require Import List NArith Bool.
From Verif Require Import Base MText MGeneration MNames MPe MFs MTool MInstall SCommon SNames SOsRelease SInstall.
From Verif Require Import PText PFs PInstall PNames PPaths PGen PBoot PRun PTrace POwned SHistory PHistory.
Import ListNotations.
Open Scope N_scope.

Section Histories.
Variable M : machine.
Variable e : env.
Variable c : config.
Variable m : fs.
Hypothesis SO : sound M.
Hypothesis FI : fits M e c.

Lemma final_point : point e c m (s_trace (fst (run_install e c m))).
Proof. exists []. rewrite app_nil_r. reflexivity. Qed.

Lemma final_fs : s_fs (fst (run_install e c m)) = apply_all (s_trace (fst (run_install e c m))) m.
Proof. apply run_steps. Qed.

Lemma final_ok : history M m ->
  contents_ok M (s_fs (fst (run_install e c m))) /\ entries_ok M (s_fs (fst (run_install e c m))).
Proof.
  intros H. rewrite final_fs. apply history_ok; [exact SO|]. eapply hi_run; [exact H | exact FI | apply final_point].
Qed.

(** C07 *)
Lemma all_boot_errors : history M m -> snd (run_install e c m) = Ok tt ->
  exists vs sel got, links_versions (c_links c) vs /\ newest (c_limit c) vs sel /\ incl got sel /\ got <> [] /\
    (no_faults e -> flat_map link_generations got = flat_map link_generations sel) /\
    forall g, In g (flat_map link_generations got) -> boots M (s_fs (fst (run_install e c m))) g.
Proof.
  intros H OK. destruct (history_ok M m SO H) as [CO EO]. destruct (final_ok H) as [CO' _].
  destruct (run_phases e c _ m (anchored_lasting M e c SO FI m CO EO)) as (os1 & os2 & _ & _ & _ & F).
  destruct (F OK) as (vs & sel & got & roots & LV & NW & SB & NE & NF & AN & _).
  exists vs, sel, got. split; [exact LV|]. split; [exact NW|]. split; [intros x; apply sub_incl; exact SB|]. split; [exact NE|]. split; [exact NF|].
  intros g Hg. eapply anchored_boots; [exact FI | exact CO' | apply AN; exact Hg].
Qed.

Lemma all_boot : history M m -> no_faults e -> snd (run_install e c m) = Ok tt ->
  exists vs sel, links_versions (c_links c) vs /\ newest (c_limit c) vs sel /\
    forall g, In g (flat_map link_generations sel) -> boots M (s_fs (fst (run_install e c m))) g.
Proof.
  intros H NF OK. destruct (all_boot_errors H OK) as (vs & sel & got & LV & NW & _ & _ & E & B).
  exists vs, sel. split; [exact LV|]. split; [exact NW|]. rewrite <- (E NF). exact B.
Qed.
End Histories.

(** C08 *)
Lemma own_stub M m : sound M -> history M m -> forall g key n y b, ma_gens M g -> ma_keys M key -> named M key g n ->
  lookup m (linux_file M n) = Some (NFile y b) -> stub_for M g y.
Proof. intros SO H. apply (history_ok M m SO H). Qed.

Lemma stub_kernel M m g y : stub_for M g y -> bootable M m y -> own_kernel M m g y.
Proof.
  intros (v & k & i & init & text & ST & _ & _ & _ & _ & _ & _ & _ & _ & K1 & K2 & _) [(s & h & p & x & b & S1 & S2 & EP & L & HX) _].
  exists k, s, p, x, b. split; [exact ST|]. split; [exact S1|]. split; [exact EP|]. split; [exact L|].
  rewrite HX. eapply has_section_fun; eauto.
Qed.

Lemma all_own M e c m : sound M -> fits M e c -> history M m -> no_faults e -> snd (run_install e c m) = Ok tt ->
  exists vs sel, links_versions (c_links c) vs /\ newest (c_limit c) vs sel /\
    forall g, In g (flat_map link_generations sel) ->
      exists key n y b, ma_keys M key /\ named M key g n /\
        lookup (s_fs (fst (run_install e c m))) (linux_file M n) = Some (NFile y b) /\
        stub_for M g y /\ own_kernel M (s_fs (fst (run_install e c m))) g y.
Proof.
  intros SO FI H NF OK. destruct (all_boot M e c m SO FI H NF OK) as (vs & sel & LV & NW & B).
  exists vs, sel. split; [exact LV|]. split; [exact NW|]. intros g Hg.
  destruct (B g Hg) as (key & n & y & b & K & NM & L & BT).
  assert (ma_gens M g) as Gg by (apply (fi_gens _ _ _ FI); exists vs, sel; auto).
  destruct (final_ok M e c m SO FI H) as [_ EO]. pose proof (EO g key n y b Gg K NM L) as ST.
  exists key, n, y, b. split; [exact K|]. split; [exact NM|]. split; [exact L|]. split; [exact ST|]. apply stub_kernel; assumption.
Qed.

(** C09 *)
Section Points.
Variable M : machine.
Variable e : env.
Variable c : config.
Variable m : fs.
Variable os : list op.
Hypothesis SO : sound M.
Hypothesis FI : fits M e c.
Hypothesis H : history M m.
Hypothesis PT : point e c m os.

Lemma point_ok : contents_ok M (apply_all os m) /\ entries_ok M (apply_all os m).
Proof. apply history_ok; [exact SO|]. eapply hi_run; eauto. Qed.

(** Removals only happen in the second phase. *)
Lemma still_bootable n y b : (forall p, ~ In (ORemove p) os) ->
  (exists g key, ma_gens M g /\ ma_keys M key /\ named M key g n) ->
  lookup m (linux_file M n) = Some (NFile y b) -> bootable M m y ->
  exists y' b', lookup (apply_all os m) (linux_file M n) = Some (NFile y' b') /\ bootable M (apply_all os m) y'.
Proof.
  intros NR (g & key & Gg & Kk & NM) L BT. destruct (history_ok M m SO H) as [CO EO]. destruct point_ok as [CO' EO'].
  assert (steps (G1 e c) m os) as ST.
  { destruct (point_phase e c _ m os (anchored_lasting M e c SO FI m CO EO) PT) as [[ST _]|(vs & sel & roots & os1 & os2 & _ & _ & _ & -> & S1 & IR & S2 & _)]; [exact ST|].
    destruct os2 as [|o os2]; [rewrite app_nil_r; exact S1|]. destruct S2 as [((q & ->) & _) _]. exfalso.
    apply (NR q). apply in_or_app; right; left; reflexivity. }
  apply entry_boots_bootable; [exact CO'|]. eapply G1_entry_boots; [exact SO | exact FI | exact ST |].
  pose proof (EO g key n y b Gg Kk NM L) as SF. apply stub_at_for in SF as (kp & ip & SA).
  destruct (bootable_files M m g y kp ip SA BT) as [FK FII]. exists g, key, y, b, kp, ip. auto 10.
Qed.

Lemma selected_boots g : ma_gens M g -> always_selected c g -> boots M m g -> boots M (apply_all os m) g.
Proof.
  intros Gg AS BT. destruct (history_ok M m SO H) as [CO EO]. destruct point_ok as [CO' EO'].
  destruct (point_phase e c _ m os (anchored_lasting M e c SO FI m CO EO) PT) as [[ST NR]|(vs & sel & roots & os1 & os2 & LV & NW & _ & _ & _ & _ & _ & AN & _)].
  - destruct BT as (key & n & y & b & Kk & NM & L & B).
    destruct (still_bootable n y b NR) as (y' & b' & L' & B'); eauto 10. exists key, n, y', b'. auto.
  - eapply anchored_boots; [exact FI | exact CO' |]. apply AN. exact (AS vs sel LV NW).
Qed.

Lemma new_bootable n y b : ends (lit ".efi") n -> lookup (apply_all os m) (linux_file M n) = Some (NFile y b) ->
  (exists b0, lookup m (linux_file M n) = Some (NFile y b0)) \/ bootable M (apply_all os m) y.
Proof.
  intros EN L. destruct (history_ok M m SO H) as [CO EO]. destruct point_ok as [CO' EO'].
  eapply fresh_bootable; [exact CO' | | exact EN | exact L].
  destruct (point_phase e c _ m os (anchored_lasting M e c SO FI m CO EO) PT) as [[ST NR]|(vs & sel & roots & os1 & os2 & LV & NW & _ & _ & _ & _ & _ & _ & FO)].
  - eapply (steps_invariant (G1 e c) (fresh_live M m)); [|exact ST | apply fresh_live_refl].
    intros m' o HG. apply (fresh_live_step M e c); assumption.
  - eapply fresh_ok_live; eauto.
Qed.

(** C10, C11: from the first removal on the selected entries are on the disk. *)
Lemma loss_boots m1 m' g roots : contents_ok M m1 -> anchored M e true g roots m1 -> after_loss m1 m' -> boots M m' g.
Proof.
  intros CO (key & n & y & b & kp & ip & K & NM & L & SY & SA & FK & FII & IR) AL.
  assert (contents_ok M m') as CO'.
  { intros f z. specialize (CO f z). set (w := nixos_file M (f ++ lit "-" ++ base32 (ma_sha M z) ++ lit ".efi")) in *.
    specialize (AL w). destruct (lookup m1 w) as [[|y0 [|]]|]; try (rewrite AL; exact CO). destruct CO; discriminate. }
  assert (forall p, is_file m1 p -> lookup m' p <> None) as LF.
  { intros p (x & f & LP). specialize (AL p). rewrite LP in AL. destruct f; [congruence|]. destruct AL as (? & ? & ->). discriminate. }
  pose proof (AL (linux_file M n)) as AN. rewrite L, (SY eq_refl) in AN.
  exists key, n, y, true. split; [apply (fi_key _ _ _ FI); exact K|]. split; [exact NM|]. split; [exact AN|].
  eapply stub_bootable; eauto.
Qed.
End Points.

Lemma point_before e c m os o : point e c m (os ++ [o]) -> point e c m os.
Proof. intros [r E]. exists ([o] ++ r). rewrite E, <- app_assoc. reflexivity. Qed.

Lemma removal_boots M e c m os p m' : sound M -> fits M e c -> history M m -> point e c m (os ++ [ORemove p]) ->
  after_loss (apply_all os m) m' ->
  exists vs sel, links_versions (c_links c) vs /\ newest (c_limit c) vs sel /\
    forall g, In g (flat_map link_generations sel) -> boots M m' g.
Proof.
  intros SO FI H PT AL. destruct (history_ok M m SO H) as [CO EO].
  destruct (point_ok M e c m os SO FI H (point_before _ _ _ _ _ PT)) as [CO' _].
  destruct (removal_phase e c _ m os p (anchored_lasting M e c SO FI m CO EO) PT) as (vs & sel & roots & LV & NW & _ & _ & AN & _).
  exists vs, sel. split; [exact LV|]. split; [exact NW|]. intros g Hg.
  eapply loss_boots; [exact FI | exact CO' | apply AN; exact Hg | exact AL].
Qed.

Lemma success_boots M e c m m' : sound M -> fits M e c -> history M m -> no_faults e -> snd (run_install e c m) = Ok tt ->
  after_loss (s_fs (fst (run_install e c m))) m' ->
  exists vs sel, links_versions (c_links c) vs /\ newest (c_limit c) vs sel /\
    forall g, In g (flat_map link_generations sel) -> boots M m' g.
Proof.
  intros SO FI H NF OK AL. destruct (history_ok M m SO H) as [CO EO]. destruct (final_ok M e c m SO FI H) as [CO' _].
  destruct (run_phases e c _ m (anchored_lasting M e c SO FI m CO EO)) as (os1 & os2 & _ & _ & _ & F).
  destruct (F OK) as (vs & sel & got & roots & LV & NW & SB & NE & E & AN & _).
  exists vs, sel. split; [exact LV|]. split; [exact NW|]. rewrite <- (E NF). intros g Hg.
  eapply loss_boots; [exact FI | exact CO' | apply AN; exact Hg | exact AL].
Qed.

Lemma removal_posted M e c m os p : sound M -> fits M e c -> point e c m (os ++ [ORemove p]) ->
  exists vs sel, links_versions (c_links c) vs /\ newest (c_limit c) vs sel /\
    forall g, In g (flat_map link_generations sel) ->
      exists key n y, ma_keys M key /\ named M key g n /\
        forall m', after_loss (apply_all os m) m' -> lookup m' (linux_file M n) = Some (NFile y true).
Proof.
  intros SO FI PT.
  destruct (removal_phase e c _ m os p (posted_lasting M e c SO FI m) PT) as (vs & sel & roots & LV & NW & _ & _ & AN).
  exists vs, sel. split; [exact LV|]. split; [exact NW|]. intros g Hg.
  destruct (AN g Hg) as (key & n & y & b & K & NM & L & SY & _). exists key, n, y.
  split; [apply (fi_key _ _ _ FI); exact K|]. split; [exact NM|]. intros m' AL. specialize (AL (linux_file M n)).
  rewrite L, (SY eq_refl) in AL. exact AL.
Qed.

Lemma rough_contents M m : sound M -> rough_history M m -> forall n x y b,
  lookup m (nixos_file M (n ++ lit "-" ++ base32 (ma_sha M x) ++ lit ".efi")) = Some (NFile y b) -> ma_sha M y = ma_sha M x.
Proof.
  intros SO H n x y b L. pose proof (rough_ok M m SO H n x) as CO. rewrite L in CO. apply CO.
Qed.
