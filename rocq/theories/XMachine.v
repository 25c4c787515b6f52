(** The example world as a machine: it meets [sound] and [fits]. *)
From Coq Require Import List ZArith NArith Bool Lia ZifyBool ZifyNat ZifyN.
From Verif Require Import Base PBase MText PText MGeneration MNames MPe MFs MTool MInstall SCommon SNames SInstall PSelect PFs XWorld SImage PImage SHistory PHistory.
Import ListNotations.
Open Scope N_scope.
Ltac Zify.zify_post_hook ::= Z.to_euclidean_division_equations.

(** ** The toy format *)

Definition x_blocks (bl : list (list N * list N)) : bytes := concat (map (fun b => x_block (fst b) (snd b)) bl).
Definition x_fits (b : list N * list N) : Prop := N.of_nat (length (snd b)) < 65536.
Definition x_len (b : list N * list N) : N := N.of_nat (length (fst b)) + 3 + N.of_nat (length (snd b)).

Fixpoint x_headers (off : N) (bl : list (list N * list N)) : list section :=
  match bl with
  | [] => []
  | b :: r => let start := off + 1 + N.of_nat (length (fst b)) + 2 in
      let k := N.of_nat (length (snd b)) in
      Section (Some (fst b)) start k start k :: x_headers (start + k) r
  end.

Lemma skipn_exact (a b : list N) : skipn (length a) (a ++ b) = b.
Proof. rewrite skipn_app, skipn_all, PeanoNat.Nat.sub_diag. reflexivity. Qed.
Lemma firstn_exact (a b : list N) : firstn (length a) (a ++ b) = a.
Proof. rewrite firstn_app, firstn_all, PeanoNat.Nat.sub_diag. cbn [firstn]. apply app_nil_r. Qed.

Lemma x_sections_blocks bl : forall fuel off, Forall x_fits bl -> (length bl <= fuel)%nat ->
  x_sections fuel off (x_blocks bl) = x_headers off bl.
Proof.
  induction bl as [|[n d] bl IH]; intros fuel off F HF.
  - destruct fuel; reflexivity.
  - destruct fuel as [|fuel]; [cbn in HF; lia|]. inversion F as [|? ? F1 F2]; subst. unfold x_fits in F1. cbn [snd] in F1.
    set (k := N.of_nat (length d)) in *.
    assert (x_blocks ((n, d) :: bl) = N.of_nat (length n) :: n ++ k / 256 :: k mod 256 :: d ++ x_blocks bl) as ->.
    { unfold x_blocks. cbn [map concat fst snd]. unfold x_block at 1. cbn [app]. rewrite <- app_assoc. reflexivity. }
    cbn [x_sections x_headers fst snd]. rewrite Nat2N.id. fold k.
    rewrite (skipn_exact n), (firstn_exact n).
    assert (256 * (k / 256) + k mod 256 = k) as -> by lia. f_equal.
    unfold k at 2. rewrite Nat2N.id, (skipn_exact d). cbn [fst snd].
    apply IH; [exact F2 | cbn in HF; lia].
Qed.

Lemma x_blocks_length bl : (length bl <= length (x_blocks bl))%nat.
Proof.
  induction bl as [|[n d] bl IH]; [cbn; lia|]. unfold x_blocks. cbn [map concat]. unfold x_block at 1. rewrite app_length. fold (x_blocks bl).
  cbn. lia.
Qed.

Lemma x_blocks_app a b : x_blocks (a ++ b) = x_blocks a ++ x_blocks b.
Proof. unfold x_blocks. rewrite map_app, concat_app. reflexivity. Qed.

Lemma x_blocks_len bl off : N.of_nat (length (x_blocks bl)) + off = fold_left (fun a b => a + x_len b) bl off.
Proof.
  revert off. induction bl as [|[n d] bl IH]; intros off; [cbn; lia|]. cbn [fold_left]. rewrite <- IH.
  unfold x_blocks at 1. cbn [map concat]. rewrite app_length. fold (x_blocks bl). unfold x_block, x_len. cbn [fst snd length].
  rewrite !app_length. cbn [length]. lia.
Qed.

Lemma x_headers_app a b off : x_headers off (a ++ b) = x_headers off a ++ x_headers (fold_left (fun a b => a + x_len b) a off) b.
Proof.
  revert off. induction a as [|[n d] a IH]; intros off; [reflexivity|]. cbn [app x_headers fold_left fst snd]. rewrite IH. cbn [app].
  f_equal. f_equal. f_equal. f_equal. unfold x_len. cbn [fst snd]. lia.
Qed.

Lemma x_headers_names a off n : ~ In n (map fst a) -> Forall (fun t => exists m, s_name t = Some m /\ m <> n) (x_headers off a).
Proof.
  revert off. induction a as [|[n' d] a IH]; intros off H; [constructor|]. cbn [x_headers fst snd]. constructor.
  - exists n'. split; [reflexivity|]. intros ->. apply H. left; reflexivity.
  - apply IH. intros X. apply H. right; exact X.
Qed.

Lemma x_has_section a n d b : Forall x_fits (a ++ (n, d) :: b) -> ~ In n (map fst a) ->
  has_section x_parse ([77; 90] ++ x_blocks (a ++ (n, d) :: b)) n d.
Proof.
  intros F NI.
  set (start := fold_left (fun a b => a + x_len b) a 2 + 1 + N.of_nat (length n) + 2).
  set (k := N.of_nat (length d)).
  exists (Pe (x_headers 2 (a ++ (n, d) :: b)) 0 false (Some 0)), (x_headers 2 a), (Section (Some n) start k start k), (x_headers (start + k) b).
  exists ([77; 90] ++ x_blocks a ++ N.of_nat (length n) :: n ++ [k / 256; k mod 256]), (x_blocks b).
  split.
  - cbn [app x_parse]. rewrite x_sections_blocks; [reflexivity | exact F | apply x_blocks_length].
  - split; [cbn [pe_sections]; rewrite x_headers_app; reflexivity|]. split; [apply x_headers_names; exact NI|].
    split; [reflexivity|]. cbn [s_vsize s_rawsize s_rawptr]. split; [lia|]. split; [|split; [|reflexivity]].
    + rewrite x_blocks_app. unfold x_blocks at 2. cbn [map concat]. fold (x_blocks b). unfold x_block. cbn [fst snd].
      fold k. cbn [app]. rewrite <- !app_assoc. cbn [app]. rewrite <- !app_assoc. reflexivity.
    + unfold start. rewrite <- x_blocks_len. cbn [app length]. rewrite !app_length. cbn [length]. rewrite app_length. cbn [length]. lia.
Qed.

(** Every file is loaded properly: sections are where they are in the file. *)
Lemma x_sections_above fuel : forall off b s, In s (x_sections fuel off b) -> off <= s_vaddr s /\ s_rawsize s = s_vsize s.
Proof.
  induction fuel as [|f IH]; intros off b s; [destruct b; intros []|]. destruct b as [|n b1]; [intros []|]. cbn [x_sections].
  destruct (skipn (N.to_nat n) b1) as [|hi [|lo d]]; [intros [] | intros [] |]. cbn [In]. intros [<-|H].
  - cbn. split; [lia | reflexivity].
  - apply IH in H as [H1 H2]. split; [lia | exact H2].
Qed.
Lemma x_sections_disjoint fuel : forall off b, ForallOrdPairs disjoint (x_sections fuel off b).
Proof.
  induction fuel as [|f IH]; intros off b; [destruct b; constructor|]. destruct b as [|n b1]; [constructor|]. cbn [x_sections].
  destruct (skipn (N.to_nat n) b1) as [|hi [|lo d]]; [constructor | constructor |]. constructor; [|apply IH].
  apply Forall_forall. intros t H. apply x_sections_above in H as [H _]. right; right; left. cbn [s_vaddr s_vsize]. exact H.
Qed.
Lemma x_loads y : loads_well x_parse y.
Proof.
  destruct (x_parse y) as [q|] eqn:E; [|intros ? ? ? ? ? X; congruence].
  destruct y as [|m [|z r]]; try discriminate. cbn [x_parse] in E. destruct ((m =? 77) && (z =? 90)) eqn:EM; [|discriminate].
  injection E as <-. eapply disjoint_loads; [cbn [x_parse]; rewrite EM; reflexivity | apply x_sections_disjoint|].
  intros s H Z. cbn [pe_sections] in H. apply x_sections_above in H as [_ H]. congruence.
Qed.

(** Adding blocks keeps the sections. *)
Lemma x_added extra sections image :
  Forall x_fits extra ->
  map (fun s => fst (fst s)) sections = stub_sections ->
  x_objcopy x_stub sections = Some image ->
  forall n d a, In (n, d, a) sections -> has_section x_parse (image ++ x_blocks extra) n d.
Proof.
  intros KL NS OB n d a HI. unfold stub_sections in NS. unfold x_objcopy in OB.
  match type of OB with (if ?b then _ else _) = _ => destruct b eqn:FA; [|discriminate] end. apply (f_equal (fun o => match o with Some x => x | None => [] end)) in OB. cbv beta iota in OB. subst image.
  set (bl := map fst sections).
  assert (concat (map (fun s => x_block (fst (fst s)) (snd (fst s))) sections) = x_blocks bl) as ->
    by (unfold bl, x_blocks; rewrite map_map; reflexivity).
  assert (Forall x_fits bl) as FB.
  { unfold bl. apply Forall_forall. intros b Hb. apply in_map_iff in Hb as (s & <- & Hs).
    rewrite forallb_forall in FA. specialize (FA s Hs). apply N.ltb_lt in FA. exact FA. }
  assert (map fst bl = [lit ".osrel"; lit ".cmdline"; lit ".initrd"; lit ".linux"; lit ".initrdh"; lit ".linuxh"]) as NB
    by (unfold bl; rewrite map_map; exact NS).
  assert (In (n, d) bl) as IB by (apply in_map_iff; exists (n, d, a); auto).
  apply in_split in IB as (l1 & l2 & E).
  change x_stub with ([77; 90] ++ x_blocks [(lit ".text", [1; 2; 3])]).
  replace ((([77; 90] ++ x_blocks [(lit ".text", [1; 2; 3])]) ++ x_blocks bl) ++ x_blocks extra)
    with ([77; 90] ++ x_blocks (((lit ".text", [1; 2; 3]) :: l1) ++ (n, d) :: (l2 ++ extra))).
  - apply (x_has_section ((lit ".text", [1; 2; 3]) :: l1) n d (l2 ++ extra)).
    + constructor; [unfold x_fits; cbn; lia|]. rewrite E in FB. apply Forall_app in FB as [F1 F2]. inversion F2; subst.
      apply Forall_app. split; [exact F1|]. constructor; [assumption|]. apply Forall_app. split; assumption.
    + rewrite E, map_app in NB. cbn [map fst] in NB.
      assert (NoDup (map fst l1 ++ n :: map fst l2)) as ND.
      { rewrite NB. repeat (constructor; [intros X; vm_compute in X; repeat (destruct X as [X|X]; [discriminate X|]); exact X|]). constructor. }
      cbn [map fst]. intros [X|X].
      * assert (In n [lit ".osrel"; lit ".cmdline"; lit ".initrd"; lit ".linux"; lit ".initrdh"; lit ".linuxh"]) as IN
          by (rewrite <- NB; apply in_or_app; right; left; reflexivity).
        rewrite <- X in IN. vm_compute in IN. repeat (destruct IN as [IN|IN]; [discriminate IN|]). exact IN.
      * apply NoDup_remove_2 in ND. apply ND. apply in_or_app; left; exact X.
  - rewrite E. change ((lit ".text", [1; 2; 3]) :: l1) with ([(lit ".text", [1; 2; 3])] ++ l1).
    rewrite !x_blocks_app. change ((n, d) :: l2 ++ extra) with (([(n, d)] ++ l2) ++ extra).
    change ((n, d) :: l2) with ([(n, d)] ++ l2). rewrite !x_blocks_app.
    rewrite <- !app_assoc. reflexivity.
Qed.

(** The tools keep the sections. *)
Lemma x_tools key sections image out :
  N.of_nat (length key) < 65536 ->
  map (fun s => fst (fst s)) sections = stub_sections ->
  x_objcopy x_stub sections = Some image -> sg_sign (x_signer key) image = Some out ->
  loads_well x_parse out /\ forall n d a, In (n, d, a) sections -> has_section x_parse out n d.
Proof.
  intros KL NS OB SG. split; [apply x_loads|].
  change (sg_sign (x_signer key)) with (fun b => Some (b ++ x_sig key)) in SG. cbv beta in SG.
  apply (f_equal (fun o => match o with Some x => x | None => [] end)) in SG. cbv beta iota in SG. subst out.
  assert (x_sig key = x_blocks [(lit ".sig", key)]) as -> by (unfold x_blocks; cbn [map concat fst snd]; rewrite app_nil_r; reflexivity).
  apply x_added; [constructor; [exact KL | constructor] | exact NS | exact OB].
Qed.

(** ** The machine *)

Definition x_gens (links : list link) : list generation :=
  flat_map (fun l => match link_version (l_name l) with Some v => link_generations (v, l) | None => [] end) links.

Definition x_machine (links : list link) : machine :=
  Machine [lit "boot"] x_sha x_parse (fun c => (48 <=? c) && (c <=? 57)) (x_store x_files)
    (fun g => In g (x_gens links)) (eq x_key) (loads_well x_parse).

Lemma selected_link c g : selected c g -> In g (x_gens (c_links c)).
Proof.
  intros (vs & sel & LV & (skipped & PM & _) & HG). apply in_flat_map in HG as (vl & HS & HG).
  assert (In vl vs) as HV by (apply (Permutation.Permutation_in _ (Permutation.Permutation_sym PM)), in_or_app; auto).
  clear - LV HV HG. unfold x_gens. induction LV as [|l [v l'] ls vs [E1 E2] LV IH]; [contradiction|].
  cbn [flat_map]. apply in_or_app. destruct HV as [<-|HV]; [|right; auto]. left. cbn [fst snd] in *. subst l'. rewrite E2. exact HG.
Qed.

Lemma x_sha_hash : hash32 x_sha.
Proof.
  intros x. unfold x_sha. generalize (fold_left (fun a c => (a * 257 + c + 1) mod 2 ^ 256) x 0). intros v.
  assert (forall n v, length (x_digits n v) = n /\ is_bytes (x_digits n v)) as H.
  { induction n as [|n IH]; intros w; cbn [x_digits]; [split; [reflexivity | constructor]|].
    destruct (IH (w / 256)) as [A B]. split; [cbn; lia|]. constructor; [|exact B]. lia. }
  apply H.
Qed.

(** Conditions that are decided by computing. *)
Definition x_same (g1 g2 : generation) : bool :=
  (g_version g1 =? g_version g2) &&
  match g_specname g1, g_specname g2 with Some a, Some b => eqb_bytes a b | None, None => true | _, _ => false end &&
  eqb_bytes (bs_toplevel (g_spec g1)) (bs_toplevel (g_spec g2)).
Definition x_hash (g : generation) : bytes := x_sha (utf8_encode (json_stub_inputs (bs_toplevel (g_spec g)) x_key)).
Definition x_plain (g : generation) : bool :=
  match g_specname g with Some n => forallb (fun x => (x <? 128) && negb (x =? 47)) n | None => true end &&
  forallb (fun x => negb (x =? 92)) (bs_kernel (g_spec g)).
Fixpoint x_pairs {A} (r : A -> A -> bool) (l : list A) : bool :=
  match l with [] => true | a :: l' => forallb (r a) l' && x_pairs r l' end.
Definition x_check (links : list link) : bool :=
  forallb x_plain (x_gens links) &&
  x_pairs (fun g1 g2 => negb (x_same g1 g2)) (x_gens links) &&
  x_pairs (fun g1 g2 => eqb_bytes (bs_toplevel (g_spec g1)) (bs_toplevel (g_spec g2)) || negb (eqb_bytes (x_hash g1) (x_hash g2))) (x_gens links).

Lemma x_pairs_spec {A} (r : A -> A -> bool) (l : list A) : x_pairs r l = true ->
  forall a b, In a l -> In b l -> a = b \/ r a b = true \/ r b a = true.
Proof.
  induction l as [|x l IH]; [contradiction|]. cbn [x_pairs]. rewrite andb_true_iff, forallb_forall. intros [H1 H2] a b [<-|Ha] [<-|Hb]; auto.
Qed.

Lemma x_sound links : x_check links = true -> sound (x_machine links).
Proof.
  intros C. unfold x_check in C. rewrite !andb_true_iff, forallb_forall in C. destruct C as [[C1 C2] C3].
  pose proof (x_pairs_spec _ _ C2) as D2. pose proof (x_pairs_spec _ _ C3) as D3. clear C2 C3.
  constructor; cbn [x_machine ma_sha ma_digit ma_gens ma_keys].
  - apply x_sha_hash.
  - intros ch _. rewrite andb_true_iff, !N.leb_le. reflexivity.
  - intros g1 g2 H1 H2 V S T.
    assert (forall a b, g_version a = g_version b -> g_specname a = g_specname b -> bs_toplevel (g_spec a) = bs_toplevel (g_spec b) -> x_same a b = true) as SM.
    { intros a b V' S' T'. unfold x_same. rewrite V', S', T', N.eqb_refl. cbn [andb].
      destruct (g_specname b); rewrite ?(proj2 (eqb_bytes_spec _ _) eq_refl); reflexivity. }
    destruct (D2 g1 g2 H1 H2) as [E|[E|E]]; [exact E | |]; rewrite SM in E; auto; discriminate.
  - intros g Hg. specialize (C1 g Hg). unfold x_plain in C1. rewrite andb_true_iff in C1. destruct C1 as [A B]. split.
    + intros n Hn. rewrite Hn, forallb_forall in A. split.
      * intros X. specialize (A 47 X). cbn in A. discriminate.
      * apply Forall_forall. intros x X. specialize (A x X). unfold scalar_value. lia.
    + rewrite forallb_forall in B. intros X. specialize (B 92 X). cbn in B. discriminate.
  - intros x y (g1 & k1 & H1 & <- & ->) (g2 & k2 & H2 & <- & ->) E.
    destruct (D3 g1 g2 H1 H2) as [->|[D|D]]; [reflexivity | |]; rewrite orb_true_iff, negb_true_iff in D; unfold x_hash in D; destruct D as [D|D].
    + apply eqb_bytes_spec in D. rewrite D. reflexivity.
    + rewrite (proj2 (eqb_bytes_spec _ _) E) in D. discriminate.
    + apply eqb_bytes_spec in D. rewrite D. reflexivity.
    + rewrite (proj2 (eqb_bytes_spec _ _) (eq_sym E)) in D. discriminate.
Qed.

Lemma x_fit links fault limit tries pcrlock sub :
  incl sub links -> pcrlock <> Some [] -> (forall d r, pcrlock = Some (d :: r) -> d <> lit "boot") ->
  fits (x_machine links) (x_env x_files fault) (x_config limit tries pcrlock sub).
Proof.
  intros IL P1 P2. constructor; cbn [x_machine ma_esp ma_sha ma_parse ma_digit ma_store ma_gens ma_keys ma_good x_env e_sha e_parse e_digit e_store e_signer e_objcopy e_list e_walk x_config c_esp c_stub c_links c_pcrlock]; auto.
  - intros g H. apply selected_link in H. cbn [x_config c_links] in H. unfold x_gens in *.
    apply in_flat_map in H as (l & HL & HG). apply in_flat_map. exists l. auto.
  - cbn. intros key [= <-]. reflexivity.
  - split; intros; apply incl_refl.
  - intros d E. cbn [c_pcrlock x_config c_esp] in *. rewrite E in *. destruct d as [|n r]; [contradiction P1; reflexivity|].
    specialize (P2 n r eq_refl). split; intros [q H]; apply P2; apply (f_equal (fun l => hd [] l)) in H; [exact H | exact (eq_sym H)].
  - intros stub p0 sections image out ST _ NS _ OB SG.
    assert (stub = x_stub) as -> by (vm_compute in ST; injection ST as <-; reflexivity).
    eapply (x_tools x_key); eauto. vm_compute. reflexivity.
Qed.

(** An ESP without kernels and entries of the installer. *)
Definition x_clean (m : fs) : bool :=
  forallb (fun pn => match fst pn with
                     | [_; _; d; n] => negb (eqb_bytes d (lit "nixos")) && negb (starts_with (lit "nixos-generation-") n)
                     | _ => true
                     end) m.

Lemma starts_with_app p r : starts_with p (p ++ r) = true.
Proof. induction p as [|a p IH]; [reflexivity|]. cbn [app starts_with]. rewrite N.eqb_refl. exact IH. Qed.

Lemma named_generation M key g n : named M key g n -> exists r, n = lit "nixos-generation-" ++ r.
Proof.
  intros (cnt & _ & D). apply utf8_encode_decode in D as [D _]. rewrite <- D.
  unfold stub_prefix. destruct (g_specname g); eexists; rewrite !utf8_encode_app; rewrite <- ?app_assoc; reflexivity.
Qed.

Lemma x_start links m : x_clean m = true -> history (x_machine links) m.
Proof.
  intros H. unfold x_clean in H. rewrite forallb_forall in H.
  assert (forall p, lookup m p <> None -> match p with
    | [_; _; d; n] => negb (eqb_bytes d (lit "nixos")) && negb (starts_with (lit "nixos-generation-") n) | _ => true end = true) as HL.
  { intros p L. apply lookup_In in L as [n L]. exact (H _ L). }
  constructor.
  - intros n x. destruct (lookup m _) as [nd|] eqn:L; [|exact Logic.I].
    specialize (HL (nixos_file (x_machine links) (n ++ lit "-" ++ base32 (ma_sha (x_machine links) x) ++ lit ".efi")) ltac:(rewrite L; discriminate)).
    cbn [nixos_file x_machine ma_esp app] in HL. rewrite andb_true_iff in HL. destruct HL as [HL _]. vm_compute in HL. discriminate.
  - intros g key n y b _ _ NM L. apply named_generation in NM as [r ->].
    specialize (HL (linux_file (x_machine links) (lit "nixos-generation-" ++ r)) ltac:(rewrite L; discriminate)).
    change (negb false && negb (starts_with (lit "nixos-generation-") (lit "nixos-generation-" ++ r)) = true) in HL.
    rewrite starts_with_app in HL. discriminate.
Qed.
