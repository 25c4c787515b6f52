(** Proofs about the text of the install hook (C72). *)
From Coq Require Import List NArith Bool Lia.
From Verif Require Import Base PBase MText PText MFs MCli MHook MHookText MClap SHook SShell PHook.
Import ListNotations.
Open Scope N_scope.

(** ** Words *)

Lemma ordinary_not c : ordinary c = true -> (c =? 32) = false /\ (c =? 10) = false /\ (c =? 35) = false /\
  (c =? 92) = false /\ (c =? 39) = false /\ (c =? 34) = false.
Proof.
  intros H. assert (forall k, ordinary k = false -> (c =? k) = false) as NE.
  { intros k K. apply N.eqb_neq. intros ->. congruence. }
  repeat split; apply NE; reflexivity.
Qed.

Definition bare (s : bytes) : word := map (fun c => (c, false)) s.
Definition quoted (s : bytes) : word := map (fun c => (c, true)) s.

Lemma shell_bare t : forall w ws r, forallb ordinary t = true -> shell Bare w ws (t ++ r) = shell Bare (w ++ bare t) ws r.
Proof.
  induction t as [|c t IH]; intros w ws r H; cbn [app bare map]; [rewrite app_nil_r; reflexivity|].
  cbn [forallb] in H. apply andb_prop in H as [H1 H2]. cbn [shell].
  destruct (ordinary_not c H1) as (-> & -> & _ & -> & -> & ->). rewrite H1, IH by exact H2.
  rewrite <- app_assoc. reflexivity.
Qed.

Lemma shell_word t ws r : t <> [] -> forallb ordinary t = true -> shell Blank [] ws (t ++ r) = shell Bare (bare t) ws r.
Proof.
  destruct t as [|c t]; [congruence|]. intros _ H. cbn [forallb] in H. apply andb_prop in H as [H1 H2].
  cbn [app shell]. destruct (ordinary_not c H1) as (-> & -> & -> & -> & -> & ->). rewrite H1, shell_bare by exact H2. reflexivity.
Qed.

Lemma shell_single s : forall w ws r,
  shell Single w ws (flat_map (fun c => if c =? 39 then [39; 92; 39; 39] else [c]) s ++ 39 :: r) = shell Bare (w ++ quoted s) ws r.
Proof.
  induction s as [|c s IH]; intros w ws r; cbn [flat_map app quoted map]; [cbn; rewrite app_nil_r; reflexivity|].
  destruct (c =? 39) eqn:E.
  - apply N.eqb_eq in E as ->. change ([39; 92; 39; 39] ++ flat_map (fun c => if c =? 39 then [39; 92; 39; 39] else [c]) s) with
      (39 :: 92 :: 39 :: 39 :: flat_map (fun c => if c =? 39 then [39; 92; 39; 39] else [c]) s).
    rewrite <- !app_comm_cons. cbn [shell]. change (39 =? 39) with true. change (92 =? 32) with false. change (92 =? 10) with false.
    change (92 =? 92) with true. change (39 =? 10) with false. change (39 =? 32) with false. change (39 =? 92) with false. cbn iota.
    rewrite IH, <- app_assoc. reflexivity.
  - cbn [app shell]. rewrite E, IH, <- app_assoc. reflexivity.
Qed.

(** A word that stands for exactly one argument. *)
Definition literal (q : word) (s : bytes) : Prop := text_of q = s /\ unquoted (lit "$~{}*?[") q = false.

Lemma unquoted_quoted cs s : unquoted cs (quoted s) = false.
Proof. unfold unquoted, quoted. induction s as [|c s IH]; cbn; auto. Qed.
Lemma text_quoted s : text_of (quoted s) = s.
Proof. unfold text_of, quoted. rewrite map_map. apply map_id. Qed.
Lemma text_bare s : text_of (bare s) = s.
Proof. unfold text_of, bare. rewrite map_map. apply map_id. Qed.

Lemma literal_bare s : (forall c, In c s -> ~ In c (lit "$~{}*?[")) -> literal (bare s) s.
Proof.
  intros H. split; [apply text_bare|]. unfold unquoted, bare. destruct (existsb _ _) eqn:E; [|reflexivity]. exfalso.
  apply existsb_exists in E as (x & I & E). apply in_map_iff in I as (c & <- & I). cbn [snd fst negb andb] in E.
  apply existsb_exists in E as (k & K & E). apply N.eqb_eq in E as <-. exact (H c I K).
Qed.

Lemma unquoted_sub cs ds w : incl cs ds -> unquoted ds w = false -> unquoted cs w = false.
Proof.
  intros S H. destruct (unquoted cs w) eqn:E; [|reflexivity]. rewrite <- H. symmetry. unfold unquoted in *.
  apply existsb_exists in E as (x & I & E). apply existsb_exists. exists x. split; [exact I|].
  apply andb_prop in E as [E1 E2]. rewrite E1. apply existsb_exists in E2 as (k & K & E2). apply existsb_exists. eauto.
Qed.

Lemma expand_literal glob q s : literal q s -> expand glob q = Some [s].
Proof.
  intros [T U]. unfold expand.
  rewrite (unquoted_sub (lit "$~{}") (lit "$~{}*?[") q), (unquoted_sub (lit "*?[") (lit "$~{}*?[") q), T; auto;
    intros c; cbn; tauto.
Qed.

Lemma safe_ordinary c : safe c = true -> ordinary c = true /\ ~ In c (lit "$~{}*?[").
Proof.
  intros H. split.
  - unfold safe, ordinary, alphanumeric in *. apply orb_prop in H as [H|H]; [rewrite H; reflexivity|].
    apply orb_true_iff. right. apply existsb_exists in H as (k & K & E). apply existsb_exists. exists k. split; [|exact E].
    revert K. cbn. tauto.
  - intros I. cbn in I. repeat (destruct I as [<-|I]; [discriminate H|]); exact I.
Qed.

Lemma shell_escape s ws r : exists q, literal q s /\ shell Blank [] ws (escape_arg s ++ r) = shell Bare q ws r.
Proof.
  unfold escape_arg. destruct (_ && forallb safe s) eqn:E.
  - apply andb_prop in E as [E1 E2]. exists (bare s).
    assert (forall c, In c s -> ordinary c = true /\ ~ In c (lit "$~{}*?[")) as O.
    { intros c I. apply safe_ordinary. rewrite forallb_forall in E2. auto. }
    split; [apply literal_bare; intros c I; apply O, I|]. apply shell_word; [destruct s; [discriminate|discriminate]|].
    apply forallb_forall. intros c I. apply O, I.
  - exists (quoted s). split; [split; [apply text_quoted | apply unquoted_quoted]|].
    rewrite <- !app_assoc. cbn [app]. cbn [shell]. change (39 =? 32) with false. change (39 =? 10) with false. change (39 =? 35) with false.
    change (39 =? 92) with false. change (39 =? 39) with true. cbn iota. rewrite shell_single. reflexivity.
Qed.

Lemma shell_escapes l : l <> [] -> forall ws r, exists qs q, Forall2 literal (qs ++ [q]) l /\
  shell Blank [] ws (escape_args l ++ r) = shell Bare q (ws ++ qs) r.
Proof.
  unfold escape_args. induction l as [|s l IH]; [congruence|]. intros _ ws r.
  destruct l as [|s2 l].
  - destruct (shell_escape s ws r) as (q & L & E). exists [], q. cbn [map join app]. rewrite app_nil_r. auto.
  - change (join (lit " ") (map escape_arg (s :: s2 :: l))) with (escape_arg s ++ lit " " ++ join (lit " ") (map escape_arg (s2 :: l))).
    rewrite <- !app_assoc. destruct (shell_escape s ws (lit " " ++ join (lit " ") (map escape_arg (s2 :: l)) ++ r)) as (q & L & E).
    rewrite E. change (shell Bare q ws (lit " " ++ join (lit " ") (map escape_arg (s2 :: l)) ++ r)) with
      (shell Blank [] (ws ++ [q]) (join (lit " ") (map escape_arg (s2 :: l)) ++ r)).
    destruct (IH ltac:(discriminate) (ws ++ [q]) r) as (qs & q' & F & E'). exists (q :: qs), q'. rewrite E'. cbn [app].
    split; [constructor; assumption|]. rewrite <- app_assoc. reflexivity.
Qed.

Lemma expand_literals glob qs l : Forall2 literal qs l -> expand_all glob qs = Some l.
Proof.
  induction 1 as [|q s qs l L F IH]; cbn [expand_all]; [reflexivity|]. rewrite (expand_literal glob q s L), IH. reflexivity.
Qed.

Lemma expand_app glob a b x y : expand_all glob a = Some x -> expand_all glob b = Some y -> expand_all glob (a ++ b) = Some (x ++ y).
Proof.
  revert x. induction a as [|w a IH]; intros x A B; cbn [app expand_all] in *; [injection A as <-; exact B|].
  destruct (expand glob w) as [u|]; [|discriminate]. destruct (expand_all glob a) as [v|]; [|discriminate]. injection A as <-.
  rewrite (IH v eq_refl B), app_assoc. reflexivity.
Qed.

(** ** Plain texts *)

Lemma plain_ordinary s : plain s -> forallb ordinary s = true /\ literal (bare s) s /\ Forall (fun c => c < 128) s /\ dashed s = false.
Proof.
  intros (NE & H & ND). assert (forall c, In c s -> ordinary c = true /\ ~ In c (lit "$~{}*?[") /\ c < 128) as O.
  { intros c I. destruct (H c I) as [A|A].
    - split; [unfold ordinary; rewrite A; reflexivity|]. split.
      + intros K. cbn in K. repeat (destruct K as [<-|K]; [discriminate A|]); exact K.
      + unfold alphanumeric in A. rewrite !orb_true_iff, !andb_true_iff, !N.leb_le in A. lia.
    - cbn in A. destruct A as [<-|[<-|[<-|[<-|[<-|[<-|[]]]]]]]; (split; [reflexivity|]; split; [cbn; intuition discriminate | reflexivity]). }
  split; [apply forallb_forall; intros c I; apply O, I|].
  split; [apply literal_bare; intros c I; apply O, I|]. split; [apply Forall_forall; intros c I; apply O, I|].
  destruct s as [|c [|d s]]; try reflexivity. cbn. apply N.eqb_neq. intros ->. exact (ND _ eq_refl).
Qed.

Lemma dec_plain n : forallb ordinary (dec n) = true /\ literal (bare (dec n)) (dec n) /\ dashed (dec n) = false.
Proof.
  pose proof (dec_digits n) as D. rewrite Forall_forall in D.
  assert (forall c, In c (dec n) -> ordinary c = true /\ ~ In c (lit "$~{}*?[")) as O.
  { intros c I. specialize (D c I). split.
    - unfold ordinary, alphanumeric. replace (48 <=? c) with true by (symmetry; apply N.leb_le; lia).
      replace (c <=? 57) with true by (symmetry; apply N.leb_le; lia). reflexivity.
    - cbn. lia. }
  split; [apply forallb_forall; intros c I; apply O, I|]. split; [apply literal_bare; intros c I; apply O, I|].
  destruct (dec n) as [|c [|d s]]; try reflexivity. cbn. apply N.eqb_neq. specialize (D c (or_introl eq_refl)). lia.
Qed.

(** ** clap *)

Lemma opt_two n v s rest : n <> [] -> split_value n = (n, None) -> dashed v = false ->
  clap_install false s ((45 :: 45 :: n) :: v :: rest) =
  match put s n v with Some s' => clap_install false s' rest | None => None end.
Proof.
  intros NE SV DV. cbn [clap_install]. change (dashed (45 :: 45 :: n)) with true. cbn [orb negb].
  assert (eqb_bytes (45 :: 45 :: n) (lit "--") = false) as -> by (apply eqb_bytes_false; cbn; congruence).
  change (starts_with (lit "--") (45 :: 45 :: n)) with true. cbn [skipn]. cbn iota. rewrite SV, DV. reflexivity.
Qed.

Lemma split_value_eq n v : ~ In 61 n -> split_value (n ++ 61 :: v) = (n, Some v).
Proof.
  induction n as [|c n IH]; intros H; cbn [app split_value]; [reflexivity|].
  assert ((c =? 61) = false) as -> by (apply N.eqb_neq; intros ->; apply H; left; reflexivity).
  rewrite IH by (intros I; apply H; right; exact I). reflexivity.
Qed.

Lemma opt_eq n v s rest : n <> [] -> ~ In 61 n ->
  clap_install false s ((45 :: 45 :: n ++ 61 :: v) :: rest) =
  match put s n v with Some s' => clap_install false s' rest | None => None end.
Proof.
  intros NE N61. cbn [clap_install]. change (dashed (45 :: 45 :: n ++ 61 :: v)) with true. cbn [orb negb].
  assert (eqb_bytes (45 :: 45 :: n ++ 61 :: v) (lit "--") = false) as ->.
  { apply eqb_bytes_false. cbn. destruct n; [congruence|]. discriminate. }
  change (starts_with (lit "--") (45 :: 45 :: n ++ 61 :: v)) with true. cbn [skipn]. cbn iota. rewrite split_value_eq by exact N61. reflexivity.
Qed.

Lemma clap_positional l : forall s, (forall a, In a l -> dashed a = false) ->
  clap_install false s l = Some (fold_left positional l s).
Proof.
  induction l as [|a l IH]; intros s H; cbn [clap_install fold_left]; [reflexivity|].
  rewrite (H a (or_introl eq_refl)). cbn [orb negb]. apply IH. intros b I. apply H. right. exact I.
Qed.

Lemma positional_all l : forall sy sd co al pu pr li tr pc ps,
  fold_left positional l (Seen sy sd co al pu pr li tr pc ps) = Seen sy sd co al pu pr li tr pc (ps ++ l).
Proof.
  induction l as [|a l IH]; intros; cbn [fold_left positional]; [rewrite app_nil_r; reflexivity|].
  rewrite IH, <- app_assoc. reflexivity.
Qed.

Lemma every_paths l : (forall a, In a l -> a <> []) -> every path_value l = Some l.
Proof.
  induction l as [|a l IH]; intros H; cbn [every]; [reflexivity|]. rewrite IH by (intros b I; apply H; right; exact I).
  specialize (H a (or_introl eq_refl)). destruct a; [congruence|reflexivity].
Qed.

Lemma path_value_some v : v <> [] -> path_value v = Some v.
Proof. destruct v; [congruence | reflexivity]. Qed.

(** The arguments of the hook. *)
Definition hook_argv (o : options) (links : list bytes) (esp : bytes) : list bytes :=
  [lit "install"; lit "--system"; o_system o; lit "--systemd"; o_systemd o;
   lit "--systemd-boot-loader-config"; o_conf o; lit "--configuration-limit"; dec (configuration_limit o);
   lit "--allow-unsigned"; (if o_allow_unsigned o then lit "true" else lit "false");
   lit "--bootcounting-initial-tries"; dec (o_tries o)] ++
  [lit "--public-key=" ++ o_public_key o; lit "--private-key=" ++ o_private_key o] ++
  (if o_measured o && existsb (N.eqb 4) (o_pcrs o) then [lit "--pcrlock-directory=" ++ o_pcrlock o] else []) ++
  [esp] ++ links.

Lemma clap_hook o x glob links esp : proper o x glob -> In esp (o_esp o :: o_extra o) ->
  (forall q, In q links -> exists r, q = 47 :: r) ->
  clap (hook_argv o links esp) = Some (install_args o links esp).
Proof.
  intros PP IE IL.
  destruct (plain_ordinary _ (pp_system _ _ _ PP)) as (_ & _ & SY & DSY).
  destruct (plain_ordinary _ (pp_systemd _ _ _ PP)) as (_ & _ & _ & DSD).
  destruct (plain_ordinary _ (pp_conf _ _ _ PP)) as (_ & _ & _ & DCO).
  assert (forall q, In q (esp :: links) -> dashed q = false /\ q <> []) as POS.
  { intros q [<-|I]; [destruct (pp_esp _ _ _ PP esp IE) as [r ->] | destruct (IL q I) as [r ->]];
      (split; [destruct r; reflexivity | discriminate]). }
  set (pos := esp :: links) in *.
  assert (hook_argv o links esp = lit "install" :: (lit "--system") :: o_system o :: lit "--systemd" :: o_systemd o ::
   lit "--systemd-boot-loader-config" :: o_conf o :: lit "--configuration-limit" :: dec (configuration_limit o) ::
   lit "--allow-unsigned" :: (if o_allow_unsigned o then lit "true" else lit "false") ::
   lit "--bootcounting-initial-tries" :: dec (o_tries o) ::
   (45 :: 45 :: lit "public-key" ++ 61 :: o_public_key o) :: (45 :: 45 :: lit "private-key" ++ 61 :: o_private_key o) ::
   ((if o_measured o && existsb (N.eqb 4) (o_pcrs o) then [45 :: 45 :: lit "pcrlock-directory" ++ 61 :: o_pcrlock o] else []) ++ pos)) as ->
    by reflexivity.
  change (clap (lit "install" :: ?l)) with (match clap_install false nothing l with Some s => typed s | None => None end).
  change (lit "--system") with (45 :: 45 :: lit "system").
  rewrite (opt_two (lit "system")) by (reflexivity || discriminate || exact DSY).
  change (put nothing (lit "system") ?v) with (Some (Seen (Some v) None None None None None None None None [])). cbv iota beta.
  change (lit "--systemd") with (45 :: 45 :: lit "systemd").
  rewrite (opt_two (lit "systemd")) by (reflexivity || discriminate || exact DSD).
  change (put (Seen ?a None None None None None None None None []) (lit "systemd") ?v) with (Some (Seen a (Some v) None None None None None None None [])). cbv iota beta.
  change (lit "--systemd-boot-loader-config") with (45 :: 45 :: lit "systemd-boot-loader-config").
  rewrite (opt_two (lit "systemd-boot-loader-config")) by (reflexivity || discriminate || exact DCO).
  change (put (Seen ?a ?b None None None None None None None []) (lit "systemd-boot-loader-config") ?v) with (Some (Seen a b (Some v) None None None None None None [])). cbv iota beta.
  change (lit "--configuration-limit") with (45 :: 45 :: lit "configuration-limit").
  rewrite (opt_two (lit "configuration-limit")) by (reflexivity || discriminate || apply dec_plain).
  change (put (Seen ?a ?b ?c None None None None None None []) (lit "configuration-limit") ?v) with (Some (Seen a b c None None None (Some v) None None [])). cbv iota beta.
  change (lit "--allow-unsigned") with (45 :: 45 :: lit "allow-unsigned").
  rewrite (opt_two (lit "allow-unsigned")) by (reflexivity || discriminate || (destruct (o_allow_unsigned o); reflexivity)).
  change (put (Seen ?a ?b ?c None None None ?d None None []) (lit "allow-unsigned") ?v) with (Some (Seen a b c (Some v) None None d None None [])). cbv iota beta.
  change (lit "--bootcounting-initial-tries") with (45 :: 45 :: lit "bootcounting-initial-tries").
  rewrite (opt_two (lit "bootcounting-initial-tries")) by (reflexivity || discriminate || apply dec_plain).
  change (put (Seen ?a ?b ?c ?e None None ?d None None []) (lit "bootcounting-initial-tries") ?v) with (Some (Seen a b c e None None d (Some v) None [])). cbv iota beta.
  rewrite (opt_eq (lit "public-key")) by (discriminate || (cbn; intuition discriminate)).
  change (put (Seen ?a ?b ?c ?e None None ?d ?f None []) (lit "public-key") ?v) with (Some (Seen a b c e (Some v) None d f None [])). cbv iota beta.
  rewrite (opt_eq (lit "private-key")) by (discriminate || (cbn; intuition discriminate)).
  change (put (Seen ?a ?b ?c ?e ?g None ?d ?f None []) (lit "private-key") ?v) with (Some (Seen a b c e g (Some v) d f None [])). cbv iota beta.
  set (S0 := fun pc => Seen (Some (o_system o)) (Some (o_systemd o)) (Some (o_conf o)) (Some (if o_allow_unsigned o then lit "true" else lit "false"))
     (Some (o_public_key o)) (Some (o_private_key o)) (Some (dec (configuration_limit o))) (Some (dec (o_tries o))) pc []).
  assert (clap_install false (S0 None) ((if o_measured o && existsb (N.eqb 4) (o_pcrs o) then [45 :: 45 :: lit "pcrlock-directory" ++ 61 :: o_pcrlock o] else []) ++ pos) =
     clap_install false (S0 (if o_measured o && existsb (N.eqb 4) (o_pcrs o) then Some (o_pcrlock o) else None)) pos) as E.
  { destruct (o_measured o && existsb (N.eqb 4) (o_pcrs o)); [|reflexivity]. cbn [app].
    rewrite (opt_eq (lit "pcrlock-directory")) by (discriminate || (cbn; intuition discriminate)). reflexivity. }
  unfold S0 in E at 1. rewrite E. clear E. rewrite clap_positional by (intros a I; apply POS, I).
  unfold S0. rewrite positional_all. cbn [app]. unfold typed, pos.
  cbn [p_system p_systemd p_conf p_positional p_allow p_public p_private p_limit p_tries p_pcrlock].
  rewrite (utf8_decode_ascii _ SY), !path_value_some by (apply (pp_systemd _ _ _ PP) || apply (pp_conf _ _ _ PP)).
  assert (optional bool_value (Some (if o_allow_unsigned o then lit "true" else lit "false")) = Some (Some (o_allow_unsigned o))) as ->
    by (destruct (o_allow_unsigned o); reflexivity).
  assert (forall v, v <> [] -> optional path_value (Some v) = Some (Some v)) as OP
    by (intros v NV; unfold optional; rewrite (path_value_some v NV); reflexivity).
  rewrite !OP by (apply (pp_public _ _ _ PP) || apply (pp_private _ _ _ PP)).
  assert (forall max n, n <= max -> optional (parse_unsigned max) (Some (dec n)) = Some (Some n)) as OD
    by (intros max n LE; unfold optional; rewrite (parse_unsigned_dec max n LE); reflexivity).
  rewrite !OD.
  2: { pose proof (pp_tries _ _ _ PP). lia. }
  2: { unfold configuration_limit. destruct (o_limit o) as [n|] eqn:L; [pose proof (pp_limit _ _ _ PP n L); lia | lia]. }
  assert (optional path_value (if o_measured o && existsb (N.eqb 4) (o_pcrs o) then Some (o_pcrlock o) else None) =
    Some (if o_measured o && existsb (N.eqb 4) (o_pcrs o) then Some (o_pcrlock o) else None)) as ->.
  { destruct (o_measured o && _); [|reflexivity]. apply OP, (pp_pcrlock _ _ _ PP). }
  rewrite path_value_some by (apply POS; left; reflexivity).
  rewrite every_paths by (intros a I; apply POS; right; exact I).
  reflexivity.
Qed.

Lemma clap_verbose l : clap (lit "-vv" :: l) = clap l.
Proof. reflexivity. Qed.

(** ** The text *)

Lemma line_some w ws r : line (w :: ws) r = match r with Some l => Some ((w :: ws) :: l) | None => None end.
Proof. reflexivity. Qed.

Lemma ordinary_app a b : forallb ordinary a = true -> forallb ordinary b = true -> forallb ordinary (a ++ b) = true.
Proof. intros A B. rewrite forallb_app, A, B. reflexivity. Qed.

Lemma literal_lit s : forallb (fun c => negb (existsb (N.eqb c) (lit "$~{}*?["))) s = true -> literal (bare s) s.
Proof.
  intros H. apply literal_bare. intros c I K. rewrite forallb_forall in H. specialize (H c I).
  apply negb_true_iff in H. rewrite <- not_true_iff_false in H. apply H. apply existsb_exists. exists c. split; [exact K | apply N.eqb_refl].
Qed.

Section Text.
Variables (o : options) (x : extras) (glob : bytes -> list bytes).
Hypothesis PP : proper o x glob.

Lemma dec_nonnil n : dec n <> [].
Proof. apply dec_nonempty. Qed.

(** Steps over the literal parts of the text. *)
Lemma step_next (name : bytes) ws w r : name <> [] -> forallb ordinary name = true ->
  shell Bare w ws (continued ++ 32 :: 32 :: name ++ 32 :: r) = shell Blank [] (ws ++ [w] ++ [bare name]) r.
Proof.
  intros NE O. change (shell Bare w ws (continued ++ ?t)) with (shell Blank [] (ws ++ [w]) t).
  change (shell Blank [] (ws ++ [w]) (32 :: 32 :: ?t)) with (shell Blank [] (ws ++ [w]) t).
  rewrite shell_word by assumption. change (shell Bare ?a ?b (32 :: r)) with (shell Blank [] (b ++ [a]) r).
  rewrite <- app_assoc. reflexivity.
Qed.

Lemma install_line esp r : In esp (o_esp o :: o_extra o) ->
  exists w ws, shell Blank [] [] (mk_install_command o x esp ++ 10 :: r) = line [w] (line ws (shell Blank [] [] r)) /\
    means o x glob Assign [w] /\ means o x glob (Install esp) ws /\ ws <> [].
Proof.
  intros IE.
  destruct (plain_ordinary _ (pp_system _ _ _ PP)) as (OSY & LSY & _ & _).
  destruct (plain_ordinary _ (pp_systemd _ _ _ PP)) as (OSD & LSD & _ & _).
  destruct (plain_ordinary _ (pp_conf _ _ _ PP)) as (OCO & LCO & _ & _).
  destruct (plain_ordinary _ (pp_lzbt _ _ _ PP)) as (OLZ & LLZ & _ & _).
  destruct (dec_plain (configuration_limit o)) as (ODL & LDL & _).
  destruct (dec_plain (o_tries o)) as (ODT & LDT & _).
  set (bt := if o_allow_unsigned o then lit "true" else lit "false").
  assert (bt <> [] /\ forallb ordinary bt = true /\ literal (bare bt) bt) as (NBT & OBT & LBT).
  { unfold bt. destruct (o_allow_unsigned o); (split; [discriminate|]; split; [reflexivity | apply literal_lit; reflexivity]). }
  set (keys := [lit "--public-key=" ++ o_public_key o; lit "--private-key=" ++ o_private_key o] ++
               (if o_measured o && existsb (N.eqb 4) (o_pcrs o) then [lit "--pcrlock-directory=" ++ o_pcrlock o] else []) ++ [esp]).
  set (pattern := lit "/nix/var/nix/profiles/system-*-link").
  set (flag := if x_debug x then [bare (lit "-vv")] else []).
  destruct (shell_escapes keys ltac:(discriminate)
    ([bare (x_lzbt x)] ++ flag ++ map bare [lit "install"; lit "--system"; o_system o; lit "--systemd"; o_systemd o;
     lit "--systemd-boot-loader-config"; o_conf o; lit "--configuration-limit"; dec (configuration_limit o);
     lit "--allow-unsigned"; bt; lit "--bootcounting-initial-tries"; dec (o_tries o)]) (32 :: pattern ++ 10 :: r)) as (qs & q & F & SE).
  set (pre := map bare [lit "install"; lit "--system"; o_system o; lit "--systemd"; o_systemd o;
     lit "--systemd-boot-loader-config"; o_conf o; lit "--configuration-limit"; dec (configuration_limit o);
     lit "--allow-unsigned"; bt; lit "--bootcounting-initial-tries"; dec (o_tries o)]) in *.
  exists (bare (lit "PATH=" ++ o_systemd o ++ lit "/lib/systemd:$PATH")), ((([bare (x_lzbt x)] ++ flag ++ pre) ++ qs ++ [q]) ++ [bare pattern]).
  split; [|split; [|split]].
  - unfold mk_install_command. fold keys. rewrite <- !app_assoc.
    set (tail := install_command o x ++ continued ++ escape_args keys ++ lit " /nix/var/nix/profiles/system-*-link" ++ 10 :: r).
    change (lit "PATH=" ++ o_systemd o ++ lit "/lib/systemd:$PATH" ++ [10] ++ tail) with
      (lit "PATH=" ++ o_systemd o ++ lit "/lib/systemd:$PATH" ++ 10 :: tail).
    assert (lit "PATH=" ++ o_systemd o ++ lit "/lib/systemd:$PATH" ++ 10 :: tail =
            (lit "PATH=" ++ o_systemd o ++ lit "/lib/systemd:$PATH") ++ 10 :: tail) as -> by (rewrite <- !app_assoc; reflexivity).
    rewrite shell_word by (discriminate || (apply ordinary_app; [reflexivity | apply ordinary_app; [exact OSD | reflexivity]])).
    change (shell Bare ?a [] (10 :: tail)) with (line [a] (shell Blank [] [] tail)). f_equal.
    unfold tail, install_command. rewrite <- !app_assoc.
    match goal with |- context[lit "# always, even in the cross compilation case, be the right system." ++ [10] ++ ?t] => set (t1 := t) end.
    change (shell Blank [] [] (lit "# Use the system from the kernel's hostPlatform because this should" ++ [10] ++
      lit "# always, even in the cross compilation case, be the right system." ++ [10] ++ t1)) with (shell Blank [] [] t1).
    unfold t1. clear t1 tail.
    rewrite shell_word by (exact OLZ || apply (pp_lzbt _ _ _ PP)).
    match goal with |- context[lit " install" ++ ?t] => set (t1 := t) end.
    assert (shell Bare (bare (x_lzbt x)) [] (lit " " ++ (if x_debug x then lit "-vv" else []) ++ lit " install" ++ t1) =
            shell Bare (bare (lit "install")) ([bare (x_lzbt x)] ++ flag) t1) as ->.
    { unfold flag. destruct (x_debug x); reflexivity. }
    unfold t1. clear t1.
    change (lit "  --system " ++ ?t) with (32 :: 32 :: lit "--system" ++ 32 :: t).
    rewrite step_next by (discriminate || reflexivity). rewrite shell_word by (exact OSY || apply (pp_system _ _ _ PP)).
    change (lit "  --systemd " ++ ?t) with (32 :: 32 :: lit "--systemd" ++ 32 :: t).
    rewrite step_next by (discriminate || reflexivity). rewrite shell_word by (exact OSD || apply (pp_systemd _ _ _ PP)).
    change (lit "  --systemd-boot-loader-config " ++ ?t) with (32 :: 32 :: lit "--systemd-boot-loader-config" ++ 32 :: t).
    rewrite step_next by (discriminate || reflexivity). rewrite shell_word by (exact OCO || apply (pp_conf _ _ _ PP)).
    change (lit "  --configuration-limit " ++ ?t) with (32 :: 32 :: lit "--configuration-limit" ++ 32 :: t).
    rewrite step_next by (discriminate || reflexivity). rewrite shell_word by (exact ODL || apply dec_nonnil).
    change (lit "  --allow-unsigned " ++ ?t) with (32 :: 32 :: lit "--allow-unsigned" ++ 32 :: t).
    rewrite step_next by (discriminate || reflexivity). fold bt. rewrite shell_word by assumption.
    change (lit "  --bootcounting-initial-tries " ++ ?t) with (32 :: 32 :: lit "--bootcounting-initial-tries" ++ 32 :: t).
    rewrite step_next by (discriminate || reflexivity). rewrite shell_word by (exact ODT || apply dec_nonnil).
    change (shell Bare ?w ?ws (continued ++ ?t)) with (shell Blank [] (ws ++ [w]) t).
    change (lit " /nix/var/nix/profiles/system-*-link" ++ 10 :: r) with (32 :: pattern ++ 10 :: r).
    match goal with |- shell Blank [] ?ws _ = _ => assert (ws = [bare (x_lzbt x)] ++ flag ++ pre) as -> by (unfold pre; cbn [map]; rewrite <- !app_assoc; reflexivity) end.
    rewrite SE. change (shell Bare ?a ?b (32 :: ?t)) with (shell Blank [] (b ++ [a]) t).
    rewrite shell_word by (discriminate || reflexivity).
    change (shell Bare ?a ?b (10 :: ?t)) with (line (b ++ [a]) (shell Blank [] [] t)). rewrite <- !app_assoc. reflexivity.
  - exists (o_systemd o ++ lit "/lib/systemd:$PATH"). reflexivity.
  - set (links := match glob pattern with [] => [pattern] | l => l end).
    assert (forall y, In y links -> exists s, y = 47 :: s) as IL.
    { intros y I. unfold links in I. destruct (glob pattern) as [|l0 ls] eqn:G.
      - destruct I as [<-|[]]. eexists. reflexivity.
      - rewrite <- G in I. apply (pp_links _ _ _ PP pattern y I). }
    split; [rewrite !app_length; unfold pre; cbn; lia|].
    exists ((if x_debug x then [lit "-vv"] else []) ++ hook_argv o links esp), (install_args o links esp), links.
    split; [|split; [|split; [|split]]].
    + assert (expand_all glob [bare pattern] = Some links) as EP.
      { cbn [expand_all]. change (expand glob (bare pattern)) with (Some (match glob (text_of (bare pattern)) with [] => [text_of (bare pattern)] | l => l end)).
        rewrite text_bare. fold links. cbn iota. rewrite app_nil_r. reflexivity. }
      assert (expand_all glob (qs ++ [q]) = Some keys) as EK by (apply expand_literals; exact F).
      assert (expand_all glob flag = Some (if x_debug x then [lit "-vv"] else [])) as EF.
      { unfold flag. destruct (x_debug x); reflexivity. }
      assert (expand_all glob pre = Some [lit "install"; lit "--system"; o_system o; lit "--systemd"; o_systemd o;
        lit "--systemd-boot-loader-config"; o_conf o; lit "--configuration-limit"; dec (configuration_limit o);
        lit "--allow-unsigned"; bt; lit "--bootcounting-initial-tries"; dec (o_tries o)]) as EPRE.
      { unfold pre. cbn [map]. apply expand_literals. repeat (constructor; [try assumption; apply literal_lit; reflexivity|]). constructor. }
      assert (expand_all glob [bare (x_lzbt x)] = Some [x_lzbt x]) as EL by (apply expand_literals; constructor; [exact LLZ | constructor]).
      rewrite (expand_app glob _ _ _ _ (expand_app glob _ _ _ _ (expand_app glob _ _ _ _ EL (expand_app glob _ _ _ _ EF EPRE)) EK) EP).
      f_equal. unfold hook_argv, keys, bt. rewrite <- !app_assoc. cbn [app]. destruct (x_debug x), (o_measured o && existsb (N.eqb 4) (o_pcrs o)); reflexivity.
    + destruct (x_debug x); cbn [app]; [rewrite clap_verbose|]; apply (clap_hook o x glob); assumption.
    + apply wanted_args.
    + intros G. unfold links. fold pattern in G |- *. destruct (glob pattern); [congruence | reflexivity].
    + intros G. unfold links. fold pattern in G |- *. rewrite G. reflexivity.
  - discriminate.
Qed.

Lemma install_lines : forall esps r cmds, (forall e, In e esps -> In e (o_esp o :: o_extra o)) -> esps <> [] ->
  shell Blank [] [] r = Some cmds ->
  exists cs, shell Blank [] [] (join [10] (map (mk_install_command o x) esps) ++ [10] ++ r) = Some (cs ++ cmds) /\
    Forall2 (means o x glob) (flat_map (fun esp => [Assign; Install esp]) esps) cs.
Proof.
  induction esps as [|e esps IH]; intros r cmds IN NE R; [congruence|].
  destruct esps as [|e2 esps].
  - cbn [map join flat_map app]. destruct (install_line e r (IN e (or_introl eq_refl))) as (w & ws & E & M1 & M2 & NW).
    rewrite E, R. destruct ws as [|w2 ws]; [congruence|]. cbn [line]. exists [[w]; w2 :: ws]. split; [reflexivity|]. auto.
  - change (join [10] (map (mk_install_command o x) (e :: e2 :: esps))) with
      (mk_install_command o x e ++ [10] ++ join [10] (map (mk_install_command o x) (e2 :: esps))).
    rewrite <- !app_assoc. destruct (IH r cmds (fun a I => IN a (or_intror I)) ltac:(discriminate) R) as (cs & E2 & F).
    set (rest := join [10] (map (mk_install_command o x) (e2 :: esps)) ++ [10] ++ r) in *.
    change (mk_install_command o x e ++ [10] ++ rest) with (mk_install_command o x e ++ 10 :: rest).
    destruct (install_line e rest (IN e (or_introl eq_refl))) as (w & ws & E & M1 & M2 & NW).
    rewrite E, E2. destruct ws as [|w2 ws]; [congruence|]. cbn [line]. exists ([w] :: (w2 :: ws) :: cs). split; [reflexivity|].
    change (flat_map (fun esp => [Assign; Install esp]) (e :: e2 :: esps)) with
      (Assign :: Install e :: flat_map (fun esp => [Assign; Install esp]) (e2 :: esps)). auto.
Qed.

Lemma hook_meaning : exists cmds, commands (hook_text o x) = Some cmds /\ Forall2 (means o x glob) (hook_lines o) cmds.
Proof.
  unfold commands, hook_text, hook_lines. destruct (o_measured o).
  - set (pc := [o_systemd o ++ lit "/lib/systemd/systemd-pcrlock"; lit "make-policy";
                lit "--components=" ++ x_static x; lit "--components=" ++ o_pcrlock o;
                lit "--policy=" ++ x_policy x; lit "--location=770"] ++ map (fun n => lit "--pcr=" ++ dec n) (o_pcrs o)).
    destruct (shell_escapes pc ltac:(discriminate) [] [10]) as (qs & q & F & SE).
    destruct (install_lines (mount_points o) (lit "echo ""Predicting the PCR state for future boots...""" ++ [10] ++ make_policy_command o x ++ [10])
      [[bare (lit "echo"); quoted (lit "Predicting the PCR state for future boots...")]; qs ++ [q]]) as (cs & E & FM).
    + auto.
    + discriminate.
    + change (shell Blank [] [] (lit "echo ""Predicting the PCR state for future boots...""" ++ [10] ++ ?t)) with
        (line [bare (lit "echo"); quoted (lit "Predicting the PCR state for future boots...")] (shell Blank [] [] t)).
      unfold make_policy_command. fold pc. rewrite SE. cbn [app].
      change (shell Bare q qs [10]) with (line (qs ++ [q]) (Some [])). destruct qs; reflexivity.
    + eexists. split; [exact E|]. apply Forall2_app; [exact FM|]. constructor; [|constructor; [|constructor]].
      * split; [cbn; lia|]. exists (lit "Predicting the PCR state for future boots..."). reflexivity.
      * split; [assert (length (qs ++ [q]) = length pc) as -> by (clear - F; induction F; cbn; congruence); unfold pc; cbn; lia|]. exists (map (fun n => lit "--pcr=" ++ dec n) (o_pcrs o)). split; [|apply expand_literals; exact F].
        clear. induction (o_pcrs o); cbn; constructor; auto.
  - destruct (install_lines (mount_points o) [] []) as (cs & E & FM); auto; [discriminate|].
    rewrite (app_nil_r cs) in E. exists cs. split; [exact E|]. rewrite app_nil_r. exact FM.
Qed.
End Text.


(** ** Running the text *)

Section Run.
Variables (o : options) (x : extras) (u : surroundings) (globs : nat -> bytes -> list bytes).
Hypothesis PP : forall i, proper o x (globs i).
Hypothesis SE : sees u globs.

Notation pcrlock := (o_systemd o ++ lit "/lib/systemd/systemd-pcrlock").
Notation run := (execute u globs (x_lzbt x) pcrlock).

Lemma eqb_no a b : a <> b -> eqb_bytes a b = false.
Proof. intros N. destruct (eqb_bytes a b) eqn:E; [|reflexivity]. apply eqb_bytes_spec in E. contradiction. Qed.
Lemma eqb_yes a : eqb_bytes a a = true.
Proof. apply eqb_bytes_spec. reflexivity. Qed.

Lemma run_assign i ws r m st : means o x (globs i) Assign ws -> run i (ws :: r) m st = run i r m 0.
Proof. intros (t & ->). reflexivity. Qed.

Lemma wanted_is links esp a : wanted o links esp a -> a = install_args o links esp.
Proof.
  intros (A1 & A2 & A3 & A4 & A5 & A6 & A7 & A8 & A9 & A10 & A11 & A12 & A13). destruct a. cbn in *. subst.
  unfold install_args, configuration_limit. f_equal.
  - destruct (o_limit o); auto.
  - destruct (o_measured o); cbn [andb]; [|apply A11; auto].
    destruct (existsb (N.eqb 4) (o_pcrs o)) eqn:E.
    + apply A10; [reflexivity|]. apply existsb_exists in E as (y & I & Y). apply N.eqb_eq in Y. subst y. exact I.
    + apply A11. right. intros I. assert (existsb (N.eqb 4) (o_pcrs o) = true) as T.
      { apply existsb_exists. exists 4. split; [exact I | reflexivity]. } congruence.
Qed.

Lemma run_install i esp ws r m st : means o x (globs i) (Install esp) ws ->
  run i (ws :: r) m st =
  let '(m', _, n) := lzbt (u_world u i) (install_args o (u_links u i) esp) m in run (S i) r m' n.
Proof.
  intros (L & argv & a & links & E & C & W & G1 & G2). cbn [execute].
  assert (sets_path ws = false) as ->. { destruct ws as [|w1 [|w2 ws]]; cbn in L; try lia; reflexivity. }
  rewrite E, eqb_yes. unfold lzbt_main. rewrite C.
  assert (links = u_links u i) as LK.
  { destruct (SE i) as [S1 S2]. destruct (globs i (lit "/nix/var/nix/profiles/system-*-link")) eqn:G.
    - rewrite G2, S2; reflexivity.
    - rewrite G1, S1 by discriminate. reflexivity. }
  rewrite (wanted_is _ _ _ W), LK. reflexivity.
Qed.

Lemma long_word (ws : list word) : (2 <= length ws)%nat -> sets_path ws = false.
Proof. intros L. destruct ws as [|w1 [|w2 ws]]; cbn in L; try lia; reflexivity. Qed.

Lemma run_echo i ws r m st : means o x (globs i) Echo ws -> run i (ws :: r) m st = run i r m 0.
Proof.
  intros (L & t & E). cbn [execute]. rewrite (long_word _ L), E, eqb_no; [reflexivity|].
  intros C. destruct (pp_absolute _ _ _ (PP 0%nat)) as [[s A] _]. rewrite A in C. discriminate.
Qed.

Lemma run_policy i ws r m st : means o x (globs i) Policy ws ->
  run i (ws :: r) m st = let '(m', n) := u_policy u m in run i r m' n.
Proof.
  intros (L & pcrs & _ & E). cbn [execute]. rewrite (long_word _ L), E. cbn [app].
  rewrite eqb_no; [|intros C; apply (pp_different _ _ _ (PP 0%nat)); symmetry; exact C].
  rewrite eqb_no; [|intros C; destruct (pp_absolute _ _ _ (PP 0%nat)) as [_ [s A]]; rewrite A in C; discriminate].
  rewrite eqb_yes. reflexivity.
Qed.

Definition everywhere l ws := forall i, means o x (globs i) l ws.

Lemma run_installs : forall esps i cs rest m st,
  Forall2 everywhere (flat_map (fun esp => [Assign; Install esp]) esps) cs ->
  run i (cs ++ rest) m st =
  let '(m', n) := script (install_commands u o i esps) m st in run (i + length esps)%nat rest m' n.
Proof.
  induction esps as [|e esps IH]; intros i cs rest m st F.
  - inversion F; subst. cbn [script install_commands app length]. rewrite PeanoNat.Nat.add_0_r. reflexivity.
  - cbn [flat_map app] in F. inversion F as [|? ? ? ? M1 F1]; subst. inversion F1 as [|? ? ? ? M2 F2]; subst.
    cbn [app]. rewrite run_assign by apply M1. rewrite (run_install _ e) by apply M2.
    cbn [install_commands script]. destruct (lzbt (u_world u i) (install_args o (u_links u i) e) m) as [[m' os] n].
    rewrite IH by exact F2. cbn [length]. rewrite PeanoNat.Nat.add_succ_r. reflexivity.
Qed.

Lemma script_app : forall a b m st, script (a ++ b) m st = let '(m', n) := script a m st in script b m' n.
Proof.
  induction a as [|c a IH]; intros b m st; cbn [app script]; [reflexivity|]. destruct (c m) as [m' n]. apply IH.
Qed.

Lemma hook_runs m : exists cmds, commands (hook_text o x) = Some cmds /\ run 0%nat cmds m 0 = Some (hook u o m).
Proof.
  destruct (hook_meaning o x (globs 0%nat) (PP 0%nat)) as (cmds & C & F0). exists cmds. split; [exact C|].
  assert (Forall2 everywhere (hook_lines o) cmds) as F.
  { assert (forall i, Forall2 (means o x (globs i)) (hook_lines o) cmds) as FA.
    { intros i. destruct (hook_meaning o x (globs i) (PP i)) as (cmds2 & C2 & F2). congruence. }
    clear C F0. revert FA. generalize (hook_lines o) cmds. intros ls. induction ls as [|l ls IH]; intros cs FA.
    - specialize (FA 0%nat). inversion FA. constructor.
    - pose proof (FA 0%nat) as F0. inversion F0 as [|? w ? cs' ? ?]; subst. constructor.
      + intros i. specialize (FA i). inversion FA; assumption.
      + apply IH. intros i. specialize (FA i). inversion FA; assumption. }
  unfold hook_lines in F. apply Forall2_app_inv_l in F as (c1 & c2 & F1 & F2 & ->).
  unfold hook, mount_points. rewrite script_app, (run_installs _ _ _ _ _ _ F1).
  destruct (script (install_commands u o 0 (o_esp o :: o_extra o)) m 0) as [m' n]. destruct (o_measured o).
  - inversion F2 as [|? e ? r2 ME F3]; subst. inversion F3 as [|? p ? r3 MP F4]; subst. inversion F4; subst.
    rewrite run_echo by apply ME. rewrite run_policy by apply MP. cbn [script]. destruct (u_policy u m') as [m2 n2]. reflexivity.
  - inversion F2; subst. reflexivity.
Qed.
End Run.

(** ** Escaped arguments *)

Lemma words_back l : l <> [] -> exists ws, commands (escape_args l) = Some [ws] /\ forall glob, expand_all glob ws = Some l.
Proof.
  intros N. destruct (shell_escapes l N [] []) as (qs & q & F & SE). exists (qs ++ [q]). split.
  - unfold commands. rewrite <- (app_nil_r (escape_args l)), SE. cbn [app shell]. destruct qs; reflexivity.
  - intros glob. apply expand_literals. exact F.
Qed.
