(** Proofs for C87. *)
From Coq Require Import List NArith PeanoNat Bool Lia.
From Verif Require Import Base PBase MText PText MFwupd SCommon SShell SFwupd PShell.
Import ListNotations.
Open Scope N_scope.

(** ** The text *)

Lemma flat_quote s : ~ In 39 s -> flat_map (fun c => if c =? 39 then [39; 92; 39; 39] else [c]) s = s.
Proof.
  induction s as [|c s IH]; intros H; cbn [flat_map]; [reflexivity|].
  destruct (N.eqb_spec c 39) as [->|]; [exfalso; apply H; left; reflexivity|].
  cbn [app]. rewrite IH by (intros X; apply H; right; exact X). reflexivity.
Qed.

Lemma shell_quoted s ws r : ~ In 39 s -> shell Blank [] ws (39 :: s ++ 39 :: r) = shell Bare (quoted s) ws r.
Proof. intros H. pose proof (shell_single s [] ws r) as E. rewrite (flat_quote s H) in E. exact E. Qed.

Definition src_pattern (o : fwupd_options) : bytes := f_package o ++ lit "/libexec/fwupd/efi/fwupd*.efi".
Definition run_pattern : bytes := lit "/run/fwupd-efi/fwupd*.efi".

Lemma script_commands o m : fwupd_proper o m ->
  commands (fwupd_script o) = Some
    [ [bare (lit "ln"); bare (lit "-sf"); bare (src_pattern o); bare (lit "/run/fwupd-efi/")];
      [bare (f_sbsign o); bare (lit "--key"); quoted (f_private o); bare (lit "--cert"); quoted (f_public o); bare run_pattern] ].
Proof.
  intros FP. destruct (plain_ordinary _ (fp_package _ _ FP)) as (OP & _ & _ & _).
  destruct (plain_ordinary _ (fp_sbsign _ _ FP)) as (OS & _ & _ & _).
  assert (f_sbsign o <> []) as NE by (destruct (fp_absolute _ _ FP) as (r & ->); discriminate).
  pose proof (fp_private _ _ FP) as Q1. pose proof (fp_public _ _ FP) as Q2.
  assert (fwupd_script o = lit "ln" ++ 32 :: lit "-sf" ++ 32 :: src_pattern o ++ 32 :: lit "/run/fwupd-efi/" ++ 10 ::
    f_sbsign o ++ 32 :: lit "--key" ++ 32 :: 39 :: f_private o ++ 39 :: 32 :: lit "--cert" ++ 32 :: 39 :: f_public o ++ 39 :: 32 :: run_pattern ++ [10]) as ->.
  { unfold fwupd_script, src_pattern. rewrite <- !app_assoc. reflexivity. }
  unfold commands.
  rewrite (shell_word (lit "ln")) by (discriminate || reflexivity). change (shell Bare ?a ?b (32 :: ?t)) with (shell Blank [] (b ++ [a]) t).
  rewrite (shell_word (lit "-sf")) by (discriminate || reflexivity). change (shell Bare ?a ?b (32 :: ?t)) with (shell Blank [] (b ++ [a]) t).
  rewrite (shell_word (src_pattern o)).
  2:{ unfold src_pattern. destruct (f_package o); discriminate. }
  2:{ apply ordinary_app; [exact OP | reflexivity]. }
  change (shell Bare ?a ?b (32 :: ?t)) with (shell Blank [] (b ++ [a]) t).
  rewrite (shell_word (lit "/run/fwupd-efi/")) by (discriminate || reflexivity).
  change (shell Bare ?a ?b (10 :: ?t)) with (line (b ++ [a]) (shell Blank [] [] t)).
  rewrite (shell_word (f_sbsign o)) by assumption. change (shell Bare ?a ?b (32 :: ?t)) with (shell Blank [] (b ++ [a]) t).
  rewrite (shell_word (lit "--key")) by (discriminate || reflexivity). change (shell Bare ?a ?b (32 :: ?t)) with (shell Blank [] (b ++ [a]) t).
  rewrite shell_quoted by assumption. change (shell Bare ?a ?b (32 :: ?t)) with (shell Blank [] (b ++ [a]) t).
  rewrite (shell_word (lit "--cert")) by (discriminate || reflexivity). change (shell Bare ?a ?b (32 :: ?t)) with (shell Blank [] (b ++ [a]) t).
  rewrite shell_quoted by assumption. change (shell Bare ?a ?b (32 :: ?t)) with (shell Blank [] (b ++ [a]) t).
  rewrite (shell_word run_pattern) by (discriminate || reflexivity).
  reflexivity.
Qed.

(** ** Patterns *)

Lemma match_prefix pre : forall p s, ~ In 42 pre -> glob_match (pre ++ p) (pre ++ s) = glob_match p s.
Proof.
  induction pre as [|c pre IH]; intros p s H; cbn [app]; [reflexivity|]. cbn [glob_match].
  destruct (N.eqb_spec c 42) as [->|]; [exfalso; apply H; left; reflexivity|].
  rewrite N.eqb_refl. cbn [andb]. apply IH. intros X. apply H. right. exact X.
Qed.
Lemma match_prefix_inv pre : forall p s, ~ In 42 pre -> glob_match (pre ++ p) s = true -> exists s', s = pre ++ s' /\ glob_match p s' = true.
Proof.
  induction pre as [|c pre IH]; intros p s H; cbn [app]; [intros E; eauto|]. cbn [glob_match].
  destruct (N.eqb_spec c 42) as [->|]; [exfalso; apply H; left; reflexivity|].
  destruct s as [|d s]; [discriminate|]. intros E. apply andb_prop in E as [E1 E]. apply N.eqb_eq in E1 as ->.
  destruct (IH p s) as (s' & -> & E2); [intros X; apply H; right; exact X | exact E|]. exists s'. auto.
Qed.
Lemma match_literal l : forall s, ~ In 42 l -> glob_match l s = true -> s = l.
Proof.
  intros s H E. rewrite <- (app_nil_r l) in E. destruct (match_prefix_inv l [] s H E) as (s' & -> & E2).
  destruct s'; [apply app_nil_r | discriminate].
Qed.
Lemma match_star l : forall s, ~ In 42 l -> glob_match (42 :: l) s = true <-> exists mid, s = mid ++ l /\ ~ In 47 mid.
Proof.
  intros s H. cbn [glob_match]. change (42 =? 42) with true. cbv iota. induction s as [|d s IH].
  - rewrite orb_false_r. split.
    + intros E. apply match_literal in E; [|exact H]. exists []. split; [exact E | intros []].
    + intros (mid & E & _). destruct mid; [|discriminate]. cbn in E. subst l. reflexivity.
  - rewrite orb_true_iff, andb_true_iff, IH. split.
    + intros [E|[E (mid & -> & N47)]].
      * apply match_literal in E; [|exact H]. exists []. split; [exact E | intros []].
      * exists (d :: mid). split; [reflexivity|]. intros [->|X]; [discriminate E | exact (N47 X)].
    + intros ([|e mid] & E & N47); cbn in E.
      * left. rewrite E. rewrite <- (app_nil_r l). rewrite match_prefix by exact H. reflexivity.
      * injection E as <- ->. right. split; [|exists mid; split; [reflexivity | intros X; apply N47; right; exact X]].
        destruct (N.eqb_spec d 47) as [->|]; [exfalso; apply N47; left; reflexivity | reflexivity].
Qed.

Lemma no_star (l : bytes) : forallb (fun c => negb (c =? 42)) l = true -> ~ In 42 l.
Proof. intros H I. rewrite forallb_forall in H. specialize (H 42 I). discriminate. Qed.

Lemma match_app dir s : ~ In 42 dir ->
  glob_match (dir ++ lit "fwupd*.efi") s = true <-> exists n, s = dir ++ n /\ app_name n.
Proof.
  intros H. change (lit "fwupd*.efi") with (lit "fwupd" ++ 42 :: lit ".efi"). split.
  - intros E. destruct (match_prefix_inv dir _ s H E) as (s1 & -> & E1).
    destruct (match_prefix_inv (lit "fwupd") _ s1 ltac:(apply no_star; reflexivity) E1) as (s2 & -> & E2).
    apply match_star in E2 as (mid & -> & N47); [|apply no_star; reflexivity].
    eexists. split; [reflexivity|]. exists mid. auto.
  - intros (n & -> & mid & -> & N47). rewrite match_prefix by exact H. rewrite match_prefix by (apply no_star; reflexivity).
    apply match_star; [apply no_star; reflexivity|]. exists mid. auto.
Qed.

Lemma app_name_slash n : app_name n -> ~ In 47 n.
Proof.
  intros (mid & -> & N47) I. rewrite !in_app_iff in I. destruct I as [I|[I|I]]; [| exact (N47 I) |]; cbn in I;
    repeat (destruct I as [I|I]; [discriminate I|]); destruct I.
Qed.

Lemma to_slash_app n r : ~ In 47 n -> to_slash (n ++ 47 :: r) = n.
Proof.
  induction n as [|c n IH]; intros H; cbn [app to_slash]; [reflexivity|].
  destruct (N.eqb_spec c 47) as [->|]; [exfalso; apply H; left; reflexivity|].
  rewrite IH by (intros X; apply H; right; exact X). reflexivity.
Qed.
Lemma basename_app dir n : ~ In 47 n -> basename ((dir ++ [47]) ++ n) = n.
Proof.
  intros H. unfold basename. rewrite !rev_app_distr. cbn [rev app]. rewrite to_slash_app by (rewrite <- in_rev; exact H). apply rev_involutive.
Qed.

(** ** Files *)

Lemma found_in m p : found m p <> None <-> In p (map fst m).
Proof.
  induction m as [|[q n] m IH]; cbn [found map In fst]; [intuition congruence|].
  destruct (eqb_bytes q p) eqn:E.
  - apply eqb_bytes_spec in E as ->. split; [left; reflexivity | discriminate].
  - rewrite IH. split; [right; assumption|]. intros [->|H]; [|exact H]. rewrite eqb_bytes_refl in E. discriminate.
Qed.
Lemma found_set m p n q : found (set_file p n m) q = if eqb_bytes p q then Some n else found m q.
Proof.
  unfold set_file. cbn [found]. destruct (eqb_bytes p q) eqn:E; [reflexivity|].
  induction m as [|[k v] m IH]; cbn [filter found fst]; [reflexivity|].
  destruct (eqb_bytes k p) eqn:K; cbn [negb].
  - apply eqb_bytes_spec in K as ->. rewrite E. exact IH.
  - cbn [found]. rewrite IH. reflexivity.
Qed.
Lemma set_fresh m p n : found m p = None -> set_file p n m = (p, n) :: m.
Proof.
  intros H. unfold set_file. f_equal. induction m as [|[k v] m IH]; cbn [filter fst found] in *; [reflexivity|].
  destruct (eqb_bytes k p); [discriminate|]. cbn [negb]. rewrite IH by exact H. reflexivity.
Qed.

(** ** The run *)

Section Run.
Variables (o : fwupd_options) (sign : bytes -> bytes -> bytes -> option bytes) (m : files).
Hypothesis FP : fwupd_proper o m.

Lemma plain_star s : plain s -> ~ In 42 s.
Proof.
  intros (_ & H & _) I. destruct (H 42 I) as [A|A]; [discriminate A|]. cbn in A. repeat (destruct A as [A|A]; [discriminate A|]). destruct A.
Qed.
Lemma dir_star : ~ In 42 (efi_dir o).
Proof.
  unfold efi_dir. rewrite in_app_iff. intros [H|H]; [exact (plain_star _ (fp_package _ _ FP) H)|].
  revert H. apply no_star. reflexivity.
Qed.

Lemma src_dir : src_pattern o = efi_dir o ++ lit "fwupd*.efi".
Proof. unfold src_pattern, efi_dir. rewrite <- app_assoc. reflexivity. Qed.
Lemma dir_base n : ~ In 47 n -> basename (efi_dir o ++ n) = n.
Proof.
  intros H. assert (efi_dir o = (f_package o ++ lit "/libexec/fwupd/efi") ++ [47]) as -> by (unfold efi_dir; rewrite <- app_assoc; reflexivity).
  apply basename_app. exact H.
Qed.

(** The names of the applications. *)
Definition names : list bytes := map (skipn (length (efi_dir o))) (globbed m (src_pattern o)).
Lemma globbed_names : globbed m (src_pattern o) = map (fun n => efi_dir o ++ n) names.
Proof.
  unfold names. rewrite map_map. rewrite <- (map_id (globbed m (src_pattern o))) at 1. apply map_ext_in. intros p I.
  unfold globbed in I. apply filter_In in I as [_ I]. rewrite src_dir in I. apply match_app in I as (n & -> & _); [|exact dir_star].
  rewrite skipn_app, skipn_all, Nat.sub_diag. reflexivity.
Qed.
Lemma in_names n : In n names <-> efi_app o m n.
Proof.
  assert (In n names <-> In (efi_dir o ++ n) (globbed m (src_pattern o))) as ->.
  { rewrite globbed_names. split; [intros H; apply (in_map (fun n => efi_dir o ++ n)); exact H|].
    intros H. apply in_map_iff in H as (k & E & I). apply app_inv_head in E as ->. exact I. }
  unfold globbed. rewrite filter_In, <- found_in, src_dir, (match_app (efi_dir o) _ dir_star). split.
  - intros [F (k & E & A)]. apply app_inv_head in E as <-. split; assumption.
  - intros [A F]. split; [exact F|]. exists n. auto.
Qed.
Lemma nodup_names : NoDup names.
Proof.
  assert (NoDup (globbed m (src_pattern o))) as N by (apply NoDup_filter, (fp_unique _ _ FP)).
  rewrite globbed_names in N. apply NoDup_map_inv in N. exact N.
Qed.

Definition run_dir : bytes := lit "/run/fwupd-efi/".
Definition linked (l : list bytes) : files :=
  fold_left (fun m s => set_file (run_dir ++ basename s) (FLink s) m) l m.

(** The links that [ln] makes. *)
Lemma link_names l : (forall n, In n l -> ~ In 47 n) -> NoDup l ->
  linked (map (fun n => efi_dir o ++ n) l) = map (fun n => (run_dir ++ n, FLink (efi_dir o ++ n))) (rev l) ++ m.
Proof.
  unfold linked. intros H ND.
  assert (forall done, (forall n, In n l -> ~ In n done) ->
    fold_left (fun m s => set_file (run_dir ++ basename s) (FLink s) m) (map (fun n => efi_dir o ++ n) l)
      (map (fun n => (run_dir ++ n, FLink (efi_dir o ++ n))) done ++ m) =
    map (fun n => (run_dir ++ n, FLink (efi_dir o ++ n))) (rev l ++ done) ++ m) as G.
  { induction l as [|n l IH]; intros done D; cbn [map fold_left rev app]; [reflexivity|].
    inversion ND as [|? ? N1 N2]; subst. rewrite dir_base by (apply H; left; reflexivity). rewrite set_fresh.
    - rewrite <- app_assoc. cbn [app].
      change ((run_dir ++ n, FLink (efi_dir o ++ n)) :: map (fun n => (run_dir ++ n, FLink (efi_dir o ++ n))) done ++ m)
        with (map (fun n => (run_dir ++ n, FLink (efi_dir o ++ n))) (n :: done) ++ m).
      apply IH; [intros k K; apply H; right; exact K | exact N2|].
      intros k K [->|X]; [exact (N1 K) | exact (D k (or_intror K) X)].
    - assert (~ In n done) as ND2 by (apply D; left; reflexivity). clear - ND2 FP.
      induction done as [|k done IH]; cbn [map app found]; [apply (fp_fresh _ _ FP)|].
      destruct (eqb_bytes (run_dir ++ k) (run_dir ++ n)) eqn:E.
      + apply eqb_bytes_spec, app_inv_head in E as ->. exfalso. apply ND2. left. reflexivity.
      + apply IH. intros X. apply ND2. right. exact X. }
  specialize (G [] ltac:(intros n _ [])). rewrite app_nil_r in G. exact G.
Qed.

Lemma fresh_run : globbed m run_pattern = [].
Proof.
  unfold globbed. destruct (filter _ _) as [|p l] eqn:E; [reflexivity|]. exfalso.
  assert (In p (filter (glob_match run_pattern) (map fst m))) as I by (rewrite E; left; reflexivity).
  apply filter_In in I as [I G]. change run_pattern with (run_dir ++ lit "fwupd*.efi") in G.
  apply match_app in G as (n & -> & _); [|apply no_star; reflexivity].
  apply found_in in I. apply I. apply (fp_fresh _ _ FP).
Qed.

(** The links are what the second pattern finds. *)
Lemma globbed_links l : (forall n, In n l -> glob_match (lit "fwupd*.efi") n = true) ->
  globbed (map (fun n => (run_dir ++ n, FLink (efi_dir o ++ n))) l ++ m) run_pattern = map (fun n => run_dir ++ n) l.
Proof.
  intros H. unfold globbed. rewrite map_app, filter_app. change (filter (glob_match run_pattern) (map fst m)) with (globbed m run_pattern).
  rewrite fresh_run, app_nil_r. induction l as [|n l IH]; cbn [map filter]; [reflexivity|].
  change run_pattern with (run_dir ++ lit "fwupd*.efi"). cbn [fst]. rewrite match_prefix by (apply no_star; reflexivity).
  rewrite (H n (or_introl eq_refl)). f_equal. apply IH. intros k K. apply H. right. exact K.
Qed.

(** What [ln] links: the applications, or the pattern itself. *)
Definition sources : list bytes := match names with [] => [lit "fwupd*.efi"] | l => l end.
Definition after_ln : files := map (fun n => (run_dir ++ n, FLink (efi_dir o ++ n))) (rev sources) ++ m.

Lemma sources_match n : In n sources -> glob_match (lit "fwupd*.efi") n = true /\ ~ In 47 n.
Proof.
  unfold sources. intros I.
  assert (n = lit "fwupd*.efi" \/ efi_app o m n) as [->|A].
  { destruct names as [|n0 l] eqn:E; [destruct I as [<-|[]]; left; reflexivity|]. right. apply in_names. rewrite E. exact I. }
  - split; [reflexivity|]. cbn. intros H. repeat (destruct H as [H|H]; [discriminate H|]). destruct H.
  - split; [|apply app_name_slash, A]. apply (match_app []); [intros []|]. exists n. split; [reflexivity | apply A].
Qed.
Lemma sources_nodup : NoDup sources.
Proof. unfold sources. pose proof nodup_names. destruct names; [constructor; [intros [] | constructor] | assumption]. Qed.
Lemma sources_nonempty : exists n l, sources = n :: l.
Proof. unfold sources. destruct names; eauto. Qed.

Lemma expand_pattern f p : unquoted (lit "$~{}") (bare p) = false -> unquoted (lit "*?[") (bare p) = true ->
  expand f (bare p) = Some (match f p with [] => [p] | l => l end).
Proof. intros A B. unfold expand. rewrite A, B, text_bare. reflexivity. Qed.

Lemma unquoted_in cs p c : In c p -> In c cs -> unquoted cs (bare p) = true.
Proof.
  intros P C. unfold unquoted, bare. apply existsb_exists. exists (c, false). split; [apply in_map_iff; eauto|].
  cbn. apply existsb_exists. exists c. split; [exact C | apply N.eqb_refl].
Qed.
Lemma unquoted_none cs p : (forall c, In c p -> ~ In c cs) -> unquoted cs (bare p) = false.
Proof.
  intros H. destruct (unquoted cs (bare p)) eqn:E; [|reflexivity]. unfold unquoted, bare in E. apply existsb_exists in E as ((c & b) & I & E).
  apply in_map_iff in I as (d & I1 & I2). injection I1 as <- <-. cbn in E. apply existsb_exists in E as (k & K & E). apply N.eqb_eq in E as <-.
  destruct (H d I2 K).
Qed.

Lemma src_expand : expand (globbed m) (bare (src_pattern o)) = Some (map (fun n => efi_dir o ++ n) sources).
Proof.
  rewrite expand_pattern.
  - rewrite globbed_names. unfold sources. destruct names as [|n l]; cbn [map]; [rewrite src_dir; reflexivity | reflexivity].
  - apply unquoted_none. intros c I C. unfold src_pattern in I. rewrite in_app_iff in I. destruct I as [I|I].
    + destruct (fp_package _ _ FP) as (_ & H & _). destruct (H c I) as [A|A]; cbn in C.
      * repeat (destruct C as [<-|C]; [discriminate A|]). exact C.
      * repeat (destruct C as [<-|C]; [cbn in A; intuition discriminate|]). exact C.
    + cbn in C. repeat (destruct C as [<-|C]; [cbn in I; intuition discriminate|]). exact C.
  - apply unquoted_in with 42; [|left; reflexivity]. unfold src_pattern. rewrite in_app_iff. right. vm_compute. tauto.
Qed.

Lemma ln_runs : run_ln (lit "-sf" :: map (fun n => efi_dir o ++ n) sources ++ [run_dir]) m = Some after_ln.
Proof.
  unfold run_ln. change (eqb_bytes (lit "-sf") (lit "-sf")) with true. cbv iota. rewrite rev_app_distr. cbn [rev app].
  destruct sources_nonempty as (n & l & E).
  assert (exists s r, rev (map (fun n => efi_dir o ++ n) sources) = s :: r) as (s & r & R).
  { destruct (rev (map (fun n => efi_dir o ++ n) sources)) as [|s r] eqn:R; [|eauto]. apply (f_equal (@rev _)) in R. rewrite rev_involutive, E in R. discriminate. }
  rewrite R. change (eqb_bytes (skipn (length run_dir - 1) run_dir) (lit "/")) with true. cbv iota.
  change (rev r ++ [s]) with (rev (s :: r)). rewrite <- R, rev_involutive. f_equal. apply (link_names sources); [intros k K; apply sources_match; exact K | apply sources_nodup].
Qed.

Lemma run_expand : expand (globbed after_ln) (bare run_pattern) = Some (map (fun n => run_dir ++ n) (rev sources)).
Proof.
  rewrite expand_pattern by reflexivity. unfold after_ln. rewrite globbed_links by (intros n I; apply sources_match, in_rev; exact I).
  destruct sources_nonempty as (n & l & E). destruct (map (fun n => run_dir ++ n) (rev sources)) eqn:R; [|reflexivity].
  apply map_eq_nil in R. rewrite E in R. cbn in R. destruct (rev l); discriminate.
Qed.

Lemma sbsign_not_ln : eqb_bytes (f_sbsign o) (lit "ln") = false.
Proof. destruct (fp_absolute _ _ FP) as (r & ->). reflexivity. Qed.

(** The service is: [ln], then sbsign on all links. *)
Lemma fwupd_is : fwupd_efi sign o m =
  match run_sbsign sign (lit "--key" :: f_private o :: lit "--cert" :: f_public o :: map (fun n => run_dir ++ n) (rev sources)) after_ln with
  | Some m' => (m', 0)
  | None => (after_ln, 1)
  end.
Proof.
  unfold fwupd_efi. rewrite (script_commands o m FP). cbn [run_lines].
  assert (expand_all (globbed m) [bare (lit "ln"); bare (lit "-sf"); bare (src_pattern o); bare (lit "/run/fwupd-efi/")] =
          Some (lit "ln" :: lit "-sf" :: map (fun n => efi_dir o ++ n) sources ++ [run_dir])) as ->.
  { change (lit "ln" :: lit "-sf" :: map (fun n => efi_dir o ++ n) sources ++ [run_dir])
      with ([lit "ln"; lit "-sf"] ++ map (fun n => efi_dir o ++ n) sources ++ [run_dir]).
    apply (expand_app (globbed m) [bare (lit "ln"); bare (lit "-sf")] _ [lit "ln"; lit "-sf"]).
    - apply expand_literals. repeat constructor; apply text_bare.
    - apply (expand_app (globbed m) [bare (src_pattern o)] [bare (lit "/run/fwupd-efi/")]).
      + cbn [expand_all]. rewrite src_expand, app_nil_r. reflexivity.
      + apply expand_literals. repeat constructor. }
  change (eqb_bytes (lit "ln") (lit "ln")) with true. cbv iota. rewrite ln_runs.
  destruct (plain_ordinary _ (fp_sbsign _ _ FP)) as (_ & LS & _ & _).
  assert (expand_all (globbed after_ln) [bare (f_sbsign o); bare (lit "--key"); quoted (f_private o); bare (lit "--cert"); quoted (f_public o); bare run_pattern] =
          Some (f_sbsign o :: lit "--key" :: f_private o :: lit "--cert" :: f_public o :: map (fun n => run_dir ++ n) (rev sources))) as ->.
  { apply (expand_app (globbed after_ln) [bare (f_sbsign o); bare (lit "--key"); quoted (f_private o); bare (lit "--cert"); quoted (f_public o)] [bare run_pattern]
      [f_sbsign o; lit "--key"; f_private o; lit "--cert"; f_public o]).
    - apply expand_literals. repeat (constructor; [first [exact LS | apply literal_lit; reflexivity | split; [apply text_quoted | apply unquoted_quoted]]|]). constructor.
    - cbn [expand_all]. rewrite run_expand, app_nil_r. reflexivity. }
  rewrite sbsign_not_ln, eqb_bytes_refl. reflexivity.
Qed.

Lemma sbsign_images l : (forall a, In a l -> exists r, a = 47 :: r) -> forall k c is,
  sbsign_args (Some k) (Some c) is l = match is ++ l with [i] => Some (k, c, i) | _ => None end.
Proof.
  induction l as [|a l IH]; intros H k c is; cbn [sbsign_args]; [rewrite app_nil_r; reflexivity|].
  destruct (H a (or_introl eq_refl)) as (r & ->).
  change (eqb_bytes (47 :: r) (lit "--key")) with false. change (eqb_bytes (47 :: r) (lit "--cert")) with false. cbv iota.
  change (47 =? 45) with false. cbv iota. rewrite IH by (intros b B; apply H; right; exact B). rewrite <- app_assoc. reflexivity.
Qed.

Lemma sbsign_is : run_sbsign sign (lit "--key" :: f_private o :: lit "--cert" :: f_public o :: map (fun n => run_dir ++ n) (rev sources)) after_ln =
  match sources with
  | [n] => match content 40 after_ln (run_dir ++ n) with
           | Some x => match sign (f_private o) (f_public o) x with
                       | Some y => Some (set_file (run_dir ++ n ++ lit ".signed") (FFile y) after_ln) | None => None end
           | None => None end
  | _ => None
  end.
Proof.
  unfold run_sbsign. change (sbsign_args None None [] (lit "--key" :: f_private o :: lit "--cert" :: f_public o :: ?l))
    with (sbsign_args (Some (f_private o)) (Some (f_public o)) [] l).
  rewrite sbsign_images by (intros a A; apply in_map_iff in A as (n & <- & _); eexists; reflexivity). cbn [app].
  destruct sources as [|n [|n2 l]]; cbn [rev app map]; [reflexivity | rewrite <- app_assoc; reflexivity|].
  rewrite map_app, map_app. destruct (rev l) as [|a [|b r]]; reflexivity.
Qed.

(** With one name. *)
Lemma content_one n : sources = [n] -> content 40 after_ln (run_dir ++ n) = content 39 after_ln (efi_dir o ++ n).
Proof. intros E. unfold after_ln at 1. rewrite E. cbn [rev app map content found]. rewrite eqb_bytes_refl. unfold after_ln. rewrite E. reflexivity. Qed.
Lemma content_app n : sources = [n] -> content 39 after_ln (efi_dir o ++ n) =
  match found m (efi_dir o ++ n) with Some (FFile x) => Some x | Some (FLink t) => content 38 after_ln t | None => None end.
Proof.
  intros E. cbn [content].
  assert (found after_ln (efi_dir o ++ n) = found m (efi_dir o ++ n)) as ->; [|reflexivity].
  unfold after_ln. rewrite E. cbn [rev app map found].
  destruct (eqb_bytes (run_dir ++ n) (efi_dir o ++ n)) eqn:X; [|reflexivity].
  exfalso. apply eqb_bytes_spec, app_inv_tail in X. apply (f_equal (@length _)) in X. unfold efi_dir in X. rewrite app_length in X. cbn in X. lia.
Qed.

Lemma single_app n : sources = [n] -> found m (efi_dir o ++ n) <> None -> forall k, efi_app o m k <-> k = n.
Proof.
  intros E F k. rewrite <- in_names. unfold sources in E. destruct names as [|a l] eqn:N.
  - injection E as <-. exfalso. assert (In (lit "fwupd*.efi") names) as I; [|rewrite N in I; destruct I].
    apply in_names. split; [exists (lit "*"); split; [reflexivity | intros [H|[]]; discriminate H] | exact F].
  - rewrite E. cbn. intuition congruence.
Qed.

Lemma fwupd_signed m' : fwupd_efi sign o m = (m', 0) ->
  exists n x y, (forall k, efi_app o m k <-> k = n) /\ found m (efi_dir o ++ n) = Some (FFile x) /\
    sign (f_private o) (f_public o) x = Some y /\ found m' (signed_app n) = Some (FFile y).
Proof.
  rewrite fwupd_is, sbsign_is. destruct sources as [|n [|n2 l]] eqn:E; [discriminate | | discriminate].
  rewrite content_one, content_app by exact E.
  destruct (found m (efi_dir o ++ n)) as [[x|t]|] eqn:F; [| |discriminate].
  - destruct (sign (f_private o) (f_public o) x) as [y|] eqn:S; [|discriminate]. intros H. injection H as <-.
    exists n, x, y. split; [apply single_app; [exact E | congruence]|]. split; [exact F|]. split; [exact S|].
    unfold signed_app. rewrite found_set, eqb_bytes_refl. reflexivity.
  - intros _. exfalso. assert (efi_app o m n) as A by (apply (single_app n E); [congruence | reflexivity]).
    destruct (fp_regular _ _ FP n A) as (x & X). congruence.
Qed.

Lemma fwupd_ready n x y : (forall k, efi_app o m k <-> k = n) -> found m (efi_dir o ++ n) = Some (FFile x) ->
  sign (f_private o) (f_public o) x = Some y -> snd (fwupd_efi sign o m) = 0.
Proof.
  intros A F S. assert (sources = [n]) as E.
  { assert (forall k, In k names <-> k = n) as IN by (intros k; rewrite in_names; apply A).
    pose proof nodup_names as ND. unfold sources. destruct names as [|a [|b l]].
    - destruct (proj2 (IN n) eq_refl).
    - rewrite (proj1 (IN a) (or_introl eq_refl)). reflexivity.
    - exfalso. inversion ND as [|? ? H _]; subst. apply H. rewrite (proj1 (IN a) (or_introl eq_refl)).
      left. exact (proj1 (IN b) (or_intror (or_introl eq_refl))). }
  rewrite fwupd_is, sbsign_is, E, content_one, content_app, F, S by exact E. reflexivity.
Qed.

(** Otherwise nothing is signed. *)
Lemma fwupd_fails : snd (fwupd_efi sign o m) <> 0 -> forall n, app_name n -> found (fst (fwupd_efi sign o m)) (signed_app n) = None.
Proof.
  rewrite fwupd_is. destruct (run_sbsign _ _ _) as [m'|]; cbn [fst snd]; [congruence|]. intros _ n (mid & -> & _).
  unfold after_ln, signed_app.
  assert (forall l, (forall k, In k l -> glob_match (lit "fwupd*.efi") k = true) -> forall q, (forall k, In k l -> k <> q) ->
     found (map (fun n => (run_dir ++ n, FLink (efi_dir o ++ n))) l ++ m) (run_dir ++ q) = None) as G.
  { induction l as [|k l IH]; intros H q NE; cbn [map app found]; [apply (fp_fresh _ _ FP)|].
    destruct (eqb_bytes (run_dir ++ k) (run_dir ++ q)) eqn:E.
    - apply eqb_bytes_spec, app_inv_head in E. destruct (NE k (or_introl eq_refl) E).
    - apply IH; [intros j J; apply H; right; exact J | intros j J; apply NE; right; exact J]. }
  apply (G (rev sources)); [intros k K; apply sources_match, in_rev; exact K|].
  intros k K ->. apply in_rev, sources_match in K as [K _].
  apply (match_app [] _ ltac:(intros [])) in K as (k & E & mid2 & -> & _). cbn [app] in E.
  apply (f_equal (@rev _)) in E. rewrite !rev_app_distr in E. discriminate E.
Qed.
End Run.
