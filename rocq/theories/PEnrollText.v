(** Proofs for C90. *)
From Coq Require Import List NArith PeanoNat Bool Lia.
From Verif Require Import Base PBase MText PText MNames MFs MCli MHook MEnroll MEnrollText SShell SEnroll SEnrollText.
From Verif Require Import PFs PShell.
Import ListNotations.
Open Scope N_scope.

(** ** The text *)

Definition flag_words (e : enroll_options) : list bytes :=
  [lit "--export"; lit "auth"] ++
  (if e_firmware e then [lit "--firmware-builtin"] else []) ++
  (if e_microsoft e then [lit "--microsoft"] else []) ++
  (if e_tpm e then [lit "--tpm-eventlog"] else []) ++
  (if e_brick e then [lit "--yes-this-might-brick-my-machine"] else []).

Definition key_dir (o : options) : bytes := o_esp o ++ lit "/loader/keys/auto".

Definition wordy (s : bytes) : Prop := s <> [] /\ forallb ordinary s = true.
(** Texts without special characters are themselves. *)
Definition simple (s : bytes) : Prop := forall c, In c s -> ~ In c (lit "$~{}*?[").

Lemma words_line l : forall ws r, Forall wordy l -> l <> [] ->
  shell Blank [] ws (join (lit " ") l ++ 10 :: r) = line (ws ++ map bare l) (shell Blank [] [] r).
Proof.
  induction l as [|a l IH]; intros ws r F NE; [congruence|]. inversion F as [|? ? (N1 & O1) F']; subst.
  destruct l as [|b l].
  - cbn [join map]. rewrite shell_word by assumption. reflexivity.
  - change (join (lit " ") (a :: b :: l)) with (a ++ lit " " ++ join (lit " ") (b :: l)). rewrite <- !app_assoc.
    rewrite shell_word by assumption. change (lit " " ++ join (lit " ") (b :: l) ++ 10 :: r) with (32 :: join (lit " ") (b :: l) ++ 10 :: r).
    change (shell Bare ?a ?b (32 :: ?t)) with (shell Blank [] (b ++ [a]) t). rewrite IH by (assumption || discriminate).
    rewrite <- app_assoc. reflexivity.
Qed.

Lemma comment_line t r : forallb (fun c => negb (c =? 10)) t = true -> shell Comment [] [] (t ++ 10 :: r) = shell Blank [] [] r.
Proof.
  induction t as [|c t IH]; cbn [app forallb]; intros H; [reflexivity|]. apply andb_prop in H as [H1 H2]. cbn [shell].
  apply negb_true_iff in H1. rewrite H1. apply IH. exact H2.
Qed.

Lemma cut_none c s : ~ In c s -> cut c (bare s) = None.
Proof.
  induction s as [|d s IH]; intros H; [reflexivity|]. cbn [bare map cut]. fold (bare s).
  destruct (N.eqb_spec d c) as [->|]; [exfalso; apply H; left; reflexivity|]. cbn [andb].
  rewrite IH by (intros X; apply H; right; exact X). reflexivity.
Qed.
Lemma simple_braces s : simple s -> braces (bare s) = Some [bare s].
Proof. intros H. unfold braces. rewrite cut_none; [reflexivity|]. intros I. apply (H 123 I). cbn. tauto. Qed.
Lemma simple_all l : Forall simple l -> all_braces (map bare l) = Some (map bare l).
Proof.
  induction 1 as [|s l H _ IH]; [reflexivity|]. cbn [map all_braces]. rewrite simple_braces by exact H. rewrite IH. reflexivity.
Qed.
Lemma simple_arguments l : Forall simple l -> arguments (map bare l) = Some l.
Proof.
  intros F. unfold arguments. rewrite simple_all by exact F. apply expand_literals.
  induction F as [|s l H _ IH]; constructor; [apply literal_bare; exact H | exact IH].
Qed.

Lemma lit_simple s : forallb (fun c => negb (existsb (N.eqb c) (lit "$~{}*?["))) s = true -> simple s.
Proof.
  intros H c I X. rewrite forallb_forall in H. specialize (H c I). apply negb_true_iff in H.
  apply not_true_iff_false in H. apply H. apply existsb_exists. exists c. split; [exact X | apply N.eqb_refl].
Qed.
Lemma plain_simple s : plain s -> simple s.
Proof.
  intros (_ & H & _) c I X. destruct (H c I) as [A|A]; cbn in X.
  - repeat (destruct X as [<-|X]; [discriminate A|]). exact X.
  - repeat (destruct X as [<-|X]; [cbn in A; intuition discriminate|]). exact X.
Qed.
Lemma simple_app a b : simple a -> simple b -> simple (a ++ b).
Proof. intros A B c I. apply in_app_or in I as [I|I]; auto. Qed.
Lemma plain_wordy s t : plain s -> forallb ordinary t = true -> wordy (s ++ t).
Proof.
  intros P T. destruct (plain_ordinary s P) as (O & _). split.
  - destruct P as (NE & _). destruct s; [congruence | discriminate].
  - rewrite forallb_app, O. exact T.
Qed.

Lemma join_app a b : a <> [] -> b <> [] -> join (lit " ") (a ++ b) = join (lit " ") a ++ lit " " ++ join (lit " ") b.
Proof.
  induction a as [|x a IH]; intros NA NB; [congruence|]. destruct a as [|y a].
  - destruct b as [|z b]; [congruence | reflexivity].
  - change (join (lit " ") ((x :: y :: a) ++ b)) with (x ++ lit " " ++ join (lit " ") ((y :: a) ++ b)).
    rewrite IH by (congruence || discriminate). change (join (lit " ") (x :: y :: a)) with (x ++ lit " " ++ join (lit " ") (y :: a)).
    rewrite <- !app_assoc. reflexivity.
Qed.
Lemma args_words e : sbctl_args e = join (lit " ") (flag_words e).
Proof. unfold sbctl_args, flag_words. destruct (e_firmware e), (e_microsoft e), (e_tpm e), (e_brick e); reflexivity. Qed.
Lemma flags_fine e : Forall wordy (flag_words e) /\ Forall simple (flag_words e).
Proof.
  unfold flag_words. split; destruct (e_firmware e), (e_microsoft e), (e_tpm e), (e_brick e); cbn [app];
    repeat (apply Forall_cons; [first [split; [discriminate | reflexivity] | apply lit_simple; reflexivity]|]); apply Forall_nil.
Qed.

Lemma script_lines e o : enroll_proper e o -> commands (enroll_script e o) = Some
  [ map bare ((e_sbctl e ++ lit "/bin/sbctl") :: lit "enroll-keys" :: flag_words e);
    map bare [lit "mkdir"; lit "-p"; key_dir o];
    map bare [lit "install"; lit "{PK,KEK,db}.auth"; key_dir o ++ lit "/"];
    map bare [e_hook e ++ lit "/bin/lzbt"] ].
Proof.
  intros [[PS _] [PH _] [PE _]].
  assert (wordy (e_sbctl e ++ lit "/bin/sbctl")) as W1 by (apply plain_wordy; [exact PS | reflexivity]).
  assert (wordy (e_hook e ++ lit "/bin/lzbt")) as W2 by (apply plain_wordy; [exact PH | reflexivity]).
  assert (wordy (key_dir o)) as W3 by (apply plain_wordy; [exact PE | reflexivity]).
  assert (wordy (key_dir o ++ lit "/")) as W4 by (unfold key_dir; rewrite <- app_assoc; apply plain_wordy; [exact PE | reflexivity]).
  assert (forall s, s <> [] /\ forallb ordinary s = true -> wordy s) as WL by (intros s H; exact H).
  destruct (flags_fine e) as [FW _].
  assert (enroll_script e o =
    join (lit " ") ((e_sbctl e ++ lit "/bin/sbctl") :: lit "enroll-keys" :: flag_words e) ++ 10 :: 10 ::
    join (lit " ") [lit "mkdir"; lit "-p"; key_dir o] ++ 10 ::
    join (lit " ") [lit "install"; lit "{PK,KEK,db}.auth"; key_dir o ++ lit "/"] ++ 10 :: 10 ::
    lit "# Re-sign all the artifacts on the ESP after the new keys have been" ++ 10 ::
    lit "# auto enrolled." ++ 10 :: join (lit " ") [e_hook e ++ lit "/bin/lzbt"] ++ [10]) as ->.
  { unfold enroll_script. rewrite args_words. change ((e_sbctl e ++ lit "/bin/sbctl") :: lit "enroll-keys" :: flag_words e) with
      ([e_sbctl e ++ lit "/bin/sbctl"; lit "enroll-keys"] ++ flag_words e). rewrite join_app by discriminate.
    cbn [join]. unfold key_dir. rewrite <- !app_assoc. reflexivity. }
  unfold commands.
  rewrite words_line; [|apply Forall_cons; [exact W1|]; apply Forall_cons; [split; [discriminate | reflexivity]|]; exact FW | discriminate].
  change (shell Blank [] [] (10 :: ?t)) with (shell Blank [] [] t).
  rewrite words_line; [|repeat (apply Forall_cons; [first [exact W3 | split; [discriminate | reflexivity]]|]); apply Forall_nil | discriminate].
  rewrite words_line; [|repeat (apply Forall_cons; [first [exact W4 | split; [discriminate | reflexivity]]|]); apply Forall_nil | discriminate].
  change (shell Blank [] [] (10 :: ?t)) with (shell Blank [] [] t).
  change (lit "# Re-sign all the artifacts on the ESP after the new keys have been") with (35 :: lit " Re-sign all the artifacts on the ESP after the new keys have been").
  change (lit "# auto enrolled.") with (35 :: lit " auto enrolled."). cbn [app].
  change (shell Blank [] [] (35 :: ?t)) with (shell Comment [] [] t).
  rewrite comment_line by reflexivity.
  change (shell Blank [] [] (35 :: ?t)) with (shell Comment [] [] t).
  rewrite comment_line by reflexivity.
  rewrite words_line; [|apply Forall_cons; [exact W2 | apply Forall_nil] | discriminate].
  reflexivity.
Qed.

(** ** The programs *)

Lemma asked_flags e : asked_of (Request None false false false false) (flag_words e) =
  Some (Request (Some (lit "auth")) (e_firmware e) (e_microsoft e) (e_tpm e) (e_brick e)).
Proof. unfold flag_words. destruct (e_firmware e), (e_microsoft e), (e_tpm e), (e_brick e); reflexivity. Qed.

Lemma split_on_slash a b : split_on 47 (a ++ 47 :: b) = split_on 47 a ++ split_on 47 b.
Proof.
  induction a as [|c a IH]; [reflexivity|]. cbn [app split_on]. destruct (c =? 47); [rewrite IH; reflexivity|].
  rewrite IH. destruct (split_on 47 a) as [|x l] eqn:E; [|reflexivity].
  exfalso. clear -E. destruct a as [|d a]; [discriminate|]. cbn in E. destruct (d =? 47); [discriminate|]. destruct (split_on 47 a); discriminate.
Qed.
Lemma components_slash a b : components (a ++ 47 :: b) = components a ++ components b.
Proof. unfold components. rewrite split_on_slash. apply filter_app. Qed.
Lemma key_dir_components o : components (key_dir o) = components (o_esp o) ++ keys_suffix.
Proof. unfold key_dir. change (lit "/loader/keys/auto") with (47 :: lit "loader/keys/auto"). rewrite components_slash. reflexivity. Qed.
Lemma key_dir_slash o : components (key_dir o ++ lit "/") = components (o_esp o) ++ keys_suffix.
Proof. change (lit "/") with (47 :: @nil N). rewrite components_slash, key_dir_components. change (components []) with (@nil name). apply app_nil_r. Qed.

Lemma made_dir m rest : forall m1 (done : path), rest <> [] -> way_free m done rest = true ->
  (forall r, r <> [] -> lookup m1 (done ++ r) = lookup m (done ++ r)) -> is_dir (apply_all (missing_dirs m done rest) m1) (done ++ rest) = true.
Proof.
  induction rest as [|n rest IH]; intros m1 done NE W S; [congruence|]. cbn [missing_dirs way_free] in *. apply andb_prop in W as [W1 W].
  assert (done ++ [n] <> []) as NN by (intros E; apply app_eq_nil in E as [_ E]; discriminate).
  rewrite apply_all_app. replace (done ++ n :: rest) with ((done ++ [n]) ++ rest) by (rewrite <- app_assoc; reflexivity).
  set (m2 := apply_all (if present m (done ++ [n]) then [] else [OMkdir (done ++ [n])]) m1).
  assert (forall r, r <> [] -> lookup m2 ((done ++ [n]) ++ r) = lookup m ((done ++ [n]) ++ r)) as S2.
  { intros r NR. assert (lookup m1 ((done ++ [n]) ++ r) = lookup m ((done ++ [n]) ++ r)) as E.
    { rewrite <- app_assoc. apply S. discriminate. }
    unfold m2. destruct (present m (done ++ [n])); [exact E|]. change (apply_all [OMkdir (done ++ [n])] m1) with (apply (OMkdir (done ++ [n])) m1).
    rewrite lookup_apply. destruct (eqb_path (done ++ [n]) ((done ++ [n]) ++ r)) eqn:Q; [|exact E].
    apply eqb_path_spec in Q. exfalso. apply NR. rewrite <- (app_nil_r (done ++ [n])) in Q at 1. apply app_inv_head in Q. auto. }
  destruct rest as [|k rest].
  - rewrite app_nil_r. cbn [missing_dirs]. change (apply_all [] m2) with m2.
    assert (lookup m2 (done ++ [n]) = Some NDir) as L.
    { unfold m2. destruct (present m (done ++ [n])) eqn:P.
      - cbn in W1. change (apply_all [] m1) with m1. rewrite S by discriminate. unfold is_dir in W1.
        destruct (done ++ [n]) eqn:E; [congruence|]. destruct (lookup m (n0 :: l)) as [[|]|]; congruence.
      - change (apply_all [OMkdir (done ++ [n])] m1) with (apply (OMkdir (done ++ [n])) m1). rewrite lookup_apply, (proj2 (eqb_path_spec _ _) eq_refl). reflexivity. }
    unfold is_dir. destruct (done ++ [n]) eqn:E; [reflexivity|]. rewrite L. reflexivity.
  - apply IH; [discriminate | exact W | exact S2].
Qed.

Lemma installs o auth m : is_dir m (components (o_esp o) ++ keys_suffix) = true -> absolute (o_esp o) = true ->
  install_program auth [lit "PK.auth"; lit "KEK.auth"; lit "db.auth"; key_dir o ++ lit "/"] m =
  Some (apply_all (install_ops (components (o_esp o) ++ keys_suffix) auth) m).
Proof.
  intros D A. unfold install_program. cbn [rev app]. rewrite key_dir_slash, D.
  assert (absolute (key_dir o ++ lit "/") = true) as -> by (unfold key_dir; destruct (o_esp o); [discriminate | exact A]).
  assert (skipn (length (key_dir o ++ lit "/") - 1) (key_dir o ++ lit "/") = lit "/") as ->.
  { rewrite app_length. change (length (lit "/")) with 1%nat. rewrite Nat.add_sub, skipn_app, skipn_all, Nat.sub_diag. reflexivity. }
  reflexivity.
Qed.

Lemma runs_as_modelled e sbctl u o m : enroll_proper e o ->
  run_script e sbctl u o m =
  prepare (sbctl (Request (Some (lit "auth")) (e_firmware e) (e_microsoft e) (e_tpm e) (e_brick e))) None u o m.
Proof.
  intros EP. unfold run_script. rewrite (script_lines e o EP). destruct EP as [[PS AS] [PH AH] [PE AE]]. destruct (flags_fine e) as [_ FS].
  assert (simple (e_sbctl e ++ lit "/bin/sbctl")) as S1 by (apply simple_app; [apply plain_simple; exact PS | apply lit_simple; reflexivity]).
  assert (simple (e_hook e ++ lit "/bin/lzbt")) as S2 by (apply simple_app; [apply plain_simple; exact PH | apply lit_simple; reflexivity]).
  assert (simple (key_dir o)) as S3 by (apply simple_app; [apply plain_simple; exact PE | apply lit_simple; reflexivity]).
  assert (simple (key_dir o ++ lit "/")) as S4 by (apply simple_app; [exact S3 | apply lit_simple; reflexivity]).
  assert (forall s, absolute s = false -> eqb_bytes s (e_sbctl e ++ lit "/bin/sbctl") = false) as N1.
  { intros s H. apply not_true_iff_false. intros E. apply eqb_bytes_spec in E as ->. destruct (e_sbctl e); [discriminate | cbn in *; congruence]. }
  assert (eqb_bytes (e_hook e ++ lit "/bin/lzbt") (e_sbctl e ++ lit "/bin/sbctl") = false) as N2.
  { apply not_true_iff_false. intros E. apply eqb_bytes_spec, (f_equal (@rev _)) in E. rewrite !rev_app_distr in E. discriminate E. }
  assert (forall s, absolute s = false -> eqb_bytes (e_hook e ++ lit "/bin/lzbt") s = false) as N3.
  { intros s H. apply not_true_iff_false. intros E. apply eqb_bytes_spec in E as <-. destruct (e_hook e); [discriminate | cbn in *; congruence]. }
  cbn [run_commands].
  rewrite simple_arguments by (apply Forall_cons; [exact S1|]; apply Forall_cons; [apply lit_simple; reflexivity | exact FS]).
  rewrite eqb_bytes_refl. change (eqb_bytes (lit "enroll-keys") (lit "enroll-keys")) with true. cbv iota. rewrite asked_flags. cbn [q_export].
  unfold prepare. destruct (sbctl _) as [auth|]; [|reflexivity]. change (eqb_bytes (lit "auth") (lit "auth")) with true. cbv iota.
  rewrite simple_arguments by (repeat (apply Forall_cons; [first [exact S3 | apply lit_simple; reflexivity]|]); apply Forall_nil).
  rewrite N1 by reflexivity. change (eqb_bytes (lit "mkdir") (lit "mkdir")) with true. change (eqb_bytes (lit "-p") (lit "-p")) with true. cbv iota.
  cbn [run_mkdir]. assert (absolute (key_dir o) = true) as -> by (unfold key_dir; destruct (o_esp o); [discriminate | exact AE]).
  rewrite key_dir_components. destruct (way_free m [] (components (o_esp o) ++ keys_suffix)) eqn:W; [|reflexivity].
  assert (arguments (map bare [lit "install"; lit "{PK,KEK,db}.auth"; key_dir o ++ lit "/"]) =
    Some [lit "install"; lit "PK.auth"; lit "KEK.auth"; lit "db.auth"; key_dir o ++ lit "/"]) as ->.
  { unfold arguments. cbn [map all_braces]. rewrite (simple_braces (key_dir o ++ lit "/")) by exact S4.
    change (braces (bare (lit "install"))) with (Some [bare (lit "install")]).
    change (braces (bare (lit "{PK,KEK,db}.auth"))) with (Some [bare (lit "PK.auth"); bare (lit "KEK.auth"); bare (lit "db.auth")]).
    cbn [app]. apply expand_literals.
    repeat (apply Forall2_cons; [apply literal_bare; first [exact S4 | apply lit_simple; reflexivity]|]). apply Forall2_nil. }
  rewrite N1 by reflexivity. change (eqb_bytes (lit "install") (lit "mkdir")) with false. change (eqb_bytes (lit "install") (lit "install")) with true. cbv iota.
  rewrite installs; [|apply (made_dir m _ m []); [intros E; apply app_eq_nil in E as [_ E]; discriminate E | exact W | reflexivity] | exact AE].
  rewrite simple_arguments by (repeat (apply Forall_cons; [exact S2|]); apply Forall_nil).
  rewrite N2, (N3 (lit "mkdir") eq_refl), (N3 (lit "install") eq_refl), eqb_bytes_refl.
  unfold key_ops. rewrite apply_all_app.
  destruct (hook u o _) as [m' n]. destruct (N.eqb_spec n 0) as [->|]; reflexivity.
Qed.

Lemma writes_stay dir (auth : name -> bytes) l : NoDup l -> forall m n, In n l ->
  exists b, lookup (apply_all (flat_map (fun n => [OCreate (dir ++ [n]); OWrite (dir ++ [n]) (auth n); OChmod (dir ++ [n])]) l) m) (dir ++ [n]) = Some (NFile (auth n) b).
Proof.
  assert (forall l m n, ~ In n l -> lookup (apply_all (flat_map (fun n => [OCreate (dir ++ [n]); OWrite (dir ++ [n]) (auth n); OChmod (dir ++ [n])]) l) m) (dir ++ [n])
    = lookup m (dir ++ [n])) as OUT.
  { clear l. induction l as [|k l IH]; intros m n NI; [reflexivity|]. cbn [flat_map]. rewrite apply_all_app, IH by (intros X; apply NI; right; exact X).
    assert (eqb_path (dir ++ [k]) (dir ++ [n]) = false) as Q.
    { apply not_true_iff_false. intros E. apply eqb_path_spec, app_inj_tail in E as [_ E]. apply NI. left. exact E. }
    unfold apply_all. cbn [fold_left]. rewrite !lookup_apply, Q. reflexivity. }
  induction 1 as [|k l NI ND IH]; intros m n I; [destruct I|]. cbn [flat_map]. rewrite apply_all_app. destruct I as [->|I]; [|apply IH; exact I].
  rewrite OUT by exact NI. unfold apply_all. cbn [fold_left]. rewrite !lookup_apply, !(proj2 (eqb_path_spec _ _) eq_refl). eexists. reflexivity.
Qed.

Lemma script_armed e sbctl u o m m1 : enroll_proper e o -> run_script e sbctl u o m = (m1, 0) ->
  exists q auth m2, request_of e q /\ sbctl q = Some auth /\ hook u o m2 = (m1, 0) /\
    forall n, In n [lit "PK.auth"; lit "KEK.auth"; lit "db.auth"] ->
      exists b, lookup m2 (auth_file (components (o_esp o)) n) = Some (NFile (auth n) b).
Proof.
  intros EP. rewrite runs_as_modelled by exact EP. set (q := Request _ _ _ _ _). unfold prepare.
  destruct (sbctl q) as [auth|] eqn:SB; [|discriminate]. destruct (way_free _ _ _); [|discriminate]. intros H.
  exists q, auth, (apply_all (key_ops m (components (o_esp o)) auth) m).
  split; [repeat split|]. split; [exact SB|]. split; [exact H|]. intros n I. unfold key_ops. rewrite apply_all_app.
  destruct (writes_stay (components (o_esp o) ++ keys_suffix) auth auth_names) with (m := apply_all (missing_dirs m [] (components (o_esp o) ++ keys_suffix)) m) (n := n) as (b & L).
  - repeat constructor; cbn; intuition discriminate.
  - exact I.
  - exists b. rewrite <- L. unfold auth_file, install_ops. rewrite <- app_assoc. reflexivity.
Qed.
