(** Proofs for C94. *)
From Coq Require Import List NArith Bool Lia.
From Verif Require Import Base MText MHook MCli MTool MInstall MSbctl SSbctl SCli PBase.
Import ListNotations.
Open Scope N_scope.

Lemma plain_no_newline s : plain_value s -> ~ In 10 s.
Proof.
  intros (r & -> & P) [E|I]; [discriminate E|]. destruct (P 10 I) as [H|[H|[H|H]]]; try lia.
  vm_compute in H. intuition discriminate.
Qed.

(** A text of two lines has no others. *)
Lemma line_cases a b l : ~ In 10 a -> ~ In 10 b -> has_line (a ++ [10] ++ b ++ [10]) l -> l = a \/ l = b.
Proof.
  assert (Q : forall (x y u v : bytes), ~ In 10 x -> ~ In 10 u -> x ++ 10 :: y = u ++ 10 :: v -> x = u /\ y = v).
  { induction x as [|c x IH]; intros y u v NX NU E.
    - destruct u as [|d u]; [injection E as E; auto|]. injection E as E _. destruct NU. left. auto.
    - destruct u as [|d u]; [injection E as E _; destruct NX; left; auto|]. injection E as E1 E2. subst d.
      destruct (IH y u v) as [-> ->]; auto; [intros X; apply NX; right; exact X | intros X; apply NU; right; exact X]. }
  assert (S : forall (p y u v : bytes), ~ In 10 u -> u ++ 10 :: v = p ++ 10 :: y -> p = u /\ y = v \/
             exists p', p = u ++ 10 :: p' /\ v = p' ++ 10 :: y).
  { induction p as [|c p IH]; intros y u v NU E.
    - left. destruct u as [|d u]; [injection E as E; auto|]. injection E as E _. destruct NU. left. auto.
    - destruct u as [|d u].
      + injection E as E1 E2. subst c. right. exists p. auto.
      + injection E as E1 E2. subst d. destruct (IH y u v) as [[-> ->]|(p' & -> & ->)]; auto.
        * intros X; apply NU; right; exact X.
        * right. exists p'. auto. }
  intros NA NB (NL & before & after & E & [-> |(p & ->)]).
  - left. cbn [app] in E. destruct (Q a (b ++ [10]) l after NA NL E) as [X _]. symmetry. exact X.
  - right. rewrite <- app_assoc in E. cbn [app] in E.
    destruct (S p (l ++ 10 :: after) a (b ++ [10]) NA E) as [[_ X]|(p' & _ & X)].
    + destruct (Q l after b [] NL NB X) as [Y _]. exact Y.
    + exfalso. destruct (S p' (l ++ 10 :: after) b [] NB X) as [[_ Y]|(p'' & _ & Y)]; [destruct l|destruct p'']; discriminate Y.
Qed.

Lemma not_in_app (c : N) (a b : bytes) : ~ In c a -> ~ In c b -> ~ In c (a ++ b).
Proof. intros A B I. apply in_app_or in I. tauto. Qed.

Lemma conf_dir p : ~ In 10 p ->
  key_dir (Some (lit "guid: " ++ (p ++ lit "/GUID") ++ [10] ++ lit "keydir: " ++ (p ++ lit "/keys") ++ [10])) (p ++ lit "/keys").
Proof.
  intros NP. set (a := lit "guid: " ++ p ++ lit "/GUID"). set (b := lit "keydir: " ++ p ++ lit "/keys").
  assert (T : lit "guid: " ++ (p ++ lit "/GUID") ++ [10] ++ lit "keydir: " ++ (p ++ lit "/keys") ++ [10] = a ++ [10] ++ b ++ [10]).
  { unfold a, b. rewrite <- !app_assoc. reflexivity. }
  assert (NA : ~ In 10 a). { apply not_in_app; [|apply not_in_app; [exact NP|]]; vm_compute; intuition discriminate. }
  assert (NB : ~ In 10 b). { apply not_in_app; [|apply not_in_app; [exact NP|]]; vm_compute; intuition discriminate. }
  rewrite T. split.
  - unfold entry. replace (lit "keydir" ++ lit ": " ++ p ++ lit "/keys") with b by reflexivity.
    split; [exact NB|]. exists (a ++ [10]), []. split; [rewrite <- app_assoc; reflexivity|]. right. exists a. reflexivity.
  - intros d' H. destruct (line_cases a b _ NA NB H) as [E|E]; [discriminate E|].
    change (lit "keydir: " ++ d' = lit "keydir: " ++ p ++ lit "/keys") in E. apply app_inv_head in E. exact E.
Qed.

Lemma settings_inv k s : key_settings_of k = Some s ->
  public_key_file k = Some (ks_public s) /\ private_key_file k = Some (ks_private s) /\
  mk_if (ko_generate k || ko_enroll k) (sbctl_config_file k) = Some (ks_sbctl s) /\
  mk_if (ko_generate k) (in_bundle k (lit "/keys")) = Some (ks_unless s).
Proof.
  unfold key_settings_of.
  destruct (public_key_file k), (private_key_file k), (mk_if (ko_generate k || _) _), (mk_if (ko_generate k) _); try discriminate.
  intros E. injection E as <-. repeat split.
Qed.

Lemma configured_dir k s p : key_settings_of k = Some s -> ko_pki k = Some p -> plain_value p ->
  ko_generate k || ko_enroll k = true ->
  key_dir (ks_sbctl s) (p ++ lit "/keys") /\ (ko_generate k = true -> ks_unless s = Some (p ++ lit "/keys")).
Proof.
  intros E K PV ON. destruct (settings_inv k s E) as (_ & _ & C & U). unfold mk_if, sbctl_config_file, in_bundle in C, U.
  rewrite ON, K in C. rewrite K in U. injection C as C. split.
  - rewrite <- C. exact (conf_dir p (plain_no_newline p PV)).
  - intros G. rewrite G in U. injection U as U. symmetry. exact U.
Qed.

(** One directory only. *)
Lemma key_dir_unique conf d d' : key_dir conf d -> key_dir conf d' -> d' = d.
Proof. destruct conf; cbn; [intros (_ & U) (E & _); exact (U _ E) | congruence]. Qed.

Lemma default_files k s p : key_settings_of k = Some s -> ko_pki k = Some p -> ko_public k = None -> ko_private k = None ->
  ks_public s = db_certificate (p ++ lit "/keys") /\ ks_private s = db_key (p ++ lit "/keys").
Proof.
  intros E K PU PR. destruct (settings_inv k s E) as (A & B & _). unfold public_key_file, private_key_file, in_bundle in A, B.
  rewrite PU, K in A. rewrite PR, K in B. injection A as <-. injection B as <-.
  unfold db_certificate, db_key. rewrite <- !app_assoc. split; reflexivity.
Qed.

Lemma signs_enrolled k s p d w o links esp sg : key_settings_of k = Some s -> ko_pki k = Some p -> plain_value p ->
  ko_public k = None -> ko_private k = None -> ko_generate k || ko_enroll k = true -> key_dir (ks_sbctl s) d -> pair_works w d ->
  w_exists w (db_certificate d) = Some true ->
  asked_signer w (install_args (with_keys s o) links esp) sg ->
  sg_key sg = w_read w (db_certificate d) /\ forall x y, sg_sign sg x = Some y -> w_sbverify w (db_certificate d) y = true.
Proof.
  intros E K PV PU PR ON KD PW EX AS.
  destruct (configured_dir k s p E K PV ON) as (KD' & _). assert (D := key_dir_unique _ _ _ KD' KD). subst d.
  destruct (default_files k s p E K PU PR) as (F1 & F2).
  destruct AS as (public & private & A1 & A2 & _ & SI). cbn [install_args with_keys a_public_key a_private_key o_public_key o_private_key] in A1, A2.
  injection A1 as <-. injection A2 as <-. rewrite F1, F2 in SI.
  destruct SI as (KY & SG & _); [intros (_ & NE & _); exact (NE EX)|].
  split; [exact KY|]. intros x y S. apply (PW x). rewrite <- S. symmetry. exact (proj1 (SG x)).
Qed.

Lemma evaluates_iff k : key_settings_of k <> None <->
  ko_pki k <> None \/ ko_public k <> None /\ ko_private k <> None /\ ko_generate k = false /\ ko_enroll k = false.
Proof.
  unfold key_settings_of, public_key_file, private_key_file, sbctl_config_file, in_bundle, mk_if.
  destruct k as [[] [] [p|] [pu|] [pr|]]; cbn; split;
    intros H; try discriminate; try (left; discriminate); try (right; repeat split; discriminate);
    try (exfalso; apply H; reflexivity); destruct H as [H|(H1 & H2 & H3 & H4)]; try discriminate; congruence.
Qed.

Lemma by_hand k s p : key_settings_of k = Some s -> ko_pki k = Some p -> ko_public k = None -> ko_private k = None ->
  ko_generate k = false -> ko_enroll k = false ->
  (forall d, key_dir (ks_sbctl s) d -> ks_public s = db_certificate d) <-> p = lit "/var/lib/sbctl".
Proof.
  intros E K PU PR G EN. destruct (settings_inv k s E) as (_ & _ & C & _). rewrite G, EN in C. cbn in C. injection C as C.
  destruct (default_files k s p E K PU PR) as (F1 & _). rewrite F1, <- C. cbn [key_dir]. split.
  - intros H. specialize (H _ eq_refl). unfold db_certificate in H. apply app_inv_tail in H.
    change (lit "/var/lib/sbctl/keys") with (lit "/var/lib/sbctl" ++ lit "/keys") in H. apply app_inv_tail in H. exact H.
  - intros -> d ->. reflexivity.
Qed.
