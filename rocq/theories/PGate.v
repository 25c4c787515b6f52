(** Proofs for C60 and C61. *)
From Coq Require Import List NArith Bool Lia ZArith ZifyBool ZifyNat ZifyN Permutation.
From Verif Require Import Base PBase MText PText MCpio PCpio MPe MFirmware MStub PMonad SFirmware PFirmware SStub PStub PStubRun SGate.
Import ListNotations.
Open Scope N_scope.

(** ** C60 *)
Lemma extract_hash_ok : forall image secs n d,
  extract_hash image secs n = Ok d -> section_hash image secs n d.
Proof.
  intros image secs n d H. split; [apply extract_hash_contents; exact H|].
  unfold extract_hash in H. apply bind_ok in H. destruct H as ([x|] & _ & H); [|discriminate].
  destruct (len x =? 32) eqn:E; [|discriminate]. injection H as <-. unfold len in E. lia.
Qed.

(** Events of [load_from_pe]. *)
Definition looks (e : event) : Prop :=
  match e with EvFs _ | EvRead _ _ | EvGet _ _ _ _ => True | _ => False end.
Lemma emits_looks : forall fw sha image p, emits looks (load_from_pe fw sha image p).
Proof.
  intros. unfold load_from_pe, check_hash, get_secure_boot_status, get_variable.
  repeat (progress emitsM); cbn; auto.
Qed.
Lemma looks_harmless : forall e, looks e -> ~ has_effect e.
Proof. intros [] H; cbn in *; tauto. Qed.

(** The stub up to the check. *)
Lemma stub_gate : forall fw sha pm parse image path h r,
  stub_main fw sha pm parse image path [] = (h, r) ->
  (exists t e, r = Panic /\ h = [EvTpm t; EvOpenImage (Some e)]) \/
  (exists t h1 r1, load_from_pe fw sha image (pm image) [EvTpm t; EvOpenImage None] = (h1, r1) /\
     ((r = Panic /\ h = h1 /\ forall k, r1 <> Ok k) \/
      (exists k es, r1 = Ok k /\ h = h1 ++ es /\ Forall (fun e => ~ reads_file e) es))).
Proof.
  intros fw sha pm parse image path h r H. unfold stub_main in H.
  stepM H; try (apply call_inv in S; destruct S as [_ S]; discriminate).
  apply call_inv in S. destruct S as [-> S]. cbn [app] in H.
  stepM H; try (apply call_inv in S0; destruct S0 as [_ S0]; discriminate).
  apply call_inv in S0. destruct S0 as [-> S0]. cbn [app] in H.
  injection S0 as ->. injection S as ->.
  destruct (fw_open_image fw [EvTpm (fw_tpm fw [])]) as [e|] eqn:Eo.
  { left. cbn in H. inversion H; subst. eauto. }
  right. exists (fw_tpm fw []).
  stepM H; try discriminate. apply ret_inv in S. destruct S as [-> _].
  destruct (load_from_pe fw sha image (pm image) [EvTpm (fw_tpm fw []); EvOpenImage None]) as [h1 r1] eqn:EL.
  exists h1, r1. split; [reflexivity|].
  stepM H.
  - apply expect_inv in S. rewrite EL in S.
    destruct S as [(x & E1 & E2)|[(x & _ & E)|(_ & E)]]; try discriminate.
    injection E1 as -> ->. injection E2 as <-. right.
    assert (Q : emits (fun e => ~ reads_file e)
       (_ <- (if fw_tpm fw [] then _ <- attempt (measure_image fw image (pm image) (k_kernel a0) (k_initrd a0)) ;; ret tt
              else ret tt) ;;
        _ <- attempt (get_loader_features fw) ;;
        _ <- attempt (export_efi_variables fw stub_name_text) ;;
        companions <- companions_block fw (fw_tpm fw []) path ;;
        boot_linux fw parse a0 (map co_cpio companions))).
    { assert (P : forall A (m : M A), emits preparatory m -> emits (fun e => ~ reads_file e) m).
      { intros A m. apply emits_weaken. intros [] X Y; cbn in *; tauto. }
      apply emits_bind; [apply P; destruct (fw_tpm fw []); emitsM|intros _].
      apply emits_bind; [apply P; emitsM|intros _].
      apply emits_bind; [apply P; emitsM|intros _].
      apply emits_bind; [apply P; emitsM|intros cs].
      unfold boot_linux. apply emits_bind; [apply P; emitsM|intros c].
      unfold boot_linux_unchecked, load_kernel, initrd_loader_new, start_kernel, initrd_loader_uninstall.
      repeat (progress emitsM); cbn; auto. }
    destruct (Q _ _ _ H) as (es & -> & F). exists a0, es. auto.
  - apply expect_inv in S. destruct S as [(x & _ & E)|[(x & _ & E)|(_ & E)]]; discriminate.
  - left. apply expect_inv in S. rewrite EL in S. subst r.
    destruct S as [(x & _ & E)|[(x & E & _)|(E & _)]]; [discriminate| |];
      inversion E; subst; repeat split; discriminate.
Qed.

Lemma load_ok_vouches : forall fw sha image parsed h h1 k,
  load_from_pe fw sha image parsed h = (h1, Ok k) ->
  exists p kn inn es, parsed = Some p /\
    vouches sha image (pe_sections p) kn (k_kernel k) inn (k_initrd k) (k_cmdline k) /\
    h1 = h ++ es /\ reads_of es = [(kn, Some (k_kernel k)); (inn, Some (k_initrd k))].
Proof.
  intros fw sha image parsed h h1 k H. destruct (load_from_pe_ok _ _ _ _ _ _ _ H) as (p & kn & inn & b & -> & E1 & E2 & E3 & E4 & E5 & ->).
  exists p, kn, inn. eexists. split; [reflexivity|]. split.
  - unfold vouches. auto 10 using extract_string_text, extract_hash_ok.
  - split; reflexivity.
Qed.

Lemma no_reads : forall l, Forall (fun e => ~ reads_file e) l -> reads_of l = [].
Proof.
  induction 1 as [|y l Hy _ IH]; [reflexivity|]. cbn. fold (reads_of l). rewrite IH. destruct y; try reflexivity. destruct (Hy I).
Qed.

Lemma effects_verified : forall fw sha pm parse image path h r a e b,
  stub_main fw sha pm parse image path [] = (h, r) -> h = a ++ e :: b -> has_effect e ->
  exists p kn kernel inn initrd cmd, pm image = Some p /\
    vouches sha image (pe_sections p) kn kernel inn initrd cmd /\
    reads_of a = [(kn, Some kernel); (inn, Some initrd)].
Proof.
  intros fw sha pm parse image path h r a e b H Eh He.
  assert (NB : forall es, Forall (fun x => ~ has_effect x) es -> h = es -> False).
  { intros es F E. rewrite <- E, Eh in F. apply Forall_app in F. destruct F as [_ F]. inversion F; auto. }
  assert (F0 : forall t, Forall (fun x => ~ has_effect x) [EvTpm t; EvOpenImage None]).
  { intros t. repeat constructor; cbn; auto. }
  destruct (stub_gate _ _ _ _ _ _ _ _ H) as [(t & x & _ & E)|(t & h1 & r1 & L & D)].
  { exfalso. eapply NB; [|exact E]. repeat constructor; cbn; auto. }
  destruct (emits_looks _ _ _ _ _ _ _ L) as (es1 & E1 & F1).
  assert (F2 : Forall (fun x => ~ has_effect x) h1).
  { rewrite E1. apply Forall_app. split; [apply F0|]. eapply Forall_impl; [|exact F1]. apply looks_harmless. }
  destruct D as [(_ & E & _)|(k & es & -> & E & F)].
  { exfalso. eapply NB; eauto. }
  destruct (load_ok_vouches _ _ _ _ _ _ _ L) as (p & kn & inn & es2 & Ep & V & E2 & R).
  exists p, kn, (k_kernel k), inn, (k_initrd k), (k_cmdline k). split; [exact Ep|]. split; [exact V|].
  rewrite E in Eh. destruct (app_split_notin has_effect _ _ _ _ _ Eh F2 He) as (pre & -> & Ees).
  assert (Fp : Forall (fun e => ~ reads_file e) pre).
  { rewrite Ees in F. apply Forall_app in F. tauto. }
  rewrite reads_app, (no_reads _ Fp), E2, reads_app, R. reflexivity.
Qed.

Lemma not_panic_verified : forall fw sha pm parse image path h r,
  stub_main fw sha pm parse image path [] = (h, r) -> r <> Panic ->
  exists p kn kernel inn initrd cmd, pm image = Some p /\
    vouches sha image (pe_sections p) kn kernel inn initrd cmd /\
    reads_of h = [(kn, Some kernel); (inn, Some initrd)].
Proof.
  intros fw sha pm parse image path h r H NP.
  destruct (stub_gate _ _ _ _ _ _ _ _ H) as [(t & x & E & _)|(t & h1 & r1 & L & [(E & _)|(k & es & -> & E & F)])];
    [destruct (NP E)|destruct (NP E)|].
  destruct (load_ok_vouches _ _ _ _ _ _ _ L) as (p & kn & inn & es2 & Ep & V & E2 & R).
  exists p, kn, (k_kernel k), inn, (k_initrd k), (k_cmdline k). split; [exact Ep|]. split; [exact V|].
  rewrite E, E2, !reads_app, R, (no_reads _ F). reflexivity.
Qed.

(** Without the five sections nothing is read. *)
Lemma load_early : forall fw sha image p h h1 r1,
  load_from_pe fw sha image (Some p) h = (h1, r1) ->
  (h1 = h /\ forall k, r1 <> Ok k) \/
  (exists kn kh inn ih cmd,
     extract_string image (pe_sections p) (lit ".linux") = Ok kn /\
     extract_hash image (pe_sections p) (lit ".linuxh") = Ok kh /\
     extract_string image (pe_sections p) (lit ".initrd") = Ok inn /\
     extract_hash image (pe_sections p) (lit ".initrdh") = Ok ih /\
     extract_string image (pe_sections p) (lit ".cmdline") = Ok cmd).
Proof.
  intros fw sha image p h h1 r1 H. unfold load_from_pe in H. cbv zeta in H.
  destruct (extract_string image (pe_sections p) (lit ".linux")) as [kn|e|] eqn:E1;
    [|left; inversion H; split; [reflexivity|discriminate]..].
  destruct (extract_hash image (pe_sections p) (lit ".linuxh")) as [kh|e|] eqn:E2;
    [|left; inversion H; split; [reflexivity|discriminate]..].
  destruct (extract_string image (pe_sections p) (lit ".initrd")) as [inn|e|] eqn:E3;
    [|left; inversion H; split; [reflexivity|discriminate]..].
  destruct (extract_hash image (pe_sections p) (lit ".initrdh")) as [ih|e|] eqn:E4;
    [|left; inversion H; split; [reflexivity|discriminate]..].
  destruct (extract_string image (pe_sections p) (lit ".cmdline")) as [cmd|e|] eqn:E5;
    [|left; inversion H; split; [reflexivity|discriminate]..].
  right. eauto 10.
Qed.

Lemma damaged_refused : forall fw sha pm parse image path h r,
  (forall p, pm image = Some p -> damaged image (pe_sections p)) ->
  stub_main fw sha pm parse image path [] = (h, r) ->
  r = Panic /\ reads_of h = [] /\ Forall (fun e => ~ has_effect e) h.
Proof.
  intros fw sha pm parse image path h r D H.
  destruct (stub_gate _ _ _ _ _ _ _ _ H) as [(t & x & -> & ->)|(t & h1 & r1 & L & C)].
  { split; [reflexivity|]. split; [reflexivity|]. repeat constructor; cbn; auto. }
  assert (X : h1 = [EvTpm t; EvOpenImage None] /\ forall k, r1 <> Ok k).
  { destruct (pm image) as [p|] eqn:Ep.
    - destruct (load_early _ _ _ _ _ _ _ L) as [X|(kn & kh & inn & ih & cmd & E1 & E2 & E3 & E4 & E5)]; [exact X|exfalso].
      destruct (D p eq_refl) as [(n & I & N)|(n & I & N)].
      + destruct I as [<-|[<-|[<-|[]]]]; [apply (N kn)|apply (N inn)|apply (N cmd)]; apply extract_string_text; assumption.
      + destruct I as [<-|[<-|[]]]; [apply (N kh)|apply (N ih)]; apply extract_hash_ok; assumption.
    - cbn in L. inversion L. split; [reflexivity|discriminate]. }
  destruct X as [-> NK]. destruct C as [(-> & -> & _)|(k & es & -> & _)]; [|destruct (NK k eq_refl)].
  split; [reflexivity|]. split; [reflexivity|]. repeat constructor; cbn; auto.
Qed.

(** ** C61 *)

(** Code that never panics, and code that always returns a value with [Q]. *)
Definition calm {A} (m : M A) : Prop := forall h, snd (m h) <> Panic.
Definition returns {A} (m : M A) (Q : A -> Prop) : Prop := forall h, exists h' a, m h = (h', Ok a) /\ Q a.

Lemma calm_ret : forall {A} (a : A), calm (ret a). Proof. discriminate. Qed.
Lemma calm_fail : forall {A} e, calm (A := A) (fail e). Proof. discriminate. Qed.
Lemma calm_check : forall o, calm (check o). Proof. intros [] h; discriminate. Qed.
Lemma calm_answer : forall {A} (a : A + status), calm (answer a). Proof. intros A [] h; discriminate. Qed.
Lemma calm_call : forall {A} (q : list event -> A) ev, calm (call q ev). Proof. discriminate. Qed.
Lemma calm_lift : forall {A} (r : res status A), r <> Panic -> calm (lift r). Proof. intros A r H h. exact H. Qed.
Lemma calm_bind : forall {A B} (m : M A) (k : A -> M B), calm m -> (forall a, calm (k a)) -> calm (mbind m k).
Proof.
  intros A B m k Hm Hk h. unfold mbind. specialize (Hm h). destruct (m h) as [h' [a|e|]]; [apply Hk|discriminate|auto].
Qed.
Lemma calm_attempt : forall {A} (m : M A), calm m -> calm (attempt m).
Proof. intros A m Hm h. unfold attempt. specialize (Hm h). destruct (m h) as [h' [a|e|]]; [discriminate..|auto]. Qed.
Create HintDb calm.
#[export] Hint Resolve calm_ret calm_fail calm_check calm_answer calm_call calm_attempt : calm.
Ltac calmM :=
  repeat first
    [ progress intros
    | solve [auto with calm]
    | progress cbv zeta
    | apply calm_bind
    | apply calm_attempt
    | match goal with |- calm (match ?x with _ => _ end) => destruct x end ].

Lemma returns_attempt : forall {A} (m : M A), calm m -> returns (attempt m) (fun _ => True).
Proof.
  intros A m H h. unfold attempt. specialize (H h). destruct (m h) as [h' [a|e|]]; [eauto|eauto|destruct (H eq_refl)].
Qed.
Lemma returns_ret : forall {A} (a : A) (Q : A -> Prop), Q a -> returns (ret a) Q.
Proof. intros A a Q H h. exists h, a. auto. Qed.
Lemma returns_call : forall {A} (q : list event -> A) ev (Q : A -> Prop), (forall h, Q (q h)) -> returns (call q ev) Q.
Proof. intros A q ev Q H h. unfold call. eauto. Qed.
Lemma returns_bind : forall {A B} (m : M A) (k : A -> M B) Q R,
  returns m Q -> (forall a, Q a -> returns (k a) R) -> returns (mbind m k) R.
Proof.
  intros A B m k Q R Hm Hk h. destruct (Hm h) as (h' & a & E & Ha). unfold mbind. rewrite E. apply Hk. exact Ha.
Qed.

Lemma calm_tpm_log : forall fw p d s, calm (tpm_log fw p d s).
Proof. intros. unfold tpm_log, open_capable_tpm2. calmM. Qed.
Lemma calm_set : forall fw n v d, calm (set_variable fw n v d).
Proof. intros. unfold set_variable. calmM. Qed.
Lemma calm_get : forall fw n v d, calm (get_variable fw n v d).
Proof. intros. unfold get_variable. calmM. Qed.
#[export] Hint Resolve calm_tpm_log calm_set calm_get : calm.

Lemma section_data_calm : forall image secs n, within image secs -> section_data image secs n <> Panic.
Proof.
  intros image secs n W. unfold section_data. destruct (find (has_name n) secs) as [s|] eqn:E; [|discriminate].
  apply find_some in E. destruct E as [I _]. specialize (W s I).
  unfold read_section, slice. replace (_ && _) with true by lia. discriminate.
Qed.
Lemma calm_measure : forall fw image parsed k i,
  (forall p, parsed = Some p -> within image (pe_sections p)) -> calm (measure_image fw image parsed k i).
Proof.
  intros fw image [p|] k i W; [|discriminate]. specialize (W p eq_refl). unfold measure_image.
  apply calm_bind; [|calmM].
  generalize (sort_unified (sections_to_measure (section_names (pe_sections p)))). 
  induction l as [|u l IH]; cbn [measure_sections]; [calmM|].
  apply calm_bind; [apply calm_lift, section_data_calm, W|]. calmM.
Qed.
Lemma calm_features : forall fw, calm (get_loader_features fw).
Proof. intros. unfold get_loader_features. calmM. Qed.
Lemma part_uuid_calm : forall l, part_uuid l <> Panic.
Proof.
  induction l as [|n l IH]; [discriminate|]. cbn. destruct (negb _); [exact IH|].
  destruct (dp_hd n) as [[]|]; try exact IH. discriminate.
Qed.
Lemma calm_export : forall fw n, calm (export_efi_variables fw n).
Proof.
  intros. unfold export_efi_variables, ensure_efi_variable, variable_exists, disk_get_part_uuid.
  repeat first [progress calmM | apply calm_lift, part_uuid_calm].
Qed.
Lemma calm_companions_loop : forall fw l m c s, calm (measure_companions_loop fw l m c s).
Proof. intros fw; induction l as [|[t b] l IH]; intros; cbn [measure_companions_loop]; calmM. Qed.
#[export] Hint Resolve calm_companions_loop : calm.
Lemma calm_measure_companions : forall fw l, calm (measure_companion_initrds fw l).
Proof. intros. unfold measure_companion_initrds. calmM. Qed.

(** Archives. *)
Lemma pack_dir_calm : forall c path mode, len path < 2 ^ 31 -> snd (pack_dir c path mode) <> Panic.
Proof.
  intros c path mode L. unfold pack_dir. cbv zeta.
  repeat match goal with |- snd (if ?b then _ else _) <> _ => destruct b; [discriminate|] end.
  destruct (cpio_header _) as [[]|] eqn:E; [discriminate|]. apply header_none in E. cbn [e_name] in E.
  change cu32_max with 4294967295 in E. lia.
Qed.
Lemma pack_one_calm : forall c fname contents prefix mode, len fname <= 255 -> len prefix <= 255 ->
  snd (pack_one c fname contents prefix mode) <> Panic.
Proof.
  intros c fname contents prefix mode L1 L2. unfold pack_one. cbv zeta.
  repeat match goal with |- snd (if ?b then _ else _) <> _ => destruct b; [discriminate|] end.
  destruct (cpio_header _) as [[h hs]|] eqn:E; [discriminate|]. apply header_none in E. cbn [e_name] in E.
  change cu32_max with 4294967295 in E.
  match type of E with _ < len ?n + 1 => assert (len n <= 600); [|lia] end.
  unfold len in *. destruct prefix; [lia|]. rewrite !app_length. cbn [length] in *. lia.
Qed.
Lemma cthen_calm : forall {A B} (r : cpio * res cpio_error A) (k : cpio -> cpio * res cpio_error B),
  snd r <> Panic -> (forall c, snd (k c) <> Panic) -> snd (cthen r k) <> Panic.
Proof. intros A B [c [a|e|]] k H K; cbn; [apply K|discriminate|auto]. Qed.
Lemma prefix_loop_calm : forall parts c ancestor mode, len ancestor + len (concat parts) + len parts <= 255 ->
  snd (pack_prefix_loop c ancestor parts mode) <> Panic.
Proof.
  induction parts as [|p parts IH]; intros c ancestor mode L; [discriminate|].
  assert (Lp : len (ancestor ++ [47] ++ p) + len (concat parts) + len parts <= 255).
  { cbn [concat] in L. unfold len in *. rewrite !app_length in *. cbn [length] in *. lia. }
  assert (D : forall m, snd (pack_dir c (ancestor ++ [47] ++ p) m) <> Panic).
  { intros m. apply pack_dir_calm. unfold len in *. lia. }
  cbn [pack_prefix_loop]. destruct parts as [|q parts]; [apply D|].
  specialize (D 365). destruct (pack_dir c (ancestor ++ [47] ++ p) 365) as [c' [a|e|]]; [|discriminate|auto].
  apply IH. exact Lp.
Qed.
Lemma pack_files_calm : forall read prefix mode files c,
  Forall (fun f => len (utf8_encode (last_component f)) <= 255 /\ read f <> None) files -> len prefix <= 255 ->
  snd (pack_files read c files prefix mode) <> Panic.
Proof.
  intros read prefix mode; induction files as [|f files IH]; intros c F L; [discriminate|]. cbn [pack_files].
  inversion F as [|? ? [F1 F2] F3]; subst. destruct (read f) as [d|]; [|destruct (F2 eq_refl)].
  apply cthen_calm; [apply pack_one_calm; auto|]. intros c'. apply IH; auto.
Qed.
Lemma pack_cpio_calm : forall read files prefix dm am,
  Forall (fun f => len (utf8_encode (last_component f)) <= 255 /\ read f <> None) files ->
  len (concat (split_on 47 prefix)) + len (split_on 47 prefix) <= 255 -> len prefix <= 255 ->
  pack_cpio read files prefix dm am <> Panic.
Proof.
  intros read files prefix dm am F L1 L2. unfold pack_cpio.
  assert (Fin : forall A (r : cpio * res cpio_error A), snd r <> Panic -> finish r <> Panic).
  { intros A [c [a|e|]] H; cbn in *; congruence. }
  apply Fin. apply cthen_calm; [apply prefix_loop_calm; exact L1|]. intros c.
  apply cthen_calm; [apply pack_files_calm; auto|].
  - eapply Permutation_Forall; [apply sort_paths_perm|]. exact F.
  - intros c'. apply pack_one_calm; cbn; lia.
Qed.

Lemma find_loop_calm : forall dir suffix l, find_loop dir suffix l <> Panic.
Proof.
  intros dir suffix; induction l as [|[f|] l IH]; [discriminate| |discriminate].
  cbn [find_loop]. destruct (find_loop dir suffix l); [discriminate|discriminate|auto].
Qed.
Lemma find_loop_in : forall dir suffix l files, find_loop dir suffix l = Ok files ->
  forall x, In x files -> exists f, In (Some f) l /\ x = dir ++ [92] ++ de_name f /\ de_regular f = true /\
    Forall (fun c => c < 128) (de_name f) /\ exists b, de_name f = b ++ suffix.
Proof.
  intros dir suffix; induction l as [|[f|] l IH]; intros files H x I; [injection H as <-; destruct I| |discriminate].
  cbn [find_loop] in H. apply bind_ok in H. destruct H as (r & Er & H). injection H as <-.
  destruct (de_regular f && forallb (fun c => c <? 128) (de_name f) && ends_with suffix (de_name f)) eqn:E.
  - destruct I as [<-|I].
    + exists f. split; [left; reflexivity|]. split; [reflexivity|]. split; [destruct (de_regular f); [reflexivity|discriminate]|].
      apply andb_prop in E. destruct E as [E EW]. apply andb_prop in E. destruct E as [_ E].
      split; [|apply ends_with_spec; exact EW].
      apply Forall_forall. intros c Hc. rewrite forallb_forall in E. specialize (E c Hc). lia.
    + destruct (IH r Er x I) as (g & G1 & G2). exists g. split; [right; exact G1|exact G2].
  - destruct (IH r Er x I) as (g & G1 & G2). exists g. split; [right; exact G1|exact G2].
Qed.
Lemma companion_of_calm : forall fs dir suffix t prefix dm am,
  readable_dir fs dir -> suffix = lit ".cred" \/ suffix = lit ".raw" ->
  len (concat (split_on 47 prefix)) + len (split_on 47 prefix) <= 255 -> len prefix <= 255 ->
  companion_of fs dir suffix t prefix dm am <> Panic.
Proof.
  intros fs dir suffix t prefix dm am (l & El & RD) SF L1 L2. unfold companion_of, find_files. rewrite El.
  pose proof (find_loop_calm dir suffix l) as C.
  destruct (find_loop dir suffix l) as [files|e|] eqn:E; cbn [bind]; [|discriminate|auto].
  assert (P : pack_cpio (fs_read fs) files prefix dm am <> Panic).
  { apply pack_cpio_calm; auto. apply Forall_forall. intros x I.
    destruct (find_loop_in _ _ _ _ E x I) as (f & If & -> & Rf & Af & st & Es).
    destruct (RD f st If Rf) as (Ln & NB & d & Ed).
    { destruct SF as [<-|<-]; auto. }
    rewrite last_component_join by exact NB.
    rewrite utf8_ascii by exact Af. split; [exact Ln|]. rewrite Ed. discriminate. }
  destruct files; [discriminate|]. destruct (pack_cpio _ _ _ _ _); cbn; [discriminate|discriminate|auto].
Qed.

Lemma discover_calm : forall {A} fw (f : efs -> res unit A), (forall h, f (fw_files fw h) <> Panic) -> calm (discover fw f).
Proof. intros A fw f H h. unfold discover. specialize (H h). cbn. destruct (f (fw_files fw h)); [discriminate|discriminate|auto]. Qed.

(** The drop-in directory is the one of the image path. *)
Lemma companions_return : forall fw t path, companions_readable fw path ->
  returns (companions_block fw t path) (fun _ => True).
Proof.
  intros fw t path (G1 & G2 & G3). unfold companions_block.
  apply (returns_bind _ _ (fun _ => True)); [apply returns_call; auto|]. intros f _.
  destruct f; [|apply returns_ret; exact I].
  apply (returns_bind _ _ (fun d => forall x, d = Some x -> forall h, readable_dir (fw_files fw h) x)).
  { destruct path as [p|]; [|apply returns_ret; discriminate].
    intros h. unfold attempt, discover, dropin_directory, mbind, ret.
    destruct (fs_isdir (fw_files fw h) (p ++ lit ".extra")) as [[]|] eqn:E.
    - eexists _, _. split; [reflexivity|]. intros x Ex h'. injection Ex as <-. exact (G3 p h h' eq_refl E).
    - eexists _, _. split; [reflexivity|]. discriminate.
    - eexists _, _. split; [reflexivity|]. discriminate. }
  intros d Hd.
  apply (returns_bind _ _ (fun _ => True)).
  { apply returns_attempt, discover_calm. intros h. unfold discover_credentials. cbv zeta.
    assert (X : match fs_exists (fw_files fw h) (lit "\loader\credentials") with
        | None => Panic
        | Some false => Ok []
        | Some true =>
            match fs_isdir (fw_files fw h) (lit "\loader\credentials") with
            | None => Err tt
            | Some false => Ok []
            | Some true =>
                companion_of (fw_files fw h) (lit "\loader\credentials") (lit ".cred") GlobalCredentials
                  (lit ".extra/global_credentials") 0x140 0x100
            end
        end <> Panic).
    { specialize (G1 h). destruct (fs_exists _ _) as [[]|]; [|discriminate|destruct (G1 eq_refl)].
      specialize (G2 h). destruct (fs_isdir _ _) as [[]|]; [|discriminate|discriminate].
      apply companion_of_calm; [apply G2; reflexivity|auto|vm_compute; discriminate|vm_compute; discriminate]. }
    match goal with |- bind ?m _ <> _ => destruct m as [g|e|]; cbn [bind]; [|discriminate|auto] end. clear X.
    assert (Y : match d with
        | None => Ok []
        | Some d => companion_of (fw_files fw h) d (lit ".cred") Credentials (lit ".extra/credentials") 0x140 0x100
        end <> Panic).
    { destruct d as [d|]; [|discriminate].
      apply companion_of_calm; [apply Hd; reflexivity|auto|vm_compute; discriminate|vm_compute; discriminate]. }
    match goal with |- bind ?m _ <> _ => destruct m as [g'|e|]; cbn [bind]; [|discriminate|auto] end. discriminate. }
  intros cs _. cbv zeta.
  apply (returns_bind _ _ (fun _ => True)).
  { destruct d as [d|]; [|apply returns_ret; exact I].
    apply (returns_bind _ _ (fun _ => True)); [|intros r _; apply returns_ret; exact I].
    apply returns_attempt, discover_calm. intros h. unfold discover_system_extensions.
    apply companion_of_calm; [apply Hd; reflexivity|auto|vm_compute; discriminate|vm_compute; discriminate]. }
  intros ex _. apply (returns_bind _ _ (fun _ => True)); [|intros u _; apply returns_ret; exact I].
  destruct t; [|apply returns_ret; exact I].
  apply (returns_bind _ _ (fun _ => True)); [|intros r _; apply returns_ret; exact I].
  apply returns_attempt, calm_measure_companions.
Qed.

Lemma cmdline_returns : forall fw embedded, basics_work fw -> N.of_nat (length embedded) < 2 ^ 32 ->
  returns (get_cmdline fw embedded) (fun c => N.of_nat (length c) < 2 ^ 32).
Proof.
  intros fw embedded B L. unfold get_cmdline.
  apply (returns_bind _ _ (fun _ => True)).
  { unfold get_secure_boot_status, get_variable. apply (returns_bind _ _ (fun _ => True)); [apply returns_call; auto|].
    intros a _. apply returns_ret. exact I. }
  intros sb _. destruct sb; [apply returns_ret; exact L|].
  apply (returns_bind _ _ (fun o => forall x, o = Some x -> N.of_nat (length x) < 2 ^ 32)).
  { unfold get_load_options. apply (returns_bind _ _ (fun _ => True)); [apply returns_call; auto|].
    intros [e|] _; [apply returns_ret; discriminate|]. apply returns_call. intros h x E. exact (bw_options _ B h x E). }
  intros [passed|] Hp; [|apply returns_ret; exact L]. specialize (Hp passed eq_refl).
  destruct (eqb_bytes passed embedded); [apply returns_ret; exact Hp|].
  apply (returns_bind _ _ (fun _ => True)); [apply returns_attempt; unfold measure_boot_loader; calmM|].
  intros [u|e] _; apply returns_ret; assumption.
Qed.

Lemma start_starts : forall fw img entry opts h, (forall h, fw_open_image fw h = None) ->
  N.of_nat (length opts) < 2 ^ 32 ->
  exists h' r before, start_kernel fw img entry opts h = (h', r) /\ started h' before img entry.
Proof.
  intros fw img entry opts h BO L. unfold start_kernel, mbind at 1, call at 1. rewrite BO.
  unfold mbind at 1, ret at 1, mbind at 1, call at 1, mbind at 1.
  replace (two32 <=? len opts) with false by (unfold two32, len; lia).
  unfold ret at 1, mbind at 1, call at 1.
  match goal with |- context [mbind (call (fw_kernel fw) _) ?k ?hh] => set (h3 := hh); set (K := k) end.
  unfold mbind, call.
  assert (EK : forall s, emits (fun _ => True) (K s)).
  { intros s. subst K. cbv beta. repeat (progress emitsM). }
  destruct (K (fw_kernel fw h3) (h3 ++ [EvStart img entry (fw_kernel fw h3)])) as [h' r] eqn:E.
  destruct (EK _ _ _ _ E) as (es & -> & _). exists ((h3 ++ [EvStart img entry (fw_kernel fw h3)]) ++ es), r, h3.
  split; [reflexivity|]. exists (fw_kernel fw h3), es. rewrite <- app_assoc. reflexivity.
Qed.

Lemma boot_starts : forall fw parse kernel cmdline initrd img entry h,
  basics_work fw -> image_load (fun _ => None) (parse kernel) kernel = Ok (img, entry) ->
  N.of_nat (length cmdline) < 2 ^ 32 ->
  exists h' r before, boot_linux_unchecked fw parse kernel cmdline initrd h = (h', r) /\ started h' before img entry.
Proof.
  intros fw parse kernel cmdline initrd img entry h B IL L. destruct B as [BO BA BI _].
  assert (EK : exists h1, expect (load_kernel fw parse kernel) h = (h1, Ok (img, entry))).
  { unfold load_kernel. destruct (parse kernel) as [p|]; [|discriminate].
    destruct (section_ends (pe_sections p)) as [ends|] eqn:E; [|exfalso; unfold image_load in IL; rewrite E in IL; discriminate].
    unfold expect, attempt, mbind, call, lift. rewrite BA. rewrite IL. eexists. reflexivity. }
  destruct EK as (h1 & EK). unfold boot_linux_unchecked, mbind at 1. rewrite EK.
  assert (EN : exists h2, initrd_loader_new fw initrd h1 = (h2, Ok tt)).
  { unfold initrd_loader_new, mbind, call. rewrite BI. cbn [check ret]. unfold ret. rewrite BI. eexists. reflexivity. }
  destruct EN as (h2 & EN). unfold mbind at 1. rewrite EN. cbn [fst snd].
  destruct (start_starts fw img entry cmdline h2 BO L) as (h3 & r & before & ES & (st & after & ->)).
  unfold mbind at 1. rewrite ES. destruct r as [s|e|].
  - assert (EE : emits (fun _ => True) (_ <- initrd_loader_uninstall fw;; check s)).
    { unfold initrd_loader_uninstall. repeat (progress emitsM). }
    destruct ((_ <- initrd_loader_uninstall fw;; check s) (before ++ EvStart img entry st :: after)) as [h4 r4] eqn:E4.
    destruct (EE _ _ _ E4) as (es & -> & _). eexists _, _, before. split; [reflexivity|].
    exists st, (after ++ es). rewrite <- app_assoc. reflexivity.
  - eexists _, _, before. split; [reflexivity|]. exists st, after. reflexivity.
  - eexists _, _, before. split; [reflexivity|]. exists st, after. reflexivity.
Qed.

Lemma stub_starts_loaded : forall fw sha pm parse image path kernel initrd cmd img entry,
  basics_work fw -> companions_readable fw path ->
  (forall p, pm image = Some p -> within image (pe_sections p)) ->
  (forall h, snd (load_from_pe fw sha image (pm image) h) = Ok (Components kernel initrd cmd)) ->
  N.of_nat (length cmd) < 2 ^ 30 ->
  image_load (fun _ => None) (parse kernel) kernel = Ok (img, entry) ->
  exists h r before, stub_main fw sha pm parse image path [] = (h, r) /\ started h before img entry.
Proof.
  intros fw sha pm parse image path kernel initrd cmd img entry B C W LD LC IL. unfold stub_main.
  unfold mbind at 1, tpm_available, open_capable_tpm2, call at 1.
  set (t := fw_tpm fw []). unfold mbind at 1, call at 1. rewrite (bw_open _ B). unfold mbind at 1, ret at 1.
  match goal with |- context [mbind (expect (load_from_pe _ _ _ _)) _ ?hh] => set (h1 := hh) end.
  unfold mbind at 1, expect at 1, mbind at 1, attempt at 1. specialize (LD h1).
  destruct (load_from_pe fw sha image (pm image) h1) as [h2 r2]. cbn [snd] in LD. subst r2. unfold ret at 1.
  cbn [k_kernel k_initrd].
  assert (R1 : returns (if t then _ <- attempt (measure_image fw image (pm image) kernel initrd) ;; ret tt else ret tt)
     (fun _ => True)).
  { destruct t; [|apply returns_ret; exact I].
    apply (returns_bind _ _ (fun _ => True)); [apply returns_attempt, calm_measure, W|intros a _; apply returns_ret; exact I]. }
  destruct (R1 h2) as (h3 & a3 & E3 & _). unfold mbind at 1. rewrite E3.
  destruct (returns_attempt _ (calm_features fw) h3) as (h4 & a4 & E4 & _). unfold mbind at 1. rewrite E4.
  destruct (returns_attempt _ (calm_export fw stub_name_text) h4) as (h5 & a5 & E5 & _). unfold mbind at 1. rewrite E5.
  destruct (companions_return fw t path C h5) as (h6 & cs & E6 & _). unfold mbind at 1. rewrite E6.
  unfold boot_linux. cbn [k_cmdline k_kernel k_initrd].
  assert (L : N.of_nat (length (cstr16_bytes cmd)) < 2 ^ 32).
  { unfold cstr16_bytes, le16. assert (X : forall l : list N, length (flat_map (fun c => [c mod 256; c / 256]) l) = (2 * length l)%nat).
    { induction l as [|c l IH]; [reflexivity|]. cbn [flat_map app length]. rewrite IH. lia. }
    rewrite X, app_length. cbn [length]. lia. }
  destruct (cmdline_returns fw _ B L h6) as (h7 & c & E7 & Lc). unfold mbind at 1. rewrite E7.
  apply boot_starts; auto.
Qed.

(** The sections as the stub extracts them. *)
Lemma section_data_complete : forall image secs n d, section_contents image secs n d -> within image secs ->
  section_data image secs n = Ok (Some d).
Proof.
  intros image secs n d SC W.
  pose proof (section_data_calm image secs n W) as NP.
  destruct (section_data image secs n) as [[d'|]|e|] eqn:E; [| | |destruct (NP eq_refl)].
  - rewrite (section_contents_unique _ _ _ _ _ SC (section_data_contents _ _ _ _ E)). reflexivity.
  - exfalso. unfold section_data in E. destruct (find (has_name n) secs) as [s|] eqn:F.
    + destruct (read_section image s); discriminate.
    + destruct SC as (b & s & a & -> & Hn & _). 
      eapply find_none in F; [|apply in_or_app; right; left; reflexivity].
      unfold has_name in F. rewrite Hn, eqb_bytes_refl in F. discriminate.
  - exfalso. unfold section_data in E. destruct (find (has_name n) secs) as [s|] eqn:F; [|discriminate].
    unfold read_section in E. destruct (slice _ _ _); discriminate.
Qed.
Lemma extract_string_complete : forall image secs n t, section_text image secs n t -> within image secs ->
  extract_string image secs n = Ok t.
Proof.
  intros image secs n t (d & SC & U & F) W. unfold extract_string. rewrite (section_data_complete _ _ _ _ SC W). cbn [bind].
  rewrite U. unfold cstr16. replace (forallb _ t) with true; [reflexivity|]. symmetry. apply forallb_forall.
  intros c Hc. rewrite Forall_forall in F. specialize (F c Hc). lia.
Qed.
Lemma extract_hash_complete : forall image secs n d, section_hash image secs n d -> within image secs ->
  extract_hash image secs n = Ok d.
Proof.
  intros image secs n d (SC & L) W. unfold extract_hash. rewrite (section_data_complete _ _ _ _ SC W). cbn [bind].
  unfold len. rewrite L. reflexivity.
Qed.

Lemma load_complete : forall fw sha image p kn kernel inn initrd cmd h,
  within image (pe_sections p) -> vouches sha image (pe_sections p) kn kernel inn initrd cmd ->
  provides fw kn kernel inn initrd ->
  snd (load_from_pe fw sha image (Some p) h) = Ok (Components kernel initrd cmd).
Proof.
  intros fw sha image p kn kernel inn initrd cmd h W (V1 & V2 & V3 & V4 & V5) PR.
  assert (P1 : forall h, fw_image_fs fw h = true) by apply PR.
  assert (P2 : forall h, fs_read (fw_files fw h) kn = Some kernel) by apply PR.
  assert (P3 : forall h, fs_read (fw_files fw h) inn = Some initrd) by apply PR.
  unfold load_from_pe. cbv zeta.
  rewrite (extract_string_complete _ _ _ _ V1 W), (extract_string_complete _ _ _ _ V3 W), (extract_string_complete _ _ _ _ V5 W).
  rewrite (extract_hash_complete _ _ _ _ V2 W), (extract_hash_complete _ _ _ _ V4 W).
  unfold mbind, lift, call. rewrite P1. unfold ret. rewrite P2. unfold get_secure_boot_status, mbind, get_variable, call, ret.
  rewrite P3. unfold check_hash. rewrite !eqb_bytes_refl. reflexivity.
Qed.

Lemma stub_starts : forall fw sha pm parse image path p kn kernel inn initrd cmd img entry,
  basics_work fw -> companions_readable fw path ->
  pm image = Some p -> within image (pe_sections p) ->
  vouches sha image (pe_sections p) kn kernel inn initrd cmd -> provides fw kn kernel inn initrd ->
  N.of_nat (length cmd) < 2 ^ 30 ->
  image_load (fun _ => None) (parse kernel) kernel = Ok (img, entry) ->
  exists h r before, stub_main fw sha pm parse image path [] = (h, r) /\ started h before img entry.
Proof.
  intros fw sha pm parse image path p kn kernel inn initrd cmd img entry B C Ep W V PR L IL.
  apply (stub_starts_loaded fw sha pm parse image path kernel initrd cmd); auto.
  - intros q E. rewrite Ep in E. injection E as <-. exact W.
  - intros h. rewrite Ep. eapply load_complete; eauto.
Qed.
