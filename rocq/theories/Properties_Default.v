(** loader.conf and the default entry: C78, C79. *)
From Coq Require Import List NArith ZArith Bool Lia.
From Verif Require Import Base PBase MText PText MGeneration MNames MPe MFs MTool MInstall MLoaderConf SCommon SNames SInstall SHistory SRepeat SExact SMenu SLoaderConf.
From Verif Require Import PFs PInstall PHistory PHistories PMenu PExact PLoaderConf PDefault.
From Verif Require Import XWorld XMachine Properties_History Properties_Repeat Properties_Cli.
Import ListNotations.
Open Scope N_scope.

(** ** C78 *)

(** systemd-boot reads each setting that is in force, the user's or else the
    default, with its value; those set to null, and all others, it does not
    find. *)
Theorem C78_reads : forall defaults user, plain_settings defaults -> plain_settings user ->
  let text := loader_config_file defaults user in
  (forall k v, in_force defaults user k v -> v <> VNull -> exists t, means v t /\ conf_reads text k = Some t) /\
  (forall k, in_force defaults user k VNull \/ (forall v, ~ in_force defaults user k v) -> conf_reads text k = None).
Proof. exact conf_read. Qed.
Print Assumptions C78_reads.

(** The defaults can be written there. *)
Theorem C78_defaults : forall timeout console_mode editor enroll, plain_text console_mode ->
  plain_settings (default_settings timeout console_mode editor enroll).
Proof.
  intros timeout cm editor enroll PT. split.
  - destruct enroll; cbn; repeat constructor; cbn [In]; intuition discriminate.
  - assert (forall k, In k [lit "console-mode"; lit "default"; lit "editor"; lit "secure-boot-enroll"; lit "timeout"] -> plain_name k) as PN.
    { intros k I. assert (forallb (fun c => negb (is_blank c)) k = true /\ k <> [] /\ starts 35 k = false /\ one_line k) as (A & B & C & D).
      { repeat (destruct I as [<-|I]; [split; [reflexivity|]; split; [discriminate|]; split; [reflexivity|]; closed_line|]). destruct I. }
      split; [exact D|]. split; [exact B|]. split; [intros X; apply starts_iff in X; congruence|].
      intros c Hc. rewrite forallb_forall in A. apply negb_true_iff. apply A. exact Hc. }
    assert (forall t, In t [lit "nixos-*"; lit "force"] -> plain_text t) as PX.
    { intros t [<-|[<-|[]]]; (split; [closed_line|]; split; [discriminate|]; split; [intros c r [= <- _]; reflexivity|]; split; [|intros [[r [=]] _]];
        intros r c E; apply (f_equal (@rev N)) in E; rewrite rev_unit in E; vm_compute in E; injection E as <- _; reflexivity). }
    unfold default_settings. intros k v I. apply in_app_or in I as [I|I]; [|apply in_app_or in I as [I|I]].
    + destruct I as [[= <- <-]|[[= <- <-]|[[= <- <-]|[]]]]; (split; [apply PN; cbn [In]; tauto|]); intros t E; try discriminate E;
        injection E as <-; [exact PT | apply PX; cbn [In]; tauto].
    + destruct enroll; [|destruct I]. destruct I as [[= <- <-]|[]]. split; [apply PN; cbn [In]; tauto|].
      intros t [= <-]. apply PX; cbn [In]; tauto.
    + destruct I as [[= <- <-]|[]]. split; [apply PN; cbn [In]; tauto|]. intros t E. destruct timeout; discriminate E.
Qed.
Print Assumptions C78_defaults.

(** What a user may set: no timeout, another console mode, more. *)
Definition d_defaults (enroll : bool) : settings := default_settings (Some 5%Z) (lit "keep") false enroll.
Definition d_user : settings := [(lit "timeout", VNull); (lit "console-mode", VStr (lit "max")); (lit "beep", VInt (-1))].

Example C78_reads_ex :
  plain_settings (d_defaults true) /\ plain_settings d_user /\
  in_force (d_defaults true) d_user (lit "console-mode") (VStr (lit "max")) /\ in_force (d_defaults true) d_user (lit "timeout") VNull /\
  loader_config_file (d_defaults true) d_user =
    lit "beep -1" ++ [10] ++ lit "console-mode max" ++ [10] ++ lit "default nixos-*" ++ [10] ++ lit "editor false" ++ [10] ++
    lit "secure-boot-enroll force" ++ [10] ++ [10] /\
  map (conf_reads (loader_config_file (d_defaults true) d_user)) [lit "beep"; lit "default"; lit "editor"; lit "timeout"; lit "secure-boot-enroll"]
    = [Some (lit "-1"); Some (lit "nixos-*"); Some (lit "false"); None; Some (lit "force")] /\
  conf_reads (loader_config_file (d_defaults false) []) (lit "secure-boot-enroll") = None /\
  (* texts that cannot be written: an empty one is lost, and a line break makes another setting *)
  conf_reads (loader_config_file (d_defaults false) [(lit "console-mode", VStr [])]) (lit "console-mode") = None /\
  conf_reads (loader_config_file (d_defaults false) [(lit "x", VStr (lit "y" ++ [10] ++ lit "editor true"))]) (lit "editor") = Some (lit "true").
Proof.
  split.
  { apply C78_defaults. split; [closed_line|]. split; [discriminate|]. split; [intros c r [= <- _]; reflexivity|]. split; [|intros [[r [=]] _]].
    intros r c E; apply (f_equal (@rev N)) in E; rewrite rev_unit in E; vm_compute in E; injection E as <- _; reflexivity. }
  split.
  { split; [cbn; repeat constructor; cbn [In]; intuition discriminate|].
    intros k v I. assert (forallb (fun c => negb (is_blank c)) k = true /\ k <> [] /\ starts 35 k = false /\ one_line k) as (A & B & C & D).
    { repeat (destruct I as [[= <- <-]|I]; [split; [reflexivity|]; split; [discriminate|]; split; [reflexivity|]; closed_line|]). destruct I. }
    split.
    - split; [exact D|]. split; [exact B|]. split; [intros X; apply starts_iff in X; congruence|].
      intros c Hc. rewrite forallb_forall in A. apply negb_true_iff. apply A. exact Hc.
    - intros t ->. destruct I as [[=]|[[= _ <-]|[[=]|[]]]]. split; [closed_line|]. split; [discriminate|].
      split; [intros c r [= <- _]; reflexivity|]. split; [|intros [[r [=]] _]].
      intros r c E; apply (f_equal (@rev N)) in E; rewrite rev_unit in E; vm_compute in E; injection E as <- _; reflexivity. }
  split; [apply if_user; cbn [In d_user]; tauto|]. split; [apply if_user; cbn [In d_user]; tauto|].
  vm_compute. repeat split.
Qed.

(** ** C79 *)

(** After a successful run, unless the user sets another default, the loader.conf
    on the ESP makes the names of NixOS the default. *)
Theorem C79_conf : forall e c m defaults_timeout console_mode editor enroll user,
  let text := loader_config_file (default_settings defaults_timeout console_mode editor enroll) user in
  separate c -> honest_listings e -> plain_text console_mode -> plain_settings user ->
  (forall v, ~ In (lit "default", v) user) ->
  e_store e (components (c_conf c)) = Some text ->
  (forall y b, lookup m (conf_path c) = Some (NFile y b) -> e_sha e y = e_sha e text -> y = text) ->
  snd (run_install e c m) = Ok tt ->
  exists y b, lookup (s_fs (fst (run_install e c m))) (conf_path c) = Some (NFile y b) /\
    conf_reads y (lit "default") = Some (lit "nixos-*").
Proof.
  intros e c m dt cm ed en user text SP HL PC PU ND ST NC OK.
  destruct (C58_content e c SP HL m text ST NC OK) as (b & L). exists text, b. split; [exact L|].
  destruct (C78_reads (default_settings dt cm ed en) user (C78_defaults dt cm ed en PC) PU) as [R _].
  destruct (R (lit "default") (VStr (lit "nixos-*"))) as (t & T & E).
  - apply if_default; [exact ND|]. unfold default_settings. apply in_or_app. left. right. left. reflexivity.
  - discriminate.
  - inversion T; subst. exact E.
Qed.
Print Assumptions C79_conf.

(** With this default, systemd-boot starts the newest of the selected
    generations that has tries left, not one of its specialisations. *)
Theorem C79_default : forall M e c m, sound M -> fits M e c -> history M m ->
  tree_ok m -> no_faults e -> complete_listings e -> all_readable c -> distinct c -> settled M c m ->
  snd (run_install e c m) = Ok tt ->
  let m1 := s_fs (fst (run_install e c m)) in
  no_lookalikes M m1 ->
  exists key vs sel l, sg_key (e_signer e) = Some key /\ links_versions (c_links c) vs /\ newest (c_limit c) vs sel /\
    map fst l = flat_map link_generations sel /\ exact_entries M key l m1 /\
    (shown_together (map fst l) ->
     forall g n, In (g, n) l -> fresh n -> (forall h n', In (h, n') l -> n' <> n -> fresh n' -> preferred g h) ->
       named M key g n /\ exists y b en, lookup m1 (linux_file M n) = Some (NFile y b) /\ bootable M m1 y /\
         default_is M m1 (lit "nixos-*") n en).
Proof.
  intros M e c m SO FI HI TO NF CL AR DC ST OK m1 NL.
  destruct (exact_after M SO e c m FI HI TO NF CL AR DC ST OK) as (key & vs & sel & l & KE & LV & NW & GE & ND & EE & _).
  exists key, vs, sel, l. split; [exact KE|]. split; [exact LV|]. split; [exact NW|]. split; [exact GE|]. split; [exact EE|].
  intros TG g n I F P. destruct (proj1 EE g n I) as (NM & y & b & L & _ & B). split; [exact NM|].
  destruct (default_entry M key l m1 EE TG NL g n I F P) as (en & D). exists y, b, en. auto.
Qed.
Print Assumptions C79_default.

(** ** Examples *)

Definition d_text : bytes := loader_config_file (d_defaults false) d_user.
Definition d_env : env := x_env ((lit "/nix/store/made.conf", d_text) :: x_files) x_good.
Definition d_c : config :=
  Config X86 [lit "boot"] (lit "/nix/store/lzbt/stub.efi") (lit "/nix/store/systemd") (lit "/nix/store/made.conf") 0 0 None [x_link1; x_link2].
Definition d_old : fs := (conf_path d_c, NFile (lit "timeout 1") true) :: ([lit "boot"; lit "loader"], NDir) :: x_esp.

Example C79_conf_ex :
  separate d_c /\ honest_listings d_env /\ (forall v, ~ In (lit "default", v) d_user) /\
  e_store d_env (components (c_conf d_c)) = Some d_text /\
  (forall y b, lookup d_old (conf_path d_c) = Some (NFile y b) -> e_sha d_env y = e_sha d_env d_text -> y = d_text) /\
  snd (run_install d_env d_c d_old) = Ok tt.
Proof.
  split; [intros d X; discriminate X|]. split; [split; intros; apply incl_refl|].
  split; [intros v I; cbn [In d_user] in I; intuition discriminate|]. split; [vm_compute; reflexivity|].
  split; [|vm_compute; reflexivity]. intros y b L E. exfalso. vm_compute in L. injection L as <- _. vm_compute in E. discriminate E.
Qed.

Definition d_linux (m : fs) : list name :=
  flat_map (fun pn => match fst pn with
    | [b; e; l; n] => if eqb_bytes b (lit "boot") && eqb_bytes e (lit "EFI") && eqb_bytes l (lit "Linux") then [n] else []
    | _ => [] end) m.
Lemma d_linux_in m n : lookup m (linux_file x_m n) <> None -> In n (d_linux m).
Proof.
  intros L. apply lookup_In in L as [nd L]. unfold d_linux. apply in_flat_map. exists (linux_file x_m n, nd). split; [exact L|].
  cbn. left. reflexivity.
Qed.

Definition d_gens : list generation := flat_map link_generations [(1, x_link1); (2, x_link2)].
Definition d_gen2 : generation := parse_boot_json 2 (Some (Date 2024 5 6)) x_two.

Lemma d_together : shown_together d_gens.
Proof.
  split.
  - intros g I. assert (forallb (fun c => negb ((c =? 0) || (c =? 10) || (c =? 13))) (bs_label (g_spec g)) = true /\
      starts 61 (bs_label (g_spec g)) = false /\
      (match g_specname g with Some n => forallb (fun c => negb ((c =? 0) || (c =? 10) || (c =? 13))) n | None => true end = true) /\
      g_sort_key g = lit "lanzaboote") as (A & B & C & D) by (destruct I as [<-|[<-|[<-|[]]]]; vm_compute; auto).
    assert (forall s, forallb (fun c => negb ((c =? 0) || (c =? 10) || (c =? 13))) s = true -> one_line s) as OL.
    { intros s H. rewrite forallb_forall in H. repeat split; intros X; specialize (H _ X); discriminate H. }
    unfold menu_ready. rewrite D. split; [apply OL; exact A|]. split; [intros X; apply starts_iff in X; congruence|].
    split; [intros n E; rewrite E in C; apply OL; exact C|]. split; [closed_line|].
    split; [intros [r E]; discriminate E|]. split; [intros [r E]; discriminate E|].
    split; intros [r E]; apply (f_equal (@rev N)) in E; rewrite rev_unit in E; vm_compute in E; discriminate E.
  - intros g h I J. destruct I as [<-|[<-|[<-|[]]]], J as [<-|[<-|[<-|[]]]]; reflexivity.
Qed.

Lemma d_seen_one n e (P : name -> Prop) m : (forall n, In n (d_linux m) -> P n) -> sees x_m m n e -> P n.
Proof. intros H (y & b & o & _ & L & _). apply H, d_linux_in. congruence. Qed.

Lemma d_seen_id m n e : sees x_m m n e -> en_id e = fst (fst (seen_as n)).
Proof.
  intros (y & b & o & _ & _ & _ & E). unfold entry_of in E. destruct (or_else _ _); [|discriminate E]. injection E as <-. reflexivity.
Qed.

Lemma d_no_lookalikes : no_lookalikes x_m (x_after x_c3 x_esp).
Proof.
  intros n e S G. apply d_seen_id in S as ID. rewrite ID in G. revert G. refine (d_seen_one n e (fun n => glob (lit "nixos-*") (fst (fst (seen_as n))) -> exists t, utf8_decode n = Some (lit "nixos-" ++ t)) _ _ S). intros n' I G.
  assert (forallb (fun n => negb (starts 110 (fst (fst (seen_as n)))) || match utf8_decode n with Some s => starts_with (lit "nixos-") s | None => false end) (d_linux (x_after x_c3 x_esp)) = true) as X
    by (vm_compute; reflexivity).
  rewrite forallb_forall in X. specialize (X n' I).
  assert (starts 110 (fst (fst (seen_as n'))) = true) as Y by (inversion G; reflexivity).
  rewrite Y in X. cbn [negb orb] in X. destruct (utf8_decode n') as [s|]; [|discriminate X].
  exists (skipn 6 s). f_equal. apply starts_with_spec in X as [t ->]. reflexivity.
Qed.

(** Two generations, the newer with a specialisation: the newer one is started. *)
Example C79_default_ex :
  let m1 := x_after x_c3 x_esp in
  sound x_m /\ fits x_m x_world x_c3 /\ history x_m x_esp /\ tree_ok x_esp /\ no_faults x_world /\ complete_listings x_world /\
  all_readable x_c3 /\ distinct x_c3 /\ settled x_m x_c3 x_esp /\ snd (run_install x_world x_c3 x_esp) = Ok tt /\
  no_lookalikes x_m m1 /\ shown_together d_gens /\
  exists n en, named x_m x_key d_gen2 n /\ default_is x_m m1 (lit "nixos-*") n en.
Proof.
  cbv zeta.
  assert (settled x_m x_c3 x_esp) as SE.
  { intros d g key n y b _ _ _ NM L. pose proof (x_no_entries [x_link1; x_link2] x_esp eq_refl g key n NM) as X.
    change (linux_file (x_machine [x_link1; x_link2]) n) with (linux_file x_m n) in X. rewrite X in L. discriminate. }
  assert (snd (run_install x_world x_c3 x_esp) = Ok tt) as OK by (vm_compute; reflexivity).
  assert (tree_ok x_esp) as TO by (apply x_tree; vm_compute; reflexivity).
  pose proof d_no_lookalikes as NL.
  split; [apply x_m_sound|]. split; [apply x_c3_fits|]. split; [apply x_history_esp|]. split; [exact TO|].
  split; [apply x_faultless|]. split; [apply x_complete|]. split; [apply x_c3_readable|]. split; [apply x_c3_distinct|].
  split; [exact SE|]. split; [exact OK|]. split; [exact NL|]. split; [apply d_together|].
  destruct (C79_default x_m x_world x_c3 x_esp x_m_sound x_c3_fits x_history_esp TO x_faultless x_complete x_c3_readable x_c3_distinct SE OK NL)
    as (key & vs & sel & l & KE & LV & NW & GE & EE & H).
  injection KE as <-. rewrite (x_c3_sel vs sel LV NW) in GE. fold d_gens in GE. rewrite GE in H. specialize (H d_together).
  destruct l as [|[g1 n1] [|[g2 n2] [|[g3 n3] [|]]]]; try discriminate GE. injection GE as -> -> ->.
  assert (forall n, In n (d_linux (x_after x_c3 x_esp)) -> fresh n) as FR.
  { intros n I. assert (forallb (fun n => match counters n with Some (_, v, _) => negb (v =? 0) | None => true end) (d_linux (x_after x_c3 x_esp)) = true) as X
      by (vm_compute; reflexivity).
    rewrite forallb_forall in X. specialize (X n I). intros p d E. rewrite E in X. discriminate X. }
  destruct (H d_gen2 n2) as (NM & y & b & en & _ & _ & D).
  - right. left. reflexivity.
  - apply FR, d_linux_in. destruct (proj1 EE d_gen2 n2 (or_intror (or_introl eq_refl))) as (_ & y & b & L & _).
    change (x_after x_c3 x_esp) with (s_fs (fst (run_install x_world x_c3 x_esp))). congruence.
  - intros h n' I NE _. destruct I as [[= <- <-]|[[= <- <-]|[[= <- <-]|[]]]].
    + left. vm_compute. reflexivity.
    + congruence.
    + right. split; [reflexivity|]. split; [reflexivity | discriminate].
  - exists n2, en. split; [exact NM | exact D].
Qed.
