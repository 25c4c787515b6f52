(** Proofs about command lines and temporary files. *)
From Coq Require Import List NArith ZArith Bool Lia ZifyBool ZifyNat ZifyN.
From Verif Require Import Base PBase MText PText MPe MTool MTemp STemp.
Import ListNotations.
Open Scope N_scope.
Ltac Zify.zify_post_hook ::= Z.to_euclidean_division_equations.

(** ** Reading command lines *)

Lemma digit_of_hex v : v < 16 -> digit_of (hex_digit v) = Some v.
Proof.
  intros H. unfold digit_of, hex_digit. destruct (N.ltb_spec v 10).
  - replace ((48 <=? 48 + v) && (48 + v <=? 57)) with true by lia. f_equal; lia.
  - replace ((48 <=? 87 + v) && (87 + v <=? 57)) with false by lia.
    replace ((97 <=? 87 + v) && (87 + v <=? 102)) with true by lia. f_equal; lia.
Qed.

Lemma size_nat_div16 n : 16 <= n -> (N.size_nat (n / 16) < N.size_nat n)%nat.
Proof.
  intros H. destruct n as [|p]; [lia|].
  do 4 (destruct p as [p|p|]; try (exfalso; lia); try (cbn; lia)).
  all: change 16 with (2 * (2 * (2 * 2))).
  all: rewrite <- !N.div_div by lia.
  all: rewrite <- !N.div2_div; cbn [N.div2]; cbn; lia.
Qed.

Lemma hex_value_aux fuel : forall n acc,
  (N.size_nat n < fuel)%nat -> hex_value (hex_aux fuel n acc) 0 = hex_value acc n.
Proof.
  induction fuel as [|f IH]; intros n acc H; [lia|]. cbn [hex_aux].
  destruct (N.ltb_spec n 16).
  - cbn [hex_value]. rewrite N.mod_small, digit_of_hex by lia. f_equal.
  - rewrite IH by (pose proof (size_nat_div16 n); lia).
    cbn [hex_value]. rewrite digit_of_hex by lia. f_equal. lia.
Qed.

Lemma hex_aux_shape fuel : forall n acc, exists c t, hex_aux (S fuel) n acc = c :: t.
Proof.
  induction fuel as [|f IH]; intros n acc; cbn [hex_aux]; destruct (n <? 16); eauto.
Qed.

Lemma address_prefixed n : address (hex_prefixed n) = Some n.
Proof.
  unfold hex_prefixed.
  destruct (hex_aux_shape (N.size_nat n) n []) as (c & t & E).
  pose proof (hex_value_aux (S (N.size_nat n)) n [] (Nat.lt_succ_diag_r _)) as V.
  rewrite E in *. exact V.
Qed.

Lemma hex_ascii fuel : forall n acc,
  Forall (fun c => c < 128) acc -> Forall (fun c => c < 128) (hex_aux fuel n acc).
Proof.
  induction fuel as [|f IH]; intros n acc H; cbn [hex_aux]; auto.
  assert (Forall (fun c => c < 128) (hex_digit (n mod 16) :: acc)).
  { constructor; auto. unfold hex_digit. destruct (N.ltb_spec (n mod 16) 10); lia. }
  destruct (n <? 16); auto.
Qed.

Lemma cut_at stops a c b :
  Forall (fun x => ~ In x stops) a -> In c stops -> cut stops (a ++ c :: b) = Some (a, c, b).
Proof.
  intros Ha Hc. induction Ha as [|x a Hx _ IH]; cbn [app cut].
  - destruct (in_dec N.eq_dec c stops); [auto|tauto].
  - destruct (in_dec N.eq_dec x stops); [tauto|]. rewrite IH. auto.
Qed.

Lemma plain_dashed p : plain p -> dashed p = false.
Proof.
  intros (_ & H). destruct p as [|c [|x t]]; auto. cbn [dashed].
  destruct (N.eqb_spec c 45) as [->|]; auto. edestruct H; eauto.
Qed.

Lemma getopt_option opts o v r os ps :
  In o opts -> getopt opts r = Some (os, ps) ->
  getopt opts (o :: v :: r) = Some ((o, v) :: os, ps).
Proof.
  intros H E. cbn [getopt]. destruct (in_dec (list_eq_dec N.eq_dec) o opts); [|tauto]. now rewrite E.
Qed.

Lemma getopt_plain opts a r os ps :
  Forall (fun o => exists t, o = 45 :: t) opts -> plain a -> getopt opts r = Some (os, ps) ->
  getopt opts (a :: r) = Some (os, a :: ps).
Proof.
  intros H P E. cbn [getopt]. destruct (in_dec (list_eq_dec N.eq_dec) a opts) as [i|].
  - rewrite Forall_forall in H. apply H in i as (t & ->). destruct P as (_ & P). edestruct P; eauto.
  - now rewrite E, plain_dashed.
Qed.

Definition add_option (s : tsection) : bytes * bytes := (lit "--add-section", x_name s ++ 61 :: x_file s).
Definition vma_option (s : tsection) : bytes * bytes :=
  (lit "--change-section-vma", x_name s ++ 61 :: hex_prefixed (x_offset s)).

Lemma to_objcopy_options s :
  good_name (x_name s) ->
  to_objcopy s = [fst (add_option s); snd (add_option s); fst (vma_option s); snd (vma_option s)].
Proof.
  intros H. unfold to_objcopy, add_option, vma_option. cbn [fst snd].
  assert (A : Forall (fun c => c < 128) (x_name s)).
  { eapply Forall_impl; [|exact H]. cbn. tauto. }
  rewrite !utf8_ascii.
  - now rewrite <- app_assoc.
  - apply Forall_app. split; auto. unfold hex_prefixed. cbn [lit].
    repeat (apply Forall_app; split); try (vm_compute; repeat constructor; fail).
    apply hex_ascii. constructor.
  - apply Forall_app. split; auto. vm_compute. repeat constructor.
Qed.

Lemma getopt_sections secs i o :
  Forall (fun s => good_name (x_name s)) secs -> plain i -> plain o ->
  getopt [lit "--add-section"; lit "--change-section-vma"] (flat_map to_objcopy secs ++ [i; o])
  = Some (flat_map (fun s => [add_option s; vma_option s]) secs, [i; o]).
Proof.
  intros H Pi Po.
  assert (D : Forall (fun o => exists t, o = 45 :: t) [lit "--add-section"; lit "--change-section-vma"]).
  { repeat constructor; eexists; vm_compute; reflexivity. }
  induction H as [|s secs G _ IH]; cbn [flat_map app].
  - apply getopt_plain; auto. apply getopt_plain; auto.
  - rewrite (to_objcopy_options _ G). cbn [app].
    apply getopt_option; [left; reflexivity|]. apply getopt_option; [right; left; reflexivity|]. exact IH.
Qed.

Lemma values_add secs :
  values (lit "--add-section") (flat_map (fun s => [add_option s; vma_option s]) secs)
  = map (fun s => snd (add_option s)) secs.
Proof. induction secs as [|s secs IH]; [reflexivity|]. cbn [map]. rewrite <- IH. reflexivity. Qed.

Lemma values_vma secs :
  values (lit "--change-section-vma") (flat_map (fun s => [add_option s; vma_option s]) secs)
  = map (fun s => snd (vma_option s)) secs.
Proof. induction secs as [|s secs IH]; [reflexivity|]. cbn [map]. rewrite <- IH. reflexivity. Qed.

Lemma all_map {A B C} (f : B -> option C) (g : A -> B) (h : A -> C) l :
  Forall (fun x => f (g x) = Some (h x)) l -> all f (map g l) = Some (map h l).
Proof. induction 1 as [|x l E _ IH]; cbn [map all]; auto. now rewrite E, IH. Qed.

Lemma objcopy_reads_sections secs i o :
  Forall (fun s => good_name (x_name s)) secs -> plain i -> plain o ->
  objcopy_reads (flat_map to_objcopy secs ++ [i; o])
  = Some (ObjcopyCall (map (fun s => (x_name s, x_file s)) secs)
                      (map (fun s => (x_name s, x_offset s)) secs) i o).
Proof.
  intros H Pi Po. unfold objcopy_reads. rewrite getopt_sections, values_add, values_vma by auto.
  rewrite (all_map _ _ (fun s => (x_name s, x_file s))).
  2:{ eapply Forall_impl; [|exact H]. intros s G. cbn [snd add_option].
      rewrite cut_at; auto; [|left; reflexivity].
      eapply Forall_impl; [|exact G]. cbn. intuition. }
  rewrite (all_map _ _ (fun s => (x_name s, x_offset s))); auto.
  eapply Forall_impl; [|exact H]. intros s G. cbn [snd vma_option].
  rewrite cut_at.
  - change (61 =? 61) with true. cbv iota. now rewrite address_prefixed.
  - eapply Forall_impl; [|exact G]. cbn. intuition.
  - left. reflexivity.
Qed.

Lemma sbsign_reads_args k c i o :
  plain i -> sbsign_reads [lit "--key"; k; lit "--cert"; c; i; lit "--output"; o] = Some (k, c, i, o).
Proof.
  intros P. unfold sbsign_reads.
  rewrite (getopt_option _ _ k _ [(lit "--cert", c); (lit "--output", o)] [i]); [reflexivity|left; reflexivity|].
  apply getopt_option; [right; left; reflexivity|].
  apply getopt_plain; auto. repeat constructor; eexists; vm_compute; reflexivity.
Qed.

Lemma sbverify_reads_args c i :
  plain i -> sbverify_reads [lit "--cert"; c; i] = Some (c, i).
Proof.
  intros P. unfold sbverify_reads.
  rewrite (getopt_option _ _ c _ [] [i]); [reflexivity|left; reflexivity|].
  apply getopt_plain; auto. repeat constructor; eexists; vm_compute; reflexivity.
Qed.

Lemma pcrlock_reads_args i o :
  plain i -> pcrlock_reads [lit "lock-pe"; i; lit "--pcrlock"; o] = Some (lit "lock-pe", i, o).
Proof.
  intros P. unfold pcrlock_reads.
  assert (D : Forall (fun o => exists t, o = 45 :: t) [lit "--pcrlock"])
    by (repeat constructor; eexists; vm_compute; reflexivity).
  rewrite (getopt_plain _ (lit "lock-pe") _ [(lit "--pcrlock", o)] [i]); auto.
  - split; [discriminate|]. intros t Ht. vm_compute in Ht. discriminate.
  - apply getopt_plain; auto.
Qed.

(** ** Files *)

Lemma tget_put p f m q : tget (tput p f m) q = if eqb_bytes p q then Some f else tget m q.
Proof. reflexivity. Qed.

Lemma tget_put_same p f m : tget (tput p f m) p = Some f.
Proof. rewrite tget_put, eqb_bytes_refl. auto. Qed.

Lemma tget_put_other p f m q : p <> q -> tget (tput p f m) q = tget m q.
Proof. intros H. rewrite tget_put. apply eqb_bytes_false in H. now rewrite H. Qed.

Lemma holds_read m p c : holds m p c <-> tread m p = Some c.
Proof.
  unfold holds, tread. split.
  - intros (mode & ->). auto.
  - destruct (tget m p) as [[mode c']|]; [|discriminate]. cbn. intros [= ->]. eauto.
Qed.

Lemma tjoin_inj d a b : tjoin d a = tjoin d b -> a = b.
Proof. unfold tjoin. intros H. apply app_inv_head in H. apply app_inv_head in H. auto. Qed.

Lemma tjoin_inside d n : inside d (tjoin d n).
Proof. exists n. reflexivity. Qed.

Lemma tunder_inside d p : tunder d p = true <-> inside d p.
Proof.
  unfold tunder, inside. rewrite starts_with_spec. split; intros (t & ->); exists t; now rewrite <- app_assoc.
Qed.

Lemma plain_join d n : plain d -> plain (tjoin d n).
Proof.
  intros (N & P). destruct d as [|c d]; [congruence|]. unfold tjoin. split; [discriminate|].
  intros t [= -> _]. edestruct P; eauto.
Qed.

(** ** Outcomes *)

Definition tsat {A} (m : T A) (s : tst) (Q : tst -> res unit A -> Prop) : Prop :=
  let '(s', r) := m s in Q s' r.

Lemma tsat_bind {A B} (m : T A) (k : A -> T B) s Q :
  tsat m s (fun s' r => match r with
                        | Ok a => tsat (k a) s' Q
                        | Err _ => Q s' (Err tt)
                        | Panic => Q s' Panic
                        end) ->
  tsat (tbind m k) s Q.
Proof. unfold tsat, tbind. destruct (m s) as [s' [a|[]|]]; auto. Qed.

Lemma tsat_impl {A} (m : T A) s (Q Q' : tst -> res unit A -> Prop) :
  tsat m s Q -> (forall s' r, Q s' r -> Q' s' r) -> tsat m s Q'.
Proof. unfold tsat. destruct (m s). auto. Qed.

Lemma faulted_mono f a b a' b' : faulted f a b -> (a' <= a)%nat -> (b <= b')%nat -> faulted f a' b'.
Proof. intros (i & H & F) ? ?. exists i. split; auto. lia. Qed.

Section Rules.
Variable e : tenv.
Notation flt := (faulted (te_fault e)).

Lemma sat_guard s (Q : tst -> res unit unit -> Prop) :
  (flt (ts_tick s) (S (ts_tick s)) ->
   Q (TSt (ts_files s) (ts_log s) (ts_rand s) (S (ts_tick s))) (Err tt)) ->
  Q (TSt (ts_files s) (ts_log s) (ts_rand s) (S (ts_tick s))) (Ok tt) ->
  tsat (tguard e) s Q.
Proof.
  intros F H. unfold tguard, tsat, tbind, tfault. destruct (te_fault e (ts_tick s)) eqn:E; cbn; auto.
  apply F. exists (ts_tick s). split; [lia|congruence].
Qed.

Lemma sat_read_file p s (Q : tst -> res unit bytes -> Prop) :
  (forall s', ts_rand s' = ts_rand s -> ts_files s' = ts_files s -> ts_tick s' = S (ts_tick s) ->
     ts_log s' = ts_log s ->
     (flt (ts_tick s) (ts_tick s') \/ tread (ts_files s) p = None -> Q s' (Err tt)) /\
     (forall c, tread (ts_files s) p = Some c -> Q s' (Ok c))) ->
  tsat (tread_file e p) s Q.
Proof.
  intros H. unfold tread_file. apply tsat_bind, sat_guard.
  - intros F. apply H; auto.
  - unfold tsat, tbind, tfiles, tlift. cbn.
    destruct (tread (ts_files s) p) as [c|] eqn:E; cbn; apply H; auto.
Qed.

Lemma sat_write d c s (Q : tst -> res unit bytes -> Prop) :
  let p := tjoin d (te_name e (ts_rand s)) in
  (forall s', ts_rand s' = S (ts_rand s) -> (ts_tick s <= ts_tick s')%nat ->
     flt (ts_tick s) (ts_tick s') -> Q s' (Err tt)) ->
  (forall s', ts_rand s' = S (ts_rand s) -> (ts_tick s <= ts_tick s')%nat ->
     tread (ts_files s') p = Some c -> (forall q, q <> p -> tget (ts_files s') q = tget (ts_files s) q) ->
     Q s' (Ok p)) ->
  tsat (write_secure_file e d c) s Q.
Proof.
  intros p F H. unfold write_secure_file, tsat, tbind, tmpname. cbn [ts_rand]. fold p.
  unfold create_secure_file, tguard, tbind, tfault. cbn [ts_tick ts_files ts_log ts_rand].
  assert (FI : te_fault e (ts_tick s) <> None -> forall n, (ts_tick s < n)%nat -> flt (ts_tick s) n).
  { intros. exists (ts_tick s). split; [lia|auto]. }
  assert (FJ : te_fault e (S (ts_tick s)) <> None -> forall n, (S (ts_tick s) < n)%nat -> flt (ts_tick s) n).
  { intros. exists (S (ts_tick s)). split; [lia|auto]. }
  destruct (te_fault e (ts_tick s)) eqn:E0; cbn.
  { apply F; cbn; auto. apply FI; [congruence|lia]. }
  assert (P : exists mode ev,
    (match tget (ts_files s) p with
     | Some f => tchange (TTruncate p) (tput p (TFile (t_mode f) []))
     | None => let mode := N.ldiff 384 (te_umask e) in tchange (TCreate p mode) (tput p (TFile mode []))
     end) (TSt (ts_files s) (ts_log s) (S (ts_rand s)) (S (ts_tick s)))
    = (TSt (tput p (TFile mode []) (ts_files s)) (ts_log s ++ [ev]) (S (ts_rand s)) (S (ts_tick s)), Ok tt)).
  { destruct (tget (ts_files s) p) as [f|]; cbv zeta; unfold tchange; cbn [ts_files ts_log ts_rand ts_tick];
      do 2 eexists; reflexivity. }
  destruct P as (mode & ev & P). cbn in P |- *. rewrite P. clear P.
  unfold twrite_all, tbind, tfault. cbn [ts_tick ts_files ts_log ts_rand].
  destruct (te_fault e (S (ts_tick s))) as [[c'|]|] eqn:E1; cbn.
  - apply F; cbn; auto. apply FJ; [congruence|lia].
  - apply F; cbn; auto. apply FJ; [congruence|lia].
  - rewrite eqb_bytes_refl. cbn. apply H; cbn; auto.
    + unfold tread. cbn. rewrite eqb_bytes_refl. auto.
    + intros q Hq. assert (E : eqb_bytes p q = false) by (apply eqb_bytes_false; congruence). now rewrite E.
Qed.

Lemma sat_command prog args s (Q : tst -> res unit bool -> Prop) :
  (forall s', ts_rand s' = ts_rand s -> ts_tick s' = S (ts_tick s) ->
     (flt (ts_tick s) (ts_tick s') \/ te_run e prog args (ts_files s) = None -> Q s' (Err tt)) /\
     (forall ok, te_run e prog args (ts_files s) = Some (ts_files s', ok) -> Q s' (Ok ok))) ->
  tsat (command e prog args) s Q.
Proof.
  intros H. unfold command. apply tsat_bind, sat_guard.
  - intros F. apply H; auto.
  - unfold tsat, tbind, tfiles, tchange. cbn.
    destruct (te_run e prog args (ts_files s)) as [[m ok]|] eqn:E; cbn; apply H; auto.
Qed.

Lemma sat_then {A B} (m : T A) (f : A -> B) s (Q : tst -> res unit B -> Prop) :
  tsat m s (fun s' r => Q s' (bind r (fun a => Ok (f a)))) ->
  tsat (tbind m (fun a => tret (f a))) s Q.
Proof. unfold tsat, tbind, tret. destruct (m s) as [s' [a|[]|]]; auto. Qed.

Ltac wstep s1 R T R1 K i nm :=
  apply tsat_bind; apply sat_write;
  [ intros s1 R T F; split; [lia|]; left; eapply faulted_mono; [exact F|lia|lia]
  | intros s1 R T R1 K; cbv beta iota;
    match type of R1 with tread _ (tjoin ?d (te_name ?e ?r)) = _ =>
      replace (tjoin d (te_name e r)) with (nm i) in * by (unfold nm; f_equal; f_equal; lia) end ].

Ltac rstep s1 R F T L c E :=
  apply tsat_bind; try (unfold file_hash, tfile_size; apply sat_then); apply sat_read_file;
  intros s1 R F T L; split;
  [ intros [X|X]; cbn [bind]; (split; [lia|]);
    [ left; eapply faulted_mono; [exact X|lia|lia] | right; intros ? ? ? ? ? ?; exfalso ]
  | intros c E; cbn [bind]; cbv beta iota ].

(** ** The image *)

Lemma image_good_names osrel cmdl ip kp ih kh a b c x y z :
  Forall (fun s => good_name (x_name s))
    [TSection (lit ".osrel") osrel a; TSection (lit ".cmdline") cmdl b;
     TSection (lit ".initrd") ip c; TSection (lit ".linux") kp x;
     TSection (lit ".initrdh") ih y; TSection (lit ".linuxh") kh z].
Proof.
  assert (G : forall n, forallb (fun c => (c <? 128) && negb (existsb (N.eqb c) (lit "=+-"))) n = true -> good_name n).
  { intros n H. apply Forall_forall. intros v Hv. rewrite forallb_forall in H. specialize (H _ Hv).
    cbv beta in H. apply andb_true_iff in H as (H & H'). split; [lia|]. intros Hin. assert (E : existsb (N.eqb v) (lit "=+-") = true).
    { apply existsb_exists. exists v. split; auto. apply N.eqb_refl. }
    rewrite E in H'. discriminate. }
  do 6 (apply Forall_cons; [apply G; vm_compute; reflexivity|]). apply Forall_nil.
Qed.

Lemma vma_six a b c x y z :
  let l := [(lit ".osrel", a); (lit ".cmdline", b); (lit ".initrd", c); (lit ".linux", x);
            (lit ".initrdh", y); (lit ".linuxh", z)] in
  vma_of (lit ".osrel") l = Some a /\ vma_of (lit ".cmdline") l = Some b /\
  vma_of (lit ".initrd") l = Some c /\ vma_of (lit ".linux") l = Some x /\
  vma_of (lit ".initrdh") l = Some y /\ vma_of (lit ".linuxh") l = Some z.
Proof. vm_compute. repeat split. Qed.

Variable oc : bytes -> list (bytes * bytes * N) -> option bytes.
Hypothesis Hoc : objcopy_works (te_run e) oc.

Lemma sat_image d sp s :
  plain d -> plain (fp_stub sp) ->
  distinct_names (te_name e) (ts_rand s) 7 ->
  ~ used e d (ts_rand s) 7 (fp_stub sp) ->
  ~ used e d (ts_rand s) 7 (fp_kernel sp) ->
  ~ used e d (ts_rand s) 7 (fp_initrd sp) ->
  tsat (tlanzaboote_image e d sp) s (fun s' r =>
    (ts_tick s <= ts_tick s')%nat /\
    match r with
    | Ok p =>
        p = tjoin d (te_name e (ts_rand s + 6)) /\ ts_rand s' = (ts_rand s + 7)%nat /\
        exists stub kd id image,
          tread (ts_files s) (fp_stub sp) = Some stub /\
          tread (ts_files s) (fp_kernel sp) = Some kd /\
          tread (ts_files s) (fp_initrd sp) = Some id /\
          lanzaboote_image (te_parse e) oc stub
            (StubParameters (fp_cmdline sp) (fp_osrel sp) (fp_kernel_path sp) (te_sha e kd)
                            (fp_initrd_path sp) (te_sha e id)) = Ok image /\
          tread (ts_files s') p = Some image /\
          (forall q, ~ used e d (ts_rand s) 7 q -> tget (ts_files s') q = tget (ts_files s) q)
    | Err _ =>
        faulted (te_fault e) (ts_tick s) (ts_tick s') \/
        (forall stub kd id,
          tread (ts_files s) (fp_stub sp) = Some stub ->
          tread (ts_files s) (fp_kernel sp) = Some kd ->
          tread (ts_files s) (fp_initrd sp) = Some id ->
          lanzaboote_image (te_parse e) oc stub
            (StubParameters (fp_cmdline sp) (fp_osrel sp) (fp_kernel_path sp) (te_sha e kd)
                            (fp_initrd_path sp) (te_sha e id)) = Err tt)
    | Panic =>
        exists stub,
          tread (ts_files s) (fp_stub sp) = Some stub /\
          forall kd id, lanzaboote_image (te_parse e) oc stub
            (StubParameters (fp_cmdline sp) (fp_osrel sp) (fp_kernel_path sp) kd
                            (fp_initrd_path sp) id) = Panic
    end).
Proof.
  intros Pd Ps Dis Us Uk Ui.
  set (nm := fun i => tjoin d (te_name e (ts_rand s + i))).
  assert (Din : forall i j, (i < 7)%nat -> (j < 7)%nat -> nm i = nm j -> i = j).
  { intros i j Hi Hj E. apply tjoin_inj in E. apply Dis in E; lia. }
  assert (Un : forall i, (i < 7)%nat -> used e d (ts_rand s) 7 (nm i)).
  { intros i Hi. exists (ts_rand s + i)%nat. split; [lia|reflexivity]. }
  unfold tlanzaboote_image.
  assert (Ns : forall i, (i < 7)%nat -> fp_stub sp <> nm i) by (intros i Hi E; apply Us; rewrite E; auto).
  assert (Nk : forall i, (i < 7)%nat -> fp_kernel sp <> nm i) by (intros i Hi E; apply Uk; rewrite E; auto).
  assert (Ni : forall i, (i < 7)%nat -> fp_initrd sp <> nm i) by (intros i Hi E; apply Ui; rewrite E; auto).
  assert (Nn : forall i j, (i < 7)%nat -> (j < 7)%nat -> i <> j -> nm i <> nm j)
    by (intros i j Hi Hj N E; apply N; auto).
  assert (KR : forall (m m' : tfs) p, (forall q, q <> p -> tget m' q = tget m q) ->
                 forall q, q <> p -> tread m' q = tread m q).
  { intros m m' p H q Hq. unfold tread. rewrite H; auto. }
  wstep s1 R1 T1 C1 K1 0%nat nm. pose proof (KR _ _ _ K1) as J1.
  wstep s2 R2 T2 C2 K2 1%nat nm. pose proof (KR _ _ _ K2) as J2.
  rstep s3 R3 F3 T3 L3 kd Ek.
  { rewrite J2, J1 in X by (solve [apply Ns; lia | apply Nk; lia | apply Ni; lia]). congruence. }
  rewrite J2, J1 in Ek by (solve [apply Ns; lia | apply Nk; lia | apply Ni; lia]).
  wstep s4 R4 T4 C4 K4 2%nat nm. rewrite F3 in K4. pose proof (KR _ _ _ K4) as J4.
  wstep s5 R5 T5 C5 K5 3%nat nm. pose proof (KR _ _ _ K5) as J5.
  rstep s6 R6 F6 T6 L6 idt Ei.
  { rewrite J5, J4, J2, J1 in X by (solve [apply Ns; lia | apply Nk; lia | apply Ni; lia]). congruence. }
  rewrite J5, J4, J2, J1 in Ei by (solve [apply Ns; lia | apply Nk; lia | apply Ni; lia]).
  wstep s7 R7 T7 C7 K7 4%nat nm. rewrite F6 in K7. pose proof (KR _ _ _ K7) as J7.
  wstep s8 R8 T8 C8 K8 5%nat nm. pose proof (KR _ _ _ K8) as J8.
  rstep s9 R9 F9 T9 L9 stub Es.
  { rewrite J8, J7, J5, J4, J2, J1 in X by (solve [apply Ns; lia | apply Nk; lia | apply Ni; lia]). congruence. }
  rewrite J8, J7, J5, J4, J2, J1 in Es by (solve [apply Ns; lia | apply Nk; lia | apply Ni; lia]).
  assert (V0 : tread (ts_files s8) (nm 0%nat) = Some (utf8_encode (join (lit " ") (fp_cmdline sp)))).
  { rewrite J8, J7, J5, J4, J2 by (apply Nn; lia). auto. }
  assert (V1 : tread (ts_files s8) (nm 1%nat) = Some (utf8_encode (fp_kernel_path sp))).
  { rewrite J8, J7, J5, J4 by (apply Nn; lia). auto. }
  assert (V2 : tread (ts_files s8) (nm 2%nat) = Some (te_sha e kd)).
  { rewrite J8, J7, J5 by (apply Nn; lia). auto. }
  assert (V3 : tread (ts_files s8) (nm 3%nat) = Some (utf8_encode (fp_initrd_path sp))).
  { rewrite J8, J7 by (apply Nn; lia). auto. }
  assert (V4 : tread (ts_files s8) (nm 4%nat) = Some (te_sha e idt)).
  { rewrite J8 by (apply Nn; lia). auto. }
  pose proof C8 as V5.
  assert (VS : tread (ts_files s8) (fp_stub sp) = Some stub).
  { rewrite J8, J7, J5, J4, J2, J1 by (solve [apply Ns; lia | apply Nk; lia | apply Ni; lia]). auto. }
  assert (Fr : forall q, ~ used e d (ts_rand s) 7 q -> tget (ts_files s8) q = tget (ts_files s) q).
  { intros q Hq. assert (Nq : forall i, (i < 7)%nat -> q <> nm i) by (intros i Hi ->; auto).
    rewrite K8, K7, K5, K4, K2, K1 by (apply Nq; lia). auto. }
  assert (RS : ts_rand s9 = (ts_rand s + 6)%nat) by lia.
  assert (TS : (ts_tick s <= ts_tick s9)%nat) by lia.
  clear K1 K2 K4 K5 K7 K8 J1 J2 J4 J5 J7 J8 C1 C2 C4 C5 C7 C8 L3 L6 L9.
  clear R1 R2 R3 R4 R5 R6 R7 R8 R9 T1 T2 T3 T4 T5 T6 T7 T8 T9 F3 F6.
  apply tsat_bind. unfold tsat at 1, tlift.
  destruct (te_parse e stub) as [p|] eqn:Ep; cbn [ok_or].
  2:{ split; [lia|]. right. intros st kd' idt' E1 E2 E3. unfold lanzaboote_image.
      replace st with stub by congruence. now rewrite Ep. }
  apply tsat_bind. unfold tsat at 1.
  destruct (stub_offset p) as [offs|[]|] eqn:Eo.
  3:{ split; [lia|]. exists stub. split; auto. intros. unfold lanzaboote_image. now rewrite Ep, Eo. }
  2:{ split; [lia|]. right. intros st kd' idt' E1 E2 E3. unfold lanzaboote_image.
      replace st with stub by congruence. now rewrite Ep, Eo. }
  rstep t1 R1 F1 T1 L1 n1 E1. { congruence. } rewrite F9, V5 in E1. injection E1 as <-.
  rstep t2 R2 F2 T2 L2 n2 E2. { congruence. } rewrite F1, F9, V0 in E2. injection E2 as <-.
  rstep t3 R3 F3 T3 L3 n3 E3. { congruence. } rewrite F2, F1, F9, V3 in E3. injection E3 as <-.
  rstep t4 R4 F4 T4 L4 n4 E4. { congruence. } rewrite F3, F2, F1, F9, V1 in E4. injection E4 as <-.
  rstep t5 R5 F5 T5 L5 n5 E5. { congruence. } rewrite F4, F3, F2, F1, F9, V4 in E5. injection E5 as <-.
  assert (F : ts_files t5 = ts_files s8) by congruence.
  assert (RT : ts_rand t5 = (ts_rand s + 6)%nat) by lia.
  assert (TT : (ts_tick s <= ts_tick t5)%nat) by lia.
  clear L1 L2 L3 L4 L5 R1 R2 R3 R4 R5 T1 T2 T3 T4 T5 F1 F2 F3 F4 F5 F9.
  apply tsat_bind. unfold tsat at 1, tmpname. rewrite RT. fold (nm 6%nat).
  apply tsat_bind. unfold wrap_in_pe. apply tsat_bind. apply sat_command.
  cbn [ts_files ts_rand ts_tick]. intros s' R T. rewrite F.
  set (sp' := StubParameters (fp_cmdline sp) (fp_osrel sp) (fp_kernel_path sp) (te_sha e kd)
                (fp_initrd_path sp) (te_sha e idt)).
  assert (X : forall st kd' idt', tread (ts_files s) (fp_stub sp) = Some st ->
    tread (ts_files s) (fp_kernel sp) = Some kd' -> tread (ts_files s) (fp_initrd sp) = Some idt' ->
    oc stub (image_sections sp' offs) = None ->
    lanzaboote_image (te_parse e) oc st
      (StubParameters (fp_cmdline sp) (fp_osrel sp) (fp_kernel_path sp) (te_sha e kd')
         (fp_initrd_path sp) (te_sha e idt')) = Err tt).
  { intros st kd' idt' X1 X2 X3 N. replace st with stub by congruence.
    replace kd' with kd by congruence. replace idt' with idt by congruence.
    unfold lanzaboote_image. rewrite Ep, Eo. cbn [bind]. fold sp'. now rewrite N. }
  pose proof (Hoc (flat_map to_objcopy
      [TSection (lit ".osrel") (nm 5%nat) offs;
       TSection (lit ".cmdline") (nm 0%nat) (offs + file_size (fp_osrel sp));
       TSection (lit ".initrd") (nm 3%nat)
         (offs + file_size (fp_osrel sp) + file_size (utf8_encode (join (lit " ") (fp_cmdline sp))));
       TSection (lit ".linux") (nm 1%nat)
         (offs + file_size (fp_osrel sp) + file_size (utf8_encode (join (lit " ") (fp_cmdline sp)))
          + file_size (utf8_encode (fp_initrd_path sp)));
       TSection (lit ".initrdh") (nm 4%nat)
         (offs + file_size (fp_osrel sp) + file_size (utf8_encode (join (lit " ") (fp_cmdline sp)))
          + file_size (utf8_encode (fp_initrd_path sp)) + file_size (utf8_encode (fp_kernel_path sp)));
       TSection (lit ".linuxh") (nm 2%nat)
         (offs + file_size (fp_osrel sp) + file_size (utf8_encode (join (lit " ") (fp_cmdline sp)))
          + file_size (utf8_encode (fp_initrd_path sp)) + file_size (utf8_encode (fp_kernel_path sp))
          + file_size (te_sha e idt))] ++ [fp_stub sp; nm 6%nat])
      (ts_files s8) _ stub (image_sections sp' offs)
      (objcopy_reads_sections _ _ _ (image_good_names _ _ _ _ _ _ _ _ _ _ _ _) Ps (plain_join _ _ Pd))) as O.
  cbn [oc_in oc_out oc_add oc_vma] in O.
  specialize (O (proj2 (holds_read _ _ _) VS)).
  lapply O; [clear O; intros O|].
  2:{ cbn [map x_name x_file x_offset]. unfold image_sections. cbv zeta.
      repeat apply Forall2_cons; try apply Forall2_nil; cbn [adds fst snd];
        (split; [reflexivity|split; [apply holds_read; assumption|apply vma_six]]). }
  match goal with |- context [te_run e (lit "objcopy") ?a (ts_files s8)] =>
    match type of O with context [te_run e (lit "objcopy") ?b (ts_files s8)] => change b with a in O end end.
  destruct (oc stub (image_sections sp' offs)) as [image|] eqn:Eoc.
  - destruct O as (m' & mode & Rn & G & Fo). rewrite Rn. split.
    + intros [H|H]; [|discriminate]. split; [lia|]. left. eapply faulted_mono; [exact H|lia|lia].
    + intros ok [= Em <-]. unfold tsat, tret. cbn. split; [lia|]. split; [reflexivity|]. split; [lia|].
      rewrite Em in G, Fo.
      exists stub, kd, idt, image. repeat split; auto.
      * unfold lanzaboote_image. rewrite Ep, Eo. cbn [bind]. fold sp'. now rewrite Eoc.
      * unfold tread. fold (nm 6%nat) in G |- *. rewrite G. reflexivity.
      * intros q Hq. rewrite Fo; auto. intros ->. apply Hq. apply Un. lia.
  - destruct O as (m' & Rn). rewrite Rn. split.
    + intros [H|H]; [|discriminate]. split; [lia|]. left. eapply faulted_mono; [exact H|lia|lia].
    + intros ok [= _ <-]. unfold tsat, tfail. split; [lia|]. right. eauto.
Qed.
End Rules.

(** ** Initrd secrets, signing, the directory *)

Lemma owner_only_600 u : owner_only (N.ldiff 384 u).
Proof.
  unfold owner_only. apply N.bits_inj. intros i. rewrite N.land_spec, N.ldiff_spec, N.bits_0.
  assert (H : N.testbit 384 i && N.testbit 63 i = false).
  { rewrite <- N.land_spec. change (N.land 384 63) with 0. apply N.bits_0. }
  destruct (N.testbit 384 i), (N.testbit 63 i), (N.testbit u i); cbn in *; congruence.
Qed.

Lemma owner_only_700 u : owner_only (N.ldiff 448 u).
Proof.
  unfold owner_only. apply N.bits_inj. intros i. rewrite N.land_spec, N.ldiff_spec, N.bits_0.
  assert (H : N.testbit 448 i && N.testbit 63 i = false).
  { rewrite <- N.land_spec. change (N.land 448 63) with 0. apply N.bits_0. }
  destruct (N.testbit 448 i), (N.testbit 63 i), (N.testbit u i); cbn in *; congruence.
Qed.

(** Writing a new file, with its mode. *)
Lemma write_mode e d c s s' p :
  tget (ts_files s) (tjoin d (te_name e (ts_rand s))) = None ->
  write_secure_file e d c s = (s', Ok p) ->
  tget (ts_files s') p = Some (TFile (N.ldiff 384 (te_umask e)) c).
Proof.
  intros H. unfold write_secure_file, tbind, tmpname, create_secure_file, tguard, tbind, tfault, tfiles, twrite_all, tchange.
  unfold tbind, tfault. cbn [ts_rand ts_tick ts_files ts_log].
  destruct (te_fault e (ts_tick s)); [discriminate|]. cbn [ts_files ts_tick ts_log ts_rand tret]. rewrite H.
  cbv zeta. cbn [ts_files ts_tick ts_log ts_rand].
  destruct (te_fault e (S (ts_tick s))) as [[c'|]|]; try discriminate.
  unfold tret. intros [= <- <-]. unfold tput. cbn [ts_files tget t_mode].
  repeat rewrite eqb_bytes_refl. cbn [tget t_mode]. rewrite eqb_bytes_refl. reflexivity.
Qed.

Lemma sat_initrd e d script initrd ap s :
  (forall sc, script = Some sc -> script_works (te_run e) sc (ap sc)) ->
  tget (ts_files s) (tjoin d (te_name e (ts_rand s))) = None ->
  initrd <> tjoin d (te_name e (ts_rand s)) ->
  tsat (tinitrd_location e d script initrd) s (fun s' r =>
    (ts_tick s <= ts_tick s')%nat /\
    match r with
    | Ok p =>
        match script with
        | None => p = initrd /\ s' = s
        | Some sc =>
            p = tjoin d (te_name e (ts_rand s)) /\ ts_rand s' = S (ts_rand s) /\
            exists c out mode,
              tread (ts_files s) initrd = Some c /\ ap sc c = Some out /\
              tget (ts_files s') p = Some (TFile mode out) /\ owner_only mode /\
              (forall q, q <> p -> tget (ts_files s') q = tget (ts_files s) q)
        end
    | Err _ =>
        faulted (te_fault e) (ts_tick s) (ts_tick s') \/
        exists sc, script = Some sc /\ forall c, tread (ts_files s) initrd = Some c -> ap sc c = None
    | Panic => False
    end).
Proof.
  intros Hs Fr Ni. unfold tinitrd_location. destruct script as [sc|].
  2:{ unfold tsat, tret. auto. }
  specialize (Hs sc eq_refl).
  apply tsat_bind, sat_read_file. intros s1 R1 F1 T1 L1. split.
  { intros [X|X]; (split; [lia|]); [left; eapply faulted_mono; [exact X|lia|lia]|].
    right. exists sc. split; auto. congruence. }
  intros c Ec. cbv beta iota.
  apply tsat_bind. unfold tsat at 1.
  destruct (write_secure_file e d c s1) as [s2 r2] eqn:Ew.
  assert (W : tsat (write_secure_file e d c) s1 (fun s' r =>
     (ts_tick s1 <= ts_tick s')%nat /\ ts_rand s' = S (ts_rand s1) /\
     match r with
     | Ok p => p = tjoin d (te_name e (ts_rand s1)) /\
               (forall q, q <> p -> tget (ts_files s') q = tget (ts_files s1) q)
     | Err _ => faulted (te_fault e) (ts_tick s1) (ts_tick s')
     | Panic => False
     end)).
  { apply sat_write; auto. }
  unfold tsat in W. rewrite Ew in W. destruct W as (T2 & R2 & W).
  destruct r2 as [p|[]|]; [|split; [lia|]; left; eapply faulted_mono; [exact W|lia|lia]|tauto].
  destruct W as (Ep & Fo).
  apply write_mode in Ew; [|rewrite F1, R1; exact Fr].
  apply tsat_bind. unfold append_initrd_secrets. apply tsat_bind, sat_command.
  intros s3 R3 T3. specialize (Hs _ _ _ _ Ew).
  destruct (ap sc c) as [out|] eqn:Ea.
  - destruct Hs as (m' & Rn & G & Fo'). rewrite Rn. split.
    + intros [X|X]; [|discriminate]. split; [lia|]. left. eapply faulted_mono; [exact X|lia|lia].
    + intros ok [= Em <-]. unfold tsat, tret. cbn. split; [lia|]. rewrite Em in G, Fo'.
      split; [congruence|]. split; [congruence|].
      exists c, out, (N.ldiff 384 (te_umask e)). repeat split; auto.
      * apply owner_only_600.
      * intros q Hq. rewrite Fo', Fo by auto. congruence.
  - destruct Hs as (m' & Rn). rewrite Rn. split.
    + intros [X|X]; [|discriminate]. split; [lia|]. left. eapply faulted_mono; [exact X|lia|lia].
    + intros ok [= _ <-]. unfold tsat, tfail. split; [lia|]. right. exists sc. split; auto. congruence.
Qed.

Lemma sat_sign e sb private public from to s :
  sbsign_works (te_run e) sb -> plain from ->
  tsat (tsign_and_copy e private public from to) s (fun s' r =>
    (ts_tick s <= ts_tick s')%nat /\ ts_rand s' = ts_rand s /\
    match r with
    | Ok _ => forall c, tread (ts_files s) from = Some c ->
        exists signed, sb private public c = Some signed /\ tread (ts_files s') to = Some signed /\
                       (forall q, q <> to -> tget (ts_files s') q = tget (ts_files s) q)
    | Err _ => faulted (te_fault e) (ts_tick s) (ts_tick s') \/
               forall c, tread (ts_files s) from = Some c -> sb private public c = None
    | Panic => False
    end).
Proof.
  intros W P. unfold tsign_and_copy. apply tsat_bind, sat_command. intros s' R T.
  assert (O : forall c, tread (ts_files s) from = Some c -> _) by
    (intros c Hc; exact (W _ (ts_files s) _ _ _ _ c (sbsign_reads_args private public from to P)
                             (proj2 (holds_read _ _ _) Hc))).
  split.
  - intros X. split; [lia|]. split; [auto|]. destruct X as [X|X]; [auto|]. right. intros c Hc.
    specialize (O c Hc). destruct (sb private public c); auto.
    destruct O as (m' & mode & Rn & _). discriminate (eq_trans (eq_sym X) Rn).
  - intros ok E. destruct ok; unfold tsat, tret, tfail.
    + split; [lia|]. split; [auto|]. intros c Hc. specialize (O c Hc).
      destruct (sb private public c) as [signed|].
      * destruct O as (m' & mode & Rn & G & Fo).
        pose proof (eq_trans (eq_sym E) Rn) as Rm. injection Rm as <-.
        exists signed. split; auto. split; auto. unfold tread. now rewrite G.
      * destruct O as (m' & Rn). discriminate (eq_trans (eq_sym E) Rn).
    + split; [lia|]. split; [auto|]. right. intros c Hc. specialize (O c Hc).
      destruct (sb private public c); auto. destruct O as (m' & mode & Rn & _).
      discriminate (eq_trans (eq_sym E) Rn).
Qed.

Lemma verify_outcome e sv public p s s' r :
  sbverify_works (te_run e) sv -> plain p ->
  tverify_path e public p s = (s', r) ->
  (r = Err tt /\ faulted (te_fault e) (ts_tick s) (ts_tick s')) \/
  (ts_files s' = ts_files s /\
   r = Ok (match tread (ts_files s) p with Some c => sv public c | None => false end)).
Proof.
  intros W P E.
  assert (S : tsat (tverify_path e public p) s (fun s' r =>
    (r = Err tt /\ faulted (te_fault e) (ts_tick s) (ts_tick s')) \/
    (ts_files s' = ts_files s /\
     r = Ok (match tread (ts_files s) p with Some c => sv public c | None => false end)))).
  { apply sat_command. intros t R T.
    destruct (W _ (ts_files s) _ _ (sbverify_reads_args public p P)) as (W1 & W2).
    assert (X : te_run e (lit "sbverify") [lit "--cert"; public; p] (ts_files s)
                = Some (ts_files s, match tread (ts_files s) p with Some c => sv public c | None => false end)).
    { destruct (tread (ts_files s) p) as [c|] eqn:Er.
      - apply W1. apply holds_read; auto.
      - apply W2. unfold tread in Er. destruct (tget (ts_files s) p); congruence. }
    rewrite X. split.
    - intros [F|F]; [auto|discriminate].
    - intros ok [= <- <-]. auto. }
  unfold tsat in S. rewrite E in S. auto.
Qed.

Lemma tget_filter d m q :
  tget (filter (fun x => negb (tunder d (fst x))) m) q = if tunder d q then None else tget m q.
Proof.
  induction m as [|[p f] m IH]; cbn [filter tget fst].
  - now destruct (tunder d q).
  - destruct (tunder d p) eqn:Ep; cbn [negb].
    + rewrite IH. destruct (tunder d q) eqn:Eq; auto.
      destruct (eqb_bytes p q) eqn:E; auto. apply eqb_bytes_spec in E. congruence.
    + cbn [tget]. destruct (eqb_bytes p q) eqn:E; auto.
      apply eqb_bytes_spec in E. subst. now rewrite Ep.
Qed.

Lemma with_tempdir_run {A} e d (body : T A) s s' r :
  with_tempdir e d body s = (s', r) ->
  (r = Err tt /\ faulted (te_fault e) (ts_tick s) (ts_tick s') /\ ts_files s' = ts_files s /\ ts_log s' = ts_log s) \/
  exists s1,
    body (TSt (ts_files s) (ts_log s ++ [TDir d (N.ldiff 448 (te_umask e))]) (ts_rand s) (S (ts_tick s))) = (s1, r) /\
    ts_log s' = ts_log s1 ++ [TRemove d] /\ ts_rand s' = ts_rand s1 /\ ts_tick s' = ts_tick s1 /\
    (forall q, inside d q -> tget (ts_files s') q = None) /\
    (forall q, ~ inside d q -> tget (ts_files s') q = tget (ts_files s1) q).
Proof.
  unfold with_tempdir, tbind, tguard, tbind, tfault, tchange. 
  destruct (te_fault e (ts_tick s)) eqn:F; unfold tfail, tret; cbn [ts_files ts_log ts_rand ts_tick].
  { intros [= <- <-]. left. repeat split; auto. exists (ts_tick s). split; [cbn; lia|congruence]. }
  destruct (body _) as [s1 r1]. intros [= <- <-]. right. exists s1.
  cbn [ts_log ts_rand ts_tick ts_files]. repeat split; auto.
  - intros q Hq. rewrite tget_filter. apply tunder_inside in Hq. now rewrite Hq.
  - intros q Hq. rewrite tget_filter. destruct (tunder d q) eqn:E; auto.
    apply tunder_inside in E. tauto.
Qed.

Lemma sat_lock e lk binary component s :
  pcrlock_works (te_run e) lk -> plain binary ->
  tsat (tlock_pe e binary component) s (fun s' r =>
    (ts_tick s <= ts_tick s')%nat /\ ts_rand s' = ts_rand s /\
    match r with
    | Ok _ => forall c, tread (ts_files s) binary = Some c ->
        exists out, lk c = Some out /\ tread (ts_files s') component = Some out /\
                       (forall q, q <> component -> tget (ts_files s') q = tget (ts_files s) q)
    | Err _ => faulted (te_fault e) (ts_tick s) (ts_tick s') \/
               forall c, tread (ts_files s) binary = Some c -> lk c = None
    | Panic => False
    end).
Proof.
  intros W P. unfold tlock_pe. apply tsat_bind, sat_command. intros s' R T.
  assert (O : forall c, tread (ts_files s) binary = Some c -> _) by
    (intros c Hc; exact (W _ (ts_files s) _ _ c (pcrlock_reads_args binary component P)
                             (proj2 (holds_read _ _ _) Hc))).
  split.
  - intros X. split; [lia|]. split; [auto|]. destruct X as [X|X]; [auto|]. right. intros c Hc.
    specialize (O c Hc). destruct (lk c); auto.
    destruct O as (m' & mode & Rn & _). discriminate (eq_trans (eq_sym X) Rn).
  - intros ok E. destruct ok; unfold tsat, tret, tfail.
    + split; [lia|]. split; [auto|]. intros c Hc. specialize (O c Hc).
      destruct (lk c) as [out|].
      * destruct O as (m' & mode & Rn & G & Fo).
        pose proof (eq_trans (eq_sym E) Rn) as Rm. injection Rm as <-.
        exists out. split; auto. split; auto. unfold tread. now rewrite G.
      * destruct O as (m' & Rn). discriminate (eq_trans (eq_sym E) Rn).
    + split; [lia|]. split; [auto|]. right. intros c Hc. specialize (O c Hc).
      destruct (lk c); auto. destruct O as (m' & mode & Rn & _).
      discriminate (eq_trans (eq_sym E) Rn).
Qed.

Lemma tbind_ok {A B} (m : T A) (k : A -> T B) s s' b :
  tbind m k s = (s', Ok b) -> exists s1 a, m s = (s1, Ok a) /\ k a s1 = (s', Ok b).
Proof. unfold tbind. destruct (m s) as [s1 [a|[]|]]; try discriminate. eauto. Qed.

Lemma tsat_run {A} (m : T A) s s' r Q : tsat m s Q -> m s = (s', r) -> Q s' r.
Proof. unfold tsat. intros H E. now rewrite E in H. Qed.

Section Build.
Variable e : tenv.
Variable oc : bytes -> list (bytes * bytes * N) -> option bytes.
Variable sb : bytes -> bytes -> bytes -> option bytes.
Variable lk : bytes -> option bytes.
Variable ap : bytes -> bytes -> option bytes.

Lemma build_ok_run d script initrd esp stub kernel cmdline osrel component private public to s s' :
  objcopy_works (te_run e) oc -> sbsign_works (te_run e) sb -> pcrlock_works (te_run e) lk ->
  (forall sc, script = Some sc -> script_works (te_run e) sc (ap sc)) ->
  plain d -> plain stub ->
  distinct_names (te_name e) (ts_rand s) 8 ->
  (forall q, inside d q -> tget (ts_files s) q = None) ->
  Forall (fun q => ~ inside d q) (stub :: kernel :: initrd :: to :: match component with Some c => [c] | None => [] end) ->
  (forall loc, leaves_alone (esp loc) (fun q => inside d q \/ q = stub \/ q = kernel \/ q = initrd)) ->
  tbuild e d script initrd esp stub kernel cmdline osrel (tmeasure e component)
    (fun image => tsign_and_copy e private public image to) s = (s', Ok tt) ->
  exists stubc kd idt kp ip image signed s1 s2 loc,
    holds (ts_files s) stub stubc /\ holds (ts_files s) kernel kd /\
    wanted_initrd (ts_files s) script ap initrd idt /\
    esp loc s1 = (s2, Ok (kp, ip)) /\ holds (ts_files s1) loc idt /\
    lanzaboote_image (te_parse e) oc stubc
      (StubParameters cmdline osrel kp (te_sha e kd) ip (te_sha e idt)) = Ok image /\
    sb private public image = Some signed /\ holds (ts_files s') to signed /\
    (forall c, component = Some c -> exists out, lk image = Some out /\ (c <> to -> holds (ts_files s') c out)) /\
    (forall q, inside d q -> tget (ts_files s') q = None).
Proof.
  intros Woc Wsb Wlk Wsc Pd Ps Dis Fr Out Esp E.
  apply Forall_inv_tail in Out as Out1. apply Forall_inv_tail in Out1 as Out2.
  apply Forall_inv_tail in Out2 as Out3. apply Forall_inv in Out as Os. apply Forall_inv in Out1 as Okn.
  apply Forall_inv in Out2 as Oi. apply Forall_inv in Out3 as Ot. apply Forall_inv_tail in Out3 as Oc.
  assert (U : forall n q, ~ inside d q -> ~ used e d n 7 q).
  { intros n q Hq (i & _ & ->). apply Hq, tjoin_inside. }
  unfold tbuild in E. apply with_tempdir_run in E as [(C & _)|(s9 & E & _ & _ & _ & Gone & Kept)]; [discriminate|].
  set (s0 := TSt _ _ _ _) in E.
  apply tbind_ok in E as (s1 & loc & E1 & E).
  apply tbind_ok in E as (s2 & [kp ip] & E2 & E).
  apply tbind_ok in E as (s3 & p & E3 & E). cbn [fst snd] in E3.
  apply tbind_ok in E as (s4 & [] & E4 & E5).
  destruct (Esp _ _ _ _ E2) as (R2 & T2 & K2).
  pose proof (tsat_run _ _ _ _ _ (sat_initrd e d script initrd ap s0 Wsc (Fr _ (tjoin_inside _ _))
    (fun H => Oi (eq_ind_r (fun x => inside d x) (tjoin_inside _ _) H))) E1) as (T1 & L).
  assert (L' : exists idt k, (ts_rand s1 = ts_rand s + k /\ k <= 1)%nat /\
     wanted_initrd (ts_files s) script ap initrd idt /\ tread (ts_files s1) loc = Some idt /\
     (loc = initrd \/ inside d loc) /\
     (forall i, (ts_rand s1 <= i < ts_rand s1 + 7)%nat -> loc <> tjoin d (te_name e i)) /\
     (forall q, ~ inside d q -> tget (ts_files s1) q = tget (ts_files s) q) /\
     (script = None -> s1 = s0)).
  { destruct script as [sc|].
    - destruct L as (-> & R1 & c & out & mode & Hc & Ha & Hg & _ & Fo).
      exists out, 1%nat. repeat split.
      + rewrite R1. cbn. lia.
      + lia.
      + exists c. split; auto. apply holds_read. auto.
      + unfold tread. now rewrite Hg.
      + right. apply tjoin_inside.
      + intros i Hi Hj. apply tjoin_inj in Hj. cbn [ts_rand s0] in *. apply Dis in Hj; lia.
      + intros q Hq. rewrite Fo; auto. intros ->. apply Hq, tjoin_inside.
      + discriminate.
    - destruct L as (-> & ->). 
      assert (X : exists idt, tread (ts_files s) initrd = Some idt).
      { assert (D7 : distinct_names (te_name e) (ts_rand s2) 7).
        { intros i j Hi Hj. cbn [ts_rand s0] in R2. apply Dis; lia. }
        destruct (tsat_run _ _ _ _ _ (sat_image e oc Woc d
          (FileParameters stub kernel initrd cmdline osrel kp ip) s2 Pd Ps D7 (U _ _ Os) (U _ _ Okn) (U _ _ Oi)) E3)
          as (_ & _ & _ & ? & ? & idt & ? & _ & _ & H & _).
        cbn [fp_initrd] in H. exists idt. rewrite <- H. unfold tread. rewrite K2; auto. }
      destruct X as (idt & X). exists idt, 0%nat. repeat split; auto; try (cbn; lia).
      + apply holds_read. auto.
      + intros i _ ->. apply Oi, tjoin_inside. }
  clear L. destruct L' as (idt & k & (R1 & Hk) & Wi & Li & Lw & Ln & Ko & _).
  assert (D7 : distinct_names (te_name e) (ts_rand s2) 7) by (intros i j Hi Hj; apply Dis; lia).
  assert (Ul : ~ used e d (ts_rand s2) 7 loc) by (intros (i & Hi & X); apply (Ln i); [lia|exact X]).
  destruct (tsat_run _ _ _ _ _ (sat_image e oc Woc d
    (FileParameters stub kernel loc cmdline osrel kp ip) s2 Pd Ps D7 (U _ _ Os) (U _ _ Okn) Ul) E3)
    as (T3 & Ep & R3 & stubc & kd & idt' & image & H1 & H2 & H3 & H4 & H5 & H6).
  cbn [fp_stub fp_kernel fp_initrd fp_cmdline fp_osrel fp_kernel_path fp_initrd_path] in *.
  assert (D2 : forall q, inside d q \/ q = stub \/ q = kernel \/ q = initrd -> tread (ts_files s2) q = tread (ts_files s1) q).
  { intros q Hq. unfold tread. now rewrite K2. }
  assert (D1 : forall q, ~ inside d q -> tread (ts_files s1) q = tread (ts_files s) q).
  { intros q Hq. unfold tread. now rewrite Ko. }
  assert (Hs : tread (ts_files s) stub = Some stubc) by (rewrite <- D1, <- D2 by auto; auto).
  assert (Hkd : tread (ts_files s) kernel = Some kd) by (rewrite <- D1, <- D2 by auto; auto).
  assert (Hid : idt' = idt).
  { rewrite D2 in H3; [congruence|]. destruct Lw; auto. }
  subst idt'.
  assert (Pp : plain p) by (rewrite Ep; now apply plain_join).
  assert (Ip : inside d p) by (rewrite Ep; apply tjoin_inside).
  assert (M : tread (ts_files s4) p = Some image /\
              (forall c, component = Some c -> exists out, lk image = Some out /\ tread (ts_files s4) c = Some out)).
  { destruct component as [c|]; cbn [tmeasure] in E4.
    - apply Forall_inv in Oc.
      destruct (tsat_run _ _ _ _ _ (sat_lock e lk p c s3 Wlk Pp) E4) as (_ & _ & X).
      destruct (X _ H5) as (out & X1 & X2 & X3). split.
      + unfold tread. rewrite X3; [exact H5|]. intros ->. auto.
      + intros c' [= <-]. eauto.
    - unfold tret in E4. injection E4 as <-. split; auto. discriminate. }
  destruct M as (M1 & M2).
  destruct (tsat_run _ _ _ _ _ (sat_sign e sb private public p to s4 Wsb Pp) E5) as (_ & _ & X).
  destruct (X _ M1) as (signed & X1 & X2 & X3).
  exists stubc, kd, idt, kp, ip, image, signed, s1, s2, loc.
  repeat split; auto; try (apply holds_read; auto).
  - unfold tread. rewrite Kept by auto. exact X2.
  - intros c Hc. destruct (M2 _ Hc) as (out & Y1 & Y2). exists out. split; auto. intros Nt.
    rewrite Hc in Oc. apply Forall_inv in Oc. apply holds_read.
    unfold tread. rewrite Kept, X3 by auto. exact Y2.
Qed.
End Build.

(** ** Signing and verifying contents *)

Lemma sign_stub_ok e oc sb private public d sp s s' b :
  objcopy_works (te_run e) oc -> sbsign_works (te_run e) sb ->
  plain d -> plain (fp_stub sp) -> distinct_names (te_name e) (ts_rand s) 7 ->
  Forall (fun q => ~ inside d q) [fp_stub sp; fp_kernel sp; fp_initrd sp] ->
  tbuild_and_sign_stub e private public d sp s = (s', Ok b) ->
  exists stubc kd idt image,
    holds (ts_files s) (fp_stub sp) stubc /\ holds (ts_files s) (fp_kernel sp) kd /\
    holds (ts_files s) (fp_initrd sp) idt /\
    lanzaboote_image (te_parse e) oc stubc
      (StubParameters (fp_cmdline sp) (fp_osrel sp) (fp_kernel_path sp) (te_sha e kd)
                      (fp_initrd_path sp) (te_sha e idt)) = Ok image /\
    sb private public image = Some b /\
    (forall q, inside d q -> tget (ts_files s') q = None).
Proof.
  intros Woc Wsb Pd Ps Dis Out E.
  assert (U : forall q, In q [fp_stub sp; fp_kernel sp; fp_initrd sp] -> ~ used e d (ts_rand s) 7 q).
  { intros q Hq (i & _ & ->). rewrite Forall_forall in Out. apply (Out _ Hq), tjoin_inside. }
  unfold tbuild_and_sign_stub in E.
  apply with_tempdir_run in E as [(C & _)|(s9 & E & _ & _ & _ & Gone & Kept)]; [discriminate|].
  set (s0 := TSt _ _ _ _) in E.
  apply tbind_ok in E as (s1 & p & E1 & E). apply tbind_ok in E as (s2 & [] & E2 & E3).
  destruct (tsat_run _ _ _ _ _ (sat_image e oc Woc d sp s0 Pd Ps Dis (U _ (or_introl eq_refl))
     (U _ (or_intror (or_introl eq_refl))) (U _ (or_intror (or_intror (or_introl eq_refl))))) E1)
    as (_ & Ep & _ & stubc & kd & idt & image & H1 & H2 & H3 & H4 & H5 & _).
  assert (Pp : plain p) by (rewrite Ep; now apply plain_join).
  destruct (tsat_run _ _ _ _ _ (sat_sign e sb private public p _ s1 Wsb Pp) E2) as (_ & _ & X).
  destruct (X _ H5) as (signed & X1 & X2 & X3).
  assert (R : tsat (tread_file e (tjoin d (lit "signed-stub.efi"))) s2
    (fun _ r => forall c, r = Ok c -> tread (ts_files s2) (tjoin d (lit "signed-stub.efi")) = Some c)).
  { apply sat_read_file. intros. split; [discriminate|]. congruence. }
  pose proof (tsat_run _ _ _ _ _ R E3 _ eq_refl) as Y.
  exists stubc, kd, idt, image. repeat split; auto; try (apply holds_read; auto). congruence.
Qed.

Lemma sign_store_path_ok e sb private public d p s s' b c :
  sbsign_works (te_run e) sb -> plain p -> holds (ts_files s) p c ->
  tsign_store_path e private public d p s = (s', Ok b) -> sb private public c = Some b.
Proof.
  intros W P H E. apply holds_read in H. unfold tsign_store_path in E.
  apply with_tempdir_run in E as [(C & _)|(s9 & E & _)]; [discriminate|].
  apply tbind_ok in E as (s1 & [] & E1 & E2).
  destruct (tsat_run _ _ _ _ _ (sat_sign e sb private public p _ _ W P) E1) as (_ & _ & X).
  destruct (X _ H) as (signed & X1 & X2 & _).
  assert (R : tsat (tread_file e (tjoin d (lit "signed.efi"))) s1
    (fun _ r => forall c, r = Ok c -> tread (ts_files s1) (tjoin d (lit "signed.efi")) = Some c)).
  { apply sat_read_file. intros. split; [discriminate|]. congruence. }
  pose proof (tsat_run _ _ _ _ _ R E2 _ eq_refl) as Y. congruence.
Qed.

Lemma verify_bytes e sv public d binary s s' r :
  sbverify_works (te_run e) sv -> plain d ->
  tverify e public d binary s = (s', r) ->
  (r = Err tt /\ faulted (te_fault e) (ts_tick s) (ts_tick s')) \/ r = Ok (sv public binary).
Proof.
  intros W P E. unfold tverify in E.
  apply with_tempdir_run in E as [(C & F & _)|(s9 & E & _ & _ & T & _)]; [auto|].
  set (s0 := TSt _ _ _ _) in E.
  assert (S : tsat (tbind (write_secure_file e d binary) (fun p => tverify_path e public p)) s0
    (fun s' r => (r = Err tt /\ faulted (te_fault e) (ts_tick s0) (ts_tick s')) \/ r = Ok (sv public binary))).
  { apply tsat_bind, sat_write; [auto|]. intros s1 R1 T1 C1 K1. unfold tsat.
    destruct (tverify_path _ _ _ s1) as [s2 r2] eqn:V.
    apply verify_outcome with (sv := sv) in V as [(-> & F)|(Fs & ->)]; auto using plain_join.
    - left. split; auto. eapply faulted_mono; [exact F|lia|lia].
    - right. now rewrite C1. }
  apply (tsat_run _ _ _ _ _ S) in E as [(-> & F)| -> ]; auto.
  left. split; auto. eapply faulted_mono; [exact F|cbn; lia|lia].
Qed.

(** ** What others can see *)

Definition private_code {A} (m : T A) : Prop :=
  forall s s' r, m s = (s', r) -> exists l, ts_log s' = ts_log s ++ l /\ Forall private_event l.

Lemma private_bind {A B} (m : T A) (k : A -> T B) :
  private_code m -> (forall a, private_code (k a)) -> private_code (tbind m k).
Proof.
  intros Hm Hk s s' r. unfold tbind. destruct (m s) as [s1 r1] eqn:E. apply Hm in E as (l & E & P).
  destruct r1 as [a|x|]; [|intros [= <- <-]; eauto|intros [= <- <-]; eauto].
  intros F. apply Hk in F as (l' & F & P'). exists (l ++ l'). rewrite F, E, <- app_assoc. split; auto.
  apply Forall_app. auto.
Qed.

Lemma private_still {A} (m : T A) :
  (forall s s' r, m s = (s', r) -> ts_log s' = ts_log s) -> private_code m.
Proof. intros H s s' r E. exists []. rewrite app_nil_r. eauto. Qed.

Lemma private_change ev f : private_event ev -> private_code (tchange ev f).
Proof. intros P s s' r [= <- <-]. exists [ev]. cbn. auto. Qed.

Ltac still := apply private_still; let E := fresh in intros ? ? ? E; injection E as <- _; reflexivity.

Lemma private_ret {A} (a : A) : private_code (tret a). Proof. still. Qed.
Lemma private_fail {A} : private_code (@tfail A). Proof. still. Qed.
Lemma private_lift {A} (r : res unit A) : private_code (tlift r). Proof. still. Qed.
Lemma private_files : private_code tfiles. Proof. still. Qed.
Lemma private_fault e : private_code (tfault e). Proof. still. Qed.
Lemma private_name e : private_code (tmpname e). Proof. still. Qed.

Lemma private_guard e : private_code (tguard e).
Proof. apply private_bind; [apply private_fault|]. intros [?|]; [apply private_fail|apply private_ret]. Qed.

Lemma private_create e p : private_code (create_secure_file e p).
Proof.
  apply private_bind; [apply private_guard|]. intros _. apply private_bind; [apply private_files|].
  intros m. destruct (tget m p); apply private_change; cbn; auto. apply owner_only_600.
Qed.

Lemma private_write_all e p c : private_code (twrite_all e p c).
Proof.
  apply private_bind; [apply private_fault|]. intros [[c'|]|].
  - apply private_bind; [apply private_change; exact Logic.I|]. intros _. apply private_fail.
  - apply private_fail.
  - apply private_change. exact Logic.I.
Qed.

Lemma private_write e d c : private_code (write_secure_file e d c).
Proof.
  apply private_bind; [apply private_name|]. intros n. apply private_bind; [apply private_create|].
  intros _. apply private_bind; [apply private_write_all|]. intros _. apply private_ret.
Qed.

Lemma private_read e p : private_code (tread_file e p).
Proof.
  apply private_bind; [apply private_guard|]. intros _. apply private_bind; [apply private_files|].
  intros m. apply private_lift.
Qed.

Lemma private_command e prog args : private_code (command e prog args).
Proof.
  apply private_bind; [apply private_guard|]. intros _. apply private_bind; [apply private_files|].
  intros m. destruct (te_run e prog args m) as [[m' ok]|];
    (apply private_bind; [apply private_change; exact Logic.I|]); intros _; [apply private_ret|apply private_fail].
Qed.

Lemma private_checked e prog args :
  private_code (tbind (command e prog args) (fun ok => if ok then tret tt else tfail)).
Proof. apply private_bind; [apply private_command|]. intros [|]; [apply private_ret|apply private_fail]. Qed.

Lemma private_image e d sp : private_code (tlanzaboote_image e d sp).
Proof.
  unfold tlanzaboote_image, file_hash, tfile_size, wrap_in_pe.
  repeat first
    [ apply private_write | apply private_read | apply private_name | apply private_lift | apply private_ret
    | apply private_checked | apply private_bind; [|intros ?] ].
Qed.

Lemma private_initrd e d script initrd : private_code (tinitrd_location e d script initrd).
Proof.
  destruct script as [sc|]; cbn [tinitrd_location]; [|apply private_ret].
  apply private_bind; [apply private_read|]. intros c. apply private_bind; [apply private_write|]. intros p.
  apply private_bind; [apply private_checked|]. intros _. apply private_ret.
Qed.

Lemma private_tempdir {A} e d (body : T A) : private_code body -> private_code (with_tempdir e d body).
Proof.
  intros H s s' r E. apply with_tempdir_run in E as [(_ & _ & _ & L)|(s1 & E & L & _)].
  - exists []. rewrite app_nil_r. auto.
  - apply H in E as (l & E & P). cbn [ts_log] in E.
    exists ([TDir d (N.ldiff 448 (te_umask e))] ++ l ++ [TRemove d]). rewrite L, E, <- !app_assoc. split; auto.
    constructor; [apply owner_only_700|]. apply Forall_app. split; auto. repeat constructor.
Qed.

Lemma build_private e d script initrd esp stub kernel cmdline osrel component private public to :
  (forall loc s s' r, esp loc s = (s', r) -> ts_log s' = ts_log s) ->
  private_code (tbuild e d script initrd esp stub kernel cmdline osrel (tmeasure e component)
    (fun image => tsign_and_copy e private public image to)).
Proof.
  intros Hesp. apply private_tempdir. apply private_bind; [apply private_initrd|]. intros loc.
  apply private_bind; [apply private_still; apply Hesp|]. intros paths.
  apply private_bind; [apply private_image|]. intros image.
  apply private_bind.
  - destruct component; [apply private_checked|apply private_ret].
  - intros _. apply private_checked.
Qed.

Lemma build_cleans e d script initrd esp stub kernel cmdline osrel measure sign s s' r :
  (forall q, inside d q -> tget (ts_files s) q = None) ->
  tbuild e d script initrd esp stub kernel cmdline osrel measure sign s = (s', r) ->
  forall q, inside d q -> tget (ts_files s') q = None.
Proof.
  intros Fr E q Hq. apply with_tempdir_run in E as [(_ & _ & F & _)|(s1 & _ & _ & _ & _ & G & _)]; auto.
  rewrite F. auto.
Qed.

Lemma secret_private e d sc initrd ap s s' p :
  script_works (te_run e) sc (ap sc) ->
  (forall q, inside d q -> tget (ts_files s) q = None) -> ~ inside d initrd ->
  tinitrd_location e d (Some sc) initrd s = (s', Ok p) ->
  exists c out mode, holds (ts_files s) initrd c /\ ap sc c = Some out /\ inside d p /\
    tget (ts_files s') p = Some (TFile mode out) /\ owner_only mode /\
    (forall q, q <> p -> tget (ts_files s') q = tget (ts_files s) q).
Proof.
  intros W Fr No E.
  destruct (tsat_run _ _ _ _ _ (sat_initrd e d (Some sc) initrd ap s
    (fun x H => match H in _ = y return match y with Some z => script_works (te_run e) z (ap z) | None => True end
                with eq_refl => W end) (Fr _ (tjoin_inside _ _))
    (fun H => No (eq_ind_r (fun x => inside d x) (tjoin_inside _ _) H))) E)
    as (_ & Ep & _ & c & out & mode & H1 & H2 & H3 & H4 & H5).
  exists c, out, mode. repeat split; auto; [apply holds_read; auto|]. rewrite Ep. apply tjoin_inside.
Qed.

(** ** In the form of the theorems *)

Lemma image_ok e oc d sp s s' p :
  objcopy_works (te_run e) oc -> plain d -> plain (fp_stub sp) ->
  distinct_names (te_name e) (ts_rand s) 7 ->
  Forall (fun q => ~ used e d (ts_rand s) 7 q) [fp_stub sp; fp_kernel sp; fp_initrd sp] ->
  tlanzaboote_image e d sp s = (s', Ok p) ->
  inside d p /\
  exists stub kd idt image,
    holds (ts_files s) (fp_stub sp) stub /\ holds (ts_files s) (fp_kernel sp) kd /\
    holds (ts_files s) (fp_initrd sp) idt /\
    lanzaboote_image (te_parse e) oc stub
      (StubParameters (fp_cmdline sp) (fp_osrel sp) (fp_kernel_path sp) (te_sha e kd)
                      (fp_initrd_path sp) (te_sha e idt)) = Ok image /\
    holds (ts_files s') p image /\
    (forall q, ~ used e d (ts_rand s) 7 q -> tget (ts_files s') q = tget (ts_files s) q).
Proof.
  intros W Pd Ps D U E. rewrite Forall_forall in U.
  destruct (tsat_run _ _ _ _ _ (sat_image e oc W d sp s Pd Ps D (U _ (or_introl eq_refl))
     (U _ (or_intror (or_introl eq_refl))) (U _ (or_intror (or_intror (or_introl eq_refl))))) E)
    as (_ & -> & _ & stub & kd & idt & image & H1 & H2 & H3 & H4 & H5 & H6).
  split; [apply tjoin_inside|]. exists stub, kd, idt, image.
  repeat split; auto; apply holds_read; auto.
Qed.

Lemma image_outcome e oc d sp s s' r stub kd idt :
  objcopy_works (te_run e) oc -> plain d -> plain (fp_stub sp) ->
  distinct_names (te_name e) (ts_rand s) 7 ->
  Forall (fun q => ~ used e d (ts_rand s) 7 q) [fp_stub sp; fp_kernel sp; fp_initrd sp] ->
  holds (ts_files s) (fp_stub sp) stub -> holds (ts_files s) (fp_kernel sp) kd ->
  holds (ts_files s) (fp_initrd sp) idt ->
  tlanzaboote_image e d sp s = (s', r) ->
  ~ faulted (te_fault e) (ts_tick s) (ts_tick s') ->
  match lanzaboote_image (te_parse e) oc stub
      (StubParameters (fp_cmdline sp) (fp_osrel sp) (fp_kernel_path sp) (te_sha e kd)
                      (fp_initrd_path sp) (te_sha e idt)) with
  | Ok image => exists p, r = Ok p /\ holds (ts_files s') p image
  | Err _ => r = Err tt
  | Panic => r = Panic
  end.
Proof.
  intros W Pd Ps D U Hs Hk Hi E N. rewrite Forall_forall in U.
  apply holds_read in Hs, Hk, Hi.
  pose proof (tsat_run _ _ _ _ _ (sat_image e oc W d sp s Pd Ps D (U _ (or_introl eq_refl))
     (U _ (or_intror (or_introl eq_refl))) (U _ (or_intror (or_intror (or_introl eq_refl))))) E) as (_ & O).
  destruct r as [p|[]|].
  - destruct O as (_ & _ & stub' & kd' & idt' & image & H1 & H2 & H3 & H4 & H5 & _).
    rewrite Hs in H1. rewrite Hk in H2. rewrite Hi in H3.
    injection H1 as <-. injection H2 as <-. injection H3 as <-. rewrite H4.
    exists p. split; auto. apply holds_read; auto.
  - destruct O as [F|F]; [tauto|]. rewrite (F _ _ _ Hs Hk Hi). auto.
  - destruct O as (stub' & H1 & F). rewrite Hs in H1. injection H1 as <-. rewrite F. auto.
Qed.

Lemma all_arguments private public from to :
  plain from ->
  sbsign_reads [lit "--key"; private; lit "--cert"; public; from; lit "--output"; to]
    = Some (private, public, from, to) /\
  sbverify_reads [lit "--cert"; public; from] = Some (public, from) /\
  pcrlock_reads [lit "lock-pe"; from; lit "--pcrlock"; to] = Some (lit "lock-pe", from, to).
Proof.
  intros P. split; [apply sbsign_reads_args, P|split; [apply sbverify_reads_args, P|apply pcrlock_reads_args, P]].
Qed.

Lemma sign_outcome e sb private public from to s s' r c :
  sbsign_works (te_run e) sb -> plain from -> holds (ts_files s) from c ->
  tsign_and_copy e private public from to s = (s', r) ->
  (r = Err tt /\ (faulted (te_fault e) (ts_tick s) (ts_tick s') \/ sb private public c = None)) \/
  (r = Ok tt /\ exists signed, sb private public c = Some signed /\ holds (ts_files s') to signed /\
     forall q, q <> to -> tget (ts_files s') q = tget (ts_files s) q).
Proof.
  intros W P H E. apply holds_read in H.
  destruct (tsat_run _ _ _ _ _ (sat_sign e sb private public from to s W P) E) as (_ & _ & O).
  destruct r as [[]|[]|]; [right|left|tauto]; (split; [auto|]).
  - destruct (O _ H) as (signed & A & B & C). exists signed. repeat split; auto. apply holds_read; auto.
  - destruct O; auto.
Qed.

Lemma build_private_run e d script initrd esp stub kernel cmdline osrel component private public to s s' r :
  (forall loc s s' r, esp loc s = (s', r) -> ts_log s' = ts_log s) ->
  tbuild e d script initrd esp stub kernel cmdline osrel (tmeasure e component)
    (fun image => tsign_and_copy e private public image to) s = (s', r) ->
  exists l, ts_log s' = ts_log s ++ l /\ Forall private_event l.
Proof. intros H. apply build_private. exact H. Qed.
