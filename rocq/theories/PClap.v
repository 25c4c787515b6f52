(** Proofs about lzbt's command line. *)
From Coq Require Import List NArith Bool Lia.
From Verif Require Import Base PBase MText MFs MCli MClap SClap.
Import ListNotations.
Open Scope N_scope.

Definition got (s : seen) (n : bytes) : option bytes :=
  if eqb_bytes n (lit "system") then p_system s
  else if eqb_bytes n (lit "systemd") then p_systemd s
  else if eqb_bytes n (lit "systemd-boot-loader-config") then p_conf s
  else if eqb_bytes n (lit "allow-unsigned") then p_allow s
  else if eqb_bytes n (lit "public-key") then p_public s
  else if eqb_bytes n (lit "private-key") then p_private s
  else if eqb_bytes n (lit "configuration-limit") then p_limit s
  else if eqb_bytes n (lit "bootcounting-initial-tries") then p_tries s
  else if eqb_bytes n (lit "pcrlock-directory") then p_pcrlock s
  else None.

Definition upd (s s' : seen) (n v : bytes) : Prop :=
  p_positional s' = p_positional s /\
  forall m, In m known -> got s' m = if eqb_bytes m n then Some v else got s m.

Ltac each I := unfold known in I; cbn [In] in I;
  repeat (destruct I as [<-|I]; [try (vm_compute; reflexivity)|]); try contradiction.

Lemma put_some s n v : In n known -> got s n = None -> exists s', put s n v = Some s' /\ upd s s' n v.
Proof.
  intros I G. destruct s as [sy sd co al pu pr li tr pc ps]. unfold known in I. cbn [In] in I.
  repeat (destruct I as [<-|I]; [vm_compute in G; subst; eexists; (split; [vm_compute; reflexivity|]); split; [reflexivity|]; intros m J; each J|]).
  contradiction.
Qed.

Ltac put_case n := let E := fresh "E" in let H := fresh "H" in match goal with
| |- (if eqb_bytes n ?l then _ else _) = _ -> _ =>
    destruct (eqb_bytes n l) eqn:E;
    [apply eqb_bytes_spec in E; subst n; unfold once;
     match goal with |- (match ?o with _ => _ end) = _ -> _ => destruct o; [discriminate|] end;
     intros H; injection H as <-;
     (split; [unfold known; cbn [In]; tauto|]); (split; [vm_compute; reflexivity|]); split; [reflexivity|]; intros m J; each J|]
end.

Lemma put_inv s n v s' : put s n v = Some s' -> In n known /\ got s n = None /\ upd s s' n v.
Proof.
  destruct s as [sy sd co al pu pr li tr pc ps]. unfold put.
  do 9 put_case n.
  discriminate.
Qed.

Lemma dashed_like a : dashed a = true <-> option_like a.
Proof.
  unfold option_like. destruct a as [|c [|d r]]; cbn [dashed]; split; try discriminate; try (intros (x & y & H); discriminate).
  - intros E. apply N.eqb_eq in E. subst. eauto.
  - intros (x & y & H). injection H as -> -> ->. reflexivity.
Qed.

Lemma not_dashed a : ~ option_like a -> dashed a = false.
Proof. intros H. destruct (dashed a) eqn:E; [apply dashed_like in E; contradiction | reflexivity]. Qed.

Lemma is_dashed a : dashed a = false -> ~ option_like a.
Proof. intros E H. apply dashed_like in H. congruence. Qed.

Lemma split_join n v : ~ In 61 n -> split_value (n ++ 61 :: v) = (n, Some v).
Proof.
  induction n as [|c n IH]; intros H; cbn [app split_value]; [reflexivity|].
  assert ((c =? 61) = false) as -> by (apply N.eqb_neq; intros ->; apply H; left; reflexivity).
  rewrite IH by (intros I; apply H; right; exact I). reflexivity.
Qed.

Lemma split_none n : ~ In 61 n -> split_value n = (n, None).
Proof.
  induction n as [|c n IH]; intros H; cbn [split_value]; [reflexivity|].
  assert ((c =? 61) = false) as -> by (apply N.eqb_neq; intros ->; apply H; left; reflexivity).
  rewrite IH by (intros I; apply H; right; exact I). reflexivity.
Qed.

Lemma split_inv a n o : split_value a = (n, o) ->
  ~ In 61 n /\ a = n ++ match o with Some v => 61 :: v | None => [] end.
Proof.
  revert n o. induction a as [|c a IH]; cbn [split_value]; intros n o H.
  - injection H as <- <-. auto.
  - destruct (N.eqb_spec c 61) as [->|NE].
    + injection H as <- <-. auto.
    + destruct (split_value a) as [n' v'] eqn:E. injection H as <- <-. destruct (IH _ _ eq_refl) as [NI ->].
      split; [|reflexivity]. intros [X|X]; [congruence|contradiction].
Qed.

Fixpoint assoc (os : list (bytes * bytes)) (n : bytes) : option bytes :=
  match os with [] => None | (m, v) :: r => if eqb_bytes n m then Some v else assoc r n end.

(** What has been read: options, positional arguments and where they are kept. *)
Definition holds (s s' : seen) (os : list (bytes * bytes)) (ps : list bytes) : Prop :=
  p_positional s' = p_positional s ++ ps /\ NoDup (map fst os) /\
  (forall n, In n (map fst os) -> In n known /\ got s n = None) /\
  (forall n, In n known -> got s' n = match assoc os n with Some v => Some v | None => got s n end).

Lemma positional_got s a n : got (positional s a) n = got s n.
Proof. destruct s. reflexivity. Qed.

Lemma positional_pos s a : p_positional (positional s a) = p_positional s ++ [a].
Proof. destruct s. reflexivity. Qed.

Lemma holds_positional s s' os ps a : holds (positional s a) s' os ps <-> holds s s' os (a :: ps).
Proof.
  unfold holds. rewrite positional_pos, <- app_assoc. cbn [app].
  split; intros (A & B & C & D); (split; [exact A|]); (split; [exact B|]); split; intros n I.
  - rewrite <- (positional_got s a). apply C, I.
  - rewrite <- (positional_got s a). apply D, I.
  - rewrite positional_got. apply C, I.
  - rewrite positional_got. apply D, I.
Qed.

Lemma holds_put s s1 s' n v os ps : In n known -> got s n = None -> upd s s1 n v ->
  holds s1 s' os ps <-> holds s s' ((n, v) :: os) ps.
Proof.
  intros K G [P U]. unfold holds. rewrite P. cbn [map fst].
  assert (forall m, In m known -> m <> n -> got s1 m = got s m) as O.
  { intros m J NE. rewrite (U m J). apply eqb_bytes_false in NE. rewrite NE. reflexivity. }
  assert (got s1 n = Some v) as S1. { rewrite (U n K), eqb_bytes_refl. reflexivity. }
  split; intros (A & B & C & D).
  - split; [exact A|]. assert (~ In n (map fst os)) as NI by (intros I; destruct (C n I) as [_ X]; congruence).
    split; [constructor; assumption|]. split.
    + intros m [<-|I]; [split; assumption|]. destruct (C m I) as [X Y]. split; [exact X|].
      rewrite <- (O m X); [exact Y|]. intros ->. contradiction.
    + intros m I. rewrite (D m I). cbn [assoc]. destruct (eqb_bytes m n) eqn:E.
      * apply eqb_bytes_spec in E. subst m. rewrite S1.
        assert (assoc os n = None) as ->; [|reflexivity].
        clear -NI. induction os as [|[x y] os IH]; [reflexivity|]. cbn [assoc]. cbn [map fst] in NI.
        assert (eqb_bytes n x = false) as -> by (apply eqb_bytes_false; intros ->; apply NI; left; reflexivity).
        apply IH. intros I. apply NI. right. exact I.
      * apply eqb_bytes_false in E. rewrite (O m I E). reflexivity.
  - split; [exact A|]. inversion B as [|x l NI ND]; subst. split; [exact ND|]. split.
    + intros m I. destruct (C m (or_intror I)) as [X Y]. split; [exact X|]. rewrite (O m X); [exact Y|]. intros ->. contradiction.
    + intros m I. rewrite (D m I). cbn [assoc]. destruct (eqb_bytes m n) eqn:E.
      * apply eqb_bytes_spec in E. subst m. rewrite S1.
        assert (assoc os n = None) as ->; [|reflexivity].
        clear -NI. induction os as [|[x y] os IH]; [reflexivity|]. cbn [assoc]. cbn [map fst] in NI.
        assert (eqb_bytes n x = false) as -> by (apply eqb_bytes_false; intros ->; apply NI; left; reflexivity).
        apply IH. intros I2. apply NI. right. exact I2.
      * apply eqb_bytes_false in E. rewrite (O m I E). reflexivity.
Qed.

Lemma holds_nil s : holds s s [] [].
Proof.
  split; [symmetry; apply app_nil_r|]. split; [constructor|]. split; [intros n []|]. reflexivity.
Qed.

Lemma clap_only l : forall s s', clap_install true s l = Some s' <-> clap_install true s l = Some s' /\ holds s s' [] l.
Proof.
  induction l as [|a l IH]; intros s s'; cbn [clap_install orb].
  - split; [|tauto]. intros H. injection H as <-. split; [reflexivity | apply holds_nil].
  - rewrite (IH (positional s a) s'), holds_positional. tauto.
Qed.

Lemma clap_only_total l : forall s, exists s', clap_install true s l = Some s'.
Proof. induction l as [|a l IH]; intros s; cbn [clap_install orb]; eauto. Qed.

Lemma clap_sound k : forall argv, (length argv < k)%nat -> forall s s', clap_install false s argv = Some s' ->
  exists os ps, reads argv os ps /\ holds s s' os ps.
Proof.
  induction k as [|k IH]; intros argv L s s' H; [lia|].
  destruct argv as [|a rest]; cbn [clap_install] in H.
  - injection H as <-. exists [], []. split; [constructor | apply holds_nil].
  - cbn [length] in L. cbn [orb] in H. destruct (dashed a) eqn:D; cbn [negb] in H.
    2: { apply IH in H as (os & ps & R & HH); [|lia]. exists os, (a :: ps). split; [|apply holds_positional, HH].
         constructor; [apply is_dashed, D | exact R]. }
    destruct (eqb_bytes a (lit "--")) eqn:DD.
    { apply eqb_bytes_spec in DD. subst a. apply clap_only in H as [_ H]. exists [], rest. split; [constructor | exact H]. }
    apply eqb_bytes_false in DD.
    destruct (starts_with (lit "--") a) eqn:SW; [|discriminate]. apply starts_with_spec in SW as [t ->].
    change (skipn 2 (lit "--" ++ t)) with t in H.
    destruct (split_value t) as [n [v|]] eqn:SV; apply split_inv in SV as [NI ->].
    + destruct (put s n v) as [s1|] eqn:PU; [|discriminate]. apply put_inv in PU as (K & G & U).
      apply IH in H as (os & ps & R & HH); [|lia]. exists ((n, v) :: os), ps. split.
      * apply reads_joined; assumption.
      * apply (holds_put s s1); assumption.
    + rewrite app_nil_r in *. destruct rest as [|v rest]; [discriminate|]. destruct (dashed v) eqn:DV; [discriminate|].
      destruct (put s n v) as [s1|] eqn:PU; [|discriminate]. apply put_inv in PU as (K & G & U).
      cbn [length] in L. apply IH in H as (os & ps & R & HH); [|lia]. exists ((n, v) :: os), ps. split.
      * apply reads_apart; try assumption; [|apply is_dashed, DV]. intros ->. apply DD. reflexivity.
      * apply (holds_put s s1); assumption.
Qed.

Lemma holds_first s n v os :
  NoDup (map fst ((n, v) :: os)) -> (forall m, In m (map fst ((n, v) :: os)) -> In m known /\ got s m = None) ->
  exists s1, put s n v = Some s1 /\ upd s s1 n v /\ NoDup (map fst os) /\
    (forall m, In m (map fst os) -> In m known /\ got s1 m = None).
Proof.
  cbn [map fst]. intros ND H. destruct (H n (or_introl eq_refl)) as [K G].
  destruct (put_some s n v K G) as (s1 & P & U). exists s1. split; [exact P|]. split; [exact U|].
  inversion ND as [|x l NI ND']; subst. split; [exact ND'|].
  intros m I. destruct (H m (or_intror I)) as [X Y]. split; [exact X|]. destruct U as [_ U]. rewrite (U m X).
  assert (eqb_bytes m n = false) as -> by (apply eqb_bytes_false; intros ->; contradiction). exact Y.
Qed.

Lemma clap_complete argv os ps : reads argv os ps -> forall s, NoDup (map fst os) ->
  (forall n, In n (map fst os) -> In n known /\ got s n = None) ->
  exists s', clap_install false s argv = Some s' /\ holds s s' os ps.
Proof.
  intros R. induction R as [|a rest os ps NO R IH|rest|n v rest os ps NI R IH|n v rest os ps NE NI NO R IH]; intros s ND H.
  - exists s. split; [reflexivity | apply holds_nil].
  - destruct (IH (positional s a) ND) as (s' & C & HH).
    { intros n I. rewrite positional_got. apply H, I. }
    exists s'. cbn [clap_install]. rewrite (not_dashed a NO). cbn [orb negb]. split; [exact C | apply holds_positional, HH].
  - destruct (clap_only_total rest s) as [s' C]. exists s'. split; [exact C|]. apply clap_only in C as [_ C]. exact C.
  - edestruct (holds_first s) as (s1 & P & U & ND' & H'); [exact ND | exact H|].
    destruct (IH s1 ND' H') as (s' & C & HH). exists s'. split.
    + cbn [clap_install]. change (dashed (lit "--" ++ n ++ lit "=" ++ v)) with
        (match lit "--" ++ n ++ lit "=" ++ v with c :: _ :: _ => c =? 45 | _ => false end).
      change (lit "--" ++ n ++ lit "=" ++ v) with (45 :: 45 :: n ++ 61 :: v). cbv iota. change (45 =? 45) with true. cbn [orb negb].
      assert (eqb_bytes (45 :: 45 :: n ++ 61 :: v) (lit "--") = false) as ->.
      { apply eqb_bytes_false. destruct n; discriminate. }
      change (starts_with (lit "--") (45 :: 45 :: n ++ 61 :: v)) with true. cbn [skipn]. cbv iota.
      rewrite (split_join n v NI), P. exact C.
    + apply (holds_put s s1); try assumption; apply (H n); left; reflexivity.
  - edestruct (holds_first s) as (s1 & P & U & ND' & H'); [exact ND | exact H|].
    destruct (IH s1 ND' H') as (s' & C & HH). exists s'. split.
    + cbn [clap_install]. change (lit "--" ++ n) with (45 :: 45 :: n).
      change (dashed (45 :: 45 :: n)) with true. cbn [orb negb].
      assert (eqb_bytes (45 :: 45 :: n) (lit "--") = false) as ->.
      { apply eqb_bytes_false. destruct n; [congruence|discriminate]. }
      change (starts_with (lit "--") (45 :: 45 :: n)) with true. cbn [skipn]. cbv iota.
      rewrite (split_none n NI), (not_dashed v NO), P. exact C.
    + apply (holds_put s s1); try assumption; apply (H n); left; reflexivity.
Qed.

(** ** Types *)

Lemma digits_places ds : (forall c, In c ds -> 48 <= c <= 57) -> forall acc,
  fold_left (fun acc c => acc * 10 + (c - 48)) ds acc = acc * 10 ^ N.of_nat (length ds) + places ds.
Proof.
  induction ds as [|c ds IH]; intros H acc; cbn [fold_left places length].
  - change (10 ^ N.of_nat 0) with 1. lia.
  - rewrite IH by (intros d I; apply H; right; exact I).
    rewrite Nat2N.inj_succ, N.pow_succ_r'. ring.
Qed.

Lemma number_spec max v n : parse_unsigned max v = Some n <-> number (N.succ max) v n.
Proof.
  unfold parse_unsigned, number.
  assert (forall ds, ds <> [] -> forallb is_digit ds = true -> digits_value ds = places ds) as DP.
  { intros ds _ H. unfold digits_value. rewrite digits_places; [lia|]. intros c I. rewrite forallb_forall in H.
    specialize (H c I). unfold is_digit in H. apply andb_true_iff in H as [A B]. apply N.leb_le in A, B. lia. }
  assert (forall ds, forallb is_digit ds = true <-> (forall c, In c ds -> 48 <= c <= 57)) as DG.
  { intros ds. rewrite forallb_forall. split; intros H c I; specialize (H c I); unfold is_digit in *.
    - apply andb_true_iff in H as [A B]. apply N.leb_le in A, B. lia.
    - apply andb_true_iff. split; apply N.leb_le; lia. }
  set (ds := match v with c :: ds' => if c =? 43 then ds' else v | [] => v end).
  assert (forall ds', (v = ds' \/ v = 43 :: ds') -> ds' <> [] -> (forall c, In c ds' -> 48 <= c <= 57) -> ds = ds') as UQ.
  { intros ds' [->| ->] NE D; unfold ds; [|reflexivity]. destruct ds' as [|c r]; [congruence|].
    specialize (D c (or_introl eq_refl)). destruct (N.eqb_spec c 43); [lia|reflexivity]. }
  assert (v = ds \/ v = 43 :: ds) as VD.
  { unfold ds. destruct v as [|c r]; [left; reflexivity|]. destruct (N.eqb_spec c 43) as [->|]; auto. }
  split.
  - intros H. exists ds. split; [exact VD|]. destruct ds as [|c r]; [discriminate|].
    destruct (forallb is_digit (c :: r)) eqn:F; [|discriminate]. cbv zeta in H.
    destruct (N.leb_spec (digits_value (c :: r)) max) as [LE|]; [|discriminate]. injection H as <-.
    split; [discriminate|]. split; [apply DG, F|]. rewrite DP in * by (discriminate || exact F). lia.
  - intros (ds' & V & NE & D & -> & LT). rewrite (UQ ds' V NE D). destruct ds' as [|c r]; [congruence|].
    rewrite (proj2 (DG (c :: r)) D), DP by (discriminate || apply DG, D).
    cbv zeta. destruct (N.leb_spec (places (c :: r)) max); [reflexivity|lia].
Qed.

Lemma path_value_spec v p : path_value v = Some p <-> a_path v p.
Proof.
  unfold path_value, a_path. destruct v; split; try discriminate.
  - intros [<- H]. congruence.
  - intros H. injection H as <-. split; [reflexivity|discriminate].
  - intros [<- _]. reflexivity.
Qed.

Lemma every_paths_spec l r : every path_value l = Some r <-> l = r /\ forall p, In p l -> p <> [].
Proof.
  revert r. induction l as [|a l IH]; intros r; cbn [every].
  - split; [intros H; injection H as <-; split; [reflexivity|intros p []] | intros [<- _]; reflexivity].
  - split.
    + destruct (path_value a) as [b|] eqn:E; [|discriminate]. apply path_value_spec in E as [-> NE].
      destruct (every path_value l) as [bs|] eqn:F; [|discriminate]. intros H. injection H as <-.
      destruct (proj1 (IH bs) eq_refl) as [-> A]. split; [reflexivity|]. intros p [<-|I]; auto.
    + intros [<- A]. rewrite (proj2 (path_value_spec a a)) by (split; [reflexivity | apply A; left; reflexivity]).
      rewrite (proj2 (IH l)); [reflexivity|]. split; [reflexivity|]. intros p I. apply A. right. exact I.
Qed.

Lemma bool_value_spec v b : bool_value v = Some b <-> v = if b then lit "true" else lit "false".
Proof.
  unfold bool_value. destruct (eqb_bytes v (lit "true")) eqn:T.
  - apply eqb_bytes_spec in T. subst v. destruct b; split; try discriminate; reflexivity.
  - destruct (eqb_bytes v (lit "false")) eqn:F.
    + apply eqb_bytes_spec in F. subst v. destruct b; split; try discriminate; reflexivity.
    + apply eqb_bytes_false in T, F. destruct b; split; try discriminate; congruence.
Qed.

Definition opt {A} (is : bytes -> A -> Prop) (o : option bytes) (a : option A) : Prop :=
  match a with None => o = None | Some a => exists v, o = Some v /\ is v a end.

Lemma optional_spec {A} (f : bytes -> option A) is o a : (forall v a, f v = Some a <-> is v a) ->
  optional f o = Some a <-> opt is o a.
Proof.
  intros S. unfold optional, opt. destruct o as [v|].
  - destruct (f v) as [b|] eqn:E; split.
    + intros H. injection H as <-. exists v. split; [reflexivity|]. apply S, E.
    + destruct a as [a|]; [|discriminate]. intros (w & H & I). injection H as <-. apply S in I. congruence.
    + discriminate.
    + destruct a as [a|]; [|discriminate]. intros (w & H & I). injection H as <-. apply S in I. congruence.
  - split.
    + intros H. injection H as <-. reflexivity.
    + destruct a as [a|]; [intros (w & H & _); discriminate|reflexivity].
Qed.

Lemma typed_spec s a : typed s = Some a <->
  (exists v, p_system s = Some v /\ utf8_decode v = Some (a_system a)) /\
  (exists v, p_systemd s = Some v /\ a_path v (a_systemd a)) /\
  (exists v, p_conf s = Some v /\ a_path v (a_conf a)) /\
  (exists al, opt (fun v b => v = if (b : bool) then lit "true" else lit "false") (p_allow s) al /\
              a_allow_unsigned a = match al with Some b => b | None => false end) /\
  opt a_path (p_public s) (a_public_key a) /\ opt a_path (p_private s) (a_private_key a) /\
  opt (number (2 ^ 64)) (p_limit s) (a_limit a) /\ opt (number (2 ^ 32)) (p_tries s) (a_tries a) /\
  opt a_path (p_pcrlock s) (a_pcrlock a) /\
  p_positional s = a_esp a :: a_generations a /\ (forall p, In p (p_positional s) -> p <> []).
Proof.
  assert (forall v n, parse_unsigned (2 ^ 64 - 1) v = Some n <-> number (2 ^ 64) v n) as N64 by (intros; apply number_spec).
  assert (forall v n, parse_unsigned (2 ^ 32 - 1) v = Some n <-> number (2 ^ 32) v n) as N32 by (intros; apply number_spec).
  unfold typed. split.
  - destruct (p_system s) as [sy|]; [|discriminate]. destruct (p_systemd s) as [sd|]; [|discriminate].
    destruct (p_conf s) as [co|]; [|discriminate]. destruct (p_positional s) as [|esp gens]; [discriminate|].
    destruct (utf8_decode sy) as [sy'|] eqn:E1; [|discriminate].
    destruct (path_value sd) as [sd'|] eqn:E2; [|discriminate].
    destruct (path_value co) as [co'|] eqn:E3; [|discriminate].
    destruct (optional bool_value (p_allow s)) as [al|] eqn:E4; [|discriminate].
    destruct (optional path_value (p_public s)) as [pu|] eqn:E5; [|discriminate].
    destruct (optional path_value (p_private s)) as [pr|] eqn:E6; [|discriminate].
    destruct (optional (parse_unsigned (2 ^ 64 - 1)) (p_limit s)) as [li|] eqn:E7; [|discriminate].
    destruct (optional (parse_unsigned (2 ^ 32 - 1)) (p_tries s)) as [tr|] eqn:E8; [|discriminate].
    destruct (optional path_value (p_pcrlock s)) as [pc|] eqn:E9; [|discriminate].
    destruct (path_value esp) as [esp'|] eqn:E10; [|discriminate].
    destruct (every path_value gens) as [gens'|] eqn:E11; [|discriminate].
    intros H. injection H as <-. cbn [a_system a_systemd a_conf a_allow_unsigned a_public_key a_private_key a_limit a_tries a_pcrlock a_esp a_generations].
    apply path_value_spec in E2, E3, E10. apply (optional_spec _ _ _ _ bool_value_spec) in E4.
    apply (optional_spec _ _ _ _ path_value_spec) in E5, E6, E9.
    apply (optional_spec _ _ _ _ N64) in E7. apply (optional_spec _ _ _ _ N32) in E8.
    apply every_paths_spec in E11 as [<- E11]. destruct E10 as [<- NE].
    repeat (split; [first [assumption | eexists; split; [reflexivity|assumption]]|] || (split; [exists al; split; [assumption|reflexivity]|])).
    split; [reflexivity|]. intros p [<-|I]; auto.
  - intros ((sy & -> & E1) & (sd & -> & E2) & (co & -> & E3) & (al & E4 & A) & E5 & E6 & E7 & E8 & E9 & P & E11).
    rewrite P in *. rewrite E1. apply path_value_spec in E2, E3. rewrite E2, E3.
    apply (optional_spec _ _ _ _ bool_value_spec) in E4.
    apply (optional_spec _ _ _ _ path_value_spec) in E5, E6, E9.
    apply (optional_spec _ _ _ _ N64) in E7. apply (optional_spec _ _ _ _ N32) in E8. rewrite E4, E5, E6, E7, E8, E9.
    rewrite (proj2 (path_value_spec (a_esp a) (a_esp a))) by (split; [reflexivity | apply E11; left; reflexivity]).
    rewrite (proj2 (every_paths_spec (a_generations a) (a_generations a))).
    + rewrite <- A. destruct a. reflexivity.
    + split; [reflexivity|]. intros p I. apply E11. right. exact I.
Qed.

Lemma assoc_in os n v : NoDup (map fst os) -> assoc os n = Some v <-> In (n, v) os.
Proof.
  induction os as [|[m w] os IH]; cbn [assoc map fst]; intros ND.
  - split; [discriminate | intros []].
  - inversion ND as [|x l NI ND']; subst. destruct (eqb_bytes n m) eqn:E.
    + apply eqb_bytes_spec in E. subst m. split.
      * intros H. injection H as <-. left. reflexivity.
      * intros [H|H]; [injection H as <-; reflexivity|]. exfalso. apply NI. change n with (fst (n, v)). apply in_map, H.
    + apply eqb_bytes_false in E. rewrite (IH ND'). split; [intros H; right; exact H|].
      intros [H|H]; [injection H as <- <-; congruence | exact H].
Qed.

Lemma assoc_none os n : assoc os n = None <-> ~ In n (map fst os).
Proof.
  induction os as [|[m w] os IH]; cbn [assoc map fst]; [split; [intros _ []|reflexivity]|].
  destruct (eqb_bytes n m) eqn:E.
  - apply eqb_bytes_spec in E. subst m. split; [discriminate|]. intros H. exfalso. apply H. left. reflexivity.
  - apply eqb_bytes_false in E. rewrite IH. cbn [In]. split; [intros H [X|X]; [congruence|contradiction] | tauto].
Qed.

Lemma typed_asks s os ps a : holds nothing s os ps -> typed s = Some a <-> asks os ps a.
Proof.
  intros (P & ND & KN & G). cbn [nothing p_positional app] in P.
  assert (forall n, In n known -> got s n = assoc os n) as G'.
  { intros n I. rewrite (G n I). destruct (assoc os n); [reflexivity|]. unfold known in I. each I. }
  clear G.
  assert (forall n v, In n known -> got s n = Some v <-> In (n, v) os) as GS.
  { intros n v I. rewrite (G' n I). apply assoc_in, ND. }
  assert (forall n, In n known -> got s n = None <-> ~ In n (map fst os)) as GN.
  { intros n I. rewrite (G' n I). apply assoc_none. }
  assert (forall A (is : bytes -> A -> Prop) n o, In n known -> opt is (got s n) o <-> may os n is o) as OM.
  { intros A is n o I. unfold opt, may. destruct o as [x|]; [|apply GN, I].
    split; intros (v & H & J); exists v; (split; [apply (GS n v I), H | exact J]). }
  assert (In (lit "system") known /\ In (lit "systemd") known /\ In (lit "systemd-boot-loader-config") known /\
          In (lit "allow-unsigned") known /\ In (lit "public-key") known /\ In (lit "private-key") known /\
          In (lit "configuration-limit") known /\ In (lit "bootcounting-initial-tries") known /\
          In (lit "pcrlock-directory") known) as (K1 & K2 & K3 & K4 & K5 & K6 & K7 & K8 & K9)
    by (unfold known; cbn [In]; tauto).
  rewrite typed_spec, P.
  change (p_system s) with (got s (lit "system")). change (p_systemd s) with (got s (lit "systemd")).
  change (p_conf s) with (got s (lit "systemd-boot-loader-config")). change (p_allow s) with (got s (lit "allow-unsigned")).
  change (p_public s) with (got s (lit "public-key")). change (p_private s) with (got s (lit "private-key")).
  change (p_limit s) with (got s (lit "configuration-limit")). change (p_tries s) with (got s (lit "bootcounting-initial-tries")).
  change (p_pcrlock s) with (got s (lit "pcrlock-directory")).
  rewrite (OM _ _ _ _ K5), (OM _ _ _ _ K6), (OM _ _ _ _ K7), (OM _ _ _ _ K8), (OM _ _ _ _ K9).
  split.
  - intros ((sy & E1 & F1) & (sd & E2 & F2) & (co & E3 & F3) & (al & E4 & F4) & E5 & E6 & E7 & E8 & E9 & E10 & E11).
    apply (GS _ _ K1) in E1. apply (GS _ _ K2) in E2. apply (GS _ _ K3) in E3.
    split; eauto.
    + intros n I. apply KN, I.
    + destruct al as [b|].
      * left. rewrite F4. apply (OM _ _ _ (Some b) K4), E4.
      * right. split; [apply (GN _ K4), E4 | exact F4].
  - intros [KK KO (sy & E1 & F1) (sd & E2 & F2) (co & E3 & F3) E4 E5 E6 E7 E8 E9 E10 E11].
    apply (GS _ _ K1) in E1. apply (GS _ _ K2) in E2. apply (GS _ _ K3) in E3.
    split; [eauto|]. split; [eauto|]. split; [eauto|]. split; [|tauto].
    destruct E4 as [E4|[E4 F4]].
    + exists (Some (a_allow_unsigned a)). split; [apply (OM _ _ _ (Some _) K4), E4 | reflexivity].
    + exists None. split; [apply (GN _ K4), E4 | exact F4].
Qed.

Lemma flag_spec f : is_flag f = true <-> flag f.
Proof.
  unfold is_flag, flag. rewrite !orb_true_iff, !eqb_bytes_spec.
  assert (dashed f && forallb (fun c => (c =? 113) || (c =? 118)) (skipn 1 f) = true <->
          exists l, f = 45 :: l /\ l <> [] /\ forall c, In c l -> c = 113 \/ c = 118) as ->; [|tauto].
  rewrite andb_true_iff, forallb_forall. split.
  - intros [D F]. apply dashed_like in D as (c & r & ->). exists (c :: r). split; [reflexivity|]. split; [discriminate|].
    intros x I. specialize (F x I). apply orb_true_iff in F as [F|F]; apply N.eqb_eq in F; auto.
  - intros (l & -> & NE & F). split.
    + apply dashed_like. destruct l as [|c r]; [congruence|]. exists c, r. reflexivity.
    + intros x I. cbn [skipn] in I. apply orb_true_iff. destruct (F x I) as [->| ->]; [left|right]; reflexivity.
Qed.

Lemma count_filter l : length (filter (N.eqb 113) l) = count_occ N.eq_dec l 113.
Proof.
  induction l as [|c l IH]; [reflexivity|]. cbn [filter count_occ]. destruct (N.eq_dec c 113) as [->|NE].
  - rewrite N.eqb_refl. cbn [length]. rewrite IH. reflexivity.
  - destruct (113 =? c) eqn:E; [apply N.eqb_eq in E; congruence|]. exact IH.
Qed.

Lemma quiets_spec f fl n : flag f -> quiet_times (f :: fl) n <-> exists k, quiet_times fl k /\ n = (quiets f + k)%nat.
Proof.
  intros F. split.
  - intros Q. inversion Q; subst.
    + exists n0. split; [assumption|]. reflexivity.
    + exists n. split; [assumption|]. reflexivity.
    + exists n0. split; [assumption|]. unfold quiets. cbn [filter]. change (113 =? 45) with false. cbv iota.
      rewrite count_filter. reflexivity.
  - intros (k & Q & ->). destruct F as [-> |[-> |(l & -> & NE & L)]].
    + exact (qt_quiet fl k Q).
    + exact (qt_verbose fl k Q).
    + unfold quiets. cbn [filter]. change (113 =? 45) with false. cbv iota. rewrite count_filter. apply qt_short; [|exact Q].
      intros H. destruct (L 45 H); discriminate.
Qed.

Lemma flags_accept argv a : forall q, clap_flags q argv = Some a <->
  exists flags n rest os ps, argv = flags ++ lit "install" :: rest /\ (forall f, In f flags -> flag f) /\
    quiet_times flags n /\ (flags = [] \/ n + q <= 1)%nat /\ reads rest os ps /\ asks os ps a.
Proof.
  induction argv as [|x argv IH]; intros q.
  { split; [discriminate|]. intros (fl & n & rest & os & ps & E & _). destruct fl; discriminate E. }
  cbn [clap_flags]. destruct (eqb_bytes x (lit "install")) eqn:E.
  - apply eqb_bytes_spec in E. subst x. split.
    + destruct (clap_install false nothing argv) as [s|] eqn:C; [|discriminate].
      intros T. apply (clap_sound (S (length argv))) in C as (os & ps & R & H); [|lia].
      apply (typed_asks s os ps a H) in T. exists [], 0%nat, argv, os, ps. split; [reflexivity|]. split; [intros f []|].
      split; [constructor|]. split; [left; reflexivity|]. split; assumption.
    + intros (fl & n & rest & os & ps & E & FF & _ & _ & R & A). destruct fl as [|f fl].
      2:{ injection E as E _. subst f. destruct (FF _ (or_introl eq_refl)) as [X|[X|(l & X & _)]]; discriminate X. }
      injection E as ->. destruct (clap_complete rest os ps R nothing (k_once _ _ _ A)) as (s & C & H).
      { intros n' I. pose proof (k_known _ _ _ A n' I) as K. split; [exact K|]. each K. }
      rewrite C. apply (typed_asks s os ps a H), A.
  - split.
    + destruct (is_flag x) eqn:F; [|discriminate]. apply flag_spec in F.
      destruct (Nat.leb (quiets x + q) 1) eqn:L; [|discriminate]. apply PeanoNat.Nat.leb_le in L. cbn [andb].
      intros T. apply IH in T. destruct T as (fl & n & rest & os & ps & -> & FF & Q & LE & R & A).
      exists (x :: fl), (quiets x + n)%nat, rest, os, ps. split; [reflexivity|].
      split; [intros f [<-|I]; [exact F | apply FF, I]|]. split; [apply quiets_spec; eauto|]. split; [|split; assumption].
      right. destruct LE as [-> |LE]; [|lia]. inversion Q; subst. lia.
    + intros (fl & n & rest & os & ps & E' & FF & Q & LE & R & A). destruct fl as [|f fl].
      { injection E' as E' _. subst x. discriminate E. }
      injection E' as <- ->. pose proof (FF x (or_introl eq_refl)) as F. apply (quiets_spec x fl n F) in Q as (k & Q & ->).
      destruct LE as [LE|LE]; [discriminate LE|].
      rewrite (proj2 (flag_spec x) F). destruct (Nat.leb (quiets x + q) 1) eqn:L; [|apply PeanoNat.Nat.leb_gt in L; lia].
      cbn [andb]. apply IH. exists fl, k, rest, os, ps. split; [reflexivity|]. split; [intros g I; apply FF; right; exact I|].
      split; [exact Q|]. split; [right; lia|]. split; assumption.
Qed.

Lemma clap_accepts argv a : clap argv = Some a <-> accepted argv a.
Proof.
  unfold clap. rewrite flags_accept. unfold accepted. split.
  - intros (fl & n & rest & os & ps & E & FF & Q & LE & R & A). exists fl, n, rest, os, ps. repeat (split; [assumption|]).
    split; [|split; assumption]. destruct LE as [-> |LE]; [inversion Q; subst; lia | lia].
  - intros (fl & n & rest & os & ps & E & FF & Q & LE & R & A). exists fl, n, rest, os, ps. repeat (split; [assumption|]).
    split; [|split; assumption]. right. lia.
Qed.
