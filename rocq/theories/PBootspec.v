(** Proofs about reading boot.json. *)
From Coq Require Import List NArith Bool Lia Permutation.
From Verif Require Import Base PBase MText MGeneration MInstall SInstall MBootspec SBootspec.
Import ListNotations.
Open Scope N_scope.

Notation order := (list (str * bootspec) -> list (str * bootspec)).

(** ** Objects *)

Lemma get_field_absent k l : get_field k l = Absent <-> ~ In k (map fst l).
Proof.
  induction l as [|[k' v] r IH]; cbn [get_field map fst In]; [tauto|].
  destruct (eqb_bytes k' k) eqn:E.
  - apply eqb_bytes_spec in E. destruct (get_field k r); split; try discriminate; intros H; exfalso; apply H; left; exact E.
  - rewrite IH. split; [|tauto]. intros H [X|X]; [|exact (H X)]. apply eqb_bytes_spec in X. congruence.
Qed.

Lemma map_get_none k l : map_get k l = None <-> ~ In k (map fst l).
Proof.
  induction l as [|[k' v] r IH]; cbn [map_get map fst In]; [tauto|].
  destruct (map_get k r) as [w|] eqn:E.
  - split; [discriminate|]. intros H. exfalso. apply H. right. destruct (in_dec (list_eq_dec N.eq_dec) k (map fst r)) as [Y|Y]; [exact Y|].
    apply IH in Y. discriminate.
  - destruct (eqb_bytes k' k) eqn:Q.
    + split; [discriminate|]. intros H. exfalso. apply H. left. apply eqb_bytes_spec. exact Q.
    + split; [|reflexivity]. intros _ [X|X]; [apply eqb_bytes_spec in X; congruence|]. apply (proj1 IH eq_refl X).
Qed.

Lemma member_get k v l : member k v (JObject l) <-> map_get k l = Some v.
Proof.
  split.
  - intros (a & b & [= ->] & NI). induction a as [|[k' w] a IH]; cbn [app map_get].
    + apply map_get_none in NI. rewrite NI, (proj2 (eqb_bytes_spec k k) eq_refl). reflexivity.
    + rewrite IH. reflexivity.
  - induction l as [|[k' w] r IH]; cbn [map_get]; [discriminate|].
    destruct (map_get k r) as [x|] eqn:E.
    + intros [= ->]. destruct (IH eq_refl) as (a & b & [= ->] & NI). exists ((k', w) :: a), b. split; [reflexivity | exact NI].
    + destruct (eqb_bytes k' k) eqn:Q; [|discriminate]. intros [= ->]. apply eqb_bytes_spec in Q. subst k'.
      exists [], r. split; [reflexivity|]. apply map_get_none. exact E.
Qed.

Lemma member_object k v j : member k v j -> exists l, j = JObject l.
Proof. intros (a & b & -> & _). eauto. Qed.

Lemma member_fun k v w j : member k v j -> member k w j -> v = w.
Proof. intros A B. destruct (member_object k v j A) as [l ->]. apply member_get in A, B. congruence. Qed.

Lemma once_member k v l : get_field k l = Once v -> member k v (JObject l).
Proof.
  intros G. apply member_get. revert G. induction l as [|[k' w] r IH]; cbn [get_field map_get]; [discriminate|].
  destruct (eqb_bytes k' k) eqn:E.
  - destruct (get_field k r) eqn:R; try discriminate. intros [= ->].
    apply get_field_absent in R. apply map_get_none in R. rewrite R. reflexivity.
  - intros G. rewrite (IH G). reflexivity.
Qed.

Lemma absent_member k l : get_field k l = Absent -> no_member k (JObject l).
Proof. intros G v H. apply get_field_absent in G. apply map_get_none in G. apply member_get in H. congruence. Qed.

Lemma member_once k v l : NoDup (map fst l) -> member k v (JObject l) -> get_field k l = Once v.
Proof.
  intros ND (a & b & [= ->] & NI). induction a as [|[k' w] a IH]; cbn [app get_field].
  - rewrite (proj2 (eqb_bytes_spec k k) eq_refl). apply get_field_absent in NI. rewrite NI. reflexivity.
  - cbn [app map fst] in ND. inversion ND as [|? ? N1 N2]; subst.
    destruct (eqb_bytes k' k) eqn:E; [|apply IH; assumption].
    exfalso. apply eqb_bytes_spec in E. subst k'. apply N1. rewrite map_app. apply in_or_app. right. left. reflexivity.
Qed.

Lemma no_member_absent k l : no_member k (JObject l) -> get_field k l = Absent.
Proof.
  intros H. apply get_field_absent. apply map_get_none. destruct (map_get k l) as [v|] eqn:E; [|reflexivity].
  exfalso. apply (H v). apply member_get. exact E.
Qed.

(** ** Fields *)

Lemma req_path_is k l p : req_path k l = Some p -> exists t, text_member k t (JObject l) /\ p = utf8_encode t.
Proof.
  unfold req_path, req_string. destruct (get_field k l) as [|v|] eqn:G; try discriminate. destruct v; try discriminate.
  intros [= <-]. exists s. split; [exact (once_member _ _ _ G) | reflexivity].
Qed.
Lemma req_string_is k l p : req_string k l = Some p -> text_member k p (JObject l).
Proof.
  unfold req_string. destruct (get_field k l) as [|v|] eqn:G; try discriminate. destruct v; try discriminate.
  intros [= <-]. exact (once_member _ _ _ G).
Qed.
Lemma opt_path_is k l p : opt_path k l = Some p -> maybe_path k p (JObject l).
Proof.
  unfold opt_path. destruct (get_field k l) as [|v|] eqn:G; try discriminate.
  - intros [= <-]. left. apply absent_member. exact G.
  - destruct v; try discriminate; intros [= <-].
    + right. exact (once_member _ _ _ G).
    + exists s. split; [exact (once_member _ _ _ G) | reflexivity].
Qed.
Lemma strings_is l : forall t, strings l = Some t -> l = map JString t.
Proof.
  induction l as [|v r IH]; cbn [strings]; intros t H; [injection H as <-; reflexivity|].
  destruct v; try discriminate. destruct (strings r) as [u|]; [|discriminate]. injection H as <-. cbn [map]. rewrite (IH u eq_refl). reflexivity.
Qed.
Lemma strings_of t : strings (map JString t) = Some t.
Proof. induction t as [|a t IH]; cbn [map strings]; [reflexivity|]. rewrite IH. reflexivity. Qed.
Lemma req_strings_is k l t : req_strings k l = Some t -> member k (JArray (map JString t)) (JObject l).
Proof.
  unfold req_strings. destruct (get_field k l) as [|v|] eqn:G; try discriminate. destruct v; try discriminate.
  intros H. rewrite <- (strings_is _ _ H). exact (once_member _ _ _ G).
Qed.

Lemma has_text_req k l : NoDup (map fst l) -> has_text k (JObject l) -> exists s, req_string k l = Some s.
Proof. intros ND (t & H). exists t. unfold req_string. rewrite (member_once _ _ _ ND H). reflexivity. Qed.
Lemma has_text_path k l : NoDup (map fst l) -> has_text k (JObject l) -> exists s, req_path k l = Some s.
Proof. intros ND H. destruct (has_text_req k l ND H) as [s E]. unfold req_path. rewrite E. eauto. Qed.
Lemma may_have_opt k l : NoDup (map fst l) -> may_have_text k (JObject l) -> exists s, opt_path k l = Some s.
Proof.
  intros ND [H|[H|(t & H)]]; unfold opt_path.
  - rewrite (no_member_absent _ _ H). eauto.
  - rewrite (member_once _ _ _ ND H). eauto.
  - rewrite (member_once _ _ _ ND H). eauto.
Qed.

(** ** The sort key *)

Lemma extension_is l k : extension l = Some k <-> given_key (JObject l) k.
Proof.
  unfold extension, given_key. split.
  - destruct (map_get (lit "org.nix-community.lanzaboote") l) as [v|] eqn:G; [|discriminate].
    intros E. exists v. split; [apply member_get; exact G|]. unfold extension_value in E.
    destruct v as [| | | |a|o]; try discriminate.
    + right. destruct a as [|x [|]]; try discriminate; destruct x; try discriminate. injection E as ->. reflexivity.
    + left. destruct (map_get (lit "sort_key") o) as [w|] eqn:W; [|discriminate]. destruct w; try discriminate. injection E as ->.
      apply member_get. exact W.
  - intros (v & A & B). apply member_get in A. rewrite A. destruct B as [B| ->]; [|reflexivity].
    destruct (member_object _ _ _ B) as [o ->]. apply member_get in B. unfold extension_value. rewrite B. reflexivity.
Qed.

Lemma sort_key_is j b : match bs_sort_key b with Some k => given_key j k | None => forall k, ~ given_key j k end ->
  sorted_by j (sort_key_of b).
Proof. unfold sorted_by, sort_key_of. destruct (bs_sort_key b) as [k|]; intros H; [left; exact H | right; split; [exact H | reflexivity]]. Qed.

(** ** Specialisations *)

Lemma last_wins_in {A} (t : list (str * A)) n b :
  In (n, b) (last_wins t) <-> exists x y, t = x ++ (n, b) :: y /\ ~ In n (map fst y).
Proof.
  induction t as [|[k v] r IH]; cbn [last_wins].
  - split; [intros [] | intros (x & y & E & _); destruct x; discriminate].
  - destruct (existsb (fun kv => eqb_bytes (fst kv) k) r) eqn:E.
    + rewrite IH. split.
      * intros (x & y & -> & NI). exists ((k, v) :: x), y. split; [reflexivity | exact NI].
      * intros (x & y & Q & NI). destruct x as [|? x]; cbn [app] in Q; injection Q; intros; subst.
        -- exfalso. apply existsb_exists in E as (kv & HI & X). apply eqb_bytes_spec in X. apply NI. rewrite <- X. apply in_map. exact HI.
        -- exists x, y. split; [reflexivity | exact NI].
    + cbn [In]. rewrite IH. split.
      * intros [[= -> ->]|(x & y & -> & NI)].
        -- exists [], r. split; [reflexivity|]. intros X. apply in_map_iff in X as (kv & Q & HI).
           assert (existsb (fun kv => eqb_bytes (fst kv) n) r = true) as W; [|congruence].
           apply existsb_exists. exists kv. split; [exact HI | apply eqb_bytes_spec; exact Q].
        -- exists ((k, v) :: x), y. split; [reflexivity | exact NI].
      * intros (x & y & Q & NI). destruct x as [|? x]; cbn [app] in Q; injection Q; intros; subst.
        -- left. reflexivity.
        -- right. exists x, y. split; [reflexivity | exact NI].
Qed.

Lemma last_wins_keys {A} (t : list (str * A)) n : In n (map fst (last_wins t)) <-> In n (map fst t).
Proof.
  induction t as [|[k v] r IH]; cbn [last_wins map fst]; [tauto|].
  destruct (existsb (fun kv => eqb_bytes (fst kv) k) r) eqn:E; cbn [map fst In]; rewrite IH; [|tauto].
  split; [tauto|]. intros [->|H]; [|exact H]. apply existsb_exists in E as (kv & HI & X). apply eqb_bytes_spec in X. rewrite <- X. apply in_map. exact HI.
Qed.

Lemma last_wins_nodup {A} (t : list (str * A)) : NoDup (map fst (last_wins t)).
Proof.
  induction t as [|[k v] r IH]; cbn [last_wins map fst]; [constructor|].
  destruct (existsb (fun kv => eqb_bytes (fst kv) k) r) eqn:E; [exact IH|]. cbn [map fst]. constructor; [|exact IH].
  rewrite last_wins_keys. intros X. apply in_map_iff in X as (kv & Q & HI).
  assert (existsb (fun kv => eqb_bytes (fst kv) k) r = true) as W; [|congruence].
  apply existsb_exists. exists kv. split; [exact HI | apply eqb_bytes_spec; exact Q].
Qed.

Section Ord.
Variable ord : order.

Fixpoint members (ss : list (str * json)) : option (list (str * bootspec)) :=
  match ss with
  | [] => Some []
  | (n, s) :: r =>
      match generation_v1 ord s, members r with
      | Some b, Some t => Some ((n, b) :: t)
      | _, _ => None
      end
  end.
Fixpoint specialisations (fs : list (str * json)) : option (list (str * bootspec)) :=
  match fs with
  | [] => Some []
  | (k, v) :: r =>
      if eqb_bytes k (lit "org.nixos.specialisation.v1") then
        match get_field (lit "org.nixos.specialisation.v1") r, v with
        | Absent, JObject ss => match members ss with Some t => Some (last_wins t) | None => None end
        | _, _ => None
        end
      else specialisations r
  end.

Lemma generation_eq l : generation_v1 ord (JObject l) =
  match get_field (lit "org.nixos.bootspec.v1") l, specialisations l with
  | Once v, Some specs => bootspec_v1 v (extension l) (ord specs)
  | _, _ => None
  end.
Proof. reflexivity. Qed.

Lemma specialisations_eq l : specialisations l =
  match get_field (lit "org.nixos.specialisation.v1") l with
  | Absent => Some []
  | Once (JObject ss) => match members ss with Some t => Some (last_wins t) | None => None end
  | _ => None
  end.
Proof.
  induction l as [|[k v] r IH]; [reflexivity|]. cbn [specialisations get_field].
  destruct (eqb_bytes k (lit "org.nixos.specialisation.v1")); [|exact IH].
  destruct (get_field (lit "org.nixos.specialisation.v1") r); reflexivity.
Qed.

Lemma members_all ss : forall t, members ss = Some t ->
  Forall2 (fun s b => fst s = fst b /\ generation_v1 ord (snd s) = Some (snd b)) ss t.
Proof.
  induction ss as [|[n s] r IH]; cbn [members]; intros t H; [injection H as <-; constructor|].
  destruct (generation_v1 ord s) as [b|] eqn:G; [|discriminate]. destruct (members r) as [u|]; [|discriminate].
  injection H as <-. constructor; [split; [reflexivity | exact G] | apply IH; reflexivity].
Qed.

Lemma members_keys (ss : list (str * json)) (t : list (str * bootspec)) : Forall2 (fun s b => fst s = fst b /\ generation_v1 ord (snd s) = Some (snd b)) ss t -> map fst ss = map fst t.
Proof. induction 1 as [|s b ss t [E _] _ IH]; [reflexivity|]. cbn [map]. rewrite E, IH. reflexivity. Qed.

Lemma members_last ss t n b : members ss = Some t -> In (n, b) (last_wins t) ->
  exists s, member n s (JObject ss) /\ generation_v1 ord s = Some b /\ In (n, s) ss.
Proof.
  intros M H. apply members_all in M. apply last_wins_in in H as (x & y & -> & NI).
  apply Forall2_app_inv_r in M as (ss1 & ss2 & _ & M2 & ->). inversion M2 as [|[n' s] ? ss3 ? [E G] M3]; subst. cbn [fst snd] in E, G. subst n'.
  exists s. split; [|split; [exact G | apply in_or_app; right; left; reflexivity]].
  exists ss1, ss3. split; [reflexivity|]. rewrite (members_keys _ _ M3). exact NI.
Qed.

Lemma members_some ss : (forall n s, In (n, s) ss -> exists b, generation_v1 ord s = Some b) -> exists t, members ss = Some t.
Proof.
  induction ss as [|[n s] r IH]; intros H; cbn [members]; [eauto|].
  destruct (H n s (or_introl eq_refl)) as [b ->]. destruct IH as [t ->]; [intros; apply (H n0); right; assumption|]. eauto.
Qed.
End Ord.

(** ** Induction over specialisations *)

Fixpoint size (j : json) : nat :=
  match j with
  | JArray l => S (list_sum (map size l))
  | JObject l => S (list_sum (map (fun kv => size (snd kv)) l))
  | _ => 1
  end.

Lemma size_in (l : list (str * json)) k v : In (k, v) l -> (size v < size (JObject l))%nat.
Proof.
  intros H. cbn [size]. apply PeanoNat.Nat.lt_succ_r. induction l as [|[k' w] r IH]; [destruct H|].
  change (list_sum (map (fun kv => size (snd kv)) ((k', w) :: r)))%nat with (size w + list_sum (map (fun kv => size (snd kv)) r))%nat.
  destruct H as [[= -> ->]|H]; [lia|]. specialize (IH H). lia.
Qed.

Lemma member_in k v l : member k v (JObject l) -> In (k, v) l.
Proof. intros (a & b & [= ->] & _). apply in_or_app. right. left. reflexivity. Qed.

Lemma spec_ind (P : json -> Prop) :
  (forall j, (forall n s l ss, j = JObject l -> In (lit "org.nixos.specialisation.v1", JObject ss) l -> In (n, s) ss -> P s) -> P j) ->
  forall j, P j.
Proof.
  intros H j. remember (size j) as k eqn:E. revert j E. induction k as [k IH] using (well_founded_induction PeanoNat.Nat.lt_wf_0).
  intros j ->. apply H. intros n s l ss -> I1 I2. apply (IH (size s)); [|reflexivity].
  apply size_in in I1, I2. lia.
Qed.

(** ** Reading *)

Lemma read_agrees (ord : order) : (forall l, Permutation (ord l) l) ->
  forall j b, generation_v1 ord j = Some b -> agrees j b.
Proof.
  intros PO j. induction j as [j IH] using spec_ind. intros b H. destruct j as [| | | | |l]; try discriminate.
  rewrite generation_eq in H.
  destruct (get_field (lit "org.nixos.bootspec.v1") l) as [|v|] eqn:G; try discriminate.
  rewrite specialisations_eq in H.
  destruct (match get_field (lit "org.nixos.specialisation.v1") l with Absent => Some [] | Once (JObject ss) => match members ord ss with Some t => Some (last_wins t) | None => None end | _ => None end) as [specs|] eqn:SP; [|discriminate].
  destruct v as [| | | | |vl]; try discriminate. unfold bootspec_v1 in H.
  destruct (req_path (lit "init") vl) as [f1|] eqn:F1; [|discriminate].
  destruct (opt_path (lit "initrd") vl) as [f2|] eqn:F2; [|discriminate].
  destruct (opt_path (lit "initrdSecrets") vl) as [f3|] eqn:F3; [|discriminate].
  destruct (req_path (lit "kernel") vl) as [f4|] eqn:F4; [|discriminate].
  destruct (req_strings (lit "kernelParams") vl) as [f5|] eqn:F5; [|discriminate].
  destruct (req_string (lit "label") vl) as [f6|] eqn:F6; [|discriminate].
  destruct (req_path (lit "toplevel") vl) as [f7|] eqn:F7; [|discriminate].
  destruct (req_string (lit "system") vl) as [f8|] eqn:F8; [|discriminate].
  injection H as <-. constructor; cbn [bs_sort_key bs_specs].
  - exists (JObject vl). cbn [bs_init bs_initrd bs_initrd_secrets bs_kernel bs_params bs_label bs_toplevel].
    split; [exact (once_member _ _ _ G)|]. split; [exact (req_path_is _ _ _ F1)|]. split; [exact (opt_path_is _ _ _ F2)|].
    split; [exact (opt_path_is _ _ _ F3)|]. split; [exact (req_path_is _ _ _ F4)|]. split; [exact (req_strings_is _ _ _ F5)|].
    split; [exact (req_string_is _ _ _ F6) | exact (req_path_is _ _ _ F7)].
  - destruct (extension l) as [k|] eqn:E; [apply extension_is; exact E|]. intros k K. apply extension_is in K. congruence.
  - apply (Permutation_NoDup (l := map fst specs)); [apply Permutation_map; symmetry; apply PO|].
    destruct (get_field (lit "org.nixos.specialisation.v1") l) as [|w|]; [|destruct w|]; try discriminate.
    + injection SP as <-. constructor.
    + destruct (members ord l0) as [t|]; [|discriminate]. injection SP as <-. apply last_wins_nodup.
  - intros n b' HI. apply (Permutation_in _ (PO specs)) in HI.
    destruct (get_field (lit "org.nixos.specialisation.v1") l) as [|w|] eqn:S1; [|destruct w as [| | | | |ss]|]; try discriminate.
    + injection SP as <-. destruct HI.
    + destruct (members ord ss) as [t|] eqn:MM; [|discriminate]. injection SP as <-.
      destruct (members_last ord ss t n b' MM HI) as (s & ME & GS & IN). apply once_member in S1.
      exists s. split; [exists (JObject ss); split; assumption|].
      apply (IH n s l ss eq_refl (member_in _ _ _ S1) IN). exact GS.
  - intros n s (ss & M1 & M2). destruct (get_field (lit "org.nixos.specialisation.v1") l) as [|w|] eqn:S1; [|destruct w as [| | | | |ss']|]; try discriminate.
    + exfalso. exact (absent_member _ _ S1 _ M1).
    + destruct (members ord ss') as [t|] eqn:MM; [|discriminate]. injection SP as <-.
      rewrite (member_fun _ _ _ _ M1 (once_member _ _ _ S1)) in M2.
      apply (Permutation_in n (l := map fst (last_wins t))); [apply Permutation_map; symmetry; apply PO|].
      apply last_wins_keys. rewrite <- (members_keys ord ss' t (members_all ord ss' t MM)).
      apply member_in in M2. apply (in_map fst) in M2. exact M2.
Qed.

Lemma read_well_formed (ord : order) : forall j, well_formed j -> exists b, generation_v1 ord j = Some b.
Proof.
  intros j. induction j as [j IH] using spec_ind. intros W.
  inversion W as [? v (l & -> & ND) MV (vl & -> & NV) T1 T2 T3 T4 (ps & T5) T6 T7 T8 SS]; subst.
  rewrite generation_eq, (member_once _ _ _ ND MV), specialisations_eq.
  assert (exists specs, match get_field (lit "org.nixos.specialisation.v1") l with Absent => Some [] | Once (JObject ss) => match members ord ss with Some t => Some (last_wins t) | None => None end | _ => None end = Some specs) as [specs ->].
  { destruct (get_field (lit "org.nixos.specialisation.v1") l) as [|w|] eqn:G; [eauto| |].
    - pose proof (once_member _ _ _ G) as ME. destruct (SS w ME) as [(ss & -> & NS) WS].
      destruct (members_some ord ss) as [t ->]; [|eauto]. intros n s HI. apply (IH n s l ss eq_refl (member_in _ _ _ ME) HI).
      apply (WS n). apply in_split in HI as (x & y & ->). exists x, y. split; [reflexivity|].
      rewrite map_app in NS. cbn [map fst] in NS. apply NoDup_remove_2 in NS. intros X. apply NS. apply in_or_app. right. exact X.
    - exfalso. assert (exists w, member (lit "org.nixos.specialisation.v1") w (JObject l)) as [w ME].
      { destruct (map_get (lit "org.nixos.specialisation.v1") l) as [w|] eqn:Q; [exists w; apply member_get; exact Q|].
        apply map_get_none in Q. apply get_field_absent in Q. congruence. }
      rewrite (member_once _ _ _ ND ME) in G. discriminate. }
  unfold bootspec_v1.
  destruct (has_text_path _ _ NV T1) as [? ->]. destruct (may_have_opt _ _ NV T2) as [? ->]. destruct (may_have_opt _ _ NV T3) as [? ->].
  destruct (has_text_path _ _ NV T4) as [? ->]. unfold req_strings. rewrite (member_once _ _ _ NV T5), strings_of.
  destruct (has_text_req _ _ NV T6) as [? ->]. destruct (has_text_path _ _ NV T7) as [? ->]. destruct (has_text_req _ _ NV T8) as [? ->].
  eauto.
Qed.

(** ** Links *)

Lemma spec_generation v t n b : exists k, parse_specialisation v t n b = Generation v t (Some n) b (sort_key_of b) k.
Proof. destruct b. eexists. reflexivity. Qed.

Lemma agrees_key j b : agrees j b -> sorted_by j (sort_key_of b).
Proof. intros A. inversion A; subst. apply sort_key_is. assumption. Qed.

Lemma link_sound (ord : order) v nm t j synth g : (forall l, Permutation (ord l) l) ->
  generation_v1 ord j <> None ->
  In g (link_generations (v, link_of nm t ord (Some j) synth)) -> stands_for v t j g.
Proof.
  intros PO NN. destruct (generation_v1 ord j) as [b|] eqn:G; [|congruence].
  unfold link_generations, link_of, read_bootspec. cbn [snd fst l_spec l_time]. rewrite G. cbv zeta.
  pose proof (read_agrees ord PO j b G) as A.
  intros [<-|H].
  - unfold parse_boot_json. split; [reflexivity|]. split; [reflexivity|]. exists j. cbn [g_specname g_spec g_sort_key].
    split; [reflexivity|]. split; [exact A | apply agrees_key; exact A].
  - unfold parse_boot_json in H. cbn [g_specs] in H. apply in_map_iff in H as ([n b'] & <- & HI).
    destruct (spec_generation v t n b') as [k ->]. split; [reflexivity|]. split; [reflexivity|]. cbn [g_specname g_spec g_sort_key].
    inversion A as [? ? _ _ _ SP _]; subst. destruct (SP n b' HI) as (s & S & A').
    exists s. split; [exact S|]. split; [exact A' | apply agrees_key; exact A'].
Qed.

Lemma link_complete (ord : order) v nm t j synth : (forall l, Permutation (ord l) l) -> generation_v1 ord j <> None ->
  (exists g, In g (link_generations (v, link_of nm t ord (Some j) synth)) /\ g_specname g = None) /\
  (forall n s, specialisation j n s -> exists g, In g (link_generations (v, link_of nm t ord (Some j) synth)) /\ g_specname g = Some n) /\
  NoDup (map g_specname (link_generations (v, link_of nm t ord (Some j) synth))).
Proof.
  intros PO NN. destruct (generation_v1 ord j) as [b|] eqn:G; [|congruence].
  unfold link_generations, link_of, read_bootspec. cbn [snd fst l_spec l_time]. rewrite G. cbv zeta.
  pose proof (read_agrees ord PO j b G) as A. inversion A as [? ? _ _ ND _ SP]; subst.
  unfold parse_boot_json. cbn [g_specs]. split; [|split].
  - eexists. split; [left; reflexivity | reflexivity].
  - intros n s S. apply SP in S. apply in_map_iff in S as ([n' b'] & Q & HI). cbn [fst] in Q. subst n'.
    exists (parse_specialisation v t n b'). split; [right; apply in_map_iff; exists (n, b'); split; [reflexivity | exact HI]|].
    destruct (spec_generation v t n b') as [k ->]. reflexivity.
  - cbn [map g_specname]. rewrite map_map.
    assert (map (fun x : str * bootspec => g_specname (let '(n, b') := x in parse_specialisation v t n b')) (bs_specs b) = map Some (map fst (bs_specs b))) as ->.
    { rewrite map_map. apply map_ext. intros [n b']. destruct (spec_generation v t n b') as [k ->]. reflexivity. }
    constructor.
    + intros X. apply in_map_iff in X as (n & Q & _). discriminate.
    + apply FinFun.Injective_map_NoDup; [intros a c [= Q]; exact Q | exact ND].
Qed.

Lemma link_fallback (ord : order) nm t doc synth :
  (forall j, doc = Some j -> generation_v1 ord j = None) -> l_spec (link_of nm t ord doc synth) = synth.
Proof. intros H. cbn [link_of l_spec]. unfold read_bootspec. destruct doc as [j|]; [rewrite (H j eq_refl)|]; reflexivity. Qed.

Lemma given_key_fun j k k' : given_key j k -> given_key j k' -> k = k'.
Proof.
  intros (v & A & B) (v' & A' & B'). rewrite (member_fun _ _ _ _ A' A) in B'. clear A A' v'.
  destruct B as [B| ->], B' as [B'|E]; subst.
  - pose proof (member_fun _ _ _ _ B B') as [= ->]. reflexivity.
  - destruct (member_object _ _ _ B) as [l Q]. discriminate.
  - destruct (member_object _ _ _ B') as [l Q]. discriminate.
  - injection E as ->. reflexivity.
Qed.

Lemma sorted_by_given j k k' : given_key j k -> sorted_by j k' -> k' = k.
Proof. intros G [H|[H _]]; [exact (given_key_fun j k' k H G) | destruct (H k G)]. Qed.
Lemma sorted_by_default j k : (forall k', ~ given_key j k') -> sorted_by j k -> k = lit "lanzaboote".
Proof. intros G [H|[_ H]]; [destruct (G k H) | exact H]. Qed.
