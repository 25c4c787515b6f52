(** C39, continued: when the discovery of companion files fails. *)
From Coq Require Import List NArith Bool Lia.
From Verif Require Import Base MText MCpio SCpio SCompanion PCpio PCompanion.
Import ListNotations.
Open Scope N_scope.

Lemma begun prefix dm : In (prefix, dm) [(lit ".extra/credentials", 320); (lit ".extra/global_credentials", 320); (lit ".extra/sysext", 365)] -> started prefix dm.
Proof.
  cbn [In]. intros [E|[E|[E|[]]]]; injection E as <- <-; eexists; (split; [vm_compute; reflexivity|]); repeat split; vm_compute; congruence.
Qed.

(** System extensions. *)
Theorem C39_sysext_outcome : forall fs dir, collects fs dir (lit ".raw") (discover_system_extensions fs dir).
Proof. intros fs dir. apply companion_collects. apply begun. do 2 right. left. reflexivity. Qed.
Print Assumptions C39_sysext_outcome.

(** Credentials: the global ones come first, and each directory's outcome decides. *)
Theorem C39_credentials_outcome : forall fs dropin,
  let r := discover_credentials fs dropin in
  let global := lit "\loader\credentials" in
  exists rg rl : res unit (list companion),
    (* the global directory *)
    (fs_exists fs global = None -> rg = Panic) /\
    (fs_exists fs global = Some false -> rg = Ok []) /\
    (fs_exists fs global = Some true -> fs_isdir fs global = None -> rg = Err tt) /\
    (fs_exists fs global = Some true -> fs_isdir fs global = Some false -> rg = Ok []) /\
    (fs_exists fs global = Some true -> fs_isdir fs global = Some true -> collects fs global (lit ".cred") rg) /\
    (* the entry's own *)
    (dropin = None -> rl = Ok []) /\
    (forall d, dropin = Some d -> collects fs d (lit ".cred") rl) /\
    (* together *)
    (rg = Panic -> r = Panic) /\ (rg = Err tt -> r = Err tt) /\
    (forall g, rg = Ok g -> (rl = Panic -> r = Panic) /\ (rl = Err tt -> r = Err tt) /\ forall l, rl = Ok l -> r = Ok (g ++ l)).
Proof.
  intros fs dropin. cbv zeta. unfold discover_credentials.
  match goal with |- context[bind ?g (fun global => bind ?l _)] => exists g, l end.
  split; [intros ->; reflexivity|]. split; [intros ->; reflexivity|]. split; [intros -> ->; reflexivity|]. split; [intros -> ->; reflexivity|].
  split; [intros -> ->; apply companion_collects, begun; right; left; reflexivity|].
  split; [intros ->; reflexivity|]. split; [intros d ->; apply companion_collects, begun; left; reflexivity|].
  split; [intros ->; reflexivity|]. split; [intros ->; reflexivity|]. intros g ->. cbn [bind].
  split; [intros ->; reflexivity|]. split; [intros ->; reflexivity|]. intros l ->. reflexivity.
Qed.
Print Assumptions C39_credentials_outcome.

(** ** Example: one file that cannot be read, and one that can *)

Definition h_fs (broken : bool) : efs :=
  Efs (fun _ => Some [Some (Dentry true (lit "a.raw")); Some (Dentry true (lit "b.raw"))])
    (fun _ => Some false) (fun _ => Some true)
    (fun p => if broken && (if list_eq_dec N.eq_dec p (lit "\x.extra\b.raw") then true else false) then None else Some (lit "data")).

Example C39_outcome_ex :
  moderate (h_fs true) (lit "\x.extra") [Some (Dentry true (lit "a.raw")); Some (Dentry true (lit "b.raw"))] /\
  discover_system_extensions (h_fs true) (lit "\x.extra") = Panic /\
  exists b, discover_system_extensions (h_fs false) (lit "\x.extra") = Ok [Companion SystemExtension b].
Proof.
  split; [|split].
  - split; [vm_compute; reflexivity|]. intros e [E|[E|[]]]; injection E as <-; (split; [vm_compute; discriminate|]);
      (split; [vm_compute; intuition discriminate|]); intros d; cbn [fs_read h_fs]; destruct (_ && _); try discriminate;
      intros [= <-]; vm_compute; discriminate.
  - vm_compute. reflexivity.
  - eexists. vm_compute. reflexivity.
Qed.
