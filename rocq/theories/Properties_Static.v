(** C95: the directory of static measurements, lanzaboote.nix:67-78. *)
From Coq Require Import List NArith Bool.
From Verif Require Import Base MText MNames MHook MPolicy MStatic SStatic PStatic PStaticAny.
Import ListNotations.
Open Scope N_scope.

(** The directory can be built exactly if the user's measurements have names of
    their own, in directories that are there. *)
Theorem C95_built : forall o own, (exists t, static_measurements o own = Some t) <-> linkable o own.
Proof. intros o own. exact (proj1 (static_result o own)). Qed.
Print Assumptions C95_built.

(** Then it holds the shipped measurements and the user's, each as a link to its
    own source, and nothing else. *)
Theorem C95_exact : forall o own t, static_measurements o own = Some t ->
  (forall p target, t p = Some (LinkTo target) <-> shipped o p target \/ users own p target) /\
  (forall d, t d = Some Dir <-> there o d).
Proof. intros o own. exact (proj2 (static_result o own)). Qed.
Print Assumptions C95_exact.

(** So a shipped measurement is never replaced by one of the user's, whatever
    that is called. *)
Theorem C95_not_replaced : forall o own t f, static_measurements o own = Some t -> In f (upstream_static o) ->
  t (components f) = Some (LinkTo (o_systemd o ++ lit "/lib/pcrlock.d/" ++ f)).
Proof.
  intros o own t f E I. apply (proj1 (C95_exact o own t E)). left. exists f. auto.
Qed.
Print Assumptions C95_not_replaced.

(** The user may add to the list of shipped measurements.  Whatever is in it, the
    loop makes just those links, also if a measurement is listed twice. *)
Theorem C95_any_shipped : forall systemd files, separate files ->
  exists t, upstream_links systemd files (fun p => match p with [] => Some Dir | _ => None end) = Some t /\
    (forall p target, t p = Some (LinkTo target) <-> ships systemd files p target) /\
    (forall d, t d = Some Dir <-> d = [] \/ exists f, In f files /\ above d (components f)).
Proof. exact any_shipped. Qed.
Print Assumptions C95_any_shipped.

(** A list with a repetition. *)
Example C95_any_ex : separate [lit "a.pcrlock.d/1.pcrlock"; lit "b.pcrlock"; lit "a.pcrlock.d/1.pcrlock"; lit "a.pcrlock.d/2.pcrlock"].
Proof.
  intros f g If Ig. cbn [In] in If, Ig.
  repeat (destruct If as [<-|If]; [repeat (destruct Ig as [<-|Ig];
    [split; [discriminate | split; [(reflexivity || discriminate) | intros (n & r & E); vm_compute in E; discriminate E]]|]); destruct Ig|]).
  destruct If.
Qed.

Definition st_options (pcrs : list N) : options :=
  Options (lit "x86_64-linux") (lit "/nix/store/systemd") (lit "/nix/store/loader.conf") None false 3
    (lit "/keys/db.pem") (lit "/keys/db.key") true pcrs (lit "/var/lib/pcrlock.d") (lit "/boot") [].
Definition st_own : list (bytes * bytes) :=
  [(lit "500-separator.pcrlock.d/600-mine", lit "/nix/store/variant"); (lit "720-kernel", lit "/nix/store/kernel")].

(** One more variant of a shipped component, and a component of the user's. *)
Example C95_ex : exists t, static_measurements (st_options [4; 7]) st_own = Some t /\
  t [lit "500-separator.pcrlock.d"; lit "600-mine.pcrlock"] = Some (LinkTo (lit "/nix/store/variant")) /\
  t [lit "720-kernel.pcrlock"] = Some (LinkTo (lit "/nix/store/kernel")) /\
  t [lit "350-action-efi-application.pcrlock"] = Some (LinkTo (lit "/nix/store/systemd/lib/pcrlock.d/350-action-efi-application.pcrlock")) /\
  linkable (st_options [4; 7]) st_own.
Proof.
  assert (B : exists t, static_measurements (st_options [4; 7]) st_own = Some t) by (eexists; reflexivity).
  pose proof (proj1 (C95_built _ _) B) as L. eexists. split; [reflexivity|]. repeat (split; [reflexivity|]). exact L.
Qed.

(** Not built: the name of a shipped measurement. *)
Example C95_clash_ex : static_measurements (st_options [4; 7]) [(lit "350-action-efi-application", lit "/nix/store/mine")] = None /\
  static_measurements (st_options [7]) [(lit "350-action-efi-application", lit "/nix/store/mine")] <> None.
Proof. split; [reflexivity | discriminate]. Qed.

(** ** What is false *)

(** Components with variants are directories, but the user cannot make one: the
    build fails, since directories are only made for shipped measurements. *)
Definition st_variants_claim : Prop := forall o own,
  NoDup (map (fun e => components (fst e ++ lit ".pcrlock")) own) ->
  (forall p target, users own p target -> forall target', ~ shipped o p target') ->
  exists t, static_measurements o own = Some t.

Theorem C95_variants_refuted : ~ st_variants_claim /\
  static_measurements (st_options [4; 7]) [(lit "720-kernel.pcrlock.d/one", lit "/nix/store/one")] = None.
Proof.
  assert (N : static_measurements (st_options [4; 7]) [(lit "720-kernel.pcrlock.d/one", lit "/nix/store/one")] = None) by reflexivity.
  split; [|exact N]. intros C. destruct (C (st_options [4; 7]) [(lit "720-kernel.pcrlock.d/one", lit "/nix/store/one")]) as (t & E).
  - constructor; [intros [] | constructor].
  - intros p target (n & [X|[]] & ->) target' (f & I & Q & _). injection X as <- _.
    assert (K : components (lit "720-kernel.pcrlock.d/one" ++ lit ".pcrlock") = [lit "720-kernel.pcrlock.d"; lit "one.pcrlock"]) by reflexivity.
    rewrite K in Q. assert (U : upstream_static (st_options [4; 7]) = [f5; f3; f4]) by reflexivity. rewrite U in I.
    destruct I as [<-|[<-|[<-|[]]]]; discriminate Q.
  - rewrite N in E. discriminate E.
Qed.
Print Assumptions C95_variants_refuted.
