(** C21: version order matches release order. *)
From Coq Require Import List NArith ZArith Lia.
From Verif Require Import Base SCommon SVersion MVersion PVersion.
Import ListNotations.
Open Scope N_scope.

(** Every published release name (with numbers in range) parses, and the parsed
    versions compare exactly as the releases are ordered. *)
Theorem C21_release_order : forall r1 r2 s1 s2,
  release_name r1 s1 -> release_name r2 s2 ->
  release_in_range r1 -> release_in_range r2 ->
  exists v1 v2, version_parse s1 = Some v1 /\ version_parse s2 = Some v2 /\
    (version_gtb v1 v2 = true <-> older r2 r1).
Proof. exact version_order. Qed.
Print Assumptions C21_release_order.

Example C21_release_order_ex :
  release_name (Candidate 255 12) (lit "255-rc12") /\ release_name (Point 254 9) (lit "254.9") /\
  release_in_range (Candidate 255 12) /\ release_in_range (Point 254 9) /\
  older (Point 254 9) (Candidate 255 12).
Proof.
  repeat split; try (cbn; lia).
  - apply (rn_candidate 255 12 (lit "255") (lit "12")).
    + exact (num_more _ _ 53 (num_more _ _ 53 (num_one 50 ltac:(lia)) ltac:(lia)) ltac:(lia)).
    + exact (num_more _ _ 50 (num_one 49 ltac:(lia)) ltac:(lia)).
  - apply (rn_point 254 9 (lit "254") (lit "9")).
    + exact (num_more _ _ 52 (num_more _ _ 53 (num_one 50 ltac:(lia)) ltac:(lia)) ltac:(lia)).
    + exact (num_one 57 ltac:(lia)).
Qed.

(** The parser accepts exactly the documented grammar and yields exactly the
    numbers written. *)
Theorem C21_accepted_versions : forall s M m p,
  version_parse s = Some (Version M m p) <-> accepted_version s M m p.
Proof. exact version_parse_spec. Qed.
Print Assumptions C21_accepted_versions.

Example C21_accepted_versions_ex :
  version_parse (lit "253.+7") = Some (Version 253 7 0) /\
  version_parse (lit "256~rc1") = None /\ version_parse (lit "") = None /\
  version_parse (lit "4294967296") = None /\ version_parse (lit "+254-rc3") = Some (Version 254 (-1) 3).
Proof. vm_compute. repeat split. Qed.
