(** C67: which generation arguments matter. *)
From Coq Require Import List NArith Bool Lia Permutation Sorted.
From Verif Require Import Base MText MGeneration MNames MFs MTool MInstall SInstall SOrder POrder XWorld.
Import ListNotations.
Open Scope N_scope.

(** ** C67 *)

(** With distinct versions a run depends only on the links that are selected:
    two sets of links with the same selection give the same run, operation by
    operation, also with I/O errors. *)
Theorem C67_selection_only : forall e c c' m vs vs' sel, same_but_links c c' ->
  links_versions (c_links c) vs -> links_versions (c_links c') vs' -> distinct_versions vs -> distinct_versions vs' ->
  newest (c_limit c) vs sel -> newest (c_limit c) vs' sel -> run_install e c m = run_install e c' m.
Proof. exact selection_only. Qed.
Print Assumptions C67_selection_only.

(** In particular their order on the command line does not matter. *)
Theorem C67_order : forall e c c' m vs, same_but_links c c' -> Permutation (c_links c) (c_links c') ->
  links_versions (c_links c) vs -> distinct_versions vs -> run_install e c m = run_install e c' m.
Proof. exact order_irrelevant. Qed.
Print Assumptions C67_order.

(** The two links of the example world in both orders, with a third that the
    limit leaves out. *)
Example C67_example :
  let c := x_config 2 0 None [x_link2; x_link1; x_link (lit "system-0-link") None] in
  let c' := x_config 2 0 None [x_link1; x_link2] in
  same_but_links c c' /\
  links_versions (c_links c) [(2, x_link2); (1, x_link1); (0, x_link (lit "system-0-link") None)] /\
  links_versions (c_links c') [(1, x_link1); (2, x_link2)] /\
  distinct_versions [(2, x_link2); (1, x_link1); (0, x_link (lit "system-0-link") None)] /\
  distinct_versions [(1, x_link1); (2, x_link2)] /\
  newest 2 [(2, x_link2); (1, x_link1); (0, x_link (lit "system-0-link") None)] [(1, x_link1); (2, x_link2)] /\
  newest 2 [(1, x_link1); (2, x_link2)] [(1, x_link1); (2, x_link2)].
Proof.
  cbv zeta. split; [unfold same_but_links; cbn; tauto|].
  split; [repeat constructor|]. split; [repeat constructor|].
  split.
  { intros a b A B. cbn [In] in A, B.
    destruct A as [<-|[<-|[<-|[]]]], B as [<-|[<-|[<-|[]]]]; cbn [fst]; intros E; try reflexivity; discriminate. }
  split.
  { intros a b A B. cbn [In] in A, B.
    destruct A as [<-|[<-|[]]], B as [<-|[<-|[]]]; cbn [fst]; intros E; try reflexivity; discriminate. }
  split.
  - exists [(0, x_link (lit "system-0-link") None)]. cbn [app].
    split. { change [(2, x_link2); (1, x_link1); (0, x_link (lit "system-0-link") None)] with (rev [(0, x_link (lit "system-0-link") None); (1, x_link1); (2, x_link2)]).
             apply Permutation_sym, Permutation_rev. }
    split. { repeat constructor; cbn; lia. }
    split; [discriminate|]. split; [reflexivity|]. repeat constructor; cbn; lia.
  - exists []. cbn [app]. split; [reflexivity|]. split. { repeat constructor; cbn; lia. }
    split; [reflexivity|]. split; [reflexivity|]. constructor.
Qed.

(** Links with the same version are taken in the order given: with the limit
    one the last of them is installed. *)
Example C67_same_version :
  let a := x_link (lit "system-1-link") (Some x_one) in
  let b := x_link (lit "system-1-link") (Some x_two) in
  run_install x_world (x_config 1 0 None [a; b]) x_esp <> run_install x_world (x_config 1 0 None [b; a]) x_esp.
Proof.
  cbv zeta. intros E. apply (f_equal (fun x => length (s_fs (fst x)))) in E. vm_compute in E. discriminate.
Qed.
