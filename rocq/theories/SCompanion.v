(** Specification of C39, continued: the outcome of collecting companion files. *)
From Coq Require Import List NArith.
From Verif Require Import Base MText MCpio SCpio.
Import ListNotations.
Open Scope N_scope.

(** Names as on a FAT file system, files that fit into an archive, not too many
    of them. *)
Definition moderate (fs : efs) (dir : str) (l : list (option dentry)) : Prop :=
  N.of_nat (length l) < 2 ^ 29 /\
  forall e, In (Some e) l -> N.of_nat (length (de_name e)) <= 255 /\ ~ In 92 (de_name e) /\
    forall d, fs_read fs (dir ++ [92] ++ de_name e) = Some d -> N.of_nat (length d) <= 2 ^ 32 - 1.

(** A directory that cannot be listed, or a picked file that cannot be read, is
    fatal; a listing that breaks off is an error, after which the stub goes on
    without the files; otherwise there is a result. *)
Definition collects (fs : efs) (dir suffix : str) {A} (r : res unit A) : Prop :=
  (fs_dir fs dir = None -> r = Panic) /\
  forall l, fs_dir fs dir = Some l -> 
    (In None l -> r = Err tt) /\
    (~ In None l -> moderate fs dir l ->
       ((exists e, In (Some e) l /\ picked suffix (de_regular e) (de_name e) /\ fs_read fs (dir ++ [92] ++ de_name e) = None) -> r = Panic) /\
       ((forall e, In (Some e) l -> picked suffix (de_regular e) (de_name e) -> fs_read fs (dir ++ [92] ++ de_name e) <> None) ->
          exists x, r = Ok x)).
