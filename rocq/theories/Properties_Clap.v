(** lzbt's command line: C91. *)
From Coq Require Import List NArith Bool Lia.
From Verif Require Import Base PBase MText MFs MCli MClap SClap PClap.
Import ListNotations.
Open Scope N_scope.

(** ** C91 *)

(** The accepted command lines are those of the specification, with the
    meaning given there; so each has one meaning. *)
Theorem C91_exact : forall argv a, clap argv = Some a <-> accepted argv a.
Proof. exact clap_accepts. Qed.
Print Assumptions C91_exact.

Theorem C91_one_meaning : forall argv a b, accepted argv a -> accepted argv b -> a = b.
Proof. intros argv a b A B. apply clap_accepts in A, B. congruence. Qed.
Print Assumptions C91_one_meaning.

(** Any other command line has no effect but the exit status. *)
Theorem C91_refused : forall w argv m, ~ (exists a, accepted argv a) -> lzbt_main w argv m = (m, [], 2).
Proof.
  intros w argv m N. unfold lzbt_main. destruct (clap argv) as [a|] eqn:E; [|reflexivity].
  exfalso. apply N. exists a. apply clap_accepts, E.
Qed.
Print Assumptions C91_refused.

(** Options in both forms and any order, a plus sign, positional arguments
    between them, and a mount point that looks like an option. *)
Definition cl_start : list bytes :=
  [lit "-qv"; lit "--verbose"; lit "install"; lit "--systemd=/d"; lit "--configuration-limit"; lit "+18446744073709551615"].
Definition cl_ex : list bytes :=
  cl_start ++ [lit "--system"; lit "s"; lit "--systemd-boot-loader-config=a=b"; lit "-"; lit "--public-key=-k"; lit "--"; lit "--g"].

Example C91_ex : accepted cl_ex
  (Args (lit "s") (lit "/d") (lit "a=b") false (Some (lit "-k")) None (Some 18446744073709551615) None None (lit "-") [lit "--g"]).
Proof. apply clap_accepts. vm_compute. reflexivity. Qed.

(** Refused: one tries too many for 32 bits, an option given twice, a missing
    value, a value that looks like an option, an empty path, a short option. *)
Example C91_refused_ex : forall more, In more
  [[lit "--bootcounting-initial-tries=4294967296"; lit "/boot"]; [lit "--systemd=/e"; lit "/boot"];
   [lit "/boot"; lit "--public-key"]; [lit "/boot"; lit "--public-key"; lit "-k"]; [[]]; [lit "/boot"; []];
   [lit "-q"; lit "/boot"]; [lit "--allow-unsigned=yes"; lit "/boot"]; []] ->
  ~ (exists a, accepted (cl_start ++ [lit "--system=s"; lit "--systemd-boot-loader-config=/c"] ++ more) a).
Proof.
  intros more I (a & A). apply clap_accepts in A. cbn [In] in I.
  repeat (destruct I as [<-|I]; [vm_compute in A; discriminate|]). contradiction.
Qed.

(** Quiet twice, in one argument or two, is refused; verbose is not. *)
Example C91_quiet_ex :
  (forall flags, In flags [[lit "-qq"]; [lit "-q"; lit "--quiet"]; [lit "--quiet"; lit "-vqv"]] ->
     ~ (exists a, accepted (flags ++ skipn 2 cl_ex) a)) /\
  (exists a, accepted ([lit "-vvq"; lit "--verbose"] ++ skipn 2 cl_ex) a).
Proof.
  split.
  - intros flags I (a & A). apply clap_accepts in A. cbn [In] in I.
    repeat (destruct I as [<-|I]; [vm_compute in A; discriminate|]). contradiction.
  - eexists. apply clap_accepts. vm_compute. reflexivity.
Qed.
