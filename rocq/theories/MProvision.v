(** Model of the service generate-sb-keys, nix/modules/lanzaboote.nix:524-540, and
    of its order with prepare-sb-auto-enroll (548) when a machine boots. *)
From Coq Require Import List NArith Bool.
From Verif Require Import Base MText MNames MFs MCli MHook MEnroll.
Import ListNotations.
Open Scope N_scope.

(** The service, lanzaboote.nix:524-540: nothing if there is [keys] in the
    directory of the keys, [pki] (532); otherwise [sbctl create-keys] makes the
    changes [create] (538), of which only the first ones are made if it is
    stopped. *)
Definition generate (pki : path) (create : list op) (stop : option nat) (m : fs) : fs :=
  if present m (pki ++ [lit "keys"]) then m
  else apply_all (match stop with None => create | Some k => firstn k create end) m.

(** Both services at one boot, lanzaboote.nix:524-593.  prepare-sb-auto-enroll
    starts [after] the other one (548), also if that failed.  [enroll] is what
    [sbctl enroll-keys] (580) makes of the keys that are there.  [stop] tells
    where the two services are stopped, if they are. *)
Definition boot_services (pki : path) (create : list op) (enroll : fs -> option (name -> bytes)) (u : surroundings) (o : options)
    (stop : option nat * option nat) (m : fs) : fs * N :=
  let m1 := generate pki create (fst stop) m in
  if may_start m1 (components (o_esp o)) then prepare (enroll m1) (snd stop) u o m1 else (m1, 0).
