(** Specification of C88: what automatic provisioning is to achieve. *)
From Coq Require Import List NArith Bool.
From Verif Require Import Base MText MNames MPe MGeneration MFirmware MStub MFs MTool MInstall MCli MHook MEnroll MProvision
  SFirmware SCommon SNames SInstall SHistory SImage SUse SStub SGate SCli SHook SSigned SRepeat SExact SMenu SLoaderConf SSwitch SEnroll.
Import ListNotations.
Open Scope N_scope.

(** Several boots, each with the places where its services are stopped. *)
Fixpoint boots (pki : path) (create : list op) (enroll : fs -> option (name -> bytes)) (u : surroundings) (o : options)
    (stops : list (option nat * option nat)) (m : fs) : fs :=
  match stops with
  | [] => m
  | st :: r => boots pki create enroll u o r (fst (boot_services pki create enroll u o st m))
  end.

(** sbctl needs all keys. *)
Definition key_files : list (list name) :=
  [ [lit "PK"; lit "PK.key"]; [lit "PK"; lit "PK.pem"]; [lit "KEK"; lit "KEK.key"]; [lit "KEK"; lit "KEK.pem"];
    [lit "db"; lit "db.key"]; [lit "db"; lit "db.pem"] ].
Definition needs_keys (pki : path) (enroll : fs -> option (name -> bytes)) : Prop :=
  forall m auth, enroll m = Some auth -> forall f, In f key_files -> lookup m (pki ++ lit "keys" :: f) <> None.

(** [sbctl create-keys] makes them, and touches nothing of lanzaboote's. *)
Definition creates (M : machine) (pki : path) (create : list op) (m : fs) : Prop :=
  (forall f, In f key_files -> lookup (apply_all create m) (pki ++ lit "keys" :: f) <> None) /\
  tree_ok (apply_all create m) /\ (forall p, ours M p -> lookup (apply_all create m) p = lookup m p) /\
  may_start (apply_all create m) (ma_esp M) = may_start m (ma_esp M).

(** The machine boots with the keys enrolled: everything is signed, and the
    newest selected generation is started (as in C80). *)
Definition boots_enrolled (M : machine) (verifies : bytes -> bool) (c : config) (m1 : fs) : Prop :=
  loaders_signed verifies c m1 /\
  exists vs sel l, links_versions (c_links c) vs /\ newest (c_limit c) vs sel /\
    map fst l = flat_map link_generations sel /\
    (shown_together (map fst l) ->
     forall g n, In (g, n) l -> fresh n -> (forall h n', In (h, n') l -> n' <> n -> fresh n' -> preferred g h) ->
     usable g -> genuine M m1 g ->
       exists y b en, lookup m1 (linux_file M n) = Some (NFile y b) /\ verifies y = true /\
         default_is M m1 (lit "nixos-*") n en /\
         forall image pm parse fw path, in_memory M y image pm -> reads_esp M fw m1 ->
           basics_work fw -> companions_readable fw path -> enforcing fw -> startable M g parse ->
           starts_kernel M g parse (fst (stub_main fw (ma_sha M) pm parse image path []))).
