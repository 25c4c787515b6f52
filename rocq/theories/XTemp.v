(** Programs that do their work as [STemp] asks, for examples: each reads its
    arguments and does what the given function says.  Not part of the model. *)
From Coq Require Import List NArith Bool.
From Verif Require Import Base PBase MPe MTemp STemp PTemp XWorld.
Import ListNotations.
Open Scope N_scope.

Section Tools.
Variable oc : bytes -> list (bytes * bytes * N) -> option bytes.
Variable sb : bytes -> bytes -> bytes -> option bytes.
Variable sv : bytes -> bytes -> bool.
Variable lk : bytes -> option bytes.
Variable ap : bytes -> bytes -> option bytes.

(** The output written with mode 0644, or failure. *)
Definition x_output (m : tfs) (o : bytes) (r : option bytes) : option (tfs * bool) :=
  match r with
  | Some c => Some (tput o (TFile 420 c) m, true)
  | None => Some (m, false)
  end.

Definition x_gather (m : tfs) (vmas : list (bytes * N)) (a : bytes * bytes) : option (bytes * bytes * N) :=
  match tread m (snd a), vma_of (fst a) vmas with
  | Some c, Some v => Some (fst a, c, v)
  | _, _ => None
  end.

Definition x_run (prog : bytes) (args : list bytes) (m : tfs) : option (tfs * bool) :=
  if eqb_bytes prog (lit "objcopy") then
    match objcopy_reads args with
    | Some call =>
        match tread m (oc_in call), all (x_gather m (oc_vma call)) (oc_add call) with
        | Some i, Some secs => x_output m (oc_out call) (oc i secs)
        | _, _ => Some (m, false)
        end
    | None => Some (m, false)
    end
  else if eqb_bytes prog (lit "sbsign") then
    match sbsign_reads args with
    | Some (k, c, i, o) => match tread m i with Some d => x_output m o (sb k c d) | None => Some (m, false) end
    | None => Some (m, false)
    end
  else if eqb_bytes prog (lit "sbverify") then
    match sbverify_reads args with
    | Some (c, i) => Some (m, match tread m i with Some d => sv c d | None => false end)
    | None => Some (m, false)
    end
  else if eqb_bytes prog (lit "systemd-pcrlock") then
    match pcrlock_reads args with
    | Some (_, i, o) => match tread m i with Some d => x_output m o (lk d) | None => Some (m, false) end
    | None => Some (m, false)
    end
  else
    match args with
    | [p] => match tget m p with
             | Some f => match ap prog (t_content f) with
                         | Some d => Some (tput p (TFile (t_mode f) d) m, true)
                         | None => Some (m, false)
                         end
             | None => Some (m, false)
             end
    | _ => Some (m, false)
    end.

Lemma x_output_works m o r c (E : r = Some c) :
  exists m' mode, x_output m o r = Some (m', true) /\ tget m' o = Some (TFile mode c) /\
    (forall p, p <> o -> tget m' p = tget m p).
Proof.
  rewrite E. exists (tput o (TFile 420 c) m), 420. split; auto. split; [apply tget_put_same|].
  intros p H. apply tget_put_other. congruence.
Qed.

Lemma x_objcopy_works : objcopy_works x_run oc.
Proof.
  intros args m call input sections R I F. unfold x_run. rewrite eqb_bytes_refl, R.
  apply holds_read in I. rewrite I.
  assert (G : all (x_gather m (oc_vma call)) (oc_add call) = Some sections).
  { clear R I. induction F as [|a x l l' H _ IH]; auto. cbn [all]. rewrite IH.
    destruct x as [[n c] v]. destruct H as (E & H & V). apply holds_read in H.
    unfold x_gather. rewrite H, E, V. auto. }
  rewrite G. destruct (oc input sections) as [image|] eqn:E.
  - apply (x_output_works m (oc_out call) (Some image) image eq_refl).
  - eexists. reflexivity.
Qed.

Lemma x_sbsign_works : sbsign_works x_run sb.
Proof.
  intros args m key cert i o input R I. unfold x_run.
  change (eqb_bytes (lit "sbsign") (lit "objcopy")) with false. rewrite eqb_bytes_refl, R.
  apply holds_read in I. rewrite I. destruct (sb key cert input) as [c|].
  - apply (x_output_works m o (Some c) c eq_refl).
  - eexists. reflexivity.
Qed.

Lemma x_sbverify_works : sbverify_works x_run sv.
Proof.
  intros args m cert i R. unfold x_run.
  change (eqb_bytes (lit "sbverify") (lit "objcopy")) with false.
  change (eqb_bytes (lit "sbverify") (lit "sbsign")) with false. rewrite eqb_bytes_refl, R. split.
  - intros input I. apply holds_read in I. now rewrite I.
  - intros N. unfold tread. now rewrite N.
Qed.

Lemma x_pcrlock_works : pcrlock_works x_run lk.
Proof.
  intros args m i o input R I. unfold x_run.
  change (eqb_bytes (lit "systemd-pcrlock") (lit "objcopy")) with false.
  change (eqb_bytes (lit "systemd-pcrlock") (lit "sbsign")) with false.
  change (eqb_bytes (lit "systemd-pcrlock") (lit "sbverify")) with false. rewrite eqb_bytes_refl, R.
  apply holds_read in I. rewrite I. destruct (lk input) as [c|].
  - apply (x_output_works m o (Some c) c eq_refl).
  - eexists. reflexivity.
Qed.

Lemma x_script_works sc :
  ~ In sc [lit "objcopy"; lit "sbsign"; lit "sbverify"; lit "systemd-pcrlock"] ->
  script_works x_run sc (ap sc).
Proof.
  intros N m p mode input G. unfold x_run.
  assert (B : forall n, In n [lit "objcopy"; lit "sbsign"; lit "sbverify"; lit "systemd-pcrlock"] -> eqb_bytes sc n = false).
  { intros n Hn. apply eqb_bytes_false. intros ->. auto. }
  rewrite !B by (cbn [In]; tauto). rewrite G. cbn [t_content t_mode].
  destruct (ap sc input) as [c|].
  - exists (tput p (TFile mode c) m). split; auto. split; [apply tget_put_same|].
    intros q H. apply tget_put_other. congruence.
  - eexists. reflexivity.
Qed.
End Tools.

(** A world with a store, a script that appends a secret, and names
    [aa], [bb], ... *)
Definition x_tools : bytes -> list bytes -> tfs -> option (tfs * bool) :=
  x_run x_objcopy (fun k c d => Some (d ++ x_sig (k ++ c))) (fun c d => eqb_bytes (skipn (length d - length c) d) c)
    (fun d => Some (lit "lock:" ++ x_sha d)) (fun _ d => Some (d ++ lit "+secret")).

Definition x_tenv (name : nat -> bytes) : tenv := TEnv name 18 x_tools x_sha x_parse (fun _ => None).
Definition x_tname (i : nat) : bytes := [97 + N.of_nat i; 97 + N.of_nat i].
Definition x_tfiles : tfs :=
  [ (lit "/nix/store/stub", TFile 292 x_stub); (lit "/nix/store/kernel", TFile 292 (lit "kernel one"));
    (lit "/nix/store/initrd", TFile 292 (lit "initrd one")) ].
Definition x_tstart : tst := TSt x_tfiles [] 0 0.
Definition x_tpaths (loc : bytes) : T (str * str) := tret (lit "\EFI\nixos\k.efi", lit "\EFI\nixos\i.efi").
Definition x_tbuild (script : option bytes) (name : nat -> bytes) : tst * res unit unit :=
  tbuild (x_tenv name) (lit "/tmp/.tmpX=1") script (lit "/nix/store/initrd") x_tpaths (lit "/nix/store/stub")
    (lit "/nix/store/kernel") [lit "init=/i"; lit "quiet"] (lit "ID=x")
    (tmeasure (x_tenv name) (Some (lit "/var/lib/pcrlock/g1")))
    (fun image => tsign_and_copy (x_tenv name) (lit "/k") (lit "/c") image (lit "/boot/EFI/Linux/x.efi")) x_tstart.
