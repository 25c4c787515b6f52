(** Proof of C61 for what the installer wrote. *)
From Coq Require Import List NArith Bool Lia ZArith ZifyBool ZifyNat ZifyN.
From Verif Require Import Base MText MGeneration MNames MPe MCpio MFirmware MStub MFs MInstall SCommon SNames SInstall SImage SHistory SStub SUse
  PUse SGate PGate.
Import ListNotations.
Open Scope N_scope.

Lemma poke_grows : forall im pos d, (length im <= length (poke im pos d))%nat.
Proof. intros. unfold poke. rewrite !app_length, firstn_length, skipn_length. lia. Qed.
Lemma efi_image_length : forall file headers size secs, size <= N.of_nat (length (efi_image file headers size secs)).
Proof.
  intros file headers size secs. unfold efi_image.
  assert (X : forall secs im, (length im <= length (fold_left (efi_section file) secs im))%nat).
  { induction secs0 as [|s l IH]; intros im; [cbn; lia|]. cbn [fold_left]. etransitivity; [|apply IH].
    unfold efi_section. etransitivity; [|apply poke_grows]. apply poke_grows. }
  specialize (X secs (poke (repeat 0 (N.to_nat size)) 0 (firstn (N.to_nat headers) file))).
  pose proof (poke_grows (repeat 0 (N.to_nat size)) 0 (firstn (N.to_nat headers) file)) as Y.
  rewrite repeat_length in Y. lia.
Qed.

Lemma in_memory_within : forall M y image pm, in_memory M y image pm ->
  forall p, pm image = Some p -> within image (pe_sections p).
Proof.
  intros M y image pm (q & q' & hd & size & _ & C & -> & Eq & ES) p Ep s I.
  rewrite Eq in Ep. injection Ep as <-. rewrite ES in I. specialize (C s I).
  pose proof (efi_image_length y hd size (pe_sections q)). lia.
Qed.

Lemma installed_starts : forall M e c m, sound M -> (forall z, ma_good M z -> loads_well (ma_parse M) z) ->
  fits M e c -> history M m -> no_faults e -> snd (run_install e c m) = Ok tt ->
  exists vs sel, links_versions (c_links c) vs /\ newest (c_limit c) vs sel /\
    forall g, In g (flat_map link_generations sel) -> usable g ->
      exists key n y b, ma_keys M key /\ named M key g n /\
        lookup (s_fs (fst (run_install e c m))) (linux_file M n) = Some (NFile y b) /\
        forall image pm parse fw path,
          in_memory M y image pm -> reads_esp M fw (s_fs (fst (run_install e c m))) ->
          basics_work fw -> companions_readable fw path ->
          exists kn inn kernel initrd cmd kd id,
            made_for M g kn inn kernel initrd cmd /\ ma_sha M kd = ma_sha M kernel /\ ma_sha M id = ma_sha M initrd /\
            forall img entry, N.of_nat (length cmd) < 2 ^ 30 ->
              image_load (fun _ => None) (parse kd) kd = Ok (img, entry) ->
              exists h r before, stub_main fw (ma_sha M) pm parse image path [] = (h, r) /\ started h before img entry.
Proof.
  intros M e c m SO GOOD FI H NF OK.
  destruct (installed_accepted M SO GOOD e c m FI H NF OK) as (vs & sel & LV & NW & B).
  exists vs, sel. split; [exact LV|]. split; [exact NW|]. intros g HG US.
  destruct (B g HG US) as (key & n & y & b & K & ND & L & A). exists key, n, y, b.
  split; [exact K|]. split; [exact ND|]. split; [exact L|]. intros image pm parse fw path IM RE BW CR.
  destruct (A image pm fw IM RE) as (kn & inn & kernel & initrd & cmd & kd & id & MF & S1 & S2 & LD).
  exists kn, inn, kernel, initrd, cmd, kd, id. split; [exact MF|]. split; [exact S1|]. split; [exact S2|].
  intros img entry LC IL. eapply stub_starts_loaded; eauto. eapply in_memory_within; eauto.
Qed.
