(** C94 in C88: the keys that sbctl enrols are those for which the machine of
    C88 is signed. *)
From Coq Require Import List NArith Bool.
From Verif Require Import Base MText MNames MPe MGeneration MFirmware MStub MFs MTool MInstall MCli MHook MEnroll MProvision MSbctl
  SFirmware SCommon SNames SInstall SHistory SImage SUse SStub SGate SCli SHook SSigned SRepeat SExact SMenu SLoaderConf SSwitch SEnroll SProvision
  SSbctl PSbctl PProvision.
Import ListNotations.
Open Scope N_scope.

Section Use.
Variables (k : key_options) (s : key_settings) (p d : bytes).
Hypothesis E : key_settings_of k = Some s.
Hypothesis K : ko_pki k = Some p.
Hypothesis PV : plain_value p.
Hypothesis PU : ko_public k = None.
Hypothesis PR : ko_private k = None.
Hypothesis ON : ko_generate k || ko_enroll k = true.
Hypothesis KD : key_dir (ks_sbctl s) d.

Lemma enrols M key u o : works_with M d key u (with_keys s o) ->
  enrolling M key (w_sbverify (u_world u 0) (db_certificate d)) u (with_keys s o).
Proof.
  intros [SV ES SI PL PW EX RD RUN].
  destruct (configured_dir k s p E K PV ON) as (KD' & _). assert (D := key_dir_unique _ _ _ KD' KD).
  destruct (default_files k s p E K PU PR) as (F1 & F2). rewrite <- D in F1, F2.
  constructor; auto.
  - cbn [with_keys o_public_key]. rewrite F1. auto.
  - intros a sg c W AS AC. destruct (RUN a sg c W AS AC) as (SG & NF & CL & AR & DI). split; [exact SG|].
    split; [|auto]. intros _. rewrite SG.
    destruct AS as (public & private & A1 & A2 & _ & S).
    assert (P1 : public = db_certificate d /\ private = db_key d).
    { destruct W as (_ & _ & _ & _ & W1 & W2 & _). rewrite W1 in A1. rewrite W2 in A2. cbn [with_keys o_public_key o_private_key] in A1, A2.
      injection A1 as <-. injection A2 as <-. auto. }
    destruct P1 as (-> & ->). destruct S as (_ & SS & NV); [intros (_ & NE & _); exact (NE EX)|].
    split; [|split; [intros y; exact (proj2 (SS y)) | exact NV]].
    intros x y H. apply (PW x). rewrite <- H. symmetry. exact (proj1 (SS x)).
Qed.
End Use.
