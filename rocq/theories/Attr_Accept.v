(** Lemmas: what each attribute of a model accepts (C64, C84). *)
From Coq Require Import String Ascii List ZArith QArith Bool Lia.
From Verif Require Import PyBase PyBaseFacts Attr_Model Attr_Spec Attr_Proofs Attr_Checks Attr_Load
  Attr_Init Attr_Witness Attr_Equal.
Import ListNotations.
Local Open Scope list_scope.
Local Open Scope nat_scope.

Lemma accept_level t : proper t -> (check (KType (L "int") (Some levels_range)) t = Ok tt <-> is_level t).
Proof. intro P. exact (check_integer_among t [0; 10; 20; 30; 40; 50]%Z P). Qed.

Lemma accept_bool t : proper t -> (check (KType (L "bool") None) t = Ok tt <-> is_bool t).
Proof.
  intros P. cbn [check]. split.
  - destruct (str_eqb (type_of t) (L "bool")) eqn:E; [|discriminate]. intros _.
    destruct t; try discriminate; [unfold is_bool; eauto|].
    cbn in P, E. exfalso. apply P. apply str_eqb_eq in E. rewrite E. builtins.
  - intros [b ->]. reflexivity.
Qed.

Lemma accept_sequence ty t : check (KSequence (Some ty) None) t = Ok tt <-> is_sequence_of (typed ty) t.
Proof.
  rewrite check_sequence_ok. unfold is_sequence_of, typed.
  split; intros (l & E & H); exists l; (split; [exact E|]); intros x Hx; now apply type_is, H.
Qed.

Lemma accept_analysis l t :
  check (KSequence (Some (L "str")) (Some (map TStr l))) t = Ok tt <-> is_sequence_of (one_of l) t.
Proof.
  rewrite sequence_iff. unfold is_sequence_of, one_of. split; intros (m & E & H); exists m; (split; [exact E|]);
    intros x Hx; specialize (H x Hx).
  - destruct H as [_ H]. destruct (H _ eq_refl) as (c & C & V). apply in_map_iff in C as (s & <- & S).
    exists s. split; [|exact S]. inversion V; subst; [reflexivity|]. match goal with N : numeric (TStr _) _ |- _ => inversion N end.
  - destruct H as (s & -> & S). split; [intros ty T; injection T as <-; reflexivity|].
    intros l' T. injection T as <-. exists (TStr s). split; [now apply in_map|constructor].
Qed.

Ltac accept P :=
  first [ exact (check_text _ P) | exact (check_dict _ P) | exact (accept_level _ P) | exact (check_number _ P)
        | exact (check_integer _ P) | exact (accept_bool _ P) | exact (accept_sequence _ _) | exact (check_species_ok _)
        | exact (check_ref_ok _) | exact (check_interval_ok _) | exact (check_vectors_ok _ _)
        | match goal with |- _ <-> is_sequence_of (one_of ?l) _ => exact (accept_analysis l _) end
        | match goal with |- _ <-> one_of ?l _ => exact (check_text_among _ l P) end ].

Ltac accept_all H :=
  repeat (destruct H as [H|H];
    [injection H as <- <-; do 3 eexists; split; [reflexivity|]; let Q := fresh "Q" in intros ? Q; accept Q|]);
  destruct H.

Lemma accept_micro n P : In (n, P) (acceptable_every ++ acceptable_micro) -> exists k d deep,
  model_table (L "MicroKineticModel") n = Some (AValue k d deep) /\ forall t, proper t -> (check k t = Ok tt <-> P t).
Proof. intro H. unfold acceptable_every, acceptable_micro in H. cbn [app In] in H. accept_all H. Qed.

Lemma accept_kmc n P : In (n, P) (acceptable_every ++ acceptable_kmc) -> exists k d deep,
  model_table (L "KMCModel") n = Some (AValue k d deep) /\ forall t, proper t -> (check k t = Ok tt <-> P t).
Proof. intro H. unfold acceptable_every, acceptable_kmc in H. cbn [app In] in H. accept_all H. Qed.

Lemma accept_plain n P : In (n, P) acceptable_every -> exists k d deep,
  model_table (L "KineticModel") n = Some (AValue k d deep) /\ forall t, proper t -> (check k t = Ok tt <-> P t).
Proof. intro H. unfold acceptable_every in H. cbn [In] in H. accept_all H. Qed.

Lemma accept_micro_all n k d deep : model_table (L "MicroKineticModel") n = Some (AValue k d deep) ->
  exists P, In (n, P) (acceptable_every ++ acceptable_micro).
Proof.
  intro H. destruct (documented_all n k d deep H) as [t D].
  assert (In n (map fst (acceptable_every ++ acceptable_micro))) as I.
  { replace (map fst (acceptable_every ++ acceptable_micro)) with (map fst documented) by reflexivity.
    now apply (in_map fst) in D. }
  apply in_map_iff in I as ((n' & P) & E & I). cbn in E. subst. eauto.
Qed.

Lemma accept_kmc_all n k d deep : model_table (L "KMCModel") n = Some (AValue k d deep) ->
  exists P, In (n, P) (acceptable_every ++ acceptable_kmc).
Proof.
  intro H. destruct (kmc_documented_all n k d deep H) as [t D].
  assert (In n (map fst (acceptable_every ++ acceptable_kmc))) as I.
  { replace (map fst (acceptable_every ++ acceptable_kmc)) with (map fst (firstn 12 documented ++ kmc_documented))
      by reflexivity. now apply (in_map fst) in D. }
  apply in_map_iff in I as ((n' & P) & E & I). cbn in E. subst. eauto.
Qed.
