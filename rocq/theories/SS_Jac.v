(** The analytical Jacobian: rate equations as lists of products, their derived texts and the
    matrix of values (C29). *)
From Coq Require Import String Ascii List ZArith NArith Bool Arith Reals Lia Lra.
Import ListNotations.
From Verif Require Import PyBase PyBaseFacts Regex RegexFacts Rxn_Model Rxn_Spec Rxn_Proofs Species_Model
  Species_Spec Species_Proofs Species_Matrix PyReal Energy_Proofs PyExpr_Model PyExpr_Proofs RDeriv
  MF_Model MF_Spec MF_Cover MF_Rate MF_More SS_Model SS_Spec SS_Text SS_Term SS_Deriv.
Local Open Scope nat_scope.
Local Open Scope list_scope.

(** ** Words *)
Definition word_ok (t : str) : Prop := t <> [] /\ forallb (fun c => negb (is_space c)) t = true.

Lemma words_aux_word cur t rest : forallb (fun c => negb (is_space c)) t = true ->
  words_aux cur (t ++ rest) = words_aux (cur ++ t) rest.
Proof.
  revert cur. induction t as [|c t IH]; intros cur H; cbn [app].
  - now rewrite app_nil_r.
  - cbn [forallb] in H. apply andb_prop in H as [H1 H2]. apply negb_true_iff in H1. cbn [words_aux]. rewrite H1.
    rewrite IH by auto. now rewrite <- app_assoc.
Qed.

Lemma words_join ts : Forall word_ok ts -> words (join (L " ") ts) = ts.
Proof.
  unfold words. induction 1 as [|t ts [N H] F IH]; [reflexivity|]. destruct ts as [|u ts].
  - cbn [join]. rewrite <- (app_nil_r t) at 1. rewrite words_aux_word by auto. cbn. destruct t; [congruence|reflexivity].
  - change (join (L " ") (t :: u :: ts)) with (t ++ L " " ++ join (L " ") (u :: ts)).
    rewrite words_aux_word by auto. cbn [app].
    change (words_aux t (L " " ++ join (L " ") (u :: ts))) with
      (match t with [] => words_aux [] (join (L " ") (u :: ts)) | _ => t :: words_aux [] (join (L " ") (u :: ts)) end).
    rewrite IH. destruct t; [congruence|reflexivity].
Qed.

Lemma word_app a b : word_ok a -> forallb (fun c => negb (is_space c)) b = true -> word_ok (a ++ b).
Proof.
  intros [N H] B. split; [destruct a; [congruence|discriminate]|]. rewrite forallb_app. now rewrite H, B.
Qed.

(** Increasing and decreasing products, alternating. *)
Fixpoint toks (qs : list (str * str)) : list str :=
  match qs with
  | [] => []
  | [(a, b)] => [a; L "-"; b]
  | (a, b) :: qs' => a :: L "-" :: b :: L "+" :: toks qs'
  end.
Fixpoint both_sides {A} (qs : list (A * A)) : list A :=
  match qs with [] => [] | (a, b) :: t => a :: b :: both_sides t end.
Definition minus_text (q : str * str) : str := fst q ++ L " - " ++ snd q.

Lemma toks_cons2 a b q qs : toks ((a, b) :: q :: qs) = a :: L "-" :: b :: L "+" :: toks (q :: qs).
Proof. reflexivity. Qed.
Lemma toks_nonnil q qs : toks (q :: qs) <> [].
Proof. destruct q as [a b], qs; discriminate. Qed.
Lemma join_cons2 sep (x : str) l : l <> [] -> join sep (x :: l) = x ++ sep ++ join sep l.
Proof. destruct l; [congruence|reflexivity]. Qed.

Lemma toks_join qs : qs <> [] -> join (L " ") (toks qs) = join (L " + ") (map minus_text qs).
Proof.
  induction qs as [|[a b] qs IH]; [congruence|]. intros _. destruct qs as [|q qs].
  - reflexivity.
  - rewrite toks_cons2. cbn [map]. rewrite (join_cons2 (L " + ")) by discriminate.
    do 3 rewrite (join_cons2 (L " ")) by discriminate.
    rewrite (join_cons2 (L " ")) by apply toks_nonnil. rewrite IH by discriminate. cbn [map].
    change (minus_text (a, b)) with (a ++ L " - " ++ b). rewrite <- ?app_assoc. reflexivity.
Qed.

Lemma every_toks qs : every_other (toks qs) = both_sides qs.
Proof.
  induction qs as [|[a b] qs IH]; [reflexivity|]. destruct qs as [|q qs]; [reflexivity|].
  rewrite toks_cons2. cbn [every_other]. rewrite IH. reflexivity.
Qed.

Fixpoint ops (n : nat) : list str :=
  match n with O => [] | 1 => [L "-"] | S k => L "-" :: L "+" :: ops k end.
Lemma every_ops qs : every_other (tl (toks qs)) = ops (length qs).
Proof.
  induction qs as [|[a b] qs IH]; [reflexivity|]. destruct qs as [|q qs]; [reflexivity|].
  rewrite toks_cons2. cbn [tl every_other]. change (length ((a, b) :: q :: qs)) with (S (length (q :: qs))).
  cbn [ops]. destruct (length (q :: qs)) eqn:E; [discriminate|]. rewrite <- IH. do 2 f_equal.
  destruct (toks (q :: qs)) as [|t l] eqn:Et; [now apply toks_nonnil in Et|]. cbn [tl].
  destruct l; reflexivity.
Qed.

Lemma rebuilt (ds : list (str * str)) last : ds <> [] -> llast (both_sides ds) = Ok last ->
  concat (map (fun p => [fst p; snd p]) (combine (both_sides ds) (ops (length ds)))) ++ [last] = toks ds.
Proof.
  induction ds as [|[a b] ds IH]; [congruence|]. intros _ H. destruct ds as [|q ds].
  - cbn in H. injection H as <-. reflexivity.
  - change (length ((a, b) :: q :: ds)) with (S (length (q :: ds))). rewrite toks_cons2.
    assert (E : ops (S (length (q :: ds))) = L "-" :: L "+" :: ops (length (q :: ds))) by reflexivity.
    rewrite E. change (both_sides ((a, b) :: q :: ds)) with (a :: b :: both_sides (q :: ds)).
    rewrite <- IH; [reflexivity|discriminate|].
    destruct q. cbn [both_sides] in H |- *. cbn [llast] in H |- *. exact H.
Qed.

Lemma mapM_both {A B} (f : A -> res B) qs ds :
  Forall2 (fun q d => f (fst q) = Ok (fst d) /\ f (snd q) = Ok (snd d)) qs ds ->
  mapM f (both_sides qs) = Ok (both_sides ds).
Proof.
  intro H. apply mapM_ok_iff. induction H as [|[a b] [c d] qs ds [H1 H2] H IH]; cbn [both_sides]; constructor; auto.
Qed.

(** ** Products of a rate equation *)
Record term := { t_n : Z; t_fwd : bool; t_idx : nat; t_st : list formula }.
Definition t_kname (t : term) : str := if t_fwd t then L "kf" else L "kr".
Definition t_base (t : term) : str :=
  (if Z.eqb (t_n t) 1 then [] else str_of_Z (t_n t) ++ L "*") ++ base_text (t_kname t) (t_idx t).
Definition t_text (t : term) : str := t_base t ++ flat (map to_fac (t_st t)).

Section Jac.
  Variable s : setup.
  Hypothesis DS : differentiable_setup s.
  Let U : usable_setup s := proj1 DS.
  Let P : prepared s := proj1 U.
  Variables (kf kr : list R).
  Hypothesis Lf : length kf = length (s_exprs s).
  Hypothesis Lr : length kr = length (s_exprs s).

  Open Scope R_scope.

  Definition t_k (t : term) : R := nth (t_idx t) (if t_fwd t then kf else kr) 0.
  Definition t_const (t : term) : R := IZR (t_n t) * t_k t.
  Definition t_val (cvgs : list R) (t : term) : R := t_const t * prodact s cvgs (t_st t).
  Definition term_ok (t : term) : Prop :=
    (0 <= t_n t)%Z /\ (t_idx t < length (s_exprs s))%nat /\ state_of_rxn s (t_st t).

  Lemma times_text_eq t : term_ok t -> times_text (t_n t) (list2string (t_kname t) (t_idx t) (t_st t)) = t_text t.
  Proof.
    intros (Hn & _ & S). rewrite list2string_eq, state_flat.
    - unfold times_text, t_text, t_base. destruct (Z.eqb (t_n t) 1); [reflexivity|]. rewrite <- ?app_assoc. reflexivity.
    - intros f Hf. apply (st_readable s DS kf kr (t_st t) f S Hf).
  Qed.

  Lemma t_base_ok t : term_ok t -> base_ok (t_base t) /\ (2 <= length (t_base t))%nat /\
    forallb (fun c => negb (is_space c)) (t_base t) = true.
  Proof.
    intros (Hn & _). unfold t_base, base_text, t_kname.
    assert (D : forall n, forallb base_char (dec n) = true /\ forallb (fun c => negb (is_space c)) (dec n) = true).
    { intro n. split; (eapply forallb_impl; [|apply dec_digits]; intro c; all_ascii c). }
    split; [|split].
    - apply base_ok_app. split.
      + destruct (Z.eqb (t_n t) 1); [reflexivity|]. apply base_ok_app. split; [|reflexivity].
        rewrite str_of_nonneg by auto. apply D.
      + apply base_ok_app. split; [now destruct (t_fwd t)|]. apply base_ok_app. split; [reflexivity|].
        apply base_ok_app. split; [apply D|reflexivity].
    - rewrite !app_length. destruct (t_fwd t); cbn; lia.
    - rewrite !forallb_app. repeat (apply andb_true_intro; split); try apply D; try reflexivity; [|now destruct (t_fwd t)].
      destruct (Z.eqb (t_n t) 1); [reflexivity|]. rewrite forallb_app. apply andb_true_intro. split; [|reflexivity].
      rewrite str_of_nonneg by auto. apply D.
  Qed.

  Lemma t_base_val cvgs t : term_ok t -> prod_val (the_env s cvgs kf kr) (t_base t) (t_const t).
  Proof.
    intros (Hn & Hi & _). unfold t_base, t_const, t_kname, t_k.
    assert (B : prod_val (the_env s cvgs kf kr) (base_text (if t_fwd t then L "kf" else L "kr") (t_idx t))
                  (nth (t_idx t) (if t_fwd t then kf else kr) 0)).
    { destruct (t_fwd t).
      - apply (base_val s cvgs kf kr (L "kf") kf); auto. apply nth_error_nth'. now rewrite Lf.
      - apply (base_val s cvgs kf kr (L "kr") kr); auto. apply nth_error_nth'. now rewrite Lr. }
    destruct (Z.eqb_spec (t_n t) 1) as [E|E].
    - rewrite E, Rmult_1_l. exact B.
    - rewrite <- app_assoc. apply mul_val; auto. rewrite str_of_nonneg by auto. apply atom_prod.
      pose proof (dec_val (the_env s cvgs kf kr) (Z.to_N (t_n t))) as D. now rewrite Z2N.id in D by auto.
  Qed.

  Lemma t_text_val cvgs t : term_ok t -> prod_val (the_env s cvgs kf kr) (t_text t) (t_val cvgs t).
  Proof.
    intro T. apply flat_val; [|now apply t_base_val]. destruct T as (_ & _ & S).
    intros f Hf. now apply (st_good s DS kf kr (t_st t)).
  Qed.

  Lemma flat_no_space fs : Forall fac_ok fs -> forallb (fun c => negb (is_space c)) (flat fs) = true.
  Proof.
    induction 1 as [|f fs (T & C & Pw) F IH]; [reflexivity|]. rewrite flat_cons, forallb_app, IH, andb_true_r.
    unfold ftext. rewrite !forallb_app. repeat (apply andb_true_intro; split); try reflexivity.
    - destruct T as [-> | [-> | ->]]; reflexivity.
    - eapply forallb_impl; [|exact C]. intro c. all_ascii c.
    - eapply forallb_impl; [|exact Pw]. intro c. all_ascii c.
  Qed.

  Lemma t_text_word t : term_ok t -> word_ok (t_text t).
  Proof.
    intro T. destruct (t_base_ok t T) as (_ & Hl & Sp). apply word_app.
    - split; auto. destruct (t_base t); [cbn in Hl; lia|discriminate].
    - apply flat_no_space. apply map_fac_ok. intros f Hf. destruct T as (_ & _ & S).
      apply (st_readable s DS kf kr _ f S Hf).
  Qed.
  Lemma t_text_no_nl t : term_ok t -> no_nl (t_text t).
  Proof.
    intro T. destruct (t_text_word t T) as [_ H]. unfold no_nl. eapply forallb_impl; [|exact H]. intro c. all_ascii c.
  Qed.

  (** ** Rate equations *)
  Definition eqn := list (term * term).
  Definition q_texts (q : term * term) : str * str := (t_text (fst q), t_text (snd q)).
  (** The products of one adsorbate; the second one of each pair is subtracted. *)
  Definition eqn_ok (name : str) (qs : eqn) : Prop :=
    Forall (fun q => term_ok (fst q) /\ term_ok (snd q) /\
       exists fls, In fls (l_rxns (s_lists s)) /\ subtracted name fls (t_st (snd q))) qs.

  (** The pair of products of one reaction, if the adsorbate occurs in it. *)
  Definition from_rxn (name e : str) (o : option (term * term)) : Prop :=
    exists fls, rxn_formula_list e = Ok fls /\
    match o with
    | None => absent name fls
    | Some q => term_ok (fst q) /\ term_ok (snd q) /\ In fls (l_rxns (s_lists s)) /\
        first_position (s_exprs s) e (t_idx (snd q)) /\
        ((t_fwd (snd q) = true /\ met_first name fls 0 (t_n (snd q)) /\ lfirst fls = Ok (t_st (snd q))) \/
         (t_fwd (snd q) = false /\ exists i, met_first name fls (S i) (t_n (snd q)) /\ llast fls = Ok (t_st (snd q))))
    end.
  Fixpoint somes {A} (os : list (option A)) : list A :=
    match os with [] => [] | Some x :: t => x :: somes t | None :: t => somes t end.

  Lemma from_rxn_eqn name es os : Forall2 (from_rxn name) es os -> eqn_ok name (somes os).
  Proof.
    induction 1 as [|e o es os (fls & _ & H) F IH]; [constructor|]. destruct o as [q|]; [|exact IH].
    destruct H as (Ta & Tb & Hf & _ & H). constructor; [|exact IH]. split; [exact Ta|]. split; [exact Tb|].
    exists fls. split; [exact Hf|]. destruct H as [(_ & M & E)|(_ & i & M & E)]; [left|right]; eauto.
  Qed.

  Lemma elementary_struct name e : In name (ads s) -> In e (s_exprs s) ->
    exists o, elementary_dtheta_dt s name e = Ok (option_map (fun q => minus_text (q_texts q)) o) /\ from_rxn name e o.
  Proof.
    intros Hn He. unfold elementary_dtheta_dt.
    assert (str_mem name (l_ads (s_lists s)) = true) as -> by now apply str_mem_In. cbn [negb].
    pose (c0 := repeat 0 (length (ads s))).
    destruct (rate_expression_ok s U c0 kf kr (repeat_length _ _) Lf Lr e He)
        as (j & fls & first & last & a & b & Fj & Ef & E1 & E2 & Ea & Eb & _ & _ & Er & _).
    rewrite Ef. cbn [bind]. destruct (concat fls) eqn:Ec; [now apply (concat_nonempty s U e fls He Ef) in Ec|].
    clear Ec l. pose proof (find_in_states_spec s c0 kf kr (repeat_length _ _) Lf Lr name fls 0) as F.
    destruct (formula_list_at s U j e (proj1 Fj)) as (fls' & En' & Ef'). assert (fls' = fls) by congruence. subst fls'.
    assert (Hr : In fls (l_rxns (s_lists s))) by (eapply nth_error_In; eauto).
    assert (Hj : (j < length (s_exprs s))%nat) by (apply nth_error_Some; destruct Fj; congruence).
    destruct (proj2 U fls Hr first last E1 E2) as [U1 U2].
    pose proof DS as (_ & _ & _ & SP). destruct (SP fls first last Hr E1 E2) as [S1 S2].
    assert (St1 : state_of_rxn s first).
    { split; auto. split; auto. exists fls. split; auto. now apply lfirst_In. }
    assert (St2 : state_of_rxn s last).
    { split; auto. split; auto. exists fls. split; auto. now apply llast_In. }
    destruct (find_in_states name 0 fls) as [[i n]|].
    - destruct F as (i' & -> & M). cbn [Nat.add]. pose proof (met_first_stoich e fls name i' n Ef M) as Hz.
      rewrite Er. cbn [bind].
      pose (tf := {| t_n := n; t_fwd := true; t_idx := j; t_st := first |}).
      pose (tr := {| t_n := n; t_fwd := false; t_idx := j; t_st := last |}).
      assert (Tf : term_ok tf) by (split; auto). assert (Tr : term_ok tr) by (split; auto).
      pose proof (times_text_eq tf Tf) as Xf. pose proof (times_text_eq tr Tr) as Xr.
      cbn [t_n t_idx t_st tf tr t_kname t_fwd] in Xf, Xr. destruct i' as [|i'].
      + exists (Some (tr, tf)). rewrite Xf, Xr. split; [reflexivity|]. exists fls. split; [exact Ef|].
        split; [exact Tr|]. split; [exact Tf|]. split; [exact Hr|]. split; [exact Fj|]. left. auto.
      + exists (Some (tf, tr)). rewrite Xf, Xr. split; [reflexivity|]. exists fls. split; [exact Ef|].
        split; [exact Tf|]. split; [exact Tr|]. split; [exact Hr|]. split; [exact Fj|]. right. split; [reflexivity|]. exists i'. auto.
    - exists None. split; [reflexivity|]. exists fls. split; [exact Ef|exact F].
  Qed.

  Lemma terms_struct name es : In name (ads s) -> (forall e, In e es -> In e (s_exprs s)) ->
    exists os, adsorbate_terms s name es = Ok (map minus_text (map q_texts (somes os))) /\
      Forall2 (from_rxn name) es os.
  Proof.
    intro Hn. induction es as [|e es IH]; intro H; cbn [adsorbate_terms].
    - exists []. split; [reflexivity|constructor].
    - destruct (elementary_struct name e Hn (H e (or_introl eq_refl))) as (o & E & Q). rewrite E. cbn [bind].
      destruct (IH (fun x Hx => H x (or_intror Hx))) as (os & E2 & F). rewrite E2. cbn [bind].
      exists (o :: os). split; [|constructor; auto]. now destruct o.
  Qed.

  Lemma terms_some name : In name (ads s) ->
    exists os, adsorbate_terms s name (s_exprs s) = Ok (map minus_text (map q_texts (somes os))) /\
      Forall2 (from_rxn name) (s_exprs s) os /\ somes os <> [].
  Proof.
    intro Hn. destruct (terms_struct name (s_exprs s) Hn (fun e He => He)) as (os & E & Q).
    exists os. split; auto. split; auto. intro Hq.
    destruct (ads_known s P name Hn) as (f & _ & _ & -> & (rxn & st & H1 & H2 & H3)).
    destruct (parse_rxns_rxn _ _ _ (proj1 P) H1) as (e & He & Ef & _).
    assert (A : forall es, Forall2 (from_rxn (f_species_site f)) es os -> forall e fls, In e es ->
      rxn_formula_list e = Ok fls -> absent (f_species_site f) fls).
    { clear - Hq. intros es F. induction F as [|e' o es os (fls' & E' & H) F IH]; intros e fls I Ef; [destruct I|].
      destruct o as [q|]; [discriminate|]. destruct I as [->|I].
      - assert (fls' = fls) by congruence. now subst.
      - now apply (IH Hq e). }
    apply (A _ Q e rxn He Ef st f H2 H3). reflexivity.
  Qed.

  Definition rhs (qs : eqn) : str := join (L " + ") (map minus_text (map q_texts qs)).
  Definition rhs_val (cvgs : list R) (qs : eqn) : R :=
    Rsum (map (fun q => t_val cvgs (fst q) - t_val cvgs (snd q)) qs).

  Lemma rhs_ok cvgs name qs : eqn_ok name qs -> qs <> [] ->
    sum_val (the_env s cvgs kf kr) (rhs qs) (rhs_val cvgs qs) /\ no_nl (rhs qs).
  Proof.
    intros Q N.
    pose (ps := map (fun q => {| p_inc := t_text (fst q); p_dec := t_text (snd q);
                                 p_iv := t_val cvgs (fst q); p_dv := t_val cvgs (snd q) |}) qs).
    destruct (pairs_val s cvgs kf kr ps) as [A B].
    - unfold ps. destruct qs; [congruence|discriminate].
    - apply Forall_forall. intros p I. apply in_map_iff in I as (q & <- & I).
      unfold eqn_ok in Q. rewrite Forall_forall in Q. destruct (Q q I) as (T1 & T2 & _).
      split; [now apply t_text_val|]. split; [now apply t_text_val|]. split; now apply t_text_no_nl.
    - unfold ps in A, B. rewrite !map_map in A. rewrite !map_map in B. unfold rhs. rewrite map_map. split; [exact A|exact B].
  Qed.

  Definition line (i : nat) (qs : eqn) : str := L "dtheta_dt[" ++ dec (N.of_nat i) ++ L "] = " ++ rhs qs.
  Fixpoint lines (i : nat) (qss : list eqn) : list str :=
    match qss with [] => [] | qs :: t => line i qs :: lines (S i) t end.

  Lemma lines_struct names : (forall n, In n names -> In n (ads s)) -> forall i,
    exists qss, dtheta_lines s i names = Ok (lines i qss) /\
      Forall2 (fun n (qs : eqn) => (exists os, qs = somes os /\ Forall2 (from_rxn n) (s_exprs s) os) /\ qs <> []) names qss.
  Proof.
    induction names as [|n ns IH]; intros H i; cbn [dtheta_lines].
    - exists []. split; [reflexivity|constructor].
    - destruct (IH (fun m Hm => H m (or_intror Hm)) (S i)) as (qss & E & F).
      destruct (terms_some n (H n (or_introl eq_refl))) as (os & E2 & Q & N).
      unfold adsorbate_dtheta_dt. rewrite E2. cbn [bind]. rewrite E. cbn [bind].
      exists (somes os :: qss). split; [reflexivity|]. constructor; auto. split; eauto.
  Qed.

  Lemma lines_numbered i qss : lines i qss = number_lines (L "dtheta_dt") i (map rhs qss).
  Proof.
    revert i. induction qss as [|qs qss IH]; intro i; [reflexivity|]. cbn [lines map number_lines]. now rewrite IH.
  Qed.

  Lemma rhs_all cvgs ns qss :
    Forall2 (fun n (qs : eqn) => (exists os, qs = somes os /\ Forall2 (from_rxn n) (s_exprs s) os) /\ qs <> []) ns qss ->
    Forall2 (sum_val (the_env s cvgs kf kr)) (map rhs qss) (map (rhs_val cvgs) qss) /\ Forall no_nl (map rhs qss).
  Proof.
    induction 1 as [|n qs ns qss [(os & Eo & Fo) N] F [IH1 IH2]]; cbn [map]; [split; constructor|].
    assert (Q : eqn_ok n qs) by (rewrite Eo; now apply (from_rxn_eqn n (s_exprs s))).
    destruct (rhs_ok cvgs n qs Q N) as [A B]. split; constructor; auto.
  Qed.

  (** One system of equations for all coverages. *)
  Lemma steady_struct : exists data qss,
    get_data s = Ok data /\ dtheta_dt_expressions s = Ok (lines 0 qss) /\
    Forall2 (fun n (qs : eqn) => (exists os, qs = somes os /\ Forall2 (from_rxn n) (s_exprs s) os) /\ qs <> []) (ads s) qss /\
    forall cvgs, length cvgs = length (ads s) ->
      steady_state_function s (Ok (kf, kr)) (Some data) cvgs = Ok (map (rhs_val cvgs) qss).
  Proof.
    destruct (lines_struct (ads s) (fun n H => H) 0) as (qss & E & F).
    eexists. exists qss. split; [apply get_data_ok; exact P|]. split; [exact E|]. split; [exact F|].
    intros cvgs Len. unfold steady_state_function. rewrite (classify_ok s P). cbn [bind].
    rewrite (tuple2dict_ok s P cvgs Len). cbn [bind]. unfold dtheta_dt_expressions.
    change (l_ads (s_lists s)) with (ads s). rewrite E. cbn [bind].
    change (mf_env (tab (coverage s cvgs) (ads s ++ sites s)) (tab (value (s_pressure s)) (l_gas (s_lists s)))
             (tab (value (s_conc s)) (l_liq (s_lists s))) kf kr) with (the_env s cvgs kf kr).
    rewrite (Forall2_length _ _ _ F). rewrite lines_numbered.
    destruct (rhs_all cvgs _ _ F) as [V N].
    replace (length qss) with (length (map (rhs_val cvgs) qss)) by apply map_length.
    apply exec_text_numbered; auto; try (split; reflexivity); reflexivity.
  Qed.

  (** ** Entries of the matrix *)
  Variables (cvgs : list R) (j : nat) (col : str) (x0 : R).
  Hypothesis Len : length cvgs = length (ads s).
  Hypothesis Hj : nth_error (ads s) j = Some col.
  Hypothesis Hx : nth_error cvgs j = Some x0.
  Let v := the_env s cvgs kf kr.

  (** A product and its derived text. *)
  Lemma term_derives t : term_ok t -> exists ps : list (str * R),
    total_derivation s (cl s) col (t_text t) = Ok (join (L " + ") (map fst ps)) /\
    Forall (fun p => prod_val v (fst p) (snd p)) ps /\
    deriv (fun u => t_val (with_coverage cvgs j u) t) x0 (Rsum (map snd ps)) /\
    ((length ps = 1%nat /\ ~ (named col (t_st t) /\ named (site_tag col) (t_st t))) \/
     (exists p q, ps = [p; q] /\ named col (t_st t) /\ named (site_tag col) (t_st t) /\
        deriv (fun u => rate_with s cvgs (site_tag col) u (t_const t) (t_st t)) (coverage s cvgs (site_tag col)) (- snd q))).

  Proof.
    intro T. destruct (t_base_ok t T) as (B & Hl & _).
    assert (Hw : exists w, site_tag col = L "*_" ++ w) by (eexists; reflexivity). destruct Hw as [w Hw].
    destruct (total_ok_text s DS kf kr cvgs j col w x0 Len Hj Hx Hw (t_base t) (t_const t) (t_st t) B Hl
                (t_base_val cvgs t T)) as (ps & D); [apply T|].
    exists ps. exact D.
  Qed.

  Lemma plus_val t x ps : sum_val v t x -> Forall (fun p => prod_val v (fst p) (snd p)) ps ->
    sum_val v (t ++ concat (map (fun y => L " + " ++ y) (map fst ps))) (x + Rsum (map snd ps)).
  Proof.
    intros V F. revert t x V. induction F as [|[y z] ps Hp F IH]; intros t x V; cbn [map concat Rsum fst snd] in *.
    - rewrite app_nil_r, Rplus_0_r. exact V.
    - pose proof (add_val v _ _ _ _ V Hp) as A. specialize (IH _ _ A).
      replace (x + (z + Rsum (map snd ps))) with (x + z + Rsum (map snd ps)) by ring.
      rewrite <- ?app_assoc in IH; rewrite <- ?app_assoc. exact IH.
  Qed.

  (** The derivative of a subtracted product with respect to the free site, if both occur. *)
  Definition lost (t : term) (c : R) : Prop :=
    (named col (t_st t) /\ named (site_tag col) (t_st t) /\
     deriv (fun u => rate_with s cvgs (site_tag col) u (t_const t) (t_st t)) (coverage s cvgs (site_tag col)) c) \/
    (c = 0 /\ ~ (named col (t_st t) /\ named (site_tag col) (t_st t))).

  (** The derived pairs of one equation.  A subtracted text of two products loses its
      parentheses. *)
  Lemma pairs_derived name qs : eqn_ok name qs ->
    exists ds ys, Forall2 (fun q d => total_derivation s (cl s) col (fst q) = Ok (fst d) /\
                                      total_derivation s (cl s) col (snd q) = Ok (snd d)) (map q_texts qs) ds /\
      (forall t x, sum_val v t x ->
         sum_val v (t ++ concat (map (fun y => L " + " ++ y) (map minus_text ds))) (x + Rsum ys)) /\
      (forall d ds', ds = d :: ds' -> exists y ys', ys = y :: ys' /\ sum_val v (minus_text d) y /\
         forall t x, sum_val v t x ->
           sum_val v (t ++ concat (map (fun y => L " + " ++ y) (map minus_text ds'))) (x + Rsum ys')) /\
      exists cs, Forall2 (fun q c => lost (snd q) c) qs cs /\
       deriv (fun u => rhs_val (with_coverage cvgs j u) qs) x0 (Rsum ys + 2 * Rsum cs).
  Proof.
    intros Q. induction Q as [|[a b] qs (Ta & Tb & fls & Hf & Sub) Q IH].
    - exists [], []. split; [constructor|]. split; [|split].
      + intros t x V. cbn. rewrite app_nil_r, Rplus_0_r. exact V.
      + discriminate.
      + exists []. split; [constructor|]. eapply d_eq; [|apply (d_const 0)]. cbn. ring.
    - destruct IH as (ds & ys & F & G & _ & cs & FC & D).
      destruct (term_derives a Ta) as (pa & Ea & Va & Da & La).
      destruct (term_derives b Tb) as (pb & Eb & Vb & Db & Lb).
      assert (Na : exists p pa', pa = p :: pa').
      { destruct pa as [|p pa']; [destruct La as [[La _]|(p & q & La & _)]; discriminate|eauto]. }
      destruct Na as ([ta za] & pa' & ->). inversion Va as [|? ? Va1 Va2]; subst. cbn [fst snd] in Va1.
      assert (Nb : exists p pb', pb = p :: pb').
      { destruct pb as [|p pb']; [destruct Lb as [[Lb _]|(p & q & Lb & _)]; discriminate|eauto]. }
      destruct Nb as ([tb zb] & pb' & ->). inversion Vb as [|? ? Vb1 Vb2]; subst. cbn [fst snd] in Vb1.
      pose (y := za + Rsum (map snd pa') - zb + Rsum (map snd pb')).
      pose (d := (join (L " + ") (map fst ((ta, za) :: pa')), join (L " + ") (map fst ((tb, zb) :: pb')))).
      assert (V1 : sum_val v (minus_text d) y).
      { unfold minus_text, y, d. cbn [fst snd map]. rewrite !join_plus.
        pose proof (plus_val _ _ _ (prod_sum _ _ _ Va1) Va2) as A2.
        pose proof (sub_val v _ _ _ _ A2 Vb1) as A3. pose proof (plus_val _ _ _ A3 Vb2) as A4.
        rewrite <- ?app_assoc in A4; rewrite <- ?app_assoc. exact A4. }
      assert (G1 : forall t x, sum_val v t x -> sum_val v (t ++ L " + " ++ minus_text d) (x + y)).
      { intros t x V. unfold minus_text, y, d. cbn [fst snd map]. rewrite !join_plus.
        pose proof (add_val v _ _ _ _ V Va1) as A1. pose proof (plus_val _ _ _ A1 Va2) as A2.
        pose proof (sub_val v _ _ _ _ A2 Vb1) as A3. pose proof (plus_val _ _ _ A3 Vb2) as A4.
        replace (x + (za + Rsum (map snd pa') - zb + Rsum (map snd pb')))
          with (x + za + Rsum (map snd pa') - zb + Rsum (map snd pb')) by ring.
        rewrite <- ?app_assoc in A4; rewrite <- ?app_assoc. exact A4. }
      exists (d :: ds), (y :: ys).
      split; [constructor; auto|]. split; [|split].
      + intros t x V. cbn [map concat]. specialize (G _ _ (G1 t x V)). cbn [Rsum].
        replace (x + (y + Rsum ys)) with (x + y + Rsum ys) by ring.
        rewrite <- ?app_assoc in G; rewrite <- ?app_assoc. exact G.
      + intros d0 ds' [= <- <-]. exists y, ys. split; [reflexivity|]. split; [exact V1|exact G].
      + assert (Dq : deriv (fun u => (t_val (with_coverage cvgs j u) a - t_val (with_coverage cvgs j u) b)
                               + rhs_val (with_coverage cvgs j u) qs) x0
                      (Rsum (map snd ((ta, za) :: pa')) - Rsum (map snd ((tb, zb) :: pb')) + (Rsum ys + 2 * Rsum cs))).
        { apply d_plus; [|exact D]. apply d_minus; [exact Da|exact Db]. }
        destruct Lb as [(Lb & Nb)|(p & q & Lb & N1 & N2 & Dq2)].
        * destruct pb' as [|]; try discriminate Lb. exists (0 :: cs). split.
          { constructor; [|exact FC]. right. auto. }
          apply (d_ext (fun u => (t_val (with_coverage cvgs j u) a - t_val (with_coverage cvgs j u) b)
                               + rhs_val (with_coverage cvgs j u) qs)); [reflexivity|].
          eapply d_eq; [|exact Dq]. unfold y. cbn [map snd Rsum]. ring.
        * injection Lb as <- ->. exists (- snd q :: cs). split.
          { constructor; [|exact FC]. left. auto. }
          apply (d_ext (fun u => (t_val (with_coverage cvgs j u) a - t_val (with_coverage cvgs j u) b)
                               + rhs_val (with_coverage cvgs j u) qs)); [reflexivity|].
          eapply d_eq; [|exact Dq]. unfold y. cbn [map snd Rsum]. ring.
  Qed.

  (** The same over the reactions. *)
  Lemma lost_all name es os cs : Forall2 (from_rxn name) es os -> Forall2 (fun q c => lost (snd q) c) (somes os) cs ->
    exists cs', Forall2 (missed s kf kr cvgs name col) es cs' /\ Rsum cs' = Rsum cs.
  Proof.
    intro F. revert cs. induction F as [|e o es os (fls & Ef & H) F IH]; intros cs FC.
    - exists []. inversion FC. split; [constructor|reflexivity].
    - destruct o as [q|]; cbn [somes] in FC.
      + inversion FC as [|? c ? cs0 Hc FC0]; subst. destruct (IH _ FC0) as (cs' & F' & E').
        exists (c :: cs'). split; [|cbn [Rsum]; now rewrite E']. constructor; [|exact F'].
        destruct H as (_ & (Hn & Hi & _) & _ & Fp & M).
        assert (TK : taken_off s kf kr name e (t_n (snd q)) (t_k (snd q)) (t_st (snd q))).
        { exists fls, (t_idx (snd q)). split; [exact Ef|]. split; [exact Fp|]. unfold t_k.
          destruct M as [(-> & M & E)|(-> & i & M & E)]; [left|right; exists i];
            (split; [exact M|]; split; [exact E|]; apply nth_error_nth'; congruence). }
        assert (UN : forall n k st, taken_off s kf kr name e n k st -> st = t_st (snd q)).
        { intros n k st (fls' & j' & Ef' & _ & M'). assert (fls' = fls) by congruence. subst fls'.
          assert (MU : forall i1 n1 i2 n2, met_first name fls i1 n1 -> met_first name fls i2 n2 -> i1 = i2).
          { clear. intros i1 n1 i2 n2 (st1 & b1 & f1 & a1 & X1 & Y1 & Z1 & _ & _ & W1)
              (st2 & b2 & f2 & a2 & X2 & Y2 & Z2 & _ & _ & W2).
            destruct (Nat.lt_trichotomy i1 i2) as [L|[L|L]]; [|exact L|]; exfalso.
            - apply (W2 i1 st1 L X1 f1); [rewrite Y1; apply in_or_app; right; now left|exact Z1].
            - apply (W1 i2 st2 L X2 f2); [rewrite Y2; apply in_or_app; right; now left|exact Z2]. }
          destruct M as [(_ & M & E)|(_ & i & M & E)], M' as [(M' & E0 & _)|(i' & M' & E0 & _)];
            try congruence; pose proof (MU _ _ _ _ M M'); discriminate. }
        destruct Hc as [(N1 & N2 & D)|(-> & N)]; [left|right].
        * do 3 eexists. split; [exact TK|]. split; [exact N1|]. split; [exact N2|].
          apply (d_ext (fun u => rate_with s cvgs (site_tag col) u (t_const (snd q)) (t_st (snd q)))); [|exact D].
          intro u. unfold t_const. generalize (t_st (snd q)). clear.
          induction l as [|f l IH]; cbn [rate_with]; [reflexivity|]. rewrite IH. ring.
        * split; [reflexivity|]. intros n k st T. now rewrite (UN _ _ _ T).
      + destruct (IH _ FC) as (cs' & F' & E'). exists (0 :: cs'). split; [|cbn [Rsum]; rewrite E'; ring].
        constructor; [|exact F']. right. split; [reflexivity|]. intros n k st (fls' & j' & Ef' & _ & M').
        assert (fls' = fls) by congruence. subst fls'. exfalso.
        assert (AB : forall i m, ~ met_first name fls i m).
        { intros i m (st1 & b1 & f1 & a1 & X1 & Y1 & Z1 & _). apply nth_error_In in X1.
          apply (H st1 f1 X1); [rewrite Y1; apply in_or_app; right; now left|exact Z1]. }
        destruct M' as [(M' & _)|(i & M' & _)]; exact (AB _ _ M').
  Qed.

  Lemma poly_value i name qs os : qs = somes os -> Forall2 (from_rxn name) (s_exprs s) os -> qs <> [] ->
    exists d y, poly_derivation s (cl s) col (line i qs) = Ok d /\ eval_text v d = Ok y /\
      exists cs, Forall2 (missed s kf kr cvgs name col) (s_exprs s) cs /\
       deriv (fun u => rhs_val (with_coverage cvgs j u) qs) x0 (y + 2 * Rsum cs).
  Proof.
    intros Eo Fo N. assert (Q : eqn_ok name qs) by (rewrite Eo; now apply (from_rxn_eqn name (s_exprs s))).
    destruct (pairs_derived name qs Q) as (ds & ys & F & _ & G & cs0 & FC & D0).
    assert (D : exists cs, Forall2 (missed s kf kr cvgs name col) (s_exprs s) cs /\
       deriv (fun u => rhs_val (with_coverage cvgs j u) qs) x0 (Rsum ys + 2 * Rsum cs)).
    { rewrite Eo in FC. destruct (lost_all name _ os cs0 Fo FC) as (cs & F1 & E1).
      exists cs. split; [exact F1|]. now rewrite E1. }
    clear cs0 FC D0.
    pose proof (Forall2_length _ _ _ F) as Ll. rewrite map_length in Ll.
    destruct ds as [|d ds]; [destruct qs; [congruence|discriminate]|].
    destruct (G d ds eq_refl) as (y & ys' & -> & V & G'). clear G.
    unfold poly_derivation.
    assert (W : words (line i qs) = (L "dtheta_dt[" ++ dec (N.of_nat i) ++ L "]") :: L "=" :: toks (map q_texts qs)).
    { rewrite <- (words_join (_ :: _)).
      - f_equal. rewrite !(join_cons2 (L " ")); [|destruct qs; [congruence|]; apply toks_nonnil|discriminate].
        rewrite toks_join by (destruct qs; [congruence|discriminate]). unfold line, rhs. rewrite <- ?app_assoc. reflexivity.
      - constructor; [|constructor].
        + split; [discriminate|]. rewrite forallb_app. cbn [forallb L list_ascii_of_string andb negb].
          rewrite forallb_app. apply andb_true_intro. split; [reflexivity|]. apply andb_true_intro. split; [|reflexivity].
          eapply forallb_impl; [|apply dec_digits]. intro c. all_ascii c.
        + split; [discriminate|reflexivity].
        + clear - Q DS Lf Lr. unfold eqn_ok in Q. rewrite Forall_forall in Q.
          assert (M : word_ok (L "-")) by (split; [discriminate|reflexivity]).
          assert (M' : word_ok (L "+")) by (split; [discriminate|reflexivity]).
          induction qs as [|[a b] qs IH]; [constructor|].
          destruct (Q (a, b) (or_introl eq_refl)) as (Ta & Tb & _). cbn [fst snd] in Ta, Tb.
          apply t_text_word in Ta, Tb. destruct qs as [|q qs].
          * cbn. repeat constructor; auto; apply Ta || apply Tb || apply M.
          * change (map q_texts ((a, b) :: q :: qs)) with ((t_text a, t_text b) :: q_texts q :: map q_texts qs).
            rewrite toks_cons2. do 4 (constructor; [assumption|]).
            apply IH. intros; apply Q; now right. }
    rewrite W. cbn [skipn]. rewrite every_toks.
    assert (E1 : every_other (match toks (map q_texts qs) with [] => [] | _ :: l => l end) = ops (length (map q_texts qs)))
      by apply every_ops.
    rewrite E1, (mapM_both _ _ _ F). cbn [bind]. rewrite map_length, Ll.
    assert (Lst : exists last, llast (both_sides (d :: ds)) = Ok last).
    { apply llast_ok. destruct d; discriminate. }
    destruct Lst as [last El]. rewrite El. cbn [bind].
    eexists. exists (y + Rsum ys'). split; [reflexivity|]. split.
    - apply sum_val_eval. rewrite rebuilt by (auto; discriminate). rewrite toks_join by discriminate.
      cbn [map]. rewrite join_plus. now apply G'.
    - exact D.
  Qed.
End Jac.

(** ** The matrix *)
Section Matrix.
  Variable s : setup.
  Hypothesis DS : differentiable_setup s.
  Let U : usable_setup s := proj1 DS.
  Let P : prepared s := proj1 U.
  Variables (kf kr : list R).
  Hypothesis Lf : length kf = length (s_exprs s).
  Hypothesis Lr : length kr = length (s_exprs s).

  Lemma mapM_exists {A B} (f : A -> res B) (Q : nat -> A -> B -> Prop) l : forall k,
    (forall i x, nth_error l i = Some x -> exists y, f x = Ok y /\ Q (k + i) x y) ->
    exists ys, mapM f l = Ok ys /\ length ys = length l /\
      forall i x y, nth_error l i = Some x -> nth_error ys i = Some y -> Q (k + i) x y.
  Proof.
    induction l as [|x l IH]; intros k H.
    - exists []. split; [reflexivity|]. split; [reflexivity|]. intros [|]; discriminate.
    - destruct (H 0 x eq_refl) as (y & E & Qy). destruct (IH (S k)) as (ys & E2 & L2 & Q2).
      { intros i z Hz. destruct (H (S i) z Hz) as (y' & E' & Q'). exists y'. split; auto.
        now replace (S k + i) with (k + S i) by lia. }
      exists (y :: ys). cbn [mapM]. rewrite E. cbn [bind]. rewrite E2. cbn [bind]. split; [reflexivity|].
      split; [cbn; auto|]. intros [|i] a b Ha Hb; cbn in Ha, Hb.
      + injection Ha as <-. injection Hb as <-. exact Qy.
      + replace (k + S i) with (S k + i) by lia. eauto.
  Qed.

  Lemma nth_lines qss i : forall k l, nth_error (lines k qss) i = Some l ->
    exists qs, nth_error qss i = Some qs /\ l = line (k + i) qs.
  Proof.
    revert i. induction qss as [|qs qss IH]; intros [|i] k l H; cbn in H; try discriminate.
    - injection H as <-. exists qs. rewrite Nat.add_0_r. auto.
    - destruct (IH i (S k) l H) as (qs' & E & ->). exists qs'. split; auto. f_equal. lia.
  Qed.

  Lemma lines_length k qss : length (lines k qss) = length qss.
  Proof. revert k. induction qss; intro k; cbn; auto. Qed.

  Theorem jacobian_ok cvgs : length cvgs = length (ads s) ->
    exists data J, get_data s = Ok data /\
      analytical_jacobian s (Ok (kf, kr)) (Some data) cvgs = Ok J /\
      length J = length (ads s) /\ (forall row, In row J -> length row = length (ads s)) /\
      forall i j row col x entries entry,
        nth_error (ads s) i = Some row -> nth_error (ads s) j = Some col -> nth_error cvgs j = Some x ->
        nth_error J i = Some entries -> nth_error entries j = Some entry ->
        exists f cs,
          (forall u, exists F, steady_state_function s (Ok (kf, kr)) (Some data) (with_coverage cvgs j u) = Ok F /\
                               nth_error F i = Some (f u)) /\
          Forall2 (missed s kf kr cvgs row col) (s_exprs s) cs /\
          derivable_pt_lim f x (entry + 2 * Rsum cs)%R.
  Proof.
    intro Len. destruct (steady_struct s DS kf kr Lf Lr) as (data & qss & Ed & El & F & St).
    exists data.
    assert (Hl : length qss = length (ads s)) by (symmetry; apply (Forall2_length _ _ _ F)).
    pose (v := the_env s cvgs kf kr).
    assert (Row : forall i l, nth_error (lines 0 qss) i = Some l -> exists entries,
      mapM (fun name => do d <- poly_derivation s (cl s) name l; eval_text v d) (ads s) = Ok entries /\
      (length entries = length (ads s) /\
       forall j row col x entry, nth_error (ads s) i = Some row -> nth_error (ads s) j = Some col ->
         nth_error cvgs j = Some x -> nth_error entries j = Some entry ->
         exists qs cs, nth_error qss i = Some qs /\ Forall2 (missed s kf kr cvgs row col) (s_exprs s) cs /\
           derivable_pt_lim (fun u => rhs_val s kf kr (with_coverage cvgs j u) qs) x (entry + 2 * Rsum cs)%R)).
    { intros i l Hi. destruct (nth_lines qss i 0 l Hi) as (qs & Hq & ->). cbn [Nat.add].
      assert (Hi' : i < length (ads s)) by (rewrite <- Hl; apply nth_error_Some; congruence).
      destruct (nth_error (ads s) i) as [row|] eqn:Er; [|apply nth_error_None in Er; lia].
      destruct (Forall2_at _ _ _ i row F Er) as (qs' & Hq' & (os & Eo & Fo) & N). assert (EE : qs' = qs) by congruence.
      rewrite EE in Eo, N. clear EE Hq' qs'.
      destruct (mapM_exists (fun name => do d <- poly_derivation s (cl s) name (line i qs); eval_text v d)
        (fun j col entry => forall x, nth_error cvgs j = Some x ->
           exists cs, Forall2 (missed s kf kr cvgs row col) (s_exprs s) cs /\
           derivable_pt_lim (fun u => rhs_val s kf kr (with_coverage cvgs j u) qs) x (entry + 2 * Rsum cs)%R) (ads s) 0)
        as (entries & E & Le & He).
      { intros j col Hj. assert (Hj' : j < length cvgs) by (rewrite Len; apply nth_error_Some; congruence).
        destruct (nth_error cvgs j) as [x|] eqn:Ex; [|apply nth_error_None in Ex; lia].
        destruct (poly_value s DS kf kr Lf Lr cvgs j col x Len Hj Ex i row qs os Eo Fo N) as (d & y & Ep & Ev & D).
        exists y. rewrite Ep. cbn [bind Nat.add]. split; [exact Ev|]. intros x' Hx'.
        assert (x' = x) by congruence. subst x'. exact D. }
      exists entries. split; auto. split; auto. intros j row' col x entry Hr Hc Hx He'.
      assert (row' = row) by congruence. subst row'.
      destruct (He j col entry Hc He' x Hx) as (cs & F1 & D1). exists qs, cs. auto. }
    destruct (mapM_exists (fun l => mapM (fun name => do d <- poly_derivation s (cl s) name l; eval_text v d) (ads s))
      (fun i l entries => (length entries = length (ads s) /\
       forall j row col x entry, nth_error (ads s) i = Some row -> nth_error (ads s) j = Some col ->
         nth_error cvgs j = Some x -> nth_error entries j = Some entry ->
         exists qs cs, nth_error qss i = Some qs /\ Forall2 (missed s kf kr cvgs row col) (s_exprs s) cs /\
           derivable_pt_lim (fun u => rhs_val s kf kr (with_coverage cvgs j u) qs) x (entry + 2 * Rsum cs)%R))
      (lines 0 qss) 0) as (J & EJ & LJ & HJ).
    { intros i l Hi. exact (Row i l Hi). }
    rewrite lines_length in LJ.
    exists J. split; [exact Ed|]. split.
    { unfold analytical_jacobian. rewrite (classify_ok s P). cbn [bind]. rewrite El. cbn [bind].
      rewrite lines_length, Hl, Len, Nat.eqb_refl. cbn [negb].
      rewrite (tuple2dict_ok s P cvgs Len). cbn [bind].
      assert (Ed' := get_data_ok s P). rewrite Ed in Ed'. injection Ed' as ->.
      change (mf_env (tab (coverage s cvgs) (ads s ++ sites s)) (tab (value (s_pressure s)) (l_gas (s_lists s)))
             (tab (value (s_conc s)) (l_liq (s_lists s))) kf kr) with v.
      change (l_ads (s_lists s)) with (ads s). rewrite firstn_all. exact EJ. }
    split; [congruence|]. split.
    { intros row Hr. destruct (In_nth_error _ _ Hr) as [i Hi].
      assert (Hi' : i < length (lines 0 qss)) by (rewrite lines_length, <- LJ; apply nth_error_Some; congruence).
      destruct (nth_error (lines 0 qss) i) as [l|] eqn:E; [|apply nth_error_None in E; lia].
      now apply (HJ i l row E Hi). }
    intros i j row col x entries entry Hr Hc Hx Hi He.
    assert (Hi' : i < length (lines 0 qss)) by (rewrite lines_length, <- LJ; apply nth_error_Some; congruence).
    destruct (nth_error (lines 0 qss) i) as [l|] eqn:E; [|apply nth_error_None in E; lia].
    destruct (HJ i l entries E Hi) as [_ H]. cbn [Nat.add] in H.
    destruct (H j row col x entry Hr Hc Hx He) as (qs & cs & Hq & FC & D).
    exists (fun u => rhs_val s kf kr (with_coverage cvgs j u) qs), cs. split; [|split; [exact FC|exact D]].
    intro u. eexists. split.
    - apply St. change (with_coverage cvgs j u) with (up cvgs j u). eapply up_length; eauto.
    - rewrite nth_error_map, Hq. reflexivity.
  Qed.

  (** Nothing is missed without such rates. *)
  Lemma missed_none cvgs row col es cs : (forall e, In e es -> In e (s_exprs s)) ->
    (forall fls, In fls (l_rxns (s_lists s)) -> no_clash row col fls) ->
    Forall2 (missed s kf kr cvgs row col) es cs -> Rsum cs = 0%R.
  Proof.
    intros I NC F. induction F as [|e c es cs H F IH]; [reflexivity|]. cbn [Rsum].
    rewrite IH by (intros; apply I; now right).
    destruct H as [(n & k & st & T & N1 & N2 & _)|(-> & _)]; [exfalso|apply Rplus_0_l].
    destruct T as (fls & p & Ef & Fp & M).
    destruct (formula_list_at s U p e (proj1 Fp)) as (fls' & En' & Ef'). assert (fls' = fls) by congruence. subst fls'.
    apply nth_error_In in En'. apply (NC fls En' st); [|split; assumption].
    destruct M as [(M & E & _)|(i & M & E & _)]; [left|right]; eauto.
  Qed.

  Theorem jacobian_no_clash cvgs : length cvgs = length (ads s) ->
    exists data J, get_data s = Ok data /\
      analytical_jacobian s (Ok (kf, kr)) (Some data) cvgs = Ok J /\
      length J = length (ads s) /\ (forall row, In row J -> length row = length (ads s)) /\
      forall i j row col x entries entry,
        nth_error (ads s) i = Some row -> nth_error (ads s) j = Some col -> nth_error cvgs j = Some x ->
        nth_error J i = Some entries -> nth_error entries j = Some entry ->
        (forall fls, In fls (l_rxns (s_lists s)) -> no_clash row col fls) ->
        exists f,
          (forall u, exists F, steady_state_function s (Ok (kf, kr)) (Some data) (with_coverage cvgs j u) = Ok F /\
                               nth_error F i = Some (f u)) /\
          derivable_pt_lim f x entry.
  Proof.
    intro Len. destruct (jacobian_ok cvgs Len) as (data & J & E1 & E2 & E3 & E4 & H).
    exists data, J. split; [exact E1|]. split; [exact E2|]. split; [exact E3|]. split; [exact E4|].
    intros i j row col x entries entry Hr Hc Hx Hi He NC.
    destruct (H i j row col x entries entry Hr Hc Hx Hi He) as (f & cs & Hf & FC & D).
    exists f. split; [exact Hf|].
    rewrite (missed_none cvgs row col (s_exprs s) cs (fun e I => I) NC FC), Rmult_0_r, Rplus_0_r in D. exact D.
  Qed.
End Matrix.

(** A vector of another length is refused. *)
Lemma jacobian_length s ks data cvgs : usable_setup s -> forall kf kr, ks = Ok (kf, kr) ->
  length kf = length (s_exprs s) -> length kr = length (s_exprs s) ->
  length cvgs <> length (ads s) -> analytical_jacobian s ks data cvgs = Err ParameterError.
Proof.
  intros U kf kr -> Lf Lr N. unfold analytical_jacobian. rewrite (classify_ok s (proj1 U)). cbn [bind].
  pose (c0 := repeat 0%R (length (ads s))).
  destruct (dtheta_lines_ok s U c0 kf kr (repeat_length _ _) Lf Lr (ads s) (fun n H => H) 0) as (ts & xs & E & _ & V & C).
  unfold dtheta_dt_expressions. change (l_ads (s_lists s)) with (ads s). rewrite E. cbn [bind].
  assert (Hl : forall t i l, length (number_lines t i l) = length l) by (intros t i l; revert i; induction l; intro i; cbn; auto).
  rewrite Hl. pose proof (Forall2_length _ _ _ V) as L1. pose proof (Forall2_length _ _ _ C) as L2.
  destruct (Nat.eqb_spec (length ts) (length cvgs)) as [e|e]; [|reflexivity].
  exfalso. apply N. congruence.
Qed.

(** Before the pressures were read there is no Jacobian. *)
Lemma jacobian_no_data s cvgs : usable_setup s -> forall kf kr,
  length kf = length (s_exprs s) -> length kr = length (s_exprs s) ->
  length cvgs = length (ads s) -> analytical_jacobian s (Ok (kf, kr)) None cvgs = Err AttributeError.
Proof.
  intros U kf kr Lf Lr N. unfold analytical_jacobian. rewrite (classify_ok s (proj1 U)). cbn [bind].
  destruct (dtheta_lines_ok s U cvgs kf kr N Lf Lr (ads s) (fun n H => H) 0) as (ts & xs & E & _ & V & C).
  unfold dtheta_dt_expressions. change (l_ads (s_lists s)) with (ads s). rewrite E. cbn [bind].
  assert (Hl : forall t i l, length (number_lines t i l) = length l) by (intros t i l; revert i; induction l; intro i; cbn; auto).
  rewrite Hl. pose proof (Forall2_length _ _ _ V) as L1. pose proof (Forall2_length _ _ _ C) as L2.
  destruct (Nat.eqb_spec (length ts) (length cvgs)) as [e|e]; [|exfalso; apply e; congruence]. cbn [negb].
  rewrite (tuple2dict_ok s (proj1 U) cvgs N). reflexivity.
Qed.

(** The derivative of an expression with respect to something that is no adsorbate. *)
Lemma poly_unknown s cl name poly : ~ In name (ads s) -> 2 < length (words poly) ->
  poly_derivation s cl name poly = Err ValueError.
Proof.
  intros N H. unfold poly_derivation.
  destruct (words poly) as [|a [|b [|c l]]]; cbn in H; try lia. cbn [skipn].
  assert (E : exists t, every_other (c :: l) = c :: t) by (destruct l; cbn [every_other]; eauto).
  destruct E as [t E]. rewrite E. cbn [mapM]. unfold total_derivation at 1.
  destruct (str_mem name (l_ads (s_lists s))) eqn:M; [|reflexivity].
  apply str_mem_In in M. contradiction.
Qed.
