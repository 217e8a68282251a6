(** Texts of products: where a coverage occurs in them and what the patterns of the
    derivation find there. *)
From Coq Require Import String Ascii List ZArith NArith Bool Arith Lia.
Import ListNotations.
From Verif Require Import PyBase PyBaseFacts Regex RegexFacts Rxn_Model Rxn_Proofs SS_Model.
Local Open Scope list_scope.
Local Open Scope nat_scope.

(** ** Texts with quoted names *)
Definition quote : ascii := "'"%char.
Definition no_char (q : ascii) (s : str) : Prop := forallb (fun c => negb (Ascii.eqb c q)) s = true.

Lemma no_char_app q a b : no_char q (a ++ b) <-> no_char q a /\ no_char q b.
Proof. unfold no_char. rewrite forallb_app, andb_true_iff. tauto. Qed.
Lemma no_char_In q s : no_char q s -> ~ In q s.
Proof. unfold no_char. rewrite forallb_forall. intros H I. apply H in I. now rewrite Ascii.eqb_refl in I. Qed.
Lemma no_char_mid q a b : ~ no_char q (a ++ q :: b).
Proof. intro H. apply no_char_In in H. apply H. apply in_or_app. right. now left. Qed.

Lemma quote_split q x X l z Y : no_char q x -> no_char q z -> x ++ q :: X = l ++ z ++ q :: Y ->
  (x = l ++ z /\ X = Y) \/ exists l', l = x ++ q :: l' /\ X = l' ++ z ++ q :: Y.
Proof.
  revert l. induction x as [|c x IH]; intros l Hx Hz E.
  - destruct l as [|d l]; cbn in E.
    + destruct z as [|d z]; cbn in E; [injection E as E1; now left|]. injection E as E1 E2.
      subst d. exfalso. revert Hz. apply (no_char_mid q [] z).
    + injection E as E1 E2. subst d. right. exists l. auto.
  - destruct l as [|d l]; cbn in E.
    + destruct z as [|d z]; cbn in E; injection E as E1 E2.
      * subst c. exfalso. revert Hx. apply (no_char_mid q [] x).
      * subst d. cbn in Hx, Hz. apply andb_prop in Hx as [_ Hx]. apply andb_prop in Hz as [_ Hz].
        left. clear IH. revert z Hz E2. induction x as [|c' x IH]; intros z Hz E2.
        -- destruct z as [|d z]; cbn in E2; [injection E2 as E3; subst; auto|]. injection E2 as E3 E4.
           subst d. exfalso. revert Hz. apply (no_char_mid q [] z).
        -- destruct z as [|d z]; cbn in E2; injection E2 as E3 E4.
           ++ subst c'. exfalso. revert Hx. apply (no_char_mid q [] x).
           ++ subst d. cbn in Hx, Hz. apply andb_prop in Hx as [_ Hx]. apply andb_prop in Hz as [_ Hz].
              destruct (IH Hx z Hz E4) as [E5 E6]. cbn in E5. injection E5 as E5. subst. auto.
    + injection E as E1 E2. subst d. cbn in Hx. apply andb_prop in Hx as [_ Hx].
      destruct (IH l Hx Hz E2) as [[-> ->]|(l' & -> & ->)]; [now left|right]. now exists l'.
Qed.

(** ** Products *)
Record fac := { c_tab : str; c_name : str; c_pow : str }.
Definition ftext (f : fac) : str := L "*" ++ c_tab f ++ L "['" ++ c_name f ++ L "']" ++ c_pow f.
Definition flat (fs : list fac) : str := concat (map ftext fs).

Definition pow_char (c : ascii) : bool := is_digit c || Ascii.eqb c "*".
Definition fac_ok (f : fac) : Prop :=
  (c_tab f = L "theta" \/ c_tab f = L "p" \/ c_tab f = L "c") /\
  forallb is_species_char (c_name f) = true /\ forallb pow_char (c_pow f) = true.
Definition base_char (c : ascii) : bool :=
  negb (Ascii.eqb c "t" || Ascii.eqb c "'" || Ascii.eqb c (ascii_of_nat 10)).
Definition base_ok (b : str) : Prop := forallb base_char b = true.

Lemma flat_app a b : flat (a ++ b) = flat a ++ flat b.
Proof. unfold flat. now rewrite map_app, concat_app. Qed.
Lemma flat_cons f fs : flat (f :: fs) = ftext f ++ flat fs.
Proof. reflexivity. Qed.

Lemma species_no_quote s : forallb is_species_char s = true -> no_char quote s.
Proof. apply forallb_impl. intro c. all_ascii c. Qed.
Lemma species_no_bracket s : forallb is_species_char s = true -> no_char "[" s.
Proof. apply forallb_impl. intro c. all_ascii c. Qed.
Lemma pow_base s : forallb pow_char s = true -> base_ok s.
Proof. apply forallb_impl. intro c. all_ascii c. Qed.
Lemma base_no_t b : base_ok b -> no_char "t" b.
Proof. apply forallb_impl. intro c. all_ascii c. Qed.
Lemma base_no_nl b : base_ok b -> forallb not_newline b = true.
Proof. apply forallb_impl. intro c. all_ascii c. Qed.
Lemma base_ok_app a b : base_ok (a ++ b) <-> base_ok a /\ base_ok b.
Proof. unfold base_ok. rewrite forallb_app, andb_true_iff. tauto. Qed.

Lemma app_cut {A} (a b c d : list A) : a ++ b = c ++ d ->
  (exists l, c = a ++ l /\ b = l ++ d) \/ (exists x l, a = c ++ x :: l /\ d = x :: l ++ b).
Proof.
  revert c. induction a as [|x a IH]; intros c E; cbn in E.
  - left. exists c. auto.
  - destruct c as [|y c]; cbn in E.
    + right. exists x, a. auto.
    + injection E as -> E. destruct (IH c E) as [(l & -> & ->)|(z & l & -> & ->)].
      * left. now exists l.
      * right. now exists z, l.
Qed.


(** Every occurrence of a quoted coverage is one of the factors. *)
Lemma occurs_theta fs : Forall fac_ok fs -> forall b a name r, base_ok b -> no_char quote name ->
  b ++ flat fs = a ++ theta_text name ++ r ->
  exists f1 f f2, fs = f1 ++ f :: f2 /\ c_tab f = L "theta" /\ c_name f = name /\
    a = b ++ flat f1 ++ L "*" /\ r = c_pow f ++ flat f2.
Proof.
  induction 1 as [|f fs (T & Nf & Pf) F IH]; intros b a name r B Q E.
  - cbn [flat map concat] in E. rewrite app_nil_r in E. exfalso. apply base_no_t in B. subst b.
    apply no_char_app in B as [_ B]. revert B. apply (no_char_mid "t" []).
  - rewrite flat_cons in E. unfold ftext in E.
    destruct (app_cut _ _ _ _ E) as [(l & -> & E2)|(x & l & -> & E2)].
    + destruct l as [|x l]; [discriminate|]. cbn [L list_ascii_of_string app] in E2. injection E2 as <- E2.
      assert (E3 : (c_tab f ++ L "[") ++ quote :: (c_name f ++ quote :: "]"%char :: c_pow f ++ flat fs)
                   = l ++ L "theta[" ++ quote :: (name ++ quote :: "]"%char :: r)).
      { etransitivity; [|etransitivity; [exact E2|]]; unfold theta_text;
          cbn [L list_ascii_of_string app]; rewrite <- ?app_assoc; cbn [app]; rewrite <- ?app_assoc; reflexivity. }
      clear E2. rename E3 into E2. apply quote_split in E2.
      2:{ apply no_char_app. split; [|reflexivity]. destruct T as [->|[->| ->]]; reflexivity. }
      2:reflexivity.
      destruct E2 as [[E2 E3]|(l' & -> & E3)].
      * assert (E4 : c_name f ++ quote :: "]"%char :: c_pow f ++ flat fs
                     = [] ++ name ++ quote :: "]"%char :: r) by exact E3.
        apply quote_split in E4; auto using species_no_quote.
        destruct E4 as [[E4 E5]|(l' & E4 & _)]; [|destruct (c_name f); discriminate].
        injection E5 as E5. exists [], f, fs. split; [reflexivity|].
        assert (l = [] /\ c_tab f = L "theta") as [-> Et].
        { destruct T as [T|[T|T]]; rewrite T in E2; destruct l as [|y l]; try discriminate E2;
            [split; [reflexivity|exact T]| | |];
            exfalso; apply (f_equal (@length ascii)) in E2; cbn in E2; rewrite app_length in E2; cbn in E2; lia. }
        repeat (split; auto).
      * assert (E4 : c_name f ++ quote :: ("]"%char :: c_pow f ++ flat fs)
                     = l' ++ L "theta[" ++ quote :: name ++ quote :: "]"%char :: r) by exact E3.
        apply quote_split in E4; auto using species_no_quote; [|reflexivity].
        destruct E4 as [[E4 _]|(l2 & -> & E5)].
        -- exfalso. apply species_no_bracket in Nf. rewrite E4 in Nf. apply no_char_app in Nf as [_ Nf]. discriminate.
        -- destruct (IH (L "]" ++ c_pow f) l2 name r) as (f1 & g & f2 & -> & Tg & Ng & -> & ->); auto.
           ++ apply base_ok_app. split; [reflexivity|now apply pow_base].
           ++ etransitivity; [|etransitivity; [exact E5|]]; unfold theta_text;
                cbn [L list_ascii_of_string app]; rewrite <- ?app_assoc; reflexivity.
           ++ exists (f :: f1), g, f2. split; [reflexivity|]. split; auto. split; auto. split; auto.
              rewrite flat_cons. unfold ftext. cbn [L list_ascii_of_string app].
              rewrite <- ?app_assoc. cbn [app]. rewrite <- ?app_assoc. reflexivity.
    + exfalso. cbn in E2. injection E2 as <- _. apply base_no_t in B. revert B. apply no_char_mid.
Qed.

(** ** First matches *)
Definition heads {A} (l : list A) (x : A) : Prop := exists t, l = x :: t.

Lemma heads_flat_map {A B} (k : A -> list B) l x y : heads l x -> heads (k x) y -> heads (flat_map k l) y.
Proof. intros [t ->] [u E]. cbn. rewrite E. eexists. reflexivity. Qed.
Lemma heads_map {A B} (g : A -> B) l x : heads l x -> heads (map g l) (g x).
Proof. intros [t ->]. eexists. reflexivity. Qed.
Lemma heads_app {A} (l m : list A) x : heads l x -> heads (l ++ m) x.
Proof. intros [t ->]. eexists. reflexivity. Qed.
Lemma heads_one {A} (x : A) : heads [x] x.
Proof. now exists []. Qed.

Lemma rmatch_lit s c t : rmatch (rlit s) c (s ++ t) = [(c, t)].
Proof.
  induction s as [|x s IH]; [reflexivity|]. cbn. rewrite Ascii.eqb_refl. cbn. now rewrite IH, app_nil_r.
Qed.
Lemma den_seq_inv r1 r2 s u : den (RSeq r1 r2) s u -> exists t, den r1 s t /\ den r2 t u.
Proof. intro D. inversion D; subst; eauto. Qed.
Lemma den_chr_inv p s u : den (RChr p) s u -> exists x, s = x :: u /\ p x = true.
Proof. intro D. inversion D; subst; eauto. Qed.
Lemma den_group_inv n r s u : den (RGroup n r) s u -> den r s u.
Proof. intro D. now inversion D. Qed.
Lemma den_eps_inv s u : den REps s u -> s = u.
Proof. intro D. now inversion D. Qed.
Lemma den_lit s t u : den (rlit s) t u -> t = s ++ u.
Proof.
  revert t. induction s as [|x s IH]; intros t D; cbn in D.
  - now apply den_eps_inv in D.
  - apply den_seq_inv in D as (t' & D1 & D2). apply den_chr_inv in D1 as (y & -> & E).
    apply Ascii.eqb_eq in E. subst y. apply IH in D2. subst. reflexivity.
Qed.

Lemma rmatch_theta name c t :
  rmatch (RSeq (rlit (L "theta['")) (RSeq (rlit name) (rlit (L "']")))) c (theta_text name ++ t) = [(c, t)].
Proof.
  unfold theta_text. rewrite <- !app_assoc.
  change (rmatch (RSeq (rlit (L "theta['")) (RSeq (rlit name) (rlit (L "']")))) c
            (L "theta['" ++ name ++ L "']" ++ t))
    with (flat_map (fun m => flat_map (fun m2 => rmatch (rlit (L "']")) (fst m2) (snd m2))
                                      (rmatch (rlit name) (fst m) (snd m)))
                   (rmatch (rlit (L "theta['")) c (L "theta['" ++ name ++ L "']" ++ t))).
  rewrite rmatch_lit. cbn [flat_map fst snd]. rewrite rmatch_lit. cbn [flat_map fst snd].
  rewrite rmatch_lit. reflexivity.
Qed.
Lemma den_theta name t u :
  den (RSeq (rlit (L "theta['")) (RSeq (rlit name) (rlit (L "']")))) t u -> t = theta_text name ++ u.
Proof.
  intro D. apply den_seq_inv in D as (t1 & D1 & D). apply den_seq_inv in D as (t2 & D2 & D3).
  apply den_lit in D1, D2, D3. subst. unfold theta_text. now rewrite <- !app_assoc.
Qed.

(** Exponents of one digit. *)
Definition small_pow (pow : str) (n : Z) : Prop :=
  (pow = [] /\ n = 1%Z) \/ (exists d, is_digit d = true /\ pow = L "**" ++ [d] /\ n = int_of [d]).
Definition pow_caps (g : nat) (pow : str) (c : caps) : caps :=
  match pow with _ :: _ :: d => (g, pow) :: (S g, d) :: c | _ => (g, []) :: c end.
Definition rest_caps (g : nat) (q : str) (c : caps) : caps :=
  match q with [] => (g, []) :: c | _ :: q' => (g, q) :: (S g, q') :: c end.
Definition tail_ok (q : str) : Prop :=
  forallb not_newline q = true /\ (q = [] \/ exists x q', q = "*"%char :: x :: q' /\ x <> "*"%char).

Lemma star_rests_all p s : forallb p s = true -> heads (star_rests p s) [].
Proof.
  intro H. destruct (star_rests_stop p s [] H I) as [l E]. rewrite app_nil_r in E. now exists l.
Qed.

Lemma consumed_all s : consumed s [] = s.
Proof. unfold consumed. cbn [length]. rewrite Nat.sub_0_r. apply firstn_all. Qed.
Lemma consumed_self s : consumed s s = [].
Proof. unfold consumed. now rewrite Nat.sub_diag. Qed.

Lemma tail_first g c pow n q : small_pow pow n -> tail_ok q ->
  heads (rmatch (tail_pattern g) c (pow ++ q)) (rest_caps (S (S g)) q (pow_caps g pow c), []).
Proof.
  intros P [Hn Hq]. unfold tail_pattern.
  set (second := RGroup (S (S g)) (ROpt (RSeq star (RGroup (S (S (S g))) (RStar not_newline))))).
  assert (S2 : forall c', heads (rmatch second c' q) (rest_caps (S (S g)) q c', [])).
  { intro c'. destruct Hq as [->|(x & q' & -> & Nx)]; cbn [rest_caps].
    - eexists. reflexivity.
    - remember (x :: q') as y eqn:Ey. unfold second. cbn [rmatch ROpt star].
      assert (Hy : forallb not_newline y = true) by (cbn in Hn; subst y; exact Hn).
      rewrite Ascii.eqb_refl. cbn [flat_map fst snd]. rewrite app_nil_r.
      pose proof (star_rests_all not_newline y Hy) as [l E]. rewrite E. cbn [map app].
      rewrite !consumed_all. eexists. reflexivity. }
  change (heads (flat_map (fun m => rmatch second (fst m) (snd m))
            (rmatch (RGroup g (ROpt (RSeq (rlit (L "**")) (RGroup (S g) (RChr is_digit))))) c (pow ++ q)))
            (rest_caps (S (S g)) q (pow_caps g pow c), [])).
  apply (heads_flat_map _ _ (pow_caps g pow c, q)); [|apply S2].
  destruct P as [[-> _]|(d & D & -> & _)].
  - cbn [pow_caps app].
    assert (E : rmatch (RSeq (rlit (L "**")) (RGroup (S g) (RChr is_digit))) c q = []).
    { destruct Hq as [->|(x & q' & -> & Nx)]; [reflexivity|].
      cbn [rmatch rlit L list_ascii_of_string]. rewrite Ascii.eqb_refl. cbn [flat_map fst snd app].
      replace (Ascii.eqb "*" x) with false; [reflexivity|]. symmetry. apply Ascii.eqb_neq. congruence. }
    change (heads (map (fun m => ((g, consumed q (snd m)) :: fst m, snd m))
      (rmatch (RSeq (rlit (L "**")) (RGroup (S g) (RChr is_digit))) c q ++ [(c, q)])) ((g, []) :: c, q)).
    rewrite E. cbn [app map fst snd]. rewrite consumed_self. apply heads_one.
  - cbn [pow_caps app L list_ascii_of_string].
    change (heads (map (fun m => ((g, consumed (L "**" ++ [d] ++ q) (snd m)) :: fst m, snd m))
      (rmatch (RSeq (rlit (L "**")) (RGroup (S g) (RChr is_digit))) c (L "**" ++ [d] ++ q)
       ++ [(c, L "**" ++ [d] ++ q)])) ((g, L "**" ++ [d]) :: (S g, [d]) :: c, q)).
    assert (E : rmatch (RSeq (rlit (L "**")) (RGroup (S g) (RChr is_digit))) c (L "**" ++ [d] ++ q)
                = [((S g, [d]) :: c, q)]).
    { change (flat_map (fun m => rmatch (RGroup (S g) (RChr is_digit)) (fst m) (snd m))
                (rmatch (rlit (L "**")) c (L "**" ++ [d] ++ q)) = [((S g, [d]) :: c, q)]).
      rewrite rmatch_lit. cbn [flat_map fst snd rmatch app]. rewrite D. cbn [map fst snd app].
      change (d :: q) with ([d] ++ q). now rewrite consumed_app. }
    rewrite E. cbn [app map fst snd].
    replace ((g, L "**" ++ [d]) :: (S g, [d]) :: c, q)
      with ((g, consumed (L "**" ++ [d] ++ q) q) :: (S g, [d]) :: c, q).
    + eexists. reflexivity.
    + rewrite (app_assoc (L "**") [d] q), consumed_app. reflexivity.
Qed.

(** ** The patterns of the derivation *)
Definition core (g : nat) (name : str) : re :=
  RSeq (RGroup g (RSeq (rlit (L "theta['")) (RSeq (rlit name) (rlit (L "']"))))) (tail_pattern (S g)).

Lemma core_first g name c pow n q : small_pow pow n -> tail_ok q ->
  heads (rmatch (core g name) c (theta_text name ++ pow ++ q))
    (rest_caps (S (S (S g))) q (pow_caps (S g) pow ((g, theta_text name) :: c)), []).
Proof.
  intros P Q. unfold core.
  change (heads (flat_map (fun m => rmatch (tail_pattern (S g)) (fst m) (snd m))
    (map (fun m => ((g, consumed (theta_text name ++ pow ++ q) (snd m)) :: fst m, snd m))
       (rmatch (RSeq (rlit (L "theta['")) (RSeq (rlit name) (rlit (L "']")))) c (theta_text name ++ pow ++ q))))
    (rest_caps (S (S (S g))) q (pow_caps (S g) pow ((g, theta_text name) :: c)), [])).
  rewrite rmatch_theta. cbn [map fst snd flat_map]. rewrite consumed_app. rewrite app_nil_r.
  now apply (tail_first (S g) _ pow n q).
Qed.
Lemma core_none g name c t : (forall r, t <> theta_text name ++ r) -> rmatch (core g name) c t = [].
Proof.
  intro H. apply rmatch_nil_iff. intros u D. unfold core in D.
  apply den_seq_inv in D as (t1 & D & _). apply den_group_inv, den_theta in D. now apply (H t1).
Qed.

(** A product with one power of a coverage in it, and no further one after it. *)
Section Product.
  Variables (b : str) (f1 : list fac) (name pow : str) (n : Z) (f2 : list fac).
  Hypothesis B : base_ok b.
  Hypothesis F1 : Forall fac_ok f1.
  Hypothesis F2 : Forall fac_ok f2.
  Hypothesis Nm : forallb is_species_char name = true.
  Hypothesis Pw : small_pow pow n.
  Hypothesis Last : forall f, In f f2 -> c_tab f = L "theta" -> c_name f <> name.

  Definition this : fac := {| c_tab := L "theta"; c_name := name; c_pow := pow |}.
  Definition pre : str := b ++ flat f1.

  Lemma small_pow_chars : forallb pow_char pow = true.
  Proof.
    destruct Pw as [[-> _]|(d & D & -> & _)]; [reflexivity|]. cbn. unfold pow_char. now rewrite D.
  Qed.
  Lemma this_ok : fac_ok this.
  Proof. split; [now left|]. split; [exact Nm|exact small_pow_chars]. Qed.

  Lemma product_text : b ++ flat (f1 ++ this :: f2) = pre ++ L "*" ++ theta_text name ++ pow ++ flat f2.
  Proof.
    unfold pre. rewrite flat_app, flat_cons. unfold ftext, theta_text. cbn [c_tab c_name c_pow this].
    cbn [L list_ascii_of_string app]. rewrite <- ?app_assoc. cbn [app]. rewrite <- ?app_assoc. reflexivity.
  Qed.

  Lemma ftext_no_nl f : fac_ok f -> forallb not_newline (ftext f) = true.
  Proof.
    intros (T & S & P). unfold ftext. rewrite !forallb_app.
    assert (A1 : forallb not_newline (c_tab f) = true) by (destruct T as [->|[->| ->]]; reflexivity).
    assert (A2 : forallb not_newline (c_name f) = true).
    { revert S. apply forallb_impl. intro c. all_ascii c. }
    rewrite A1, A2, (base_no_nl _ (pow_base _ P)). reflexivity.
  Qed.
  Lemma flat_no_nl fs : Forall fac_ok fs -> forallb not_newline (flat fs) = true.
  Proof.
    induction 1 as [|f fs H F IH]; [reflexivity|]. rewrite flat_cons, forallb_app, ftext_no_nl, IH; auto.
  Qed.
  Lemma pre_no_nl : forallb not_newline pre = true.
  Proof. unfold pre. rewrite forallb_app, (base_no_nl _ B), flat_no_nl; auto. Qed.

  Lemma flat_tail_ok : tail_ok (flat f2).
  Proof.
    split; [now apply flat_no_nl|]. destruct F2 as [|f fs (T & _) F]; [now left|]. right.
    rewrite flat_cons. unfold ftext.
    destruct T as [E|[E|E]]; rewrite E; eexists; eexists; split; try reflexivity; discriminate.
  Qed.

  Lemma no_later a r : a <> [] -> L "*" ++ theta_text name ++ pow ++ flat f2 = a ++ L "*" ++ theta_text name ++ r -> False.
  Proof.
    intros Na E.
    assert (E2 : [] ++ flat (this :: f2) = (a ++ L "*") ++ theta_text name ++ r).
    { rewrite <- app_assoc. rewrite <- E. rewrite flat_cons. unfold ftext, theta_text. cbn [c_tab c_name c_pow this].
      cbn [L list_ascii_of_string app]. rewrite <- ?app_assoc. cbn [app]. rewrite <- ?app_assoc. reflexivity. }
    apply occurs_theta in E2; auto using species_no_quote; [| |reflexivity].
    - destruct E2 as (g1 & g & g2 & E3 & Tg & Ng & Ea & _). destruct g1 as [|x g1].
      + cbn [app flat map concat] in Ea. apply (app_inj_tail a []) in Ea as [Ea _]. contradiction.
      + cbn [app] in E3. injection E3 as _ ->. apply (Last g); auto. apply in_or_app. right. now left.
    - constructor; [exact this_ok|exact F2].
  Qed.

  Definition term_caps : caps :=
    rest_caps 6 (flat f2) (pow_caps 4 pow ((3, theta_text name) :: (1, pre ++ L "*") :: (2, pre) :: [])).

  Lemma term_search :
    search (term_pattern (rlit name)) (b ++ flat (f1 ++ this :: f2))
    = Some {| m_before := []; m_caps := term_caps; m_rest := [] |}.
  Proof.
    rewrite product_text. set (T := pre ++ L "*" ++ theta_text name ++ pow ++ flat f2).
    assert (H : heads (rmatch (term_pattern (rlit name)) [] T) (term_caps, [])).
    { pose (k := fun rest : str =>
        flat_map (fun m : caps * str => rmatch (core 3 name) ((1, consumed T (snd m)) :: fst m) (snd m))
                 (rmatch star [(2, consumed T rest)] rest)).
      assert (E : rmatch (term_pattern (rlit name)) [] T
                  = flat_map k (star_rests not_newline T) ++ rmatch (core 3 name) [(1, consumed T T)] T).
      { change (rmatch (term_pattern (rlit name)) [] T)
          with (flat_map (fun m => rmatch (core 3 name) (fst m) (snd m))
                 (map (fun m => ((1, consumed T (snd m)) :: fst m, snd m))
                   (rmatch (RSeq (RGroup 2 (RStar not_newline)) star) [] T ++ [([], T)]))).
        rewrite map_app, flat_map_app. cbn [map flat_map fst snd]. rewrite app_nil_r. f_equal.
        rewrite rmatch_group_star. unfold k.
        induction (star_rests not_newline T) as [|x l IH]; [reflexivity|]. cbn [flat_map].
        rewrite map_app, flat_map_app, IH. f_equal.
        generalize (rmatch star [(2, consumed T x)] x) as ms. induction ms as [|m ms IHm]; [reflexivity|].
        cbn [map flat_map fst snd]. now rewrite IHm. }
      rewrite E. apply heads_app.
      destruct (star_first not_newline k pre (L "*" ++ theta_text name ++ pow ++ flat f2) pre_no_nl) as [ys Ey].
      { intros a r Ea Na _. destruct r as [|x r]; [reflexivity|]. unfold k, star. cbn [rmatch].
        destruct (Ascii.eqb_spec "*" x) as [<-|_]; [|reflexivity]. cbn [flat_map fst snd].
        rewrite core_none; [reflexivity|]. intros u ->. apply (no_later a u); auto. }
      fold T in Ey. rewrite Ey. apply heads_app. unfold k.
      assert (Ec : consumed T (L "*" ++ theta_text name ++ pow ++ flat f2) = pre) by apply consumed_app.
      rewrite Ec. change (rmatch star [(2, pre)] (L "*" ++ theta_text name ++ pow ++ flat f2))
        with [([(2, pre)], theta_text name ++ pow ++ flat f2)]. cbn [flat_map fst snd].
      assert (Ec2 : consumed T (theta_text name ++ pow ++ flat f2) = pre ++ L "*").
      { unfold T. rewrite (app_assoc pre (L "*")). apply consumed_app. }
      rewrite Ec2. rewrite app_nil_r. apply (core_first 3 name _ pow n (flat f2) Pw flat_tail_ok). }
    destruct H as [l E]. exact (search_first _ _ _ _ l E).
  Qed.

  Definition both_caps : caps :=
    rest_caps 5 (flat f2) (pow_caps 3 pow ((2, theta_text name) :: (1, pre) :: [])).

  Lemma both_search :
    search (both_pattern name) (b ++ flat (f1 ++ this :: f2))
    = Some {| m_before := []; m_caps := both_caps; m_rest := [] |}.
  Proof.
    rewrite product_text. set (T := pre ++ L "*" ++ theta_text name ++ pow ++ flat f2).
    assert (H : heads (rmatch (both_pattern name) [] T) (both_caps, [])).
    { pose (k := fun rest : str =>
        flat_map (fun m : caps * str => rmatch (core 2 name) (fst m) (snd m))
                 (rmatch star [(1, consumed T rest)] rest)).
      assert (E : rmatch (both_pattern name) [] T = flat_map k (star_rests not_newline T)).
      { change (both_pattern name) with (RSeq (RGroup 1 (RStar not_newline)) (RSeq star (core 2 name))).
        rewrite rmatch_group_star. reflexivity. }
      rewrite E.
      destruct (star_first not_newline k pre (L "*" ++ theta_text name ++ pow ++ flat f2) pre_no_nl) as [ys Ey].
      { intros a r Ea Na _. destruct r as [|x r]; [reflexivity|]. unfold k, star. cbn [rmatch].
        destruct (Ascii.eqb_spec "*" x) as [<-|_]; [|reflexivity]. cbn [flat_map fst snd].
        rewrite core_none; [reflexivity|]. intros u ->. apply (no_later a u); auto. }
      fold T in Ey. rewrite Ey. apply heads_app. unfold k.
      assert (Ec : consumed T (L "*" ++ theta_text name ++ pow ++ flat f2) = pre) by apply consumed_app.
      rewrite Ec. change (rmatch star [(1, pre)] (L "*" ++ theta_text name ++ pow ++ flat f2))
        with [([(1, pre)], theta_text name ++ pow ++ flat f2)]. cbn [flat_map fst snd].
      rewrite app_nil_r. apply (core_first 2 name _ pow n (flat f2) Pw flat_tail_ok). }
    destruct H as [l E]. exact (search_first _ _ _ _ l E).
  Qed.
End Product.
