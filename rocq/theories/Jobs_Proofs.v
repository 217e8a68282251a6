From Coq Require Import String Ascii List ZArith Bool Arith Lia.
Import ListNotations.
From Verif Require Import PyBase PyBaseFacts PyData_Model PyData_Spec PyData_Proofs Jobs_Model Jobs_Read Jobs_Spec.
Local Open Scope list_scope.

Section SvalInd.
  Variable P : sval -> Prop.
  Hypothesis HNum : forall s, P (WNum s).
  Hypothesis HStr : forall s, P (WStr s).
  Hypothesis HWord : forall s, P (WWord s).
  Hypothesis HList : forall l, Forall P l -> P (WList l).
  Hypothesis HTuple : forall l, Forall P l -> P (WTuple l).
  Hypothesis HDict : forall d, Forall (fun kv => P (snd kv)) d -> P (WDict d).
  Fixpoint sval_ind2 (v : sval) : P v :=
    match v with
    | WNum s => HNum s
    | WStr s => HStr s
    | WWord s => HWord s
    | WList l => HList l ((fix go l : Forall P l := match l with
                                       | [] => Forall_nil P
                                       | x :: t => Forall_cons x (sval_ind2 x) (go t)
                                       end) l)
    | WTuple l => HTuple l ((fix go l : Forall P l := match l with
                                       | [] => Forall_nil P
                                       | x :: t => Forall_cons x (sval_ind2 x) (go t)
                                       end) l)
    | WDict d => HDict d ((fix go d : Forall (fun kv => P (snd kv)) d := match d with
                                       | [] => Forall_nil _
                                       | kx :: t => Forall_cons kx (sval_ind2 (snd kx)) (go t)
                                       end) d)
    end.
End SvalInd.

(** ** The shape of the definitions *)
Lemma literal_list l : literal (WList l) <-> Forall literal l.
Proof.
  cbn [literal]. induction l as [|x l IH]; [split; [constructor|auto]|].
  rewrite IH. split; [intros [H1 H2]; now constructor|inversion 1; auto].
Qed.
Lemma literal_tuple l : literal (WTuple l) <-> Forall literal l.
Proof. exact (literal_list l). Qed.
Definition entry_ok (kv : str * sval) : Prop := plain (fst kv) = true /\ literal (snd kv).
Lemma literal_dict d : literal (WDict d) <-> NoDup (map fst d) /\ Forall entry_ok d.
Proof.
  cbn [literal]. apply and_iff_compat_l. induction d as [|[k x] d IH]; [split; [constructor|auto]|].
  rewrite IH. unfold entry_ok. split.
  - intros (H1 & H2 & H3). constructor; auto.
  - inversion 1; subst. cbn in *. tauto.
Qed.

Definition repr_entry (kv : str * sval) : res str :=
  do a <- repr_text (fst kv); do b <- repr_sval (snd kv); Ok (a ++ L ": " ++ b).

Lemma repr_wlist l : repr_sval (WList l) = do ts <- mapM repr_sval l; Ok (L "[" ++ join (L ", ") ts ++ L "]").
Proof.
  cbn [repr_sval]. f_equal. induction l as [|x l IH]; [reflexivity|]. cbn [mapM]. now rewrite IH.
Qed.
Lemma repr_wtuple l : repr_sval (WTuple l) = do ts <- mapM repr_sval l;
  match ts with [x] => Ok (L "(" ++ x ++ L ",)") | _ => Ok (L "(" ++ join (L ", ") ts ++ L ")") end.
Proof.
  cbn [repr_sval]. f_equal. induction l as [|x l IH]; [reflexivity|]. cbn [mapM]. now rewrite IH.
Qed.
Lemma repr_wdict d : repr_sval (WDict d) = do ts <- mapM repr_entry d; Ok (L "{" ++ join (L ", ") ts ++ L "}").
Proof.
  cbn [repr_sval]. f_equal. induction d as [|[k x] d IH]; [reflexivity|]. cbn [mapM].
  unfold repr_entry at 1. cbn [fst snd]. rewrite IH.
  destruct (repr_text k); [|reflexivity]. cbn [bind]. destruct (repr_sval x); [|reflexivity].
  cbn [bind]. reflexivity.
Qed.

(** ** Size *)
Fixpoint size (v : sval) : nat :=
  match v with
  | WList l | WTuple l => 2 + (fix go l := match l with [] => 0 | x :: t => 1 + size x + go t end) l
  | WDict d => 2 + (fix go d := match d with [] => 0 | (_, x) :: t => 2 + size x + go t end) d
  | _ => 1
  end.
Definition total_size (l : list sval) : nat := list_sum (map (fun x => 1 + size x) l).
Definition entry_size (d : list (str * sval)) : nat := list_sum (map (fun kv => 2 + size (snd kv)) d).
Lemma size_list l : size (WList l) = 2 + total_size l.
Proof. cbn [size]. f_equal. induction l as [|x l IH]; [reflexivity|]. rewrite IH. reflexivity. Qed.
Lemma size_tuple l : size (WTuple l) = 2 + total_size l.
Proof. exact (size_list l). Qed.
Lemma size_dict d : size (WDict d) = 2 + entry_size d.
Proof. cbn [size]. f_equal. induction d as [|[k x] d IH]; [reflexivity|]. rewrite IH. reflexivity. Qed.
Lemma total_cons x l : total_size (x :: l) = 1 + size x + total_size l. Proof. reflexivity. Qed.
Lemma entry_cons kv d : entry_size (kv :: d) = 2 + size (snd kv) + entry_size d. Proof. reflexivity. Qed.

(** ** Characters *)
Definition stop (r : str) : Prop :=
  match r with [] => True | c :: _ => In c [","%char; "]"%char; ")"%char; "}"%char; ":"%char; nl] end.

Lemma stop_skip r : stop r -> skip r = r.
Proof.
  destruct r as [|c r]; [reflexivity|]. cbn [stop skip]. intro H.
  repeat (destruct H as [<-|H]; [reflexivity|]). destruct H.
Qed.

Lemma take_app f a r : forallb f a = true -> match r with [] => True | c :: _ => f c = false end ->
  take_while f (a ++ r) = (a, r).
Proof.
  intros Ha Hr. induction a as [|c a IH]; cbn [app take_while].
  - destruct r as [|c r]; [reflexivity|]. cbn [take_while]. now rewrite Hr.
  - cbn [forallb] in Ha. apply andb_true_iff in Ha as [H1 H2]. rewrite H1, IH by assumption. reflexivity.
Qed.

Lemma plain_text s : plain s = true -> forallb text_char s = true.
Proof.
  unfold plain. intro H. apply forallb_forall. intros c HI. rewrite forallb_forall in H.
  specialize (H c HI). unfold plain_char in H. apply andb_true_iff in H as [H1 H3].
  apply andb_true_iff in H1 as [H1 H2]. unfold text_char. rewrite H2, H3. cbn [andb].
  destruct (Ascii.eqb_spec c nl) as [->|]; [vm_compute in H1; discriminate|reflexivity].
Qed.

Lemma text_chars s : forallb text_char s = true <-> ~ In quote s /\ ~ In "\"%char s /\ ~ In nl s.
Proof.
  rewrite forallb_forall. unfold text_char. split.
  - intro H. repeat split; intro X; apply H in X; vm_compute in X; discriminate.
  - intros (A & B & C) c HI. destruct (Ascii.eqb_spec c quote) as [->|]; [contradiction|].
    destruct (Ascii.eqb_spec c "\") as [->|]; [contradiction|].
    destruct (Ascii.eqb_spec c nl) as [->|]; [contradiction|reflexivity].
Qed.

Lemma read_text_ok s r : forallb text_char s = true -> stop r -> read_text (s ++ quote :: r) = Ok (s, r).
Proof.
  intros H Hr. unfold read_text. rewrite take_app by (assumption || reflexivity).
  rewrite Ascii.eqb_refl, stop_skip by assumption. destruct r as [|c r]; [reflexivity|].
  cbn [stop] in Hr. repeat (destruct Hr as [<-|Hr]; [reflexivity|]). destruct Hr.
Qed.

Definition starts (s : str) : Prop :=
  exists c t, s = c :: t /\ ~ In c [" "%char; ","%char; "]"%char; ")"%char; "}"%char; ":"%char; nl].

Lemma starts_app s r : starts s -> starts (s ++ r).
Proof. intros (c & t & -> & H). exists c, (t ++ r). auto. Qed.
Lemma starts_skip s : starts s -> skip s = s.
Proof.
  intros (c & t & -> & H). cbn [skip]. destruct (Ascii.eqb_spec c " ") as [->|]; [|reflexivity].
  destruct H. now left.
Qed.
Lemma starts_not s c : starts s -> In c [" "%char; ","%char; "]"%char; ")"%char; "}"%char; ":"%char; nl] ->
  exists a t, s = a :: t /\ Ascii.eqb a c = false.
Proof.
  intros (a & t & -> & H) HI. exists a, t. split; [reflexivity|].
  destruct (Ascii.eqb_spec a c) as [->|]; [contradiction|reflexivity].
Qed.

Lemma repr_text_ok s t : repr_text s = Ok t -> plain s = true /\ t = quote :: s ++ [quote].
Proof.
  unfold repr_text. destruct (plain s); [|discriminate]. intro H. injection H as <-. auto.
Qed.

Lemma repr_starts v s : literal v -> repr_sval v = Ok s -> starts s.
Proof.
  intros HL H. destruct v.
  - injection H as <-. destruct (number_first _ HL) as (c & t & -> & HC & _). exists c, t.
    split; [reflexivity|]. intro X. repeat (destruct X as [<-|X]; [vm_compute in HC; discriminate|]). destruct X.
  - apply repr_text_ok in H as [_ ->]. eexists _, _. split; [reflexivity|].
    intro X. repeat (destruct X as [X|X]; [discriminate|]). destruct X.
  - injection H as <-. cbn in HL. unfold words in HL.
    repeat (destruct HL as [<-|HL]; [eexists _, _; split; [reflexivity|];
      intro X; repeat (destruct X as [X|X]; [discriminate|]); destruct X|]). destruct HL.
  - rewrite repr_wlist in H. destruct (mapM repr_sval l); [|discriminate]. cbn [bind] in H. injection H as <-.
    eexists _, _. split; [reflexivity|]. intro X. repeat (destruct X as [X|X]; [discriminate|]). destruct X.
  - rewrite repr_wtuple in H. destruct (mapM repr_sval l) as [ts|]; [|discriminate]. cbn [bind] in H.
    assert (exists q, s = "("%char :: q) as [q ->].
    { destruct ts as [|a [|b ts]]; injection H as <-; eexists; reflexivity. }
    eexists _, _. split; [reflexivity|]. intro X. repeat (destruct X as [X|X]; [discriminate|]). destruct X.
  - rewrite repr_wdict in H. destruct (mapM repr_entry d); [|discriminate]. cbn [bind] in H. injection H as <-.
    eexists _, _. split; [reflexivity|]. intro X. repeat (destruct X as [X|X]; [discriminate|]). destruct X.
Qed.

(** ** Reading back one value *)
Definition back (v : sval) : Prop := literal v -> forall s r n, repr_sval v = Ok s -> stop r ->
  (size v <= n)%nat -> read_sval n (s ++ r) = Ok (v, r).

Lemma read_blank n s : read_sval n (" "%char :: s) = read_sval n s.
Proof. destruct n; reflexivity. Qed.
Lemma items_blank n c s : read_items n c (" "%char :: s) = read_items n c s.
Proof. destruct n; reflexivity. Qed.
Lemma entries_blank n s : read_entries n (" "%char :: s) = read_entries n s.
Proof. destruct n; reflexivity. Qed.

Lemma back_num s : back (WNum s).
Proof.
  intros HL t r n H Hr Hn. injection H as <-. cbn [literal] in HL. cbn [size] in Hn. destruct n as [|n]; [lia|].
  cbn [read_sval]. destruct (number_first _ HL) as (c & t & -> & HC & HT).
  assert (starts (c :: t)) as HS by (apply (repr_starts (WNum (c :: t))); [exact HL|reflexivity]).
  rewrite (starts_skip _ (starts_app _ r HS)). cbn [app].
  destruct (first_not c HC) as (N1 & N2 & N3). rewrite N3, HC.
  change (c :: t ++ r) with ((c :: t) ++ r). rewrite take_app.
  - rewrite HL. reflexivity.
  - unfold number_text in HL. destruct (nrun NStart (c :: t)) eqn:E; [|discriminate]. exact (nrun_chars _ _ _ E).
  - destruct r as [|c' r]; [exact I|]. cbn [stop] in Hr.
    repeat (destruct Hr as [<-|Hr]; [reflexivity|]). destruct Hr.
Qed.

Lemma read_quoted n s r : forallb text_char s = true -> stop r ->
  read_sval (S n) ((quote :: s ++ [quote]) ++ r) = Ok (WStr s, r).
Proof.
  intros H Hr. cbn [read_sval app skip].
  change (Ascii.eqb quote " ") with false. cbn iota. rewrite Ascii.eqb_refl.
  rewrite <- app_assoc. cbn [app]. rewrite read_text_ok by assumption. reflexivity.
Qed.

Lemma back_str s : back (WStr s).
Proof.
  intros HL t r n H Hr Hn. apply repr_text_ok in H as [HP ->]. cbn [size] in Hn. destruct n as [|n]; [lia|].
  apply read_quoted; [now apply plain_text|assumption].
Qed.

Lemma stop_word r : stop r -> match r with [] => True | c :: _ => is_word c = false end.
Proof.
  destruct r as [|c r]; [auto|]. cbn [stop]. intro Hr.
  repeat (destruct Hr as [<-|Hr]; [reflexivity|]). destruct Hr.
Qed.

Lemma back_word s : back (WWord s).
Proof.
  intros HL t r n H Hr Hn. injection H as <-. cbn [literal] in HL. cbn [size] in Hn. destruct n as [|n]; [lia|].
  pose proof (repr_starts (WWord s) s HL eq_refl) as HS. cbn [read_sval].
  rewrite (starts_skip _ (starts_app _ r HS)).
  assert (take_while is_word (s ++ r) = (s, r)) as ET.
  { apply take_app; [|now apply stop_word]. unfold words in HL.
    repeat (destruct HL as [<-|HL]; [reflexivity|]). destruct HL. }
  assert (str_mem s words = true) as EM by now apply str_mem_In.
  assert (exists c t, s = c :: t /\ Ascii.eqb c quote = false /\ (is_digit c || Ascii.eqb c "-") = false /\
            is_letter c = true) as (c & t & -> & N1 & N2 & N3).
  { unfold words in HL. repeat (destruct HL as [<-|HL]; [eexists _, _; repeat split|]). destruct HL. }
  cbn [app] in *. rewrite N1, N2, N3, ET, EM. reflexivity.
Qed.

(** ** Unfolding *)
Lemma Ok_inj {A} (a b : A) : Ok a = Ok b -> b = a.
Proof. intro H. now injection H. Qed.

Lemma items_S n close s : read_items (S n) close s =
      match skip s with
      | [] => Err SyntaxError
      | c :: t =>
          if Ascii.eqb c close then Ok ([], true, t)
          else
            do (x, r) <- read_sval n (c :: t);
            match skip r with
            | c' :: r' =>
                if Ascii.eqb c' close then Ok ([x], false, r')
                else if Ascii.eqb c' "," then
                  do (l, comma, r'') <- read_items n close r'; Ok (x :: l, comma, r'')
                else Err Unsupported
            | [] => Err SyntaxError
            end
      end.
Proof. reflexivity. Qed.
Lemma entries_S n s : read_entries (S n) s =
      match skip s with
      | [] => Err SyntaxError
      | c :: t =>
          if Ascii.eqb c "}" then Ok ([], t)
          else
            do (k, r) <- read_sval n (c :: t);
            match k, skip r with
            | WStr key, c1 :: r1 =>
                if Ascii.eqb c1 ":" then
                  do (x, r2) <- read_sval n r1;
                  match skip r2 with
                  | c2 :: r3 =>
                      if Ascii.eqb c2 "}" then Ok ([(key, x)], r3)
                      else if Ascii.eqb c2 "," then
                        do (d, r4) <- read_entries n r3;
                        Ok (fold_left (fun m kv => dset m (fst kv) (snd kv)) d [(key, x)], r4)
                      else Err Unsupported
                  | [] => Err SyntaxError
                  end
                else Err Unsupported
            | _, _ => Err Unsupported
            end
      end.
Proof. reflexivity. Qed.
Lemma bracket_S n t : read_sval (S n) ("["%char :: t) = do (l, _, r) <- read_items n "]"%char t; Ok (WList l, r).
Proof. reflexivity. Qed.
Lemma paren_S n t : read_sval (S n) ("("%char :: t) =
  do (l, comma, r) <- read_items n ")"%char t;
  match l, comma with [x], false => Ok (x, r) | _, _ => Ok (WTuple l, r) end.
Proof. reflexivity. Qed.
Lemma brace_S n t : read_sval (S n) ("{"%char :: t) = do (d, r) <- read_entries n t; Ok (WDict d, r).
Proof. reflexivity. Qed.

Lemma items_ok l ts : Forall back l -> Forall literal l -> mapM repr_sval l = Ok ts ->
  forall close r n, In close ["]"%char; ")"%char] -> (1 + total_size l <= n)%nat ->
  read_items n close (join (L ", ") ts ++ close :: r) = Ok (l, match l with [] => true | _ => false end, r).
Proof.
  intros HB HL. revert ts. induction l as [|x l IH]; intros ts H close r n Hc Hn.
  - injection H as <-. cbn [join app]. destruct n as [|n]; [lia|]. rewrite items_S.
    destruct Hc as [<-|[<-|[]]]; reflexivity.
  - cbn [mapM] in H. destruct (repr_sval x) as [s|] eqn:ES; [|discriminate]. cbn [bind] in H.
    destruct (mapM repr_sval l) as [us|] eqn:EM; [|discriminate]. cbn [bind] in H. injection H as <-.
    rewrite total_cons in Hn. destruct n as [|n]; [lia|].
    inversion HB as [|? ? HB1 HB2]; inversion HL as [|? ? HL1 HL2]; subst.
    pose proof (repr_starts _ _ HL1 ES) as HS.
    assert (In close [" "%char; ","%char; "]"%char; ")"%char; "}"%char; ":"%char; nl]) as HI
      by (destruct Hc as [<-|[<-|[]]]; cbn; auto).
    assert (forall q, stop (close :: q)) as HST by (intro q; destruct Hc as [<-|[<-|[]]]; cbn; auto).
    assert (Ascii.eqb "," close = false) as NC by (destruct Hc as [<-|[<-|[]]]; reflexivity).
    destruct l as [|y l].
    + injection EM as <-. cbn [join]. rewrite items_S.
      rewrite (starts_skip _ (starts_app _ _ HS)).
      destruct (starts_not _ _ (starts_app _ (close :: r) HS) HI) as (a & t & EA & NA). rewrite EA, NA, <- EA.
      rewrite (HB1 HL1 s (close :: r) n ES); [|apply HST|lia]. cbn [bind].
      rewrite stop_skip by apply HST. rewrite Ascii.eqb_refl. reflexivity.
    + destruct us as [|u us].
      { apply mapM_length in EM. discriminate. }
      change (join (L ", ") (s :: u :: us)) with (s ++ L ", " ++ join (L ", ") (u :: us)).
      rewrite <- !app_assoc. rewrite items_S.
      rewrite (starts_skip _ (starts_app _ _ HS)).
      destruct (starts_not _ _ (starts_app _ (L ", " ++ join (L ", ") (u :: us) ++ close :: r) HS) HI)
        as (a & t & EA & NA). rewrite EA, NA, <- EA.
      rewrite (HB1 HL1 s _ n ES); [|cbn; auto|lia]. cbn [bind].
      change (L ", " ++ join (L ", ") (u :: us) ++ close :: r) with
        (","%char :: " "%char :: join (L ", ") (u :: us) ++ close :: r).
      cbn [skip]. change (Ascii.eqb "," " ") with false. cbn iota. rewrite NC, Ascii.eqb_refl.
      rewrite items_blank.
      rewrite (IH HB2 HL2 (u :: us) eq_refl close r n Hc) by lia. reflexivity.
Qed.

Lemma back_list l : Forall back l -> back (WList l).
Proof.
  intros HB HL s r n H Hr Hn. rewrite repr_wlist in H. destruct (mapM repr_sval l) as [ts|] eqn:EM; [|discriminate].
  cbn [bind] in H. apply Ok_inj in H; subst. rewrite size_list in Hn. destruct n as [|n]; [lia|].
  apply literal_list in HL.
  replace ((L "[" ++ join (L ", ") ts ++ L "]") ++ r) with ("["%char :: join (L ", ") ts ++ "]"%char :: r)
    by (rewrite <- !app_assoc; reflexivity).
  rewrite bracket_S.
  rewrite (items_ok l ts HB HL EM "]"%char r n (or_introl eq_refl)) by lia. reflexivity.
Qed.

Lemma back_tuple l : Forall back l -> back (WTuple l).
Proof.
  intros HB HL s r n H Hr Hn. rewrite repr_wtuple in H. destruct (mapM repr_sval l) as [ts|] eqn:EM; [|discriminate].
  cbn [bind] in H. rewrite size_tuple in Hn. destruct n as [|n]; [lia|].
  apply literal_tuple in HL.
  assert (exists q, s = "("%char :: q /\
    exists b, read_items n ")"%char (q ++ r) = Ok (l, b, r) /\ (length l = 1%nat -> b = true)) as (q & -> & b & HQ & Hb).
  { destruct ts as [|a [|a' ts]].
    - apply Ok_inj in H; subst. eexists. split; [reflexivity|]. exists true. split; [|auto].
      destruct l as [|x l]; [|apply mapM_length in EM; discriminate].
      destruct n as [|n]; [lia|]. reflexivity.
    - apply Ok_inj in H; subst. destruct l as [|x [|y l]]; try (apply mapM_length in EM; discriminate).
      eexists. split; [reflexivity|]. exists true. split; [|auto].
      cbn [mapM] in EM. destruct (repr_sval x) as [a0|] eqn:ES; [|discriminate]. injection EM as ->.
      inversion HB as [|? ? HB1 HB2]; inversion HL as [|? ? HL1 HL2]; subst.
      pose proof (repr_starts _ _ HL1 ES) as HS. rewrite total_cons in Hn. cbn in Hn.
      destruct n as [|n]; [lia|]. destruct n as [|n]; [lia|].
      rewrite <- app_assoc. change (L ",)" ++ r) with (","%char :: ")"%char :: r).
      rewrite items_S. rewrite (starts_skip _ (starts_app _ _ HS)).
      destruct (starts_not _ ")"%char (starts_app _ (","%char :: ")"%char :: r) HS)) as (c & t & EA & NA);
        [cbn; tauto|]. rewrite EA, NA, <- EA.
      rewrite (HB1 HL1 a _ (S n) ES); [|cbn; auto|lia]. reflexivity.
    - apply Ok_inj in H; subst. eexists. split; [reflexivity|].
      exists false. split.
      + change (join (L ", ") (a :: a' :: ts) ++ L ")") with (join (L ", ") (a :: a' :: ts) ++ [")"%char]).
        rewrite <- app_assoc. cbn [app].
        rewrite (items_ok l (a :: a' :: ts) HB HL EM ")"%char r n); [|cbn; auto|lia].
        destruct l; [apply mapM_length in EM; discriminate|reflexivity].
      + intro X. apply mapM_length in EM. rewrite X in EM. discriminate. }
  cbn [app]. rewrite paren_S, HQ. cbn [bind].
  destruct l as [|x [|y l]]; [reflexivity| |reflexivity]. rewrite Hb by reflexivity. reflexivity.
Qed.

(** ** Dictionaries *)
Lemma dset_fresh {V} (d : dict V) k v : ~ In k (map fst d) -> dset d k v = d ++ [(k, v)].
Proof.
  induction d as [|[k' v'] d IH]; cbn [dset map fst app]; intro H; [reflexivity|].
  assert (str_eqb k k' = false) as E by (apply str_eqb_neq; intros ->; apply H; now left).
  assert (str_eqb k' k = false) as E' by (apply str_eqb_neq; intros ->; apply H; now left).
  rewrite ?E, ?E'. rewrite IH; [reflexivity|]. intro X. apply H. now right.
Qed.

Lemma fold_fresh {V} (d : dict V) acc : NoDup (map fst (acc ++ d)) ->
  fold_left (fun m kv => dset m (fst kv) (snd kv)) d acc = acc ++ d.
Proof.
  revert acc. induction d as [|[k v] d IH]; intros acc H; cbn [fold_left fst snd]; [now rewrite app_nil_r|].
  rewrite dset_fresh.
  - rewrite IH; rewrite <- app_assoc; [reflexivity|exact H].
  - rewrite map_app in H. cbn [map fst] in H. apply NoDup_remove_2 in H. intro X. apply H.
    apply in_or_app. now left.
Qed.

Lemma entries_ok d ts : Forall (fun kv => back (snd kv)) d -> Forall entry_ok d -> NoDup (map fst d) ->
  mapM repr_entry d = Ok ts ->
  forall r n, (1 + entry_size d <= n)%nat ->
  read_entries n (join (L ", ") ts ++ "}"%char :: r) = Ok (d, r).
Proof.
  intros HB HL. revert ts. induction d as [|[k x] d IH]; intros ts ND H r n Hn.
  - apply Ok_inj in H; subst. cbn [join app]. destruct n as [|n]; [lia|]. reflexivity.
  - cbn [mapM] in H. destruct (repr_entry (k, x)) as [s|] eqn:ES; [|discriminate]. cbn [bind] in H.
    destruct (mapM repr_entry d) as [us|] eqn:EM; [|discriminate]. cbn [bind] in H. apply Ok_inj in H; subst.
    rewrite entry_cons in Hn. cbn [snd] in Hn. destruct n as [|n]; [lia|]. destruct n as [|n]; [lia|].
    inversion HB as [|? ? HB1 HB2]; inversion HL as [|? ? HL1 HL2]; subst.
    destruct HL1 as [HP HX]. cbn [fst snd] in *.
    unfold repr_entry in ES. cbn [fst snd] in ES. destruct (repr_text k) as [a|] eqn:EK; [|discriminate].
    cbn [bind] in ES. destruct (repr_sval x) as [b|] eqn:EX; [|discriminate]. cbn [bind] in ES. apply Ok_inj in ES; subst.
    apply repr_text_ok in EK as [_ ->].
    inversion ND as [|? ? ND1 ND2]; subst. specialize (IH HB2 HL2).
    assert (forall q, exists t, (quote :: k ++ [quote]) ++ q = quote :: t) as HQ by (intro q; eexists; reflexivity).
    assert (forall q, stop q -> forall m, (size x <= m)%nat ->
      read_sval m (" "%char :: b ++ q) = Ok (x, q)) as HV.
    { intros q Hq m Hm. rewrite read_blank. now apply HB1. }
    destruct d as [|y d].
    + injection EM as <-. cbn [join]. rewrite <- !app_assoc.
      change (L ": " ++ b ++ "}"%char :: r) with (":"%char :: " "%char :: b ++ "}"%char :: r).
      rewrite entries_S.
      destruct (HQ (":"%char :: " "%char :: b ++ "}"%char :: r)) as [t EQ]. rewrite EQ. cbn [skip].
      change (Ascii.eqb quote " ") with false. cbn iota. change (Ascii.eqb quote "}") with false. cbn iota.
      rewrite <- EQ, read_quoted; [|now apply plain_text|cbn; tauto]. cbn [bind skip].
      change (Ascii.eqb ":" " ") with false. cbn iota. rewrite Ascii.eqb_refl.
      rewrite HV; [|cbn; tauto|lia]. reflexivity.
    + destruct us as [|u us].
      { apply mapM_length in EM. discriminate. }
      change (join (L ", ") (((quote :: k ++ [quote]) ++ L ": " ++ b) :: u :: us))
        with (((quote :: k ++ [quote]) ++ L ": " ++ b) ++ L ", " ++ join (L ", ") (u :: us)).
      rewrite <- !app_assoc.
      set (q := join (L ", ") (u :: us) ++ "}"%char :: r).
      change (L ": " ++ b ++ L ", " ++ q) with (":"%char :: " "%char :: b ++ ","%char :: " "%char :: q).
      rewrite entries_S.
      destruct (HQ (":"%char :: " "%char :: b ++ ","%char :: " "%char :: q)) as [t EQ]. rewrite EQ. cbn [skip].
      change (Ascii.eqb quote " ") with false. cbn iota. change (Ascii.eqb quote "}") with false. cbn iota.
      rewrite <- EQ, read_quoted; [|now apply plain_text|cbn; tauto]. cbn [bind skip].
      change (Ascii.eqb ":" " ") with false. cbn iota. rewrite Ascii.eqb_refl.
      rewrite HV; [|cbn; tauto|lia]. cbn [bind skip].
      change (Ascii.eqb "," " ") with false. cbn iota. change (Ascii.eqb "," "}") with false. cbn iota.
      rewrite Ascii.eqb_refl. change (read_entries (S n) (" "%char :: q)) with (read_entries (S n) q).
      unfold q. rewrite (IH (u :: us) ND2 eq_refl r (S n)) by lia. cbn [bind].
      rewrite fold_fresh by exact ND. reflexivity.
Qed.

Lemma back_dict d : Forall (fun kv => back (snd kv)) d -> back (WDict d).
Proof.
  intros HB HL s r n H Hr Hn. rewrite repr_wdict in H. destruct (mapM repr_entry d) as [ts|] eqn:EM; [|discriminate].
  cbn [bind] in H. apply Ok_inj in H; subst. rewrite size_dict in Hn. destruct n as [|n]; [lia|].
  apply literal_dict in HL as [ND HL].
  replace ((L "{" ++ join (L ", ") ts ++ L "}") ++ r) with ("{"%char :: join (L ", ") ts ++ "}"%char :: r)
    by (rewrite <- !app_assoc; reflexivity).
  rewrite brace_S.
  rewrite (entries_ok d ts HB HL ND EM) by lia. reflexivity.
Qed.

Lemma back_all v : back v.
Proof.
  induction v using sval_ind2; auto using back_num, back_str, back_word, back_list, back_tuple, back_dict.
Qed.

(** ** The setup file *)
Lemma read_value v s r n : settable v -> setup_value v = Ok s -> stop r -> (size v <= n)%nat ->
  read_sval n (" "%char :: s ++ r) = Ok (v, r).
Proof.
  intros HV HS Hr Hn. rewrite read_blank. destruct v; try (now apply back_all).
  cbn [setup_value] in HS. injection HS as <-. cbn [size] in Hn. destruct n as [|n]; [lia|].
  change (L "'" ++ s0 ++ L "'") with (quote :: s0 ++ [quote]). apply read_quoted; [|assumption].
  now apply text_chars.
Qed.

Lemma name_word k : name_text k = true -> forallb is_word k = true.
Proof.
  unfold name_text. intro H. apply andb_true_iff in H as [H _]. destruct k as [|c k]; [discriminate|].
  apply andb_true_iff in H as [H1 H2]. cbn [forallb]. rewrite H2, andb_true_r.
  unfold is_word. apply orb_true_iff in H1 as [-> | ->]; [reflexivity|]. now rewrite !orb_true_r.
Qed.

Lemma read_setup_ok d : writable_setup d -> forall text, dict2setup d = Ok text ->
  forall g n, (forall k, In k (map fst g) -> ~ In k (map fst d)) ->
  (total_size (map snd d) <= n)%nat -> read_setup n text g = Ok (g ++ d).
Proof.
  induction d as [|[k v] d IH]; intros [ND HW] text H g n HG Hn.
  - apply Ok_inj in H; subst. rewrite app_nil_r. destruct n; reflexivity.
  - cbn [dict2setup] in H. destruct (setup_value v) as [s|] eqn:ES; [|discriminate]. cbn [bind] in H.
    destruct (dict2setup d) as [rest|] eqn:ER; [|discriminate]. cbn [bind] in H. apply Ok_inj in H; subst.
    cbn [map snd] in Hn. rewrite total_cons in Hn. destruct n as [|n]; [lia|].
    destruct (HW k v (or_introl eq_refl)) as [HK HV]. cbn [map fst] in ND. inversion ND as [|? ? ND1 ND2]; subst.
    assert (exists c t, k ++ L " = " ++ s ++ [nl] ++ rest = c :: t) as (c & t & EC).
    { destruct k as [|c k]; [discriminate|]. eexists _, _. reflexivity. }
    rewrite EC. cbn [read_setup]. rewrite <- EC. unfold read_line.
    rewrite take_app; [|now apply name_word|reflexivity]. rewrite HK.
    change (skip (L " = " ++ s ++ [nl] ++ rest)) with ("="%char :: " "%char :: s ++ nl :: rest).
    cbn iota. rewrite Ascii.eqb_refl. rewrite (read_value v s) by (auto || (cbn; tauto) || lia). cbn [bind skip].
    change (Ascii.eqb nl " ") with false. cbn iota. rewrite Ascii.eqb_refl. cbn [bind].
    rewrite dset_fresh.
    + rewrite (IH (conj ND2 (fun k' v' X => HW k' v' (or_intror X))) rest eq_refl (g ++ [(k, v)]) n).
      * now rewrite <- app_assoc.
      * intros x HI. rewrite map_app, in_app_iff in HI. destruct HI as [HI|[<-|[]]]; [|exact ND1].
        intro X. apply (HG x HI). now right.
      * lia.
    + intro X. apply (HG k X). now left.
Qed.

Lemma setup_means d text : writable_setup d -> dict2setup d = Ok text -> means text d.
Proof.
  intros HW H. exists (total_size (map snd d)). intros n Hn.
  now apply (read_setup_ok d HW text H []).
Qed.

Lemma means_unique text d d' : means text d -> means text d' -> d = d'.
Proof.
  intros [m H] [m' H']. specialize (H (m + m')%nat ltac:(lia)). specialize (H' (m + m')%nat ltac:(lia)). congruence.
Qed.

Lemma repr_exists v : literal v -> exists s, repr_sval v = Ok s.
Proof.
  induction v using sval_ind2; intro HL; cbn [literal] in HL.
  - eexists. reflexivity.
  - cbn [repr_sval]. unfold repr_text. rewrite HL. eauto.
  - eexists. reflexivity.
  - rewrite repr_wlist. change (literal (WList l)) in HL. apply literal_list in HL.
    assert (exists ts, mapM repr_sval l = Ok ts) as [ts ->]; [|eexists; reflexivity]. clear -H HL.
    induction l as [|x l IH]; [eexists; reflexivity|]. inversion H; inversion HL; subst.
    destruct (H2 H6) as [s E]. destruct (IH H3 H7) as [ts E']. cbn [mapM]. rewrite E, E'. eexists. reflexivity.
  - rewrite repr_wtuple. change (literal (WTuple l)) in HL. apply literal_tuple in HL.
    assert (exists ts, mapM repr_sval l = Ok ts) as [ts ->].
    { clear -H HL. induction l as [|x l IH]; [eexists; reflexivity|]. inversion H; inversion HL; subst.
      destruct (H2 H6) as [s E]. destruct (IH H3 H7) as [ts E']. cbn [mapM]. rewrite E, E'. eexists. reflexivity. }
    cbn [bind]. destruct ts as [|a [|b ts]]; eexists; reflexivity.
  - rewrite repr_wdict. change (literal (WDict d)) in HL. apply literal_dict in HL as [_ HL].
    assert (exists ts, mapM repr_entry d = Ok ts) as [ts ->]; [|eexists; reflexivity]. clear -H HL.
    induction d as [|[k x] d IH]; [eexists; reflexivity|]. inversion H; inversion HL; subst.
    destruct H6 as [HP HX]. cbn [fst snd] in *. destruct (H2 HX) as [s E]. destruct (IH H3 H7) as [ts E'].
    cbn [mapM]. unfold repr_entry at 1. cbn [fst snd]. unfold repr_text. rewrite HP, E, E'. eexists. reflexivity.
Qed.

Lemma setup_exists d : writable_setup d -> exists text, dict2setup d = Ok text.
Proof.
  induction d as [|[k v] d IH]; intros [ND HW]; [eexists; reflexivity|].
  cbn [map fst] in ND. inversion ND; subst.
  destruct IH as [rest ER]; [split; [assumption|]; intros; apply HW; now right|].
  destruct (HW k v (or_introl eq_refl)) as [_ HV].
  assert (exists s, setup_value v = Ok s) as [s ES].
  { destruct v; try (now apply repr_exists); cbn [setup_value]; eauto. }
  cbn [dict2setup]. rewrite ES, ER. eexists. reflexivity.
Qed.
