(** The texts written by the plugins as statements. *)
From Coq Require Import String Ascii List ZArith NArith Bool Arith QArith Lia.
Import ListNotations.
From Verif Require Import PyBase PyBaseFacts PyData_Model PyData_Spec PyData_Proofs Fmt_Model Fmt_Proofs
  KCov_Model KPlug_Model.
Local Open Scope list_scope.
Local Open Scope nat_scope.

(** ** Numbers in names and indices *)
Lemma nat_text_dec n : nat_text n = dec (N.of_nat n).
Proof. unfold nat_text, str_of_Z. destruct n; [reflexivity|]. cbn [Z.of_nat]. f_equal. Qed.

Lemma nat_text_number n : number_text (nat_text n) = true.
Proof. apply int_number. Qed.

Lemma nat_text_digits n : forallb is_digit (nat_text n) = true.
Proof. rewrite nat_text_dec. apply dec_digits. Qed.

Lemma nat_text_index n : index_text (nat_text n) = Some n.
Proof.
  unfold index_text. rewrite nat_text_digits, nat_text_dec, int_of_dec. f_equal. lia.
Qed.

Lemma digit_word c : is_digit c = true -> is_word c = true.
Proof. unfold is_word. intros ->. now rewrite ?orb_true_r. Qed.

Lemma digits_word s : forallb is_digit s = true -> forallb is_word s = true.
Proof.
  induction s as [|c s IH]; [reflexivity|]. cbn. rewrite !andb_true_iff. intros [H1 H2].
  split; [now apply digit_word|auto].
Qed.

Lemma no_keyword s : In "_"%char s -> str_mem s keywords = false.
Proof.
  intro H. destruct (str_mem s keywords) eqn:E; [|reflexivity]. exfalso. apply str_mem_In in E.
  assert (K : forallb (fun k => negb (has_char "_" k)) keywords = true) by reflexivity.
  rewrite forallb_forall in K. specialize (K s E). apply negb_true_iff in K.
  apply has_char_In in H. congruence.
Qed.

(** A name followed by an underscore and a number is a name. *)
Lemma counted_name name n : name_text name = true -> name_text (name ++ L "_" ++ nat_text n) = true.
Proof.
  intro H. unfold name_text in *. apply andb_true_iff in H as [H _]. apply andb_true_iff. split.
  - destruct name as [|c t]; [discriminate|]. cbn [app]. apply andb_true_iff in H as [H1 H2].
    rewrite H1. cbn [andb]. rewrite !forallb_app, H2. cbn [andb].
    rewrite (digits_word _ (nat_text_digits n)). reflexivity.
  - apply negb_true_iff, no_keyword. apply in_app_iff. right. left. reflexivity.
Qed.

(** ** Lines *)
Lemma lex_name_to st s c t : (st = SBol \/ st = SStart) -> name_text s = true ->
  is_word c = false -> Ascii.eqb c quote = false ->
  drun st (s ++ c :: t) = demit [DName s] (drun SStart (c :: t)).
Proof.
  intros Hst Hs Hw' Hq. unfold name_text in Hs. apply andb_true_iff in Hs as [Hs Hk].
  apply negb_true_iff in Hk. destruct s as [|c0 s]; [discriminate|].
  apply andb_true_iff in Hs as [H0 Hw]. destruct (letter_not c0 H0) as (N1 & N2 & N3).
  cbn [app]. rewrite drun_step.
  assert (dstep st c0 = Ok ([], SName [c0])) as ->.
  { destruct Hst as [-> | ->]; cbn [dstep]; rewrite ?N1; unfold dstart; rewrite N1, N2, N3, H0; reflexivity. }
  cbn [bind]. rewrite demit_nil, drun_name by assumption. cbn [app]. rewrite drun_step. cbn [dstep].
  rewrite Hw', Hq. cbn [andb]. unfold end_name. rewrite Hk. cbn [bind]. apply dstart_pass.
Qed.

Lemma line_piece text ts s :
  (forall r, drun SBol (text ++ nl :: r) = demit ts (drun SStart (nl :: r))) ->
  inline ts -> parse_line ts = Ok s -> piece (text ++ [nl]) [s].
Proof.
  intros H I P. exists (ts ++ [DNl]), [ts]. split; [|split].
  - rewrite H. reflexivity.
  - intro r. rewrite <- app_assoc, I. reflexivity.
  - cbn [mapM]. rewrite P. reflexivity.
Qed.

Lemma inline_name n : inline [DName n]. Proof. apply inline_one. exact I. Qed.

Lemma extend_line a b : name_text a = true -> name_text b = true ->
  piece (a ++ L ".extend(" ++ b ++ L ")" ++ [nl]) [SExtend (a, None) (b, None)].
Proof.
  intros Ha Hb. replace (a ++ L ".extend(" ++ b ++ L ")" ++ [nl]) with ((a ++ L ".extend(" ++ b ++ L ")") ++ [nl])
    by now rewrite <- !app_assoc.
  apply line_piece with [DName a; DDot; DName (L "extend"); DOpen "("; DName b; DClose ")"].
  - intro r. rewrite <- !app_assoc.
    change (L ".extend(" ++ b ++ L ")" ++ nl :: r) with ("."%char :: L "extend" ++ "("%char :: b ++ ")"%char :: nl :: r).
    rewrite (lex_name_to SBol) by (auto || reflexivity).
    rewrite (lex_single "." DDot) by reflexivity.
    rewrite (lex_name_to SStart) by (auto || reflexivity).
    rewrite (lex_single "(" (DOpen "(")) by reflexivity.
    rewrite (lex_name_to SStart) by (auto || reflexivity).
    rewrite (lex_single ")" (DClose ")")) by reflexivity.
    rewrite !demit_demit. reflexivity.
  - intros d acc r. cbn [app group Nat.pred]. rewrite <- !app_assoc. reflexivity.
  - reflexivity.
Qed.

Lemma column_line n m i j : name_text n = true -> name_text m = true ->
  piece (n ++ L "[" ++ nat_text i ++ L "].extend(" ++ m ++ L "[" ++ nat_text j ++ L "])" ++ [nl])
    [SExtend (n, Some i) (m, Some j)].
Proof.
  intros Hn Hm.
  replace (n ++ L "[" ++ nat_text i ++ L "].extend(" ++ m ++ L "[" ++ nat_text j ++ L "])" ++ [nl])
    with ((n ++ L "[" ++ nat_text i ++ L "].extend(" ++ m ++ L "[" ++ nat_text j ++ L "])") ++ [nl])
    by now rewrite <- !app_assoc.
  apply line_piece with [DName n; DOpen "["; DNum (nat_text i); DClose "]"; DDot; DName (L "extend"); DOpen "(";
     DName m; DOpen "["; DNum (nat_text j); DClose "]"; DClose ")"].
  - intro r. rewrite <- !app_assoc.
    change (L "[" ++ nat_text i ++ L "].extend(" ++ m ++ L "[" ++ nat_text j ++ L "])" ++ nl :: r)
      with ("["%char :: nat_text i ++ "]"%char :: "."%char :: L "extend" ++ "("%char :: m ++ "["%char ::
            nat_text j ++ "]"%char :: ")"%char :: nl :: r).
    rewrite (lex_name_to SBol) by (auto || reflexivity).
    rewrite (lex_single "[" (DOpen "[")) by reflexivity.
    rewrite (lex_num (nat_text i)) by (apply nat_text_number || reflexivity).
    rewrite (lex_single "]" (DClose "]")), (lex_single "." DDot) by reflexivity.
    rewrite (lex_name_to SStart) by (auto || reflexivity).
    rewrite (lex_single "(" (DOpen "(")) by reflexivity.
    rewrite (lex_name_to SStart) by (auto || reflexivity).
    rewrite (lex_single "[" (DOpen "[")) by reflexivity.
    rewrite (lex_num (nat_text j)) by (apply nat_text_number || reflexivity).
    rewrite (lex_single "]" (DClose "]")), (lex_single ")" (DClose ")")) by reflexivity.
    rewrite !demit_demit. reflexivity.
  - intros d acc r. cbn [app group Nat.pred]. rewrite <- !app_assoc. reflexivity.
  - unfold parse_line. rewrite !nat_text_index. reflexivity.
Qed.

(** [name = value] for a list. *)
Lemma assign_line name l s : name_text name = true -> writable (VList l) -> repr_val (VList l) = Ok s ->
  piece (name ++ L " = " ++ s ++ [nl]) [SAssign name (OVal (VList l))].
Proof.
  intros Hn W E. replace (name ++ L " = " ++ s ++ [nl]) with ((name ++ L " = " ++ s) ++ [nl])
    by now rewrite <- !app_assoc.
  apply line_piece with (DName name :: DEq :: val_toks (VList l)).
  - intro r. rewrite <- !app_assoc.
    change (L " = " ++ s ++ nl :: r) with (" "%char :: "="%char :: " "%char :: s ++ nl :: r).
    rewrite (lex_name_to SBol) by (auto || reflexivity).
    rewrite lex_space, (lex_single "=" DEq), lex_space by reflexivity.
    rewrite (lex_val _ W _ E) by reflexivity. rewrite !demit_demit. reflexivity.
  - change (inline ([DName name] ++ [DEq] ++ val_toks (VList l))).
    apply inline_app; [apply inline_name|]. apply inline_app; [apply inline_one; exact I|apply inline_val].
  - change (val_toks (VList l)) with (DOpen "[" :: sep_toks (map val_toks l) ++ [DClose "]"]).
    unfold parse_line. change (Ascii.eqb "[" "{") with false. cbn iota beta.
    change (DOpen "[" :: sep_toks (map val_toks l) ++ [DClose "]"]) with (val_toks (VList l)).
    unfold parse_val. rewrite (parse_ok (VList l) [] Logic.I). reflexivity.
Qed.

Lemma blank_app text ss : piece text ss -> piece (text ++ [nl]) (ss ++ [SPass]).
Proof. intro H. apply piece_app; [exact H|apply piece_blank]. Qed.

(** ** Pieces of the files *)
Lemma header_piece version date : ~ In nl version -> ~ In nl date ->
  exists n, piece (file_header version date) (repeat SPass n).
Proof.
  intros Hv Hd. exists 6. unfold file_header.
  change (L "# This file was automatically generated by scaks (https://github.com/PytLab/scaks)." ++ [nl] ++
  L "# Version " ++ version ++ [nl] ++ L "# Date: " ++ date ++ L " " ++ [nl] ++ L "#" ++ [nl] ++
  L "# Do not make changes to this file unless you know what you are doing" ++ [nl; nl])
   with (L "# This file was automatically generated by scaks (https://github.com/PytLab/scaks)." ++ [nl] ++
  "#"%char :: (L " Version " ++ version ++ [nl] ++ "#"%char :: L " Date: " ++ date ++ L " " ++ [nl] ++ L "#" ++ [nl] ++
  L "# Do not make changes to this file unless you know what you are doing" ++ [nl; nl])).
  change (repeat SPass 6) with ([SPass] ++ [SPass] ++ [SPass] ++ [SPass] ++ [SPass] ++ [SPass]).
  rewrite app_assoc. apply piece_app.
  { apply (piece_comment (L " This file was automatically generated by scaks (https://github.com/PytLab/scaks).")).
    intro H. vm_compute in H. intuition discriminate. }
  replace ("#"%char :: (L " Version " ++ version ++ [nl] ++ "#"%char :: L " Date: " ++ date ++ L " " ++ [nl] ++ L "#" ++ [nl] ++
    L "# Do not make changes to this file unless you know what you are doing" ++ [nl; nl]))
  with ((("#"%char :: L " Version " ++ version) ++ [nl]) ++ (("#"%char :: L " Date: " ++ date ++ L " ") ++ [nl]) ++
    (("#"%char :: []) ++ [nl]) ++ (("#"%char :: L " Do not make changes to this file unless you know what you are doing") ++ [nl]) ++ [nl]).
  2:{ change (L "# Do not make changes to this file unless you know what you are doing" ++ [nl; nl]) with
       ((("#"%char :: L " Do not make changes to this file unless you know what you are doing") ++ [nl]) ++ [nl]).
      change (L "#" ++ [nl] ++ ((("#"%char :: L " Do not make changes to this file unless you know what you are doing") ++ [nl]) ++ [nl]))
        with ((("#"%char :: []) ++ [nl]) ++ ((("#"%char :: L " Do not make changes to this file unless you know what you are doing") ++ [nl]) ++ [nl])).
      generalize ((("#"%char :: []) ++ [nl]) ++ ((("#"%char :: L " Do not make changes to this file unless you know what you are doing") ++ [nl]) ++ [nl])).
      intro u. rewrite <- ?app_assoc. cbn [app]. rewrite <- ?app_assoc. cbn [app]. rewrite <- ?app_assoc. cbn [app].
      reflexivity. }
  apply piece_app.
  { apply piece_comment. intro H. apply in_app_iff in H as [H|H]; [vm_compute in H; intuition discriminate|contradiction]. }
  apply piece_app.
  { apply piece_comment. intro H. apply in_app_iff in H as [H|H]; [vm_compute in H; intuition discriminate|].
    apply in_app_iff in H as [H|H]; [contradiction|]. vm_compute in H; intuition discriminate. }
  apply piece_app; [apply piece_comment; intros []|].
  apply piece_app; [|apply piece_blank].
  apply piece_comment. intro H. vm_compute in H. intuition discriminate.
Qed.

Lemma digits_no_nl s : forallb is_digit s = true -> ~ In nl s.
Proof. intros H Hin. rewrite forallb_forall in H. specialize (H _ Hin). vm_compute in H. discriminate. Qed.

Lemma flush_comment_piece k : piece (flush_comment k) [SPass; SPass].
Proof.
  unfold flush_comment. change [SPass; SPass] with ([SPass] ++ [SPass]). apply piece_app; [apply piece_blank|].
  replace (L "# -------------------- flush " ++ nat_text k ++ L " ---------------------" ++ [nl]) with
    (("#"%char :: (L " -------------------- flush " ++ nat_text k ++ L " ---------------------")) ++ [nl]).
  2:{ change (L "# -------------------- flush ") with ("#"%char :: L " -------------------- flush ").
      cbn [app]. f_equal. now rewrite <- !app_assoc. }
  apply piece_comment. intro H. apply in_app_iff in H as [H|H]; [vm_compute in H; intuition discriminate|].
  apply in_app_iff in H as [H|H]; [exact (digits_no_nl _ (nat_text_digits k) H)|vm_compute in H; intuition discriminate].
Qed.

(** The statements of an extension. *)
Definition ext_stmts (name : str) (k : nat) (l : list val) : list stmt :=
  let vn := name ++ L "_" ++ nat_text k in
  [SAssign vn (OVal (VList l)); SPass; SExtend (name, None) (vn, None); SPass].

Lemma extension_piece name k l ncols : name_text name = true -> Forall writable l -> ncols <> 0%Z ->
  exists text, extension name k l ncols = Ok text /\ piece text (ext_stmts name k l).
Proof.
  intros Hn W N. unfold extension.
  destruct (list_piece (name ++ L "_" ++ nat_text k) l ncols (counted_name _ _ Hn) W N) as (text & -> & P).
  cbn [bind]. eexists. split; [reflexivity|]. unfold ext_stmts.
  change [SAssign (name ++ L "_" ++ nat_text k) (OVal (VList l)); SPass;
    SExtend (name, None) (name ++ L "_" ++ nat_text k, None); SPass] with
   ([SAssign (name ++ L "_" ++ nat_text k) (OVal (VList l)); SPass] ++
    ([SExtend (name, None) (name ++ L "_" ++ nat_text k, None)] ++ [SPass])).
  apply piece_app; [exact P|].
  replace (name ++ L ".extend(" ++ (name ++ L "_" ++ nat_text k) ++ L ")" ++ [nl; nl]) with
    ((name ++ L ".extend(" ++ (name ++ L "_" ++ nat_text k) ++ L ")" ++ [nl]) ++ [nl]).
  2:{ rewrite <- !app_assoc. reflexivity. }
  apply blank_app. apply extend_line; [exact Hn|apply counted_name; exact Hn].
Qed.

(** ** Effects *)
Definition the_list (g : names) (n : str) (l : list val) : Prop := dget g n = Some (OVal (VList l)).

Lemma str_eqb_neq' a b : a <> b -> str_eqb a b = false.
Proof. intro H. destruct (str_eqb a b) eqn:E; [apply str_eqb_eq in E; contradiction|reflexivity]. Qed.

Lemma ext_effect g name k l old : the_list g name old -> ~ In "_"%char name ->
  exists g', exec_stmts g (ext_stmts name k l) = Ok g' /\ the_list g' name (old ++ l) /\
    (forall n, n <> name -> n <> name ++ L "_" ++ nat_text k -> dget g' n = dget g n).
Proof.
  unfold the_list. intros H NU. unfold ext_stmts. set (vn := name ++ L "_" ++ nat_text k).
  assert (NE : str_eqb name vn = false).
  { apply str_eqb_neq'. intro E. apply NU. rewrite E. apply in_app_iff. right. left. reflexivity. }
  cbn [exec_stmts exec_stmt bind]. unfold fetch. cbn [fst snd].
  rewrite dget_dset, NE, H. cbn [bind extend_val].
  rewrite dget_dset, str_eqb_refl. cbn [bind elements].
  eexists. split; [reflexivity|]. split.
  - rewrite dget_dset, str_eqb_refl. reflexivity.
  - intros n N1 N2. rewrite dget_dset, (str_eqb_neq' _ _ N1), dget_dset, (str_eqb_neq' _ _ N2). reflexivity.
Qed.
