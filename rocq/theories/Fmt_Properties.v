(** Properties C45, C55, C56: texts written to data files, and the time format.
    Vocabulary: PyData_Spec.v; reader: PyData_Model.v. *)
From Coq Require Import String Ascii List ZArith Bool Arith QArith Lia.
Import ListNotations.
From Verif Require Import PyBase PyBaseFacts PyData_Model PyData_Spec PyData_Proofs Fmt_Model Fmt_Proofs.
Local Open Scope list_scope.
Local Open Scope nat_scope.

(** Lists of numbers, texts and (nested) lists and tuples of them, for every number of columns
    other than 0.  Missing from the claim: texts with quotes, backslashes, control characters
    and characters outside ASCII, see the refutation below. *)
Theorem C45_read_back_partial : forall name l ncols,
  name_text name = true -> Forall writable l -> ncols <> 0%Z ->
  exists text, get_list_string name l ncols = Ok text /\
    exec_file text = Ok [(name, OVal (VList l))].
Proof. exact list_reads_back. Qed.
Print Assumptions C45_read_back_partial.

(** Integers: every list of integers is such a list, and different lists are different values. *)
Theorem C45_integers : forall name zs ncols,
  name_text name = true -> ncols <> 0%Z ->
  (exists text, get_list_string name (map VInt zs) ncols = Ok text /\
     exec_file text = Ok [(name, OVal (VList (map VInt zs)))]) /\
  (forall zs', map VInt zs' = map VInt zs -> zs' = zs).
Proof.
  intros name zs ncols Hn N. split.
  - apply list_reads_back; try assumption. apply Forall_forall. intros v Hv.
    apply in_map_iff in Hv as (z & <- & _). apply int_number.
  - induction zs as [|z zs IH]; intros [|z' zs'] E; try discriminate; [reflexivity|].
    injection E as E1 E2. apply str_of_Z_inj in E1. f_equal; auto.
Qed.
Print Assumptions C45_integers.

(** Read after other statements and before others, the text still only adds the list. *)
Theorem C45_in_a_file : forall name l ncols text before after_ sb sa,
  name_text name = true -> Forall writable l -> ncols <> 0%Z ->
  get_list_string name l ncols = Ok text -> piece before sb -> piece after_ sa ->
  exec_file (before ++ text ++ after_) =
  (do g <- exec_stmts [] sb; exec_stmts (dset g name (OVal (VList l))) sa).
Proof.
  intros name l ncols text before after_ sb sa Hn W N E Pb Pa.
  destruct (list_piece name l ncols Hn W N) as (text' & E' & P).
  rewrite E in E'. injection E' as <-.
  rewrite (piece_exec _ _ (piece_app _ _ _ _ Pb (piece_app _ _ _ _ P Pa))).
  rewrite !exec_stmts_app. destruct (exec_stmts [] sb); reflexivity.
Qed.
Print Assumptions C45_in_a_file.

(** No columns: a list that contains a number or a text cannot be written. *)
Theorem C45_zero_columns_rejected : forall name v l, is_iterable v = false ->
  get_list_string name (v :: l) 0 = Err ZeroDivisionError.
Proof. exact zero_columns. Qed.
Print Assumptions C45_zero_columns_rejected.

(** A text with a quote is not escaped: one text becomes two, or the file cannot be read. *)
Theorem C45_quotes_refuted :
  (exists s text, get_list_string (L "a") [VStr s] 5 = Ok text /\
     exec_file text = Ok [(L "a", OVal (VList [VStr (L "x"); VStr (L "y")]))] /\
     s = L "x', 'y") /\
  (exists s text, get_list_string (L "a") [VStr s] 5 = Ok text /\
     exec_file text = Err SyntaxError /\ s = L "it's").
Proof.
  split; [exists (L "x', 'y")|exists (L "it's")]; eexists; (split; [vm_compute; reflexivity|]);
    split; vm_compute; reflexivity.
Qed.
Print Assumptions C45_quotes_refuted.

Example C45_example :
  name_text (L "times_0") = true /\
  Forall writable [VNum (L "1.5e-07"); VInt (-3)%Z; VStr (L "CO_s + O_s"); VTuple [VInt 1%Z; VList []]] /\
  get_list_string (L "a") [VTuple [VInt 1%Z; VInt 2%Z; VInt 3%Z]; VTuple [VInt 2%Z]] 5 =
    Ok (L "a = [" ++ [nl] ++ L "    (1, 2, 3)," ++ [nl] ++ L "    (2,)," ++ [nl] ++ L "]" ++ [nl; nl]) /\
  get_list_string (L "a") (map VInt [1;2;3;4;5;6;7]%Z) 5 =
    Ok (L "a = [" ++ [nl] ++ L "    1, 2, 3, 4, 5, " ++ [nl] ++ L "    6, 7, " ++ [nl] ++ L "]" ++ [nl; nl]).
Proof.
  split; [reflexivity|]. split; [|split; vm_compute; reflexivity].
  repeat constructor.
Qed.

(** Dictionaries with text keys and numbers. *)
Theorem C56_dict_read_back : forall name d, name_text name = true ->
  Forall (fun kv => plain (fst kv) = true /\ number_text (snd kv) = true) d ->
  exists text d', get_dict_string name d = Ok text /\
    exec_file text = Ok [(name, ODict d')] /\ (forall k, dget d' k = dget d k).
Proof. exact dict_reads_back. Qed.
Print Assumptions C56_dict_read_back.

Example C56_example : exists text,
  get_dict_string (L "r") [(L "b(->)", L "2"); (L "a(<-)", L "0.5")] = Ok text /\
  text = L "r = {" ++ [nl] ++ L "    'a(<-)': 0.5," ++ [nl] ++ L "    'b(->)': 2," ++ [nl] ++ L "}" ++ [nl; nl] /\
  exec_file text = Ok [(L "r", ODict [(L "a(<-)", L "0.5"); (L "b(->)", L "2")])].
Proof. eexists. split; [vm_compute; reflexivity|]. split; vm_compute; reflexivity. Qed.

Theorem C55_convert_time : forall sec, (0 <= sec)%Q ->
  let '(h, m, s) := convert_time sec in
  (0 <= h)%Z /\ (0 <= m < 60)%Z /\ (0 <= s)%Q /\ (s < 60)%Q /\
  (sec == inject_Z h * 3600 + inject_Z m * 60 + s)%Q.
Proof. exact convert_time_ok. Qed.
Print Assumptions C55_convert_time.

Example C55_example : exists s, convert_time (7385 # 2) = (1%Z, 1%Z, s) /\ (s == 65 # 2)%Q.
Proof. eexists. split; [vm_compute; reflexivity|]. reflexivity. Qed.
