(** The texts written by [get_list_string] and [get_dict_string] read back as what was
    written. *)
From Coq Require Import String Ascii List ZArith NArith Bool Arith Lia QArith Qround Lqa Sorted.
Import ListNotations.
From Verif Require Import PyBase PyBaseFacts PyData_Model PyData_Spec PyData_Proofs Fmt_Model.
Local Open Scope list_scope.
Local Open Scope nat_scope.

(** ** Lists *)
Definition break_text : str := [nl] ++ L "    ".

Lemma lex_break r : drun SStart (break_text ++ r) = demit [DNl; DIndent] (drun SStart r).
Proof.
  change (break_text ++ r) with (nl :: " "%char :: " "%char :: " "%char :: " "%char :: r).
  rewrite drun_step. change (dstep SStart nl) with (Ok ([DNl], SBol)). cbn [bind].
  rewrite drun_step. change (dstep SBol " ") with (Ok ([DIndent], SStart)). cbn [bind].
  rewrite demit_demit. rewrite !lex_space. reflexivity.
Qed.

Definition clean_toks (l : list val) : list dtok :=
  concat (map (fun v => val_toks v ++ [DComma]) l).

(** Between the brackets: the elements, each with a comma; line breaks anywhere. *)
Lemma data_ok ncols l : Forall writable l -> ncols <> 0%Z -> forall idx,
  exists text ts, list_data ncols idx l = Ok text /\
    (forall r, drun SStart (text ++ r) = demit ts (drun SStart r)) /\
    (forall d acc r, group (S d) acc (ts ++ r) = group (S d) (acc ++ clean_toks l) r).
Proof.
  intros W N. induction W as [|v l Hv Hl IH]; intro idx.
  - exists [], []. split; [reflexivity|]. split.
    + intro r. now rewrite demit_nil.
    + intros. now rewrite app_nil_r.
  - destruct (IH (idx + 1)%Z) as (text & ts & E & Hd & Hg). cbn [list_data].
    destruct (writable_repr v Hv) as [s Es].
    pose proof (lex_val v Hv s Es) as Lx.
    assert (G : forall pre d acc r, pre = [] \/ pre = [DNl; DIndent] ->
      group (S d) acc ((pre ++ val_toks v ++ [DComma]) ++ r) = group (S d) (acc ++ val_toks v ++ [DComma]) r).
    { intros pre d acc r [-> | ->]; cbn [app].
      - rewrite <- app_assoc. rewrite inline_val. cbn [app group]. now rewrite <- app_assoc.
      - cbn [group]. rewrite <- app_assoc. rewrite inline_val. cbn [app group]. now rewrite <- app_assoc. }
    destruct (is_iterable v) eqn:It.
    + rewrite Es. cbn [bind]. rewrite E. cbn [bind].
      exists (([nl] ++ L "    " ++ s ++ L ",") ++ text), (([DNl; DIndent] ++ val_toks v ++ [DComma]) ++ ts).
      split; [reflexivity|]. split.
      * intro r. replace ((([nl] ++ L "    " ++ s ++ L ",") ++ text) ++ r)
          with (break_text ++ s ++ ","%char :: text ++ r)
          by (unfold break_text; rewrite <- !app_assoc; reflexivity).
        rewrite lex_break, Lx by reflexivity. rewrite (lex_single "," DComma) by reflexivity.
        rewrite Hd. rewrite !demit_demit, <- ?app_assoc. reflexivity.
      * intros d acc r. rewrite <- app_assoc. rewrite G by tauto. rewrite Hg.
        unfold clean_toks. cbn [map concat]. now rewrite <- !app_assoc.
    + destruct (Z.eqb_spec ncols 0) as [|_]; [contradiction|]. cbn [bind].
      set (b := (idx mod ncols =? 0)%Z).
      set (br := if b then [nl] ++ L "    " else []).
      set (pre := if b then [DNl; DIndent] else []).
      assert (Hbr : forall r, drun SStart (br ++ r) = demit pre (drun SStart r)).
      { intro r. unfold br, pre. destruct b; [apply lex_break|cbn [app]; now rewrite demit_nil]. }
      assert (Hpre : pre = [] \/ pre = [DNl; DIndent]) by (unfold pre; destruct b; auto).
      assert (Es' : (match v with
                     | VStr s0 => Ok (br ++ L "'" ++ s0 ++ L "', ")
                     | _ => do s0 <- repr_val v; Ok (br ++ s0 ++ L ", ")
                     end) = Ok (br ++ s ++ L ", ")).
      { destruct v as [n|n|?|?]; try discriminate It.
        - rewrite Es. reflexivity.
        - cbn in Hv, Es. rewrite Hv in Es. injection Es as <-. f_equal. f_equal.
          change (L "'") with ["'"%char]. cbn [app]. rewrite <- app_assoc. reflexivity. }
      rewrite Es'. cbn [bind]. rewrite E. cbn [bind].
      exists ((br ++ s ++ L ", ") ++ text), ((pre ++ val_toks v ++ [DComma]) ++ ts).
      split; [reflexivity|]. split.
      * intro r. replace (((br ++ s ++ L ", ") ++ text) ++ r)
          with (br ++ s ++ ","%char :: " "%char :: text ++ r)
          by (rewrite <- !app_assoc; reflexivity).
        rewrite Hbr, Lx by reflexivity. rewrite (lex_single "," DComma) by reflexivity.
        rewrite lex_space. rewrite Hd. rewrite !demit_demit, <- ?app_assoc. reflexivity.
      * intros d acc r. rewrite <- app_assoc. rewrite G by assumption. rewrite Hg.
        unfold clean_toks. cbn [map concat]. now rewrite <- !app_assoc.
Qed.

Lemma prun_clean l f : f_item f = false -> exists c,
  prun (PPart [f]) (clean_toks l) =
  Ok (PPart [{| f_tuple := f_tuple f; f_items := f_items f ++ l; f_item := false; f_comma := c |}]).
Proof.
  revert f. induction l as [|v l IH]; intros f Hf.
  - exists (f_comma f). cbn. rewrite app_nil_r. destruct f as [a b c d]. cbn in *. now rewrite Hf.
  - unfold clean_toks. cbn [map concat]. rewrite <- app_assoc. 
    rewrite prun_app. rewrite (parse_ok v) by exact Hf. cbn [feed]. rewrite Hf. cbn [bind].
    cbn [app prun pstep f_item bind f_tuple f_items f_comma].
    destruct (IH {| f_tuple := f_tuple f; f_items := f_items f ++ [v]; f_item := false; f_comma := true |})
      as [c E]; [reflexivity|]. exists c.
    fold (clean_toks l). rewrite E. cbn [f_tuple f_items]. now rewrite <- app_assoc.
Qed.

Lemma parse_clean n l :
  parse_line (DName n :: DEq :: DOpen "[" :: clean_toks l ++ [DClose "]"]) =
  Ok (SAssign n (OVal (VList l))).
Proof.
  cbn [parse_line Ascii.eqb Bool.eqb].
  change (Ascii.eqb "[" "{") with false. cbn iota beta.
  unfold parse_val. cbn [prun pstep].
  change (Ascii.eqb "[" "{") with false. cbn iota beta. cbn [bind].
  change (Ascii.eqb "[" "(") with false.
  rewrite prun_app.
  destruct (prun_clean l {| f_tuple := false; f_items := []; f_item := false; f_comma := false |} eq_refl)
    as [c E].
  rewrite E. reflexivity.
Qed.

Lemma list_piece name l ncols : name_text name = true -> Forall writable l -> ncols <> 0%Z ->
  exists text, get_list_string name l ncols = Ok text /\
    piece text [SAssign name (OVal (VList l)); SPass].
Proof.
  intros Hn W N. destruct (data_ok ncols l W N 0%Z) as (data & ts & E & Hd & Hg).
  unfold get_list_string. rewrite E. cbn [bind]. eexists. split; [reflexivity|].
  exists ([DName name; DEq; DOpen "["] ++ ts ++ [DNl; DClose "]"; DNl; DNl]),
    [DName name :: DEq :: DOpen "[" :: clean_toks l ++ [DClose "]"]; []].
  split; [|split].
  - change (L " = [") with [" "%char; "="%char; " "%char; "["%char]. cbn [app].
    rewrite (lex_name_from SBol) by (auto || reflexivity).
    rewrite lex_space, (lex_single "=" DEq), lex_space, (lex_single "[" (DOpen "[")) by reflexivity.
    rewrite Hd. 
    change (drun SStart (nl :: L "]" ++ [nl; nl])) with (Ok ([DNl; DClose "]"; DNl; DNl], SBol)).
    cbn [demit bind]. reflexivity.
  - intro r. cbn [app group]. rewrite <- app_assoc, Hg. cbn [app group Nat.pred].
    rewrite <- ?app_assoc. cbn [app]. reflexivity.
  - cbn [mapM]. rewrite parse_clean. reflexivity.
Qed.

Lemma zero_columns name v l : is_iterable v = false ->
  get_list_string name (v :: l) 0 = Err ZeroDivisionError.
Proof. intro H. unfold get_list_string. cbn [list_data]. rewrite H. reflexivity. Qed.

(** ** Dictionaries *)
Lemma lex_bol_indent r : drun SBol (L "    " ++ r) = demit [DIndent] (drun SStart r).
Proof.
  change (L "    " ++ r) with (" "%char :: " "%char :: " "%char :: " "%char :: r).
  rewrite drun_step. change (dstep SBol " ") with (Ok ([DIndent], SStart)). cbn [bind].
  rewrite !lex_space. reflexivity.
Qed.

Definition dict_toks (kvs : list (str * str)) : list dtok :=
  concat (map (fun kv => [DStr (fst kv); DColon; DNum (snd kv); DComma]) kvs).

Definition dict_raw_toks (kvs : list (str * str)) : list dtok :=
  concat (map (fun kv => [DIndent; DStr (fst kv); DColon; DNum (snd kv); DComma; DNl]) kvs).

Definition dict_line (kv : str * str) : str :=
  L "    '" ++ fst kv ++ L "': " ++ snd kv ++ L "," ++ [nl].

Lemma dict_lines_lex kvs r :
  Forall (fun kv => plain (fst kv) = true /\ number_text (snd kv) = true) kvs ->
  drun SBol (concat (map dict_line kvs) ++ r) = demit (dict_raw_toks kvs) (drun SBol r).
Proof.
  induction 1 as [|[k v] kvs [Hk Hv] HF IH]; [cbn; now rewrite demit_nil|].
  cbn [map concat]. unfold dict_line at 1. cbn [fst snd] in *.
  replace (((L "    '" ++ k ++ L "': " ++ v ++ L "," ++ [nl]) ++ concat (map dict_line kvs)) ++ r)
    with (L "    " ++ (L "'" ++ k ++ L "'" ++ ":"%char :: " "%char :: v ++ ","%char :: nl :: (concat (map dict_line kvs) ++ r))).
  2:{ change (L "    '") with (L "    " ++ L "'"). rewrite <- !app_assoc.
      change (L "': ") with (L "'" ++ [":"%char; " "%char]).
      rewrite <- !app_assoc. reflexivity. }
  rewrite lex_bol_indent. rewrite lex_str by (assumption || reflexivity).
  rewrite (lex_single ":" DColon) by reflexivity. rewrite lex_space.
  rewrite lex_num by (assumption || reflexivity). rewrite (lex_single "," DComma) by reflexivity.
  rewrite drun_step. change (dstep SStart nl) with (Ok ([DNl], SBol)). cbn [bind].
  rewrite IH. rewrite !demit_demit. reflexivity.
Qed.

Lemma dict_group kvs d acc r :
  group (S d) acc (dict_raw_toks kvs ++ r) = group (S d) (acc ++ dict_toks kvs) r.
Proof.
  revert acc. induction kvs as [|[k v] kvs IH]; intro acc; [cbn; now rewrite app_nil_r|].
  unfold dict_raw_toks, dict_toks. cbn [map concat fst snd]. rewrite <- app_assoc. cbn [app group].
  fold (dict_raw_toks kvs). fold (dict_toks kvs). rewrite IH. f_equal.
  rewrite <- !app_assoc. reflexivity.
Qed.

Lemma parse_dict_toks kvs : parse_dict (dict_toks kvs ++ [DClose "}"]) = Ok kvs.
Proof.
  induction kvs as [|[k v] kvs IH]; [reflexivity|].
  unfold dict_toks. cbn [map concat fst snd app parse_dict]. fold (dict_toks kvs).
  rewrite IH. reflexivity.
Qed.

Lemma dict_lines_mapM (d : dict str) ks :
  (forall k, In k ks -> exists v, dget d k = Some v) ->
  exists kvs, map fst kvs = ks /\ (forall k v, In (k, v) kvs -> dget d k = Some v) /\
   mapM (fun key => do value <- dindex d key;
                    Ok (L "    '" ++ key ++ L "': " ++ value ++ L "," ++ [nl])) ks =
   Ok (map dict_line kvs).
Proof.
  induction ks as [|k ks IH]; intro H.
  - exists []. repeat split. intros ? ? [].
  - destruct (H k) as [v Ev]; [left; reflexivity|].
    destruct IH as (kvs & E1 & E2 & E3); [intros; apply H; right; assumption|].
    exists ((k, v) :: kvs). split; [cbn; congruence|]. split.
    + intros k' v' [E|Hin]; [injection E as <- <-; assumption|apply E2; assumption].
    + cbn [mapM]. rewrite E3. unfold dindex. rewrite Ev. reflexivity.
Qed.

Lemma dget_In {V} (d : dict V) k v : dget d k = Some v -> In (k, v) d.
Proof.
  induction d as [|[k' v'] d IH]; cbn; [discriminate|].
  destruct (str_eqb k k') eqn:E; intro H.
  - apply str_eqb_eq in E. injection H as <-. left. congruence.
  - right. auto.
Qed.

Lemma dget_key {V} (d : dict V) k : In k (map fst d) -> exists v, dget d k = Some v.
Proof.
  induction d as [|[k' v'] d IH]; cbn; [tauto|].
  destruct (str_eqb k k') eqn:E; intro H; [eexists; reflexivity|].
  destruct H as [<-|H]; [rewrite str_eqb_refl in E; discriminate|auto].
Qed.

Lemma dget_dset {V} (d : dict V) k v k' :
  dget (dset d k v) k' = if str_eqb k' k then Some v else dget d k'.
Proof.
  induction d as [|[k2 v2] d IH]; cbn [dset dget]; [reflexivity|].
  destruct (str_eqb k k2) eqn:E; cbn [dget].
  - apply str_eqb_eq in E. subst k2. destruct (str_eqb k' k); reflexivity.
  - rewrite IH. destruct (str_eqb k' k2) eqn:E2; [|reflexivity].
    apply str_eqb_eq in E2. subst k2. rewrite str_eqb_sym, E. reflexivity.
Qed.

Lemma dget_absent {V} (d : dict V) k : ~ In k (map fst d) -> dget d k = None.
Proof.
  intro H. destruct (dget d k) as [v|] eqn:E; [|reflexivity].
  exfalso. apply H. apply dget_In in E. apply in_map_iff. exists (k, v). auto.
Qed.

Lemma dict_of_get kvs k : NoDup (map fst kvs) -> dget (dict_of kvs) k = dget kvs k.
Proof.
  unfold dict_of.
  assert (G : forall acc, (forall x, In x (map fst acc) -> In x (map fst kvs) -> False) ->
    NoDup (map fst kvs) ->
    dget (fold_left (fun d kv => dset d (fst kv) (snd kv)) kvs acc) k =
    match dget kvs k with Some v => Some v | None => dget acc k end).
  { induction kvs as [|[k0 v0] kvs IH]; intros acc Hd Hn; [reflexivity|].
    cbn [fold_left fst snd map]. inversion Hn as [|? ? H1 H2]; subst. rewrite IH.
    - cbn [dget]. rewrite dget_dset. destruct (str_eqb k k0) eqn:E.
      + apply str_eqb_eq in E. subst. rewrite dget_absent by assumption. reflexivity.
      + destruct (dget kvs k); reflexivity.
    - intros x Hx Hx'. assert (Hx2 : x = k0 \/ In x (map fst acc)).
      { clear - Hx. induction acc as [|[a b] acc IH]; cbn [dset map fst] in Hx.
        - destruct Hx as [H|[]]; left; congruence.
        - destruct (str_eqb k0 a) eqn:E; cbn [map fst] in Hx; [right; exact Hx|].
          destruct Hx as [<-|Hx]; [right; left; reflexivity|]. destruct (IH Hx); [left|right; right]; assumption. }
      destruct Hx2 as [->|Hx2]; [contradiction|]. apply (Hd x Hx2). right. assumption.
    - assumption. }
  intro H. rewrite G; [destruct (dget kvs k); reflexivity|intros ? []|assumption].
Qed.

Lemma dict_piece name d : name_text name = true ->
  Forall (fun kv => plain (fst kv) = true /\ number_text (snd kv) = true) d ->
  exists text d', get_dict_string name d = Ok text /\
    piece text [SAssign name (ODict d'); SPass] /\ (forall k, dget d' k = dget d k).
Proof.
  intros Hn W.
  destruct (dict_lines_mapM d (sorted_keys d)) as (kvs & E1 & E2 & E3).
  { intros k Hk. unfold sorted_keys in Hk. apply (proj1 (sorted_set_In _ _)) in Hk. apply dget_key. exact Hk. }
  unfold get_dict_string. rewrite E3. cbn [bind]. eexists. exists (dict_of kvs).
  split; [reflexivity|]. split.
  - assert (F : Forall (fun kv => plain (fst kv) = true /\ number_text (snd kv) = true) kvs).
    { apply Forall_forall. intros [k v] Hin. apply E2, dget_In in Hin.
      rewrite Forall_forall in W. apply (W (k, v)). exact Hin. }
    exists ([DName name; DEq; DOpen "{"; DNl] ++ dict_raw_toks kvs ++ [DClose "}"; DNl; DNl]),
      [DName name :: DEq :: DOpen "{" :: dict_toks kvs ++ [DClose "}"]; []].
    split; [|split].
    + change (L " = {") with [" "%char; "="%char; " "%char; "{"%char]. cbn [app].
      rewrite (lex_name_from SBol) by (auto || reflexivity).
      rewrite lex_space, (lex_single "=" DEq), lex_space, (lex_single "{" (DOpen "{")) by reflexivity.
      rewrite drun_step. change (dstep SStart nl) with (Ok ([DNl], SBol)). cbn [bind].
      rewrite dict_lines_lex by assumption.
      change (drun SBol (L "}" ++ [nl; nl])) with (Ok ([DClose "}"; DNl; DNl], SBol)).
      cbn [demit bind]. reflexivity.
    + intro r. cbn [app group]. rewrite <- app_assoc, dict_group. cbn [app group Nat.pred].
      rewrite <- ?app_assoc. cbn [app]. reflexivity.
    + cbn [mapM]. cbn [parse_line]. change (Ascii.eqb "{" "{") with true. cbn iota beta.
      rewrite parse_dict_toks. reflexivity.
  - intro k. assert (Nd : NoDup (map fst kvs)) by (rewrite E1; apply sorted_set_NoDup).
    rewrite dict_of_get by exact Nd.
    destruct (dget d k) as [v|] eqn:E.
    + assert (Hk : In k (map fst kvs)).
      { rewrite E1. apply sorted_set_In. apply dget_In in E. apply in_map_iff. exists (k, v). auto. }
      destruct (dget_key kvs k Hk) as [v' Ev']. rewrite Ev'. apply dget_In in Ev'. apply E2 in Ev'. congruence.
    + apply dget_absent. rewrite E1. unfold sorted_keys. rewrite sorted_set_In. intro Hk.
      destruct (dget_key d k Hk) as [v Ev]. congruence.
Qed.

(** ** Integers *)
Lemma nrun_digits st s : (st = NInt \/ st = NFrac \/ st = NExpInt) -> forallb is_digit s = true ->
  nrun st s = Some st.
Proof.
  intros Hst. induction s as [|c s IH]; intro H; [reflexivity|].
  cbn in H. apply andb_true_iff in H as [Hc H].
  destruct Hst as [-> | [-> | ->]]; cbn [nrun nstep]; rewrite Hc; apply IH; assumption.
Qed.

Lemma dec_number n : number_text (dec n) = true.
Proof.
  unfold number_text. pose proof (dec_digits n) as D. pose proof (dec_nonnil n) as N.
  destruct (dec n) as [|c s]; [congruence|]. cbn in D. apply andb_true_iff in D as [Hc H].
  cbn [nrun nstep]. rewrite Hc, nrun_digits by auto. reflexivity.
Qed.

Lemma int_number z : number_text (str_of_Z z) = true.
Proof.
  destruct z as [|p|p]; try apply dec_number. unfold str_of_Z, number_text.
  pose proof (dec_digits (Npos p)) as D. pose proof (dec_nonnil (Npos p)) as N.
  destruct (dec (Npos p)) as [|c s]; [congruence|]. cbn in D. apply andb_true_iff in D as [Hc H].
  change (ch "-") with "-"%char. cbn [nrun]. change (nstep NStart "-") with (Some NSign).
  cbn [nstep]. rewrite Hc, nrun_digits by auto. reflexivity.
Qed.

Lemma str_of_Z_inj a b : str_of_Z a = str_of_Z b -> a = b.
Proof.
  assert (D : forall n s, dec n <> "-"%char :: s).
  { intros n s E. pose proof (dec_digits n) as D. rewrite E in D. vm_compute in D. discriminate. }
  assert (I : forall m n, dec m = dec n -> m = n).
  { intros m n E. apply (f_equal int_of) in E. rewrite !int_of_dec in E. lia. }
  destruct a as [|p|p], b as [|q|q]; cbn [str_of_Z]; intro E; try reflexivity;
    try (exfalso; eapply D; (exact E || (symmetry; exact E))).
  - apply I in E. discriminate.
  - apply I in E. discriminate.
  - apply I in E. cbn in E. congruence.
  - injection E as E. apply I in E. congruence.
Qed.

(** ** Reading back *)
Lemma list_reads_back name l ncols : name_text name = true -> Forall writable l -> ncols <> 0%Z ->
  exists text, get_list_string name l ncols = Ok text /\
    exec_file text = Ok [(name, OVal (VList l))].
Proof.
  intros Hn W N. destruct (list_piece name l ncols Hn W N) as (text & E & P).
  exists text. split; [exact E|]. rewrite (piece_exec _ _ P). reflexivity.
Qed.

Lemma dict_reads_back name d : name_text name = true ->
  Forall (fun kv => plain (fst kv) = true /\ number_text (snd kv) = true) d ->
  exists text d', get_dict_string name d = Ok text /\
    exec_file text = Ok [(name, ODict d')] /\ (forall k, dget d' k = dget d k).
Proof.
  intros Hn W. destruct (dict_piece name d Hn W) as (text & d' & E & P & G).
  exists text, d'. split; [exact E|]. split; [|exact G]. rewrite (piece_exec _ _ P). reflexivity.
Qed.

(** ** Time *)
Lemma py_int_spec q : (0 <= q)%Q ->
  (0 <= py_int q)%Z /\ (inject_Z (py_int q) <= q)%Q /\ (q < inject_Z (py_int q) + 1)%Q.
Proof.
  intro H. assert (E : py_int q = Qfloor q).
  { unfold py_int, Qfloor. destruct q as [n d]. cbn. unfold Qle in H. cbn in H.
    apply Z.quot_div_nonneg; lia. }
  rewrite E. split; [|split].
  - change 0%Z with (Qfloor 0). apply Qfloor_resp_le. exact H.
  - apply Qfloor_le.
  - pose proof (Qlt_floor q) as F. rewrite inject_Z_plus in F. exact F.
Qed.

Lemma convert_time_ok sec : (0 <= sec)%Q ->
  let '(h, m, s) := convert_time sec in
  (0 <= h)%Z /\ (0 <= m < 60)%Z /\ (0 <= s)%Q /\ (s < 60)%Q /\
  (sec == inject_Z h * 3600 + inject_Z m * 60 + s)%Q.
Proof.
  intro H. unfold convert_time.
  set (h := py_int (sec / 3600)). set (m := py_int ((sec - inject_Z h * 3600) / 60)).
  assert (H1 : (0 <= sec / 3600)%Q).
  { apply Qle_shift_div_l; [reflexivity|]. lra. }
  destruct (py_int_spec _ H1) as (A1 & A2 & A3). fold h in A1, A2, A3.
  assert (B2 : (inject_Z h * 3600 <= sec)%Q).
  { assert (sec == (sec / 3600) * 3600)%Q by field. rewrite H0.
    apply Qmult_le_compat_r; [exact A2|discriminate]. }
  assert (B3 : (sec < (inject_Z h + 1) * 3600)%Q).
  { assert (sec == (sec / 3600) * 3600)%Q by field. rewrite H0.
    apply Qmult_lt_compat_r; [reflexivity|exact A3]. }
  assert (H2 : (0 <= (sec - inject_Z h * 3600) / 60)%Q).
  { apply Qle_shift_div_l; [reflexivity|]. lra. }
  destruct (py_int_spec _ H2) as (C1 & C2 & C3). fold m in C1, C2, C3.
  set (r := (sec - inject_Z h * 3600)%Q) in *.
  assert (Er : (r == (r / 60) * 60)%Q) by field.
  assert (D2 : (inject_Z m * 60 <= r)%Q).
  { rewrite Er. apply Qmult_le_compat_r; [exact C2|discriminate]. }
  assert (D3 : (r < (inject_Z m + 1) * 60)%Q).
  { rewrite Er at 1. apply Qmult_lt_compat_r; [reflexivity|exact C3]. }
  assert (M : (m < 60)%Z).
  { apply Z.nle_gt. intro M.
    assert (inject_Z 60 <= inject_Z m)%Q by (rewrite <- Zle_Qle; exact M).
    unfold r in D2. change (inject_Z 60) with 60%Q in H0. lra. }
  repeat split; try assumption; fold r; unfold r in *; lra.
Qed.
