(** The energy files written for the user. *)
From Coq Require Import String Ascii List ZArith NArith Bool Arith Reals Lia Lra Sorted.
Import ListNotations.
From Verif Require Import PyBase PyBaseFacts PyData_Model PyData_Spec PyData_Proofs Fmt_Model Fmt_Proofs
  KPlug_Text
  Rxn_Model Rxn_Spec Rxn_Proofs Species_Model Species_Spec Species_Proofs PyReal Energy_Model Energy_Spec
  Energy_Proofs Gen_Model Gen_Spec.
Local Open Scope list_scope.
Local Open Scope nat_scope.
Local Notation number_text := PyData_Model.number_text.

(** ** Pieces *)
Definition gpiece (text : str) (ss : list gstmt) : Prop :=
  exists ts lines,
    drun SBol text = Ok (ts, SBol) /\
    (forall r, group 0 [] (ts ++ r) = lines ++ group 0 [] r) /\
    mapM gparse_line lines = Ok ss.

Lemma gpiece_nil : gpiece [] [].
Proof. exists [], []. repeat split. Qed.

Lemma gpiece_app a b sa sb : gpiece a sa -> gpiece b sb -> gpiece (a ++ b) (sa ++ sb).
Proof.
  intros (ta & la & A1 & A2 & A3) (tb & lb & B1 & B2 & B3).
  exists (ta ++ tb), (la ++ lb). split; [|split].
  - rewrite drun_app, A1. cbn [bind]. rewrite B1. reflexivity.
  - intro r. rewrite <- app_assoc, A2, B2. now rewrite app_assoc.
  - rewrite mapM_app, A3, B3. reflexivity.
Qed.

Lemma gexec_app g a b : gexec_stmts g (a ++ b) = do g' <- gexec_stmts g a; gexec_stmts g' b.
Proof.
  revert g. induction a as [|s a IH]; intro g; [reflexivity|].
  cbn [app gexec_stmts]. destruct (gexec_stmt g s); [apply IH|reflexivity].
Qed.

Lemma gpiece_exec text ss : gpiece text ss -> gexec_file text = gexec_stmts [] ss.
Proof.
  intros (ts & lines & H1 & H2 & H3). unfold gexec_file, gparse_prog, dlex. rewrite H1. cbn [bind dflush].
  specialize (H2 []). rewrite app_nil_r in *. rewrite H2.
  rewrite mapM_app, H3. cbn [bind mapM group gparse_line parse_line].
  rewrite gexec_app. destruct (gexec_stmts [] ss); reflexivity.
Qed.

Definition gpass := GBase SPass.

Lemma gpiece_blank : gpiece [nl] [gpass].
Proof. exists [DNl], [[]]. repeat split. Qed.

Lemma gpiece_comment s : ~ In nl s -> gpiece (L "# " ++ s ++ [nl]) [gpass].
Proof.
  intro H. exists [DNl], [[]]. split; [|split; [reflexivity|reflexivity]].
  change (L "# " ++ s ++ [nl]) with ("#"%char :: " "%char :: s ++ [nl]).
  change (drun SBol ("#"%char :: " "%char :: s ++ [nl])) with (demit [] (demit [] (drun SComment (s ++ [nl])))).
  rewrite !demit_nil, drun_comment by assumption. reflexivity.
Qed.

Lemma gline_piece text ts s :
  (forall r, drun SBol (text ++ nl :: r) = demit ts (drun SStart (nl :: r))) ->
  inline ts -> gparse_line ts = Ok s -> gpiece (text ++ [nl]) [s].
Proof.
  intros H I P. exists (ts ++ [DNl]), [ts]. split; [|split].
  - rewrite H. reflexivity.
  - intro r. rewrite <- app_assoc, I. reflexivity.
  - cbn [mapM]. rewrite P. reflexivity.
Qed.

Lemma append_piece n x : name_text n = true -> number_text x = true ->
  gpiece (n ++ L ".append(" ++ x ++ L ")" ++ [nl]) [GAppend n (Some x)].
Proof.
  intros Hn Hx. replace (n ++ L ".append(" ++ x ++ L ")" ++ [nl]) with ((n ++ L ".append(" ++ x ++ L ")") ++ [nl])
    by now rewrite <- !app_assoc.
  apply gline_piece with [DName n; DDot; DName (L "append"); DOpen "("; DNum x; DClose ")"].
  - intro r. rewrite <- !app_assoc.
    change (L ".append(" ++ x ++ L ")" ++ nl :: r) with ("."%char :: L "append" ++ "("%char :: x ++ ")"%char :: nl :: r).
    rewrite (lex_name_to SBol) by (auto || reflexivity).
    rewrite (lex_single "." DDot) by reflexivity.
    rewrite (lex_name_to SStart) by (auto || reflexivity).
    rewrite (lex_single "(" (DOpen "(")) by reflexivity.
    rewrite (lex_num x) by (assumption || reflexivity).
    rewrite (lex_single ")" (DClose ")")) by reflexivity.
    rewrite !demit_demit. reflexivity.
  - intros d acc r. cbn [app group Nat.pred]. rewrite <- !app_assoc. reflexivity.
  - reflexivity.
Qed.

Lemma append_empty_piece n : name_text n = true ->
  gpiece (n ++ L ".append()" ++ [nl]) [GAppend n None].
Proof.
  intros Hn. replace (n ++ L ".append()" ++ [nl]) with ((n ++ L ".append()") ++ [nl])
    by now rewrite <- !app_assoc.
  apply gline_piece with [DName n; DDot; DName (L "append"); DOpen "("; DClose ")"].
  - intro r. rewrite <- !app_assoc.
    change (L ".append()" ++ nl :: r) with ("."%char :: L "append" ++ "("%char :: ")"%char :: nl :: r).
    rewrite (lex_name_to SBol) by (auto || reflexivity).
    rewrite (lex_single "." DDot) by reflexivity.
    rewrite (lex_name_to SStart) by (auto || reflexivity).
    rewrite (lex_single "(" (DOpen "(")) by reflexivity.
    rewrite (lex_single ")" (DClose ")")) by reflexivity.
    rewrite !demit_demit. reflexivity.
  - intros d acc r. cbn [app group Nat.pred]. rewrite <- !app_assoc. reflexivity.
  - reflexivity.
Qed.

Lemma relative_head :
  gpiece (L "# Relative Energies for all elementary reactions." ++ [nl] ++ L "Ga, dG = [], []" ++ [nl; nl])
    [gpass; GPair (L "Ga") (L "dG"); gpass].
Proof.
  eexists. exists [[]; [DName (L "Ga"); DComma; DName (L "dG"); DEq; DOpen "["; DClose "]"; DComma; DOpen "["; DClose "]"]; []].
  split; [vm_compute; reflexivity|]. split; [|reflexivity]. intro r. reflexivity.
Qed.

(** ** Relative energies, filled in *)
Definition block_stmts (b : str * (str * str)) : list gstmt :=
  [gpass; GAppend (L "Ga") (Some (fst (snd b))); GAppend (L "dG") (Some (snd (snd b))); gpass].

Definition good_block (b : str * (str * str)) : Prop :=
  ~ In nl (fst b) /\ number_text (fst (snd b)) = true /\ number_text (snd (snd b)) = true.

Definition block_text (b : str * (str * str)) : str :=
  L "# " ++ fst b ++ [nl] ++ L "Ga.append(" ++ fst (snd b) ++ L ")" ++ [nl] ++
  L "dG.append(" ++ snd (snd b) ++ L ")" ++ [nl; nl].

Lemma block_piece b : good_block b -> gpiece (block_text b) (block_stmts b).
Proof.
  intros (H1 & H2 & H3). unfold block_text, block_stmts.
  replace (L "# " ++ fst b ++ [nl] ++ L "Ga.append(" ++ fst (snd b) ++ L ")" ++ [nl] ++
           L "dG.append(" ++ snd (snd b) ++ L ")" ++ [nl; nl])
    with ((L "# " ++ fst b ++ [nl]) ++ (L "Ga" ++ L ".append(" ++ fst (snd b) ++ L ")" ++ [nl]) ++
          (L "dG" ++ L ".append(" ++ snd (snd b) ++ L ")" ++ [nl]) ++ [nl])
    by (rewrite <- !app_assoc; reflexivity).
  apply (gpiece_app _ _ [gpass] [_; _; _]); [apply gpiece_comment; assumption|].
  apply (gpiece_app _ _ [_] [_; _]); [apply append_piece; [reflexivity|assumption]|].
  apply (gpiece_app _ _ [_] [_]); [apply append_piece; [reflexivity|assumption]|apply gpiece_blank].
Qed.

Lemma blocks_piece l : Forall good_block l ->
  gpiece (concat (map block_text l)) (concat (map block_stmts l)).
Proof.
  induction 1 as [|b l H F IH]; [apply gpiece_nil|]. cbn [map concat].
  apply gpiece_app; [apply block_piece; assumption|assumption].
Qed.

Definition state_of (ga dg : list str) : names :=
  [(L "Ga", OVal (VList (map VNum ga))); (L "dG", OVal (VList (map VNum dg)))].

Lemma blocks_exec l ga dg :
  gexec_stmts (state_of ga dg) (concat (map block_stmts l)) =
  Ok (state_of (ga ++ map (fun b => fst (snd b)) l) (dg ++ map (fun b => snd (snd b)) l)).
Proof.
  revert ga dg. induction l as [|b l IH]; intros ga dg; [cbn; now rewrite !app_nil_r|].
  cbn [map concat]. rewrite gexec_app.
  assert (E : gexec_stmts (state_of ga dg) (block_stmts b) =
              Ok (state_of (ga ++ [fst (snd b)]) (dg ++ [snd (snd b)]))).
  { unfold state_of. rewrite !map_app. reflexivity. }
  rewrite E. cbn [bind]. rewrite IH. now rewrite <- !app_assoc.
Qed.

Lemma filled_relative_exec l : Forall good_block l ->
  gexec_file (filled_relative l) = Ok (state_of (map (fun b => fst (snd b)) l) (map (fun b => snd (snd b)) l)).
Proof.
  intro F. pose proof (gpiece_app _ _ _ _ relative_head (blocks_piece l F)) as P.
  replace (filled_relative l) with
    ((L "# Relative Energies for all elementary reactions." ++ [nl] ++ L "Ga, dG = [], []" ++ [nl; nl]) ++
     concat (map block_text l))
    by (unfold filled_relative, block_text; rewrite <- !app_assoc; reflexivity).
  rewrite (gpiece_exec _ _ P), gexec_app.
  change (gexec_stmts [] [gpass; GPair (L "Ga") (L "dG"); gpass]) with (Ok (state_of [] [])).
  cbn [bind]. rewrite blocks_exec. reflexivity.
Qed.

Lemma mapM_num (num : str -> R) l : mapM (num_of num) (map VNum l) = Ok (map num l).
Proof. induction l as [|x l IH]; [reflexivity|]. cbn [map mapM num_of bind]. now rewrite IH. Qed.

Lemma relative_filled num fs name setup n st l :
  Forall good_block l -> dget fs name = Some (filled_relative l) ->
  relative_load num fs name setup n st =
  rel_parse_data (Some {| d_Ga := Some (map (fun b => num (fst (snd b))) l);
                          d_dG := Some (map (fun b => num (snd (snd b))) l) |}) setup n st.
Proof.
  intros F E. unfold relative_load. rewrite E, (filled_relative_exec l F). cbn [bind].
  unfold list_of, state_of.
  change (dget [(L "Ga", OVal (VList (map VNum (map (fun b : str * (str * str) => fst (snd b)) l))));
                (L "dG", OVal (VList (map VNum (map (fun b => snd (snd b)) l))))] (L "Ga"))
    with (Some (OVal (VList (map VNum (map (fun b : str * (str * str) => fst (snd b)) l))))).
  change (dget [(L "Ga", OVal (VList (map VNum (map (fun b : str * (str * str) => fst (snd b)) l))));
                (L "dG", OVal (VList (map VNum (map (fun b => snd (snd b)) l))))] (L "dG"))
    with (Some (OVal (VList (map VNum (map (fun b : str * (str * str) => snd (snd b)) l))))).
  cbn iota. rewrite !mapM_num. cbn [bind]. now rewrite !map_map.
Qed.

Lemma relative_text_filled rxns :
  relative_text rxns = filled_relative (map (fun r => (r, ([], []))) rxns).
Proof.
  unfold relative_text, filled_relative. do 4 f_equal. rewrite map_map. f_equal.
Qed.

(** A reaction over two lines. *)
Definition two_lines : str := L "CO_g + *_s ->" ++ [nl] ++ L " CO_s".

Lemma mapM_first_error {A B} (f : A -> res B) a x b ys e :
  mapM f a = Ok ys -> f x = Err e -> mapM f (a ++ x :: b) = Err e.
Proof. intros H1 H2. rewrite mapM_app, H1. cbn [bind mapM]. rewrite H2. reflexivity. Qed.

Lemma two_lines_exec ga dg : number_text ga = true -> number_text dg = true ->
  gexec_file (filled_relative [(two_lines, (ga, dg))]) = Err SyntaxError.
Proof.
  intros Ha Hd.
  assert (C : gpiece (L "# " ++ L "CO_g + *_s ->" ++ [nl]) [gpass]).
  { apply gpiece_comment. intro H. vm_compute in H. intuition discriminate. }
  pose proof (gpiece_app _ _ _ _ relative_head C) as (ta & la & A1 & A2 & A3).
  assert (B : gpiece ((L "Ga" ++ L ".append(" ++ ga ++ L ")" ++ [nl]) ++
                      (L "dG" ++ L ".append(" ++ dg ++ L ")" ++ [nl]) ++ [nl])
                ([GAppend (L "Ga") (Some ga)] ++ [GAppend (L "dG") (Some dg)] ++ [gpass])).
  { apply gpiece_app; [apply append_piece; [reflexivity|assumption]|].
    apply gpiece_app; [apply append_piece; [reflexivity|assumption]|apply gpiece_blank]. }
  destruct B as (tb & lb & B1 & B2 & B3).
  replace (filled_relative [(two_lines, (ga, dg))])
    with (((L "# Relative Energies for all elementary reactions." ++ [nl] ++ L "Ga, dG = [], []" ++ [nl; nl]) ++
           L "# " ++ L "CO_g + *_s ->" ++ [nl]) ++ (L " CO_s" ++ [nl]) ++
          ((L "Ga" ++ L ".append(" ++ ga ++ L ")" ++ [nl]) ++
                      (L "dG" ++ L ".append(" ++ dg ++ L ")" ++ [nl]) ++ [nl]))
    by (unfold filled_relative, two_lines; cbn [map concat fst snd]; rewrite <- !app_assoc; reflexivity).
  unfold gexec_file, gparse_prog, dlex. rewrite drun_app, A1. cbn [bind].
  rewrite drun_app. change (drun SBol (L " CO_s" ++ [nl])) with (Ok ([DIndent; DName (L "CO_s"); DNl], SBol) : dres).
  cbn [bind]. rewrite B1. cbn [bind demit dflush].
  rewrite app_nil_r, A2. cbn [app group].
  rewrite (mapM_first_error _ _ _ _ _ SyntaxError A3); reflexivity.
Qed.

Lemma two_lines_unreadable num fs name setup n st ga dg :
  number_text ga = true -> number_text dg = true ->
  dget fs name = Some (filled_relative [(two_lines, (ga, dg))]) ->
  relative_load num fs name setup n st = (st, Err SyntaxError).
Proof. intros Ha Hd E. unfold relative_load. rewrite E, two_lines_exec by assumption. reflexivity. Qed.

(** Not filled in. *)
Definition empty_stmts : list gstmt := [gpass; GAppend (L "Ga") None; GAppend (L "dG") None; gpass].

Lemma empty_block_piece r : ~ In nl r -> gpiece (relative_block r) empty_stmts.
Proof.
  intro H. unfold relative_block, empty_stmts.
  replace (L "# " ++ r ++ [nl] ++ L "Ga.append()" ++ [nl] ++ L "dG.append()" ++ [nl; nl])
    with ((L "# " ++ r ++ [nl]) ++ (L "Ga" ++ L ".append()" ++ [nl]) ++ (L "dG" ++ L ".append()" ++ [nl]) ++ [nl])
    by (rewrite <- !app_assoc; reflexivity).
  apply (gpiece_app _ _ [gpass] [_; _; _]); [apply gpiece_comment; assumption|].
  apply (gpiece_app _ _ [_] [_; _]); [apply append_empty_piece; reflexivity|].
  apply (gpiece_app _ _ [_] [_]); [apply append_empty_piece; reflexivity|apply gpiece_blank].
Qed.

Lemma relative_unfilled r rxns : Forall (fun r => ~ In nl r) (r :: rxns) ->
  gexec_file (relative_text (r :: rxns)) = Err TypeError.
Proof.
  intro F.
  assert (P : gpiece (concat (map relative_block (r :: rxns))) (concat (map (fun _ => empty_stmts) (r :: rxns)))).
  { revert F. generalize (r :: rxns). induction 1 as [|b l H F IH]; [apply gpiece_nil|]. cbn [map concat].
    apply gpiece_app; [apply empty_block_piece; assumption|assumption]. }
  pose proof (gpiece_app _ _ _ _ relative_head P) as Q.
  replace (relative_text (r :: rxns)) with
    ((L "# Relative Energies for all elementary reactions." ++ [nl] ++ L "Ga, dG = [], []" ++ [nl; nl]) ++
     concat (map relative_block (r :: rxns)))
    by (unfold relative_text; rewrite <- !app_assoc; reflexivity).
  rewrite (gpiece_exec _ _ Q), gexec_app.
  change (gexec_stmts [] [gpass; GPair (L "Ga") (L "dG"); gpass]) with (Ok (state_of [] [])).
  reflexivity.
Qed.

Lemma relative_unedited num fs rxns name setup n st :
  Forall (fun r => ~ In nl r) rxns -> dget fs name = Some (relative_text rxns) ->
  relative_load num fs name setup n st =
  match rxns with
  | [] => rel_parse_data (Some {| d_Ga := Some []; d_dG := Some [] |}) setup n st
  | _ => (st, Err TypeError)
  end.
Proof.
  intros F E. destruct rxns as [|r rxns].
  - rewrite relative_text_filled in E. exact (relative_filled num fs name setup n st [] (Forall_nil _) E).
  - unfold relative_load. rewrite E, (relative_unfilled r rxns F). reflexivity.
Qed.

(** ** Absolute energies *)
Definition abs_line (kv : str * str) : str :=
  L "    '" ++ fst kv ++ L "': " ++ snd kv ++ L ", # eV" ++ [nl; nl].
Definition abs_raw_toks (kvs : list (str * str)) : list dtok :=
  concat (map (fun kv => [DIndent; DStr (fst kv); DColon; DNum (snd kv); DComma; DNl; DNl]) kvs).
Definition good_pair (kv : str * str) : Prop := plain (fst kv) = true /\ number_text (snd kv) = true.

Lemma abs_lines_lex kvs r : Forall good_pair kvs ->
  drun SBol (concat (map abs_line kvs) ++ r) = demit (abs_raw_toks kvs) (drun SBol r).
Proof.
  induction 1 as [|[k v] kvs [Hk Hv] HF IH]; [cbn; now rewrite demit_nil|].
  cbn [map concat]. unfold abs_line at 1. cbn [fst snd] in *.
  replace (((L "    '" ++ k ++ L "': " ++ v ++ L ", # eV" ++ [nl; nl]) ++ concat (map abs_line kvs)) ++ r)
    with (L "    " ++ (L "'" ++ k ++ L "'" ++ ":"%char :: " "%char :: v ++ ","%char :: " "%char ::
       "#"%char :: L " eV" ++ nl :: nl :: (concat (map abs_line kvs) ++ r))).
  2:{ change (L "    '") with (L "    " ++ L "'"). rewrite <- !app_assoc.
      change (L "': ") with (L "'" ++ [":"%char; " "%char]).
      rewrite <- !app_assoc. reflexivity. }
  rewrite lex_bol_indent. rewrite lex_str by (assumption || reflexivity).
  rewrite (lex_single ":" DColon) by reflexivity. rewrite lex_space.
  rewrite lex_num by (assumption || reflexivity). rewrite (lex_single "," DComma) by reflexivity.
  rewrite lex_space.
  change (drun SStart ("#"%char :: L " eV" ++ nl :: nl :: (concat (map abs_line kvs) ++ r)))
    with (demit [] (drun SComment (L " eV" ++ nl :: nl :: (concat (map abs_line kvs) ++ r)))).
  rewrite demit_nil, drun_comment by (intro H; vm_compute in H; intuition discriminate).
  change (drun SComment (nl :: nl :: (concat (map abs_line kvs) ++ r)))
    with (demit [DNl] (demit [DNl] (drun SBol (concat (map abs_line kvs) ++ r)))).
  rewrite IH. rewrite !demit_demit. reflexivity.
Qed.

Lemma abs_group kvs d acc r :
  group (S d) acc (abs_raw_toks kvs ++ r) = group (S d) (acc ++ dict_toks kvs) r.
Proof.
  revert acc. induction kvs as [|[k v] kvs IH]; intro acc; [cbn; now rewrite app_nil_r|].
  unfold abs_raw_toks, dict_toks. cbn [map concat fst snd]. rewrite <- app_assoc. cbn [app group].
  fold (abs_raw_toks kvs). fold (dict_toks kvs). rewrite IH. f_equal.
  rewrite <- !app_assoc. reflexivity.
Qed.

Lemma filled_absolute_exec kvs : Forall good_pair kvs ->
  gexec_file (filled_absolute kvs) = Ok [(L "absolute_energies", ODict (dict_of kvs))].
Proof.
  intro F.
  assert (P : gpiece (filled_absolute kvs)
      [gpass; GBase (SAssign (L "absolute_energies") (ODict (dict_of kvs))); gpass]).
  { exists ([DNl; DName (L "absolute_energies"); DEq; DOpen "{"; DNl; DNl] ++ abs_raw_toks kvs ++ [DClose "}"; DNl; DNl]),
      [[]; DName (L "absolute_energies") :: DEq :: DOpen "{" :: dict_toks kvs ++ [DClose "}"]; []].
    split; [|split].
    - unfold filled_absolute.
      change (concat (map (fun kv => L "    '" ++ fst kv ++ L "': " ++ snd kv ++ L ", # eV" ++ [nl; nl]) kvs))
        with (concat (map abs_line kvs)).
      replace (L "# Absolute energies for all species." ++ [nl] ++ L "absolute_energies = {" ++ [nl; nl] ++
               concat (map abs_line kvs) ++ L "}" ++ [nl; nl])
        with ((L "# Absolute energies for all species." ++ [nl] ++ L "absolute_energies = {" ++ [nl; nl]) ++
               concat (map abs_line kvs) ++ L "}" ++ [nl; nl]) by (rewrite <- !app_assoc; reflexivity).
      rewrite drun_app.
      replace (drun SBol (L "# Absolute energies for all species." ++ [nl] ++ L "absolute_energies = {" ++ [nl; nl]))
        with (Ok ([DNl; DName (L "absolute_energies"); DEq; DOpen "{"; DNl; DNl], SBol) : dres)
        by (vm_compute; reflexivity).
      cbn [bind]. rewrite abs_lines_lex by assumption.
      change (drun SBol (L "}" ++ [nl; nl])) with (Ok ([DClose "}"; DNl; DNl], SBol)).
      cbn [demit bind]. reflexivity.
    - intro r. cbn [app group]. rewrite <- app_assoc, abs_group. cbn [app group Nat.pred].
      rewrite <- ?app_assoc. cbn [app]. reflexivity.
    - cbn [mapM gparse_line parse_line]. change (Ascii.eqb "{" "{") with true. cbn iota beta.
      rewrite parse_dict_toks. reflexivity. }
  rewrite (gpiece_exec _ _ P). reflexivity.
Qed.

Lemma dict_of_keys kvs : NoDup (map fst kvs) -> dict_of kvs = kvs.
Proof.
  unfold dict_of. intro N. change kvs with ([] ++ kvs) at 2.
  assert (D : forall x, In x (map fst (@nil (str * str))) -> ~ In x (map fst kvs)) by (intros x []).
  revert D. generalize (@nil (str * str)) as acc.
  induction kvs as [|[k v] kvs IH]; intros acc D; [cbn; now rewrite app_nil_r|].
  cbn [fold_left fst snd map] in *. inversion N as [|? ? N1 N2]; subst.
  assert (E : dset acc k v = acc ++ [(k, v)]).
  { assert (Hk : ~ In k (map fst acc)) by (intro H; apply (D k H); left; reflexivity).
    clear - Hk. induction acc as [|[a b] acc IH]; [reflexivity|]. cbn [dset app].
    destruct (str_eqb k a) eqn:E; [apply str_eqb_eq in E; subst; exfalso; apply Hk; left; reflexivity|].
    f_equal. apply IH. intro H. apply Hk. right. assumption. }
  rewrite E, IH.
  - now rewrite <- app_assoc.
  - assumption.
  - intros x Hx Hx'. rewrite map_app in Hx. apply in_app_iff in Hx as [Hx|[<- | []]]; [|contradiction].
    apply (D x Hx). right. assumption.
Qed.

Lemma absolute_filled num fs name rxns st kvs :
  Forall good_pair kvs -> NoDup (map fst kvs) -> dget fs name = Some (filled_absolute kvs) ->
  absolute_load num fs name rxns st =
  abs_parse_data (Some (Some (map (fun kv => (fst kv, num (snd kv))) kvs))) rxns st.
Proof.
  intros F N E. unfold absolute_load. rewrite E, (filled_absolute_exec kvs F), (dict_of_keys kvs N). reflexivity.
Qed.

Lemma absolute_text_filled p :
  absolute_text (Some p) =
  Ok (filled_absolute (map (fun n => (n, L "0.0")) (l_gas p ++ l_liq p ++ l_ads p ++ l_ts p ++ l_site p))).
Proof.
  unfold absolute_text, filled_absolute. cbn [all_species bind]. do 6 f_equal. rewrite map_map. f_equal.
Qed.

(** ** The names *)
Lemma names_exact es p : parse_rxns es = Ok p ->
  forall n, In n (l_gas p ++ l_liq p ++ l_ads p ++ l_ts p ++ l_site p) <-> energy_name (l_rxns p) n.
Proof.
  intros H n. destruct (parse_rxns_facts es p H) as (_ & _ & _ & _ & _ & _ & G & Q & T & A & S).
  rewrite !in_app_iff, (G n), (Q n), (A n), (T n), (S n). split.
  - intros [X|[X|[X|[X|X]]]]; destruct X as (f & O & R & ->);
      [apply en_species|apply en_species|apply en_species|apply en_species|apply en_site]; tauto.
  - intros [f O [R|[R|[R|R]]]|f O R]; eauto 10.
Qed.

Lemma sorted_NoDup l : strictly_increasing l -> NoDup l.
Proof.
  unfold strictly_increasing. induction 1 as [|x l Hl IH Hx]; constructor; auto.
  intro H. rewrite Forall_forall in Hx. specialize (Hx x H). unfold text_lt in Hx.
  assert (str_compare x x = Eq) as E; [|congruence].
  clear. induction x as [|c x IH]; [reflexivity|]. cbn. now rewrite N.compare_refl.
Qed.

Lemma gappend_iff g n x r : gexec_stmt g (GAppend n x) = r <->
  (dget g n = None /\ r = Err NameError) \/
  (exists o, dget g n = Some o /\ (forall l, o <> OVal (VList l)) /\ r = Err AttributeError) \/
  (exists l, dget g n = Some (OVal (VList l)) /\
     match x with Some t => r = Ok (dset g n (OVal (VList (l ++ [VNum t])))) | None => r = Err TypeError end).
Proof.
  cbn [gexec_stmt]. split.
  - intros <-. destruct (dget g n) as [[[| | |]|]|] eqn:E; try (right; left; eexists; split; [reflexivity|]; split; [discriminate|reflexivity]).
    + right; right. eexists. split; [reflexivity|]. now destruct x.
    + left. auto.
  - intros [[-> ->]|[(o & -> & N & ->)|(l & -> & H)]]; [reflexivity| |now destruct x; rewrite H].
    destruct o as [[| | |]|]; try reflexivity. exfalso. eapply N. reflexivity.
Qed.
