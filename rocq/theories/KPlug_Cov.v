(** The coverages plugin. *)
From Coq Require Import String Ascii List ZArith NArith Bool Arith QArith Lia Lqa.
Import ListNotations.
From Verif Require Import PyBase PyBaseFacts PyData_Model PyData_Spec PyData_Proofs Fmt_Model Fmt_Proofs
  KCov_Model KCov_Proofs KPlug_Model KPlug_Spec KPlug_Text KPlug_Tof.
Local Open Scope list_scope.
Local Open Scope nat_scope.

(** ** Lengths *)
Lemma index_drop empty pt i : index_of empty pt = Some i -> length pt = S (length (drop_at pt i)).
Proof.
  revert i. induction pt as [|x pt IH]; intros i H; cbn in H; [discriminate|].
  destruct (str_eqb empty x); [injection H as <-; reflexivity|].
  destruct (index_of empty pt) as [k|]; [|discriminate]. injection H as <-. cbn [drop_at length].
  now rewrite (IH k eq_refl) at 1.
Qed.

Lemma insert_length {A} (l : list A) i x : length (insert_at l i x) = S (length l).
Proof. revert i. induction l as [|y l IH]; intros [|i]; cbn; try reflexivity. now rewrite IH. Qed.

Lemma step_length pt empty ratios types v : step_coverages pt empty ratios types = Ok v -> length v = length pt.
Proof.
  unfold step_coverages. destruct (index_of empty pt) as [i|] eqn:E; [|discriminate].
  destruct (py_collect 0%Q Qplus qdiv types (drop_at pt i) ratios) as [c|] eqn:P; [|discriminate].
  cbn [bind]. intro H. injection H as <-. rewrite insert_length, (index_drop _ _ _ E). f_equal.
  unfold py_collect in P. destruct ratios as [|r0 rs]; [discriminate|].
  apply mapM_length in P. rewrite P, fold_length. apply repeat_length.
Qed.

(** ** Columns *)
Definition column (rows : list (list Q)) (j : nat) : list Q := map (fun r => nth j r 0%Q) rows.

Lemma zip_rows_columns n rows : rows <> [] -> Forall (fun r => length r = n) rows ->
  zip_rows rows = map (column rows) (seq 0 n).
Proof.
  intros N F. induction F as [|r rows Hr F IH]; [congruence|].
  assert (NS : forall (l : list Q), map (fun j => nth j l 0%Q) (seq 0 (length l)) = l).
  { clear. induction l as [|x l IH]; [reflexivity|]. cbn [length seq map nth]. f_equal.
    rewrite <- seq_shift, map_map. exact IH. }
  destruct rows as [|r2 rows].
  - cbn [zip_rows]. rewrite <- (NS r) at 1. rewrite Hr, map_map. reflexivity.
  - change (zip_rows (r :: r2 :: rows)) with (map (fun p => fst p :: snd p) (combine r (zip_rows (r2 :: rows)))).
    rewrite IH by discriminate. rewrite <- (NS r) at 1. rewrite Hr.
    generalize (seq 0 n). induction l as [|j l IHl]; [reflexivity|]. cbn [map combine fst snd]. f_equal. exact IHl.
Qed.

Lemma column_app a b j : column (a ++ b) j = column a j ++ column b j.
Proof. apply map_app. Qed.

Lemma update_here a x b f : update_at (a ++ x :: b) (length a) f = do y <- f x; Ok (a ++ y :: b).
Proof.
  induction a as [|z a IH]; [reflexivity|]. cbn [app length update_at]. rewrite IH. destruct (f x); reflexivity.
Qed.

Lemma lindex_here {A} (a : list A) x b : lindex (a ++ x :: b) (length a) = Ok x.
Proof. unfold lindex. rewrite nth_error_app2, Nat.sub_diag by lia. reflexivity. Qed.

(** The statements after a flush of the coverages. *)
Definition col_stmts (k n s : nat) : list stmt :=
  map (fun i => SExtend (L "coverages", Some i) (L "coverages_" ++ nat_text k, Some i)) (seq s n).

Lemma column_lines_piece n k : piece (column_lines n k) (col_stmts k n 0).
Proof.
  unfold column_lines, col_stmts. induction (seq 0 n) as [|i l IH]; [apply piece_nil|].
  cbn [map concat].
  change (SExtend (L "coverages", Some i) (L "coverages_" ++ nat_text k, Some i) ::
    map (fun i => SExtend (L "coverages", Some i) (L "coverages_" ++ nat_text k, Some i)) l) with
   ([SExtend (L "coverages", Some i) (L "coverages_" ++ nat_text k, Some i)] ++
    map (fun i => SExtend (L "coverages", Some i) (L "coverages_" ++ nat_text k, Some i)) l).
  apply piece_app; [|exact IH].
  replace (L "coverages[" ++ nat_text i ++ L "].extend(coverages_" ++ nat_text k ++ L "[" ++ nat_text i ++ L "])" ++ [nl])
    with (L "coverages" ++ L "[" ++ nat_text i ++ L "].extend(" ++ (L "coverages_" ++ nat_text k) ++ L "[" ++ nat_text i ++ L "])" ++ [nl]).
  - apply column_line; [reflexivity|].
    exact (counted_name (L "coverages") k eq_refl).
  - reflexivity.
Qed.

Definition vlists (show : Q -> str) (l : list (list Q)) : list val := map (fun c => VList (map (num show) c)) l.
Definition vtuples (show : Q -> str) (l : list (list Q)) : list val := map (fun c => VTuple (map (num show) c)) l.

Lemma columns_effect show k olds news : length olds = length news -> forall done dn g,
  length done = length dn ->
  dget g (L "coverages") = Some (OVal (VList (vlists show (done ++ olds)))) ->
  dget g (L "coverages_" ++ nat_text k) = Some (OVal (VList (vtuples show (dn ++ news)))) ->
  exists g', exec_stmts g (col_stmts k (length olds) (length done)) = Ok g' /\
    dget g' (L "coverages") = Some (OVal (VList (vlists show (done ++ map (fun p => fst p ++ snd p) (combine olds news))))) /\
    forall n, n <> L "coverages" -> dget g' n = dget g n.
Proof.
  intro HL. revert news HL. induction olds as [|o olds IH]; intros news HL done dn g HD H1 H2.
  - exists g. cbn. split; [reflexivity|]. split; [exact H1|reflexivity].
  - destruct news as [|w news]; [discriminate|]. injection HL as HL.
    assert (NE : str_eqb (L "coverages_" ++ nat_text k) (L "coverages") = false).
    { apply str_eqb_neq'. intro E. apply (f_equal (@length ascii)) in E. rewrite app_length in E. cbn in E. lia. }
    set (g1 := dset g (L "coverages") (OVal (VList (vlists show (done ++ (o ++ w) :: olds))))).
    assert (X : exec_stmt g (SExtend (L "coverages", Some (length done)) (L "coverages_" ++ nat_text k, Some (length done))) = Ok g1).
    { cbn [exec_stmt]. unfold fetch. cbn [fst snd]. rewrite H1.
      assert (A : lindex (vlists show (done ++ o :: olds)) (length done) = Ok (VList (map (num show) o))).
      { unfold vlists. rewrite map_app. cbn [map].
        replace (length done) with (length (map (fun c => VList (map (num show) c)) done)) by apply map_length.
        apply lindex_here. }
      rewrite A. cbn [bind extend_val]. rewrite H2, HD.
      assert (B : lindex (vtuples show (dn ++ w :: news)) (length dn) = Ok (VTuple (map (num show) w))).
      { unfold vtuples. rewrite map_app. cbn [map].
        replace (length dn) with (length (map (fun c => VTuple (map (num show) c)) dn)) by apply map_length.
        apply lindex_here. }
      rewrite B. cbn [bind elements]. rewrite <- HD.
      assert (C : update_at (vlists show (done ++ o :: olds)) (length done) (fun x => extend_val x (map (num show) w)) =
                  Ok (vlists show (done ++ (o ++ w) :: olds))).
      { unfold vlists. rewrite !map_app. cbn [map].
        replace (length done) with (length (map (fun c => VList (map (num show) c)) done)) by apply map_length.
        rewrite update_here. cbn [extend_val bind]. now rewrite map_app. }
      rewrite C. cbn [bind]. reflexivity. }
    destruct (IH news HL (done ++ [o ++ w]) (dn ++ [w]) g1) as (g' & E & G1 & G2).
    { rewrite !app_length. cbn. lia. }
    { unfold g1. rewrite dget_dset, str_eqb_refl, <- app_assoc. reflexivity. }
    { unfold g1. rewrite dget_dset, NE, <- app_assoc. exact H2. }
    exists g'. split; [|split].
    + unfold col_stmts. cbn [length seq map]. cbn [exec_stmts]. rewrite X. cbn [bind].
      rewrite app_length in E. cbn [length] in E. rewrite Nat.add_1_r in E. exact E.
    + cbn [combine map fst snd]. rewrite <- app_assoc in G1. exact G1.
    + intros n Hn. rewrite G2 by exact Hn. unfold g1. rewrite dget_dset, (str_eqb_neq' _ _ Hn). reflexivity.
Qed.

(** ** Types in quotes within quotes *)
Definition bad_toks (t : str) : list dtok := [DStr []; DName t; DStr []; DComma].

Lemma lex_quoted_type t r : type_name t ->
  drun SStart (L "'" ++ quoted t ++ L "', " ++ r) = demit (bad_toks t) (drun SStart r).
Proof.
  intros [Hn Hp]. unfold quoted. rewrite <- !app_assoc.
  change (L "'" ++ L "'" ++ t ++ L "'" ++ L "', " ++ r) with
    (L "'" ++ [] ++ "'"%char :: t ++ "'"%char :: "'"%char :: ","%char :: " "%char :: r).
  unfold name_text in Hn. apply andb_true_iff in Hn as [Hn Hk]. apply negb_true_iff in Hk.
  destruct t as [|c0 t]; [discriminate|]. apply andb_true_iff in Hn as [H0 Hw].
  destruct (letter_not c0 H0) as (N1 & N2 & N3).
  assert (NQ : Ascii.eqb c0 quote = false).
  { apply Bool.not_true_iff_false. intro E. apply Ascii.eqb_eq in E. subst c0. vm_compute in H0. discriminate. }
  cbn [L list_ascii_of_string app]. rewrite drun_step.
  change (dstep SStart "'") with (Ok ([] : list dtok, SStr [])). cbn [bind]. rewrite demit_nil, drun_step.
  change (dstep (SStr []) "'") with (Ok ([] : list dtok, SStrEnd [])). cbn [bind]. rewrite demit_nil, drun_step.
  cbn [dstep]. rewrite NQ. unfold dstart. rewrite N1, N2, N3, H0. cbn [demit bind app].
  rewrite drun_name by exact Hw. cbn [app]. rewrite drun_step.
  assert (DQ : dstep (SName (c0 :: t)) "'" = Ok ([DName (c0 :: t)], SStr [])).
  { cbn [dstep]. change (is_word "'") with false. cbn iota. change (Ascii.eqb "'" quote) with true.
    rewrite Hp. cbn [andb]. unfold end_name. rewrite Hk. cbn [bind].
    change (dstart "'") with (Ok ([] : list dtok, SStr [])). reflexivity. }
  rewrite DQ. cbn [bind]. rewrite drun_step.
  change (dstep (SStr []) "'") with (Ok ([] : list dtok, SStrEnd [])). cbn [bind]. rewrite demit_nil, drun_step.
  change (dstep (SStrEnd []) ",") with (Ok ([DStr []; DComma], SStart)). cbn [bind].
  rewrite lex_space, !demit_demit. reflexivity.
Qed.

Lemma types_data ncols types : Forall type_name types -> ncols <> 0%Z -> forall idx,
  exists text ts, list_data ncols idx (map (fun t => VStr (quoted t)) types) = Ok text /\
    (forall r, drun SStart (text ++ r) = demit ts (drun SStart r)) /\
    (forall d acc r, group (S d) acc (ts ++ r) = group (S d) (acc ++ concat (map bad_toks types)) r).
Proof.
  intros F N. induction F as [|t types Ht F IH]; intro idx.
  - exists [], []. split; [reflexivity|]. split; [intro r; now rewrite demit_nil|intros; now rewrite app_nil_r].
  - destruct (IH (idx + 1)%Z) as (text & ts & E & Hd & Hg). cbn [map list_data is_iterable].
    destruct (Z.eqb_spec ncols 0) as [|_]; [contradiction|]. cbn [bind]. rewrite E. cbn [bind].
    set (b := (idx mod ncols =? 0)%Z).
    exists (((if b then [nl] ++ L "    " else []) ++ L "'" ++ quoted t ++ L "', ") ++ text),
           ((if b then [DNl; DIndent] else []) ++ bad_toks t ++ ts).
    split; [reflexivity|]. split.
    + intro r. rewrite <- !app_assoc.
      assert (Hbr : forall u, drun SStart ((if b then [nl] ++ L "    " else []) ++ u) =
                     demit (if b then [DNl; DIndent] else []) (drun SStart u)).
      { intro u. destruct b; [apply lex_break|cbn [app]; now rewrite demit_nil]. }
      rewrite Hbr, lex_quoted_type by exact Ht. rewrite Hd, !demit_demit, <- ?app_assoc. reflexivity.
    + intros d acc r. rewrite <- !app_assoc. cbn [map concat].
      assert (G : forall acc u, group (S d) acc (bad_toks t ++ u) = group (S d) (acc ++ bad_toks t) u).
      { intros a u. unfold bad_toks. cbn [app group]. rewrite <- !app_assoc. reflexivity. }
      destruct b; cbn [app group]; rewrite G, Hg, <- app_assoc; reflexivity.
Qed.

(** The text of the types: it lexes, but is not a statement. *)
Lemma types_bad types text a c sa sc : types <> [] -> Forall type_name types ->
  get_list_string (L "possible_types") (map (fun t => VStr (quoted t)) types) 5 = Ok text ->
  piece a sa -> piece c sc -> exec_file (a ++ text ++ c) = Err SyntaxError.
Proof.
  intros N F E (ta & la & A1 & A2 & A3) (tc & lc & C1 & C2 & C3).
  destruct (types_data 5 types F ltac:(discriminate) 0%Z) as (data & ts & E1 & Hd & Hg).
  unfold get_list_string in E. rewrite E1 in E. cbn [bind] in E.
  set (tt := [DName (L "possible_types"); DEq; DOpen "["] ++ ts ++ [DNl; DClose "]"; DNl; DNl]).
  assert (T : drun SBol text = Ok (tt, SBol)).
  { assert (text = L "possible_types" ++ " "%char :: "="%char :: " "%char :: "["%char :: data ++ nl :: L "]" ++ [nl; nl]) as ->
      by (symmetry; clear - E; injection E; intros <-; reflexivity).
    rewrite (lex_name_from SBol) by (auto || reflexivity).
    rewrite lex_space, (lex_single "=" DEq), lex_space, (lex_single "[" (DOpen "[")) by reflexivity.
    rewrite Hd. change (drun SStart (nl :: L "]" ++ [nl; nl])) with (Ok ([DNl; DClose "]"; DNl; DNl], SBol)).
    cbn [demit bind]. reflexivity. }
  unfold exec_file, parse_prog, dlex. rewrite drun_app, A1. cbn [bind]. rewrite drun_app, T. cbn [bind].
  rewrite C1. cbn [demit bind dflush]. rewrite app_nil_r, A2, mapM_app, A3. cbn [bind].
  unfold tt. rewrite <- !app_assoc. cbn [app group]. rewrite Hg. cbn [app group Nat.pred mapM].
  assert (P : parse_line (DName (L "possible_types") :: DEq :: DOpen "[" :: concat (map bad_toks types) ++ [DClose "]"]) = Err SyntaxError).
  { cbn [parse_line]. change (Ascii.eqb "[" "{") with false. cbn iota beta. unfold parse_val. cbn [prun pstep].
    change (Ascii.eqb "[" "{") with false. cbn iota beta. cbn [bind].
    destruct types as [|t types]; [congruence|]. reflexivity. }
  rewrite <- ?app_assoc. cbn [app]. rewrite P. reflexivity.
Qed.

Lemma types_text_ok types : Forall type_name types -> exists text,
  get_list_string (L "possible_types") (map (fun t => VStr (quoted t)) types) 5 = Ok text.
Proof.
  intro F. destruct (types_data 5 types F ltac:(discriminate) 0%Z) as (data & ts & E1 & _).
  unfold get_list_string. rewrite E1. eexists. reflexivity.
Qed.
