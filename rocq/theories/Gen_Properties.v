(** C68: the energy files written for the user to fill in. *)
From Coq Require Import String Ascii List ZArith Bool Arith Reals Lra.
Import ListNotations.
From Verif Require Import PyBase PyBaseFacts PyData_Model PyData_Spec Rxn_Model Rxn_Spec Species_Model Species_Spec
  PyReal Energy_Model Energy_Spec Energy_Proofs Gen_Model Gen_Spec Gen_Proofs Gen_Names Gen_Load.
Local Open Scope list_scope.
Local Open Scope nat_scope.
Local Notation number_text := PyData_Model.number_text.

(** The file of absolute energies has one line for every name, no name twice, and is
    written for every list of accepted reactions. *)
Theorem C68_absolute_written : forall rxns p name fs,
  rxns <> [] -> parse_rxns rxns = Ok p ->
  exists names kvs,
    species_names rxns = Ok names /\
    generate_absolute names name fs = (dset fs name (filled_absolute kvs), Ok tt) /\
    NoDup (map fst kvs) /\
    (forall n v, In (n, v) kvs <-> energy_name (l_rxns p) n /\ v = L "0.0").
Proof.
  intros rxns p name fs Hne H. exists (Some p), (zeros p).
  split; [|split; [|split]].
  - destruct rxns as [|r rxns]; [congruence|]. unfold species_names. rewrite H. reflexivity.
  - unfold generate_absolute. rewrite absolute_text_filled. reflexivity.
  - rewrite fst_zeros. exact (five_NoDup rxns p H).
  - intros n v. unfold zeros. rewrite in_map_iff. rewrite <- (names_exact rxns p H n). split.
    + intros (m & E & Hm). injection E as -> <-. auto.
    + intros [Hn ->]. exists n. auto.
Qed.
Print Assumptions C68_absolute_written.

(** The order of the lines: gases, liquids, adsorbates, transition states, sites. *)
Theorem C68_absolute_order : forall p,
  absolute_text (Some p) =
  Ok (filled_absolute (map (fun n => (n, L "0.0")) (l_gas p ++ l_liq p ++ l_ads p ++ l_ts p ++ l_site p))).
Proof. exact absolute_text_filled. Qed.
Print Assumptions C68_absolute_order.

(** A model without reactions has no names: no file is written. *)
Theorem C68_absolute_without_reactions : forall name fs,
  exists names, species_names [] = Ok names /\ generate_absolute names name fs = (fs, Err AttributeError).
Proof. intros name fs. exists None. split; reflexivity. Qed.
Print Assumptions C68_absolute_without_reactions.

(** With numbers put in, the file is read as the table of these numbers. *)
Theorem C68_absolute_filled : forall (num : str -> R) rxns p fs name st kvs,
  parse_rxns rxns = Ok p ->
  NoDup (map fst kvs) -> (forall kv, In kv kvs -> energy_name (l_rxns p) (fst kv) /\ number_text (snd kv) = true) ->
  dget fs name = Some (filled_absolute kvs) ->
  absolute_load num fs name rxns st =
  abs_parse_data (Some (Some (map (fun kv => (fst kv, num (snd kv))) kvs))) rxns st.
Proof.
  intros num rxns p fs name st kvs H N F E. apply absolute_filled; auto.
  apply Forall_forall. intros kv Hkv. destruct (F kv Hkv) as [F1 F2]. split; [|exact F2].
  apply (name_plain rxns p); [exact H|]. apply (names_exact rxns p H). exact F1.
Qed.
Print Assumptions C68_absolute_filled.

(** As it is written, the file gives zero energies for every reaction; only a star in the
    gas or in a liquid whose own name is not in the file is missed. *)
Theorem C68_absolute_unedited : forall (num : str -> R) rxns p names name fs fs' st,
  num (L "0.0") = 0%R -> rxns <> [] -> parse_rxns rxns = Ok p -> species_names rxns = Ok names ->
  generate_absolute names name fs = (fs', Ok tt) ->
  let out := absolute_load num fs' name rxns st in
  let missed := exists f, occurs f (l_rxns p) /\ star_off_surface f /\ ~ energy_name (l_rxns p) (L "*_" ++ f_site f) in
  (~ missed -> snd out = Ok tt /\ exists r, es_rel (fst out) = Some r /\
     r_Gaf r = repeat 0%R (length rxns) /\ r_Gar r = repeat 0%R (length rxns) /\ r_dG r = repeat 0%R (length rxns)) /\
  (missed -> snd out = Err KeyError).
Proof.
  intros num rxns p names name fs fs' st Hn Hne H Hs Hg.
  assert (names = Some p) as ->.
  { destruct rxns as [|r rxns]; [congruence|]. unfold species_names in Hs. rewrite H in Hs. cbn in Hs. congruence. }
  unfold generate_absolute in Hg. rewrite absolute_text_filled in Hg. injection Hg as <-.
  destruct (absolute_unedited num rxns p name (dset fs name (filled_absolute (zeros p))) st Hn H) as [A B].
  { rewrite dget_dset, str_eqb_refl. reflexivity. }
  split.
  - intro M. apply A. intros f K. apply M. exists f. exact K.
  - intros (f & K). apply B. exists f. exact K.
Qed.
Print Assumptions C68_absolute_unedited.

(** The file of relative energies, with numbers between the brackets, is read as the lists
    of these numbers in the order of the reactions; without them it is the file written. *)
Theorem C68_relative_filled : forall (num : str -> R) fs name setup n st l,
  (forall b, In b l -> ~ In nl (fst b) /\ number_text (fst (snd b)) = true /\ number_text (snd (snd b)) = true) ->
  dget fs name = Some (filled_relative l) ->
  relative_load num fs name setup n st =
  rel_parse_data (Some {| d_Ga := Some (map (fun b => num (fst (snd b))) l);
                          d_dG := Some (map (fun b => num (snd (snd b))) l) |}) setup n st.
Proof.
  intros num fs name setup n st l F E. apply relative_filled; auto. apply Forall_forall. exact F.
Qed.
Print Assumptions C68_relative_filled.

Theorem C68_relative_written : forall rxns name fs,
  generate_relative rxns name fs = (dset fs name (filled_relative (map (fun r => (r, ([], []))) rxns)), Ok tt).
Proof. intros rxns name fs. unfold generate_relative. now rewrite relative_text_filled. Qed.
Print Assumptions C68_relative_written.

(** Left as it is, the file cannot be used, and nothing is stored. *)
Theorem C68_relative_unedited : forall (num : str -> R) rxns name fs fs' setup n st,
  (forall r, In r rxns -> ~ In nl r) -> rxns <> [] ->
  generate_relative rxns name fs = (fs', Ok tt) ->
  relative_load num fs' name setup n st = (st, Err TypeError).
Proof.
  intros num rxns name fs fs' setup n st F Hne Hg. unfold generate_relative in Hg. injection Hg as <-.
  assert (D : dget (dset fs name (relative_text rxns)) name = Some (relative_text rxns))
    by now rewrite dget_dset, str_eqb_refl.
  rewrite (relative_unedited num _ rxns name setup n st (proj2 (Forall_forall _ _) F) D).
  destruct rxns; [congruence|reflexivity].
Qed.
Print Assumptions C68_relative_unedited.

(** Energies filled in earlier are lost when the file is written again; other files stay. *)
Theorem C68_replaced : forall rxns names name fs other text,
  dget fs other = Some text ->
  (other <> name -> dget (fst (generate_relative rxns name fs)) other = Some text /\
                    dget (fst (generate_absolute names name fs)) other = Some text) /\
  dget (fst (generate_relative rxns name fs)) name = Some (relative_text rxns) /\
  (forall t, absolute_text names = Ok t -> dget (fst (generate_absolute names name fs)) name = Some t) /\
  (forall e, absolute_text names = Err e -> generate_absolute names name fs = (fs, Err e)).
Proof.
  intros rxns names name fs other text H. unfold generate_relative, generate_absolute. cbn [fst].
  split; [|split; [|split]].
  - intro N. assert (E : str_eqb other name = false).
    { destruct (str_eqb other name) eqn:X; [apply str_eqb_eq in X; contradiction|reflexivity]. }
    destruct (absolute_text names); cbn [fst]; rewrite ?dget_dset, ?E; auto.
  - now rewrite dget_dset, str_eqb_refl.
  - intros t ->. cbn [fst]. now rewrite dget_dset, str_eqb_refl.
  - intros e ->. reflexivity.
Qed.
Print Assumptions C68_replaced.

(** Without a file the relative energies come from the setup, exactly as they would from a
    file with these lists; absolute energies need a file. *)
Theorem C68_no_file : forall (num : str -> R) fs name,
  dget fs name = None ->
  (forall n st, relative_load num fs name None n st = (st, Err IOError)) /\
  (forall d n st, relative_load num fs name (Some d) n st = rel_parse_data (Some d) None n st) /\
  (forall rxns st, absolute_load num fs name rxns st = (st, Err IOError)).
Proof.
  intros num fs name E. unfold relative_load, absolute_load. rewrite E. repeat split.
Qed.
Print Assumptions C68_no_file.

(** Given the file of the other kind, nothing is stored. *)
Theorem C68_other_kind : forall (num : str -> R) fs name rxns l st,
  (forall b, In b l -> ~ In nl (fst b) /\ number_text (fst (snd b)) = true /\ number_text (snd (snd b)) = true) ->
  dget fs name = Some (filled_relative l) ->
  absolute_load num fs name rxns st = (st, Err KeyError).
Proof.
  intros num fs name rxns l st F E. unfold absolute_load.
  rewrite E, filled_relative_exec by (apply Forall_forall; exact F). reflexivity.
Qed.
Print Assumptions C68_other_kind.

Theorem C68_other_kind_unedited : forall (num : str -> R) rxns rxns' name fs fs' st,
  (forall r, In r rxns -> ~ In nl r) -> rxns <> [] ->
  generate_relative rxns name fs = (fs', Ok tt) ->
  absolute_load num fs' name rxns' st = (st, Err TypeError).
Proof.
  intros num rxns rxns' name fs fs' st F Hne Hg. unfold generate_relative in Hg. injection Hg as <-.
  unfold absolute_load. rewrite dget_dset, str_eqb_refl. destruct rxns as [|r rxns]; [congruence|].
  rewrite relative_unfilled by (apply Forall_forall; exact F). reflexivity.
Qed.
Print Assumptions C68_other_kind_unedited.

(** A list that is misspelled in an added line is reported. *)
Theorem C68_misspelled : forall (num : str -> R) (fs : files) name n x setup k st,
  name_text n = true -> number_text x = true -> n <> L "Ga" -> n <> L "dG" ->
  dget fs name = Some (filled_relative [] ++ n ++ L ".append(" ++ x ++ L ")" ++ [nl] : str) ->
  relative_load num fs name setup k st = (st, Err NameError).
Proof.
  intros num fs name n x setup k st Hn Hx N1 N2 E. unfold relative_load.
  rewrite E, misspelled_exec by assumption. reflexivity.
Qed.
Print Assumptions C68_misspelled.

(** Adding to a list that a line names, for every state: unknown names, and names of other things, are reported. *)
Theorem C68_append : forall g n x r, gexec_stmt g (GAppend n x) = r <->
  (dget g n = None /\ r = Err NameError) \/
  (exists o, dget g n = Some o /\ (forall l, o <> OVal (VList l)) /\ r = Err AttributeError) \/
  (exists l, dget g n = Some (OVal (VList l)) /\
     match x with Some t => r = Ok (dset g n (OVal (VList (l ++ [VNum t])))) | None => r = Err TypeError end).
Proof. exact gappend_iff. Qed.
Print Assumptions C68_append.

(** A reaction may be written over two lines; its file cannot be read whatever numbers are
    put in: the second line of the reaction is not a comment. *)
Theorem C68_two_lines_refuted : exists rxn p,
  parse_rxns [rxn] = Ok p /\
  forall (num : str -> R) fs name setup n st ga dg,
    number_text ga = true -> number_text dg = true ->
    dget fs name = Some (filled_relative [(rxn, (ga, dg))]) ->
    relative_load num fs name setup n st = (st, Err SyntaxError).
Proof.
  exists two_lines. eexists. split; [vm_compute; reflexivity|]. exact two_lines_unreadable.
Qed.
Print Assumptions C68_two_lines_refuted.

(** The same if the second line is not indented. *)
Theorem C68_two_lines_not_indented_refuted : exists rxn p,
  parse_rxns [rxn] = Ok p /\
  forall (num : str -> R) fs name setup n st ga dg,
    number_text ga = true -> number_text dg = true ->
    dget fs name = Some (filled_relative [(rxn, (ga, dg))]) ->
    relative_load num fs name setup n st = (st, Err NameError).
Proof.
  exists (second_line (L "CO_g + *_s ->") (L "CO_s")). eexists. split; [vm_compute; reflexivity|].
  intros num fs name setup n st ga dg Ha Hd E. unfold relative_load.
  rewrite E, second_line_exec; try assumption; try reflexivity; try discriminate.
  intro H. vm_compute in H. intuition discriminate.
Qed.
Print Assumptions C68_two_lines_not_indented_refuted.

(** CO oxidation: what is written. *)
Definition co : list str := [L "CO_g + *_s -> CO_s"; L "O2_g + 2*_s -> 2O_s"; L "CO_s + O_s <-> CO-O_2s -> CO2_g + 2*_s"].

Example C68_example_names : exists p kvs, parse_rxns co = Ok p /\
  absolute_text (Some p) = Ok (filled_absolute kvs) /\
  map fst kvs = [L "CO2_g"; L "CO_g"; L "O2_g"; L "CO_s"; L "O_s"; L "CO-O_2s"; L "*_s"].
Proof.
  eexists. eexists. split; [vm_compute; reflexivity|]. split; [apply absolute_text_filled|]. vm_compute. reflexivity.
Qed.

(** The missed case occurs: a starred gas written with a number of sites. *)
Example C68_example_missed : exists rxns p f, parse_rxns rxns = Ok p /\
  occurs f (l_rxns p) /\ star_off_surface f /\ ~ energy_name (l_rxns p) (L "*_" ++ f_site f).
Proof.
  exists [L "*_2g -> *_2g"].
  destruct (parse_rxns [L "*_2g -> *_2g"]) as [p|] eqn:E; [|vm_compute in E; discriminate].
  pose proof (names_exact _ _ E) as N.
  vm_compute in E. injection E as <-. eexists. eexists. split; [reflexivity|].
  split; [eexists; eexists; split; [left; reflexivity|split; [left; reflexivity|left; reflexivity]]|].
  split; [split; [vm_compute; auto|left; reflexivity]|].
  intro K. apply N in K. vm_compute in K. intuition discriminate.
Qed.

Example C68_example_filled : forall (num : str -> R) st,
  relative_load num [(L "rel_energy.py", filled_relative [(L "CO_g + *_s -> CO_s", (L "0.0", L "-0.75"))])]
    (L "rel_energy.py") None 1 st =
  rel_parse_data (Some {| d_Ga := Some [num (L "0.0")]; d_dG := Some [num (L "-0.75")] |}) None 1 st.
Proof.
  intros num st. apply (C68_relative_filled num _ _ None 1 st [(L "CO_g + *_s -> CO_s", (L "0.0", L "-0.75"))]).
  - intros b [<-|[]]. cbn [fst snd]. repeat split. intro H. vm_compute in H. intuition discriminate.
  - reflexivity.
Qed.

Example C68_example_misspelled : forall (num : str -> R) st,
  relative_load num [(L "rel_energy.py", filled_relative [] ++ L "ga" ++ L ".append(" ++ L "0.5" ++ L ")" ++ [nl])]
    (L "rel_energy.py") None 1 st = (st, Err NameError).
Proof. intros. apply (C68_misspelled num _ _ (L "ga") (L "0.5")); reflexivity || discriminate. Qed.

Example C68_example_append : forall t,
  gexec_stmt [(L "Ga", OVal (VList []))] (GAppend (L "Ga") (Some t)) = Ok [(L "Ga", OVal (VList [VNum t]))] /\
  gexec_stmt [(L "Ga", OVal (VNum t))] (GAppend (L "Ga") (Some t)) = Err AttributeError /\
  gexec_stmt [] (GAppend (L "Ga") (Some t)) = Err NameError.
Proof. repeat split. Qed.
