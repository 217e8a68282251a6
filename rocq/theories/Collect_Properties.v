(** C89, C90: the scripts in scripts/kmc_plot that collect the results of many runs. *)
From Coq Require Import String Ascii List ZArith Bool Arith QArith Permutation Sorted.
Import ListNotations.
From Verif Require Import PyBase PyBase_Spec Collect_Model Collect_Spec Collect_Proofs Collect_Table Collect_Rates Collect_Names Collect_Witness.
Local Open Scope list_scope.

(** ** C89: coverages *)
(** The merged curves are, step by step, the sums over the types that begin with O, C and V.  There is
    an error exactly when a list of such a type has neither one entry per step nor a single entry. *)
Theorem C89_merged_exact : forall n f,
  ((exists m, merge n f = Ok m) <-> used (combine (c_types f) (c_coverages f)) n) /\
  (forall m, merge n f = Ok m ->
     is_sum "O" n (combine (c_types f) (c_coverages f)) (m_O m) /\
     is_sum "C" n (combine (c_types f) (c_coverages f)) (m_CO m) /\
     is_sum "V" n (combine (c_types f) (c_coverages f)) (m_Vac m)) /\
  (forall e, merge n f = Err e -> e = ValueError).
Proof. exact (fun n f => conj (merge_iff n f) (conj (merge_value n f) (merge_error n f))). Qed.
Print Assumptions C89_merged_exact.

Example C89_merged_exact_example : exists m, merge 2 surface = Ok m /\ map Qred (m_O m) = [1#2; 5#8]%Q /\
  map Qred (m_CO m) = [1#4; 1#8]%Q /\ map Qred (m_Vac m) = [1#4; 1#4]%Q.
Proof. eexists. split; [vm_compute; reflexivity|]. split; [|split]; vm_compute; reflexivity. Qed.

(** When every type begins with one of the three letters, no coverage is lost. *)
Theorem C89_merged_total_partial : forall n f m j, merge n f = Ok m -> length (c_types f) = length (c_coverages f) ->
  (forall sp, In sp (c_types f) -> known_type sp) -> (forall b, In b (c_coverages f) -> length b = n) ->
  (j < n)%nat -> nth j (m_O m) 0 + nth j (m_CO m) 0 + nth j (m_Vac m) 0 == sum_at j (c_coverages f).
Proof. exact merge_total. Qed.
Print Assumptions C89_merged_total_partial.

Example C89_merged_total_example : (forall sp, In sp (c_types surface) -> known_type sp) /\
  (forall b, In b (c_coverages surface) -> length b = 2%nat).
Proof.
  split.
  - intros sp [<-|[<-|[<-|[<-|[]]]]]; [left|right; left|left|right; right]; eexists; reflexivity.
  - intros b [<-|[<-|[<-|[<-|[]]]]]; reflexivity.
Qed.

(** Other types are dropped without a word ... *)
Theorem C89_merged_total_refuted : exists f m, length (c_types f) = length (c_coverages f) /\
  (forall j, (j < 2)%nat -> sum_at j (c_coverages f) == 1) /\ merge 2 f = Ok m /\
  forall j, (j < 2)%nat -> nth j (m_O m) 0 + nth j (m_CO m) 0 + nth j (m_Vac m) 0 < 1.
Proof. exact nitrogen_lost. Qed.
Print Assumptions C89_merged_total_refuted.

(** ... and the curve of CO also has the types that only share its first letter. *)
Theorem C89_merged_CO_refuted : exists f m, (forall sp, In sp (c_types f) -> ~ exists x y, sp = x ++ L "CO" ++ y) /\
  merge 1 f = Ok m /\ 0 < nth 0 (m_CO m) 0.
Proof. exact chlorine_as_CO. Qed.
Print Assumptions C89_merged_CO_refuted.

(** Collected coverages: for every directory that has the file, in order, the pressure in its name, the
    last coverage of the type C, and the sum of the last coverages of five types of oxygen. *)
Theorem C89_collected_exact : forall number dirs l, extract_cvgs number dirs = Ok l <->
  Forall2 (cvg_row number [L "C"] [L "O_s"; L "O_r"; L "O_u"; L "O_d"; L "O_l"]) (present dirs) l.
Proof. exact extract_cvgs_iff. Qed.
Print Assumptions C89_collected_exact.

Example C89_collected_exact_example :
  extract_cvgs number dirs = Ok [((1#5), (0 + (1#2)), (0 + (1#8) + (1#8) + 0 + 0 + (1#16))); ((1#10), (0 + (1#2)), (0 + (1#8) + (1#8) + 0 + 0 + (1#16)))]%Q.
Proof. vm_compute. reflexivity. Qed.

(** A file without one of these types makes the whole collection fail ... *)
Theorem C89_collected_missing : forall number dirs d f n, In (d, Some f) dirs ->
  In n [L "O_s"; L "O_r"; L "O_u"; L "O_d"; L "O_l"; L "C"] -> ~ In n (c_types f) ->
  forall l, extract_cvgs number dirs <> Ok l.
Proof. exact missing_type. Qed.
Print Assumptions C89_collected_missing.

Example C89_collected_missing_example : In (L "./0.2", Some surface) [(L "./0.2", Some surface)] /\ ~ In (L "O_u") (c_types surface).
Proof. split; [now left|]. intros [H|[H|[H|[H|[]]]]]; discriminate H. Qed.

(** ... so with the type CO_s of carbon monoxide, which is what the name of the list means. *)
Theorem C89_collected_CO_refuted : exists number ds d f, In (d, Some f) ds /\ In (L "CO_s") (c_types f) /\
  (forall n, In n O_names -> In n (c_types f)) /\ (forall b, In b (c_coverages f) -> b <> []) /\
  length (c_types f) = length (c_coverages f) /\ extract_cvgs number ds = Err ValueError.
Proof. exact CO_not_found. Qed.
Print Assumptions C89_collected_CO_refuted.

(** Sorting: pressures in ascending order, every coverage with its own pressure, no run lost. *)
Theorem C89_sorted : forall argsort l, (forall p, orders p (argsort p)) ->
  exists p co o idx, sorted_cvgs argsort l = Ok (p, co, o) /\
    Permutation idx (seq 0 (length l)) /\ StronglySorted Qle p /\
    Forall2 Qeq p (map (fun i => fst (fst (nth i l (0, 0, 0)%Q))) idx) /\
    co = map (fun i => snd (fst (nth i l (0, 0, 0)%Q))) idx /\
    o = map (fun i => snd (nth i l (0, 0, 0)%Q)) idx.
Proof. exact sorted_cvgs_ok. Qed.
Print Assumptions C89_sorted.

Example C89_sorted_example : (forall p, orders p (argsort p)) /\
  sorted_cvgs argsort [((1#5), 1, 2); ((1#10), 3, 4); ((3#10), 5, 6)]%Q = Ok ([1#10; 1#5; 3#10], [3; 1; 5], [4; 2; 6])%Q.
Proof. split; [exact argsort_orders|vm_compute; reflexivity]. Qed.

(** The table over two pressures: one row per oxygen pressure, one entry per run in it; the labels of
    the columns are the pressures of the last row. *)
Theorem C89_table_exact : forall (D : Type) number (pick : D -> res Q) rows cs os m,
  extract_map number pick rows = Ok (cs, os, m) <-> exists css, table number pick rows (css ++ [cs]) os m.
Proof. exact @extract_map_iff. Qed.
Print Assumptions C89_table_exact.

Example C89_table_exact_example :
  extract_map number pick_O square = Ok ([1#10; 1#5], [1#10; 1#5], [[1#2; 1#4]; [3#4; 1#2]])%Q.
Proof. vm_compute. reflexivity. Qed.

(** With the same runs in all rows, the entry in row i and column j is the result of the run at these
    two pressures. *)
Theorem C89_table_cells_partial : forall (D : Type) number (pick : D -> res Q) rows cs os m i j row o c v,
  extract_map number pick rows = Ok (cs, os, m) ->
  (forall r1 r2, In r1 rows -> In r2 rows -> map fst (snd r1) = map fst (snd r2)) ->
  nth_error m i = Some row -> nth_error row j = Some v -> nth_error os i = Some o -> nth_error cs j = Some c ->
  run_at number pick rows o c v.
Proof. exact @cells. Qed.
Print Assumptions C89_table_cells_partial.

Example C89_table_cells_example : forall r1 r2, In r1 square -> In r2 square -> map fst (snd r1) = map fst (snd r2).
Proof. intros r1 r2 [<-|[<-|[]]] [<-|[<-|[]]]; reflexivity. Qed.

(** Otherwise a result can be saved under a pressure at which it was not obtained. *)
Theorem C89_table_labels_refuted : exists (rows : list (str * list (str * option cov_file))) cs os m row i j o c v,
  extract_map number pick_O rows = Ok (cs, os, m) /\ nth_error m i = Some row /\ nth_error row j = Some v /\
  nth_error os i = Some o /\ nth_error cs j = Some c /\ ~ run_at number pick_O rows o c v.
Proof. exact ragged_labels. Qed.
Print Assumptions C89_table_labels_refuted.

(** No directory at all is a NameError; one unfinished run is an IOError, and nothing is saved; with
    every run complete there is a result. *)
Theorem C89_table_errors : forall (D : Type) number (pick : D -> res Q),
  extract_map number pick [] = Err NameError /\
  (forall rows, (exists po runs pc, In (po, runs) rows /\ In (pc, None) runs) ->
    (forall po runs, In (po, runs) rows -> (exists o, number po = Some o) /\
      (forall pc d, In (pc, d) runs -> exists c, number pc = Some c) /\
      forall pc f, In (pc, Some f) runs -> exists v, pick f = Ok v) ->
    extract_map number pick rows = Err IOError) /\
  (forall rows, rows <> [] -> (forall po runs, In (po, runs) rows -> (exists o, number po = Some o) /\
      forall pc d, In (pc, d) runs -> (exists c, number pc = Some c) /\ exists f v, d = Some f /\ pick f = Ok v) ->
    exists r, extract_map number pick rows = Ok r).
Proof.
  exact (fun D number pick => conj (extract_map_none number pick)
    (conj (extract_map_missing number pick) (extract_map_total number pick))).
Qed.
Print Assumptions C89_table_errors.

Example C89_table_errors_example : extract_map number pick_O unfinished = Err IOError.
Proof. vm_compute. reflexivity. Qed.

(** The tables of coverages read by place: O is the last entry of the list before the last, CO the
    last entry of the last list ... *)
Theorem C89_places_exact : forall f x,
  (pick_O f = Ok x <-> exists a l b, c_coverages f = a ++ [l ++ [x]; b]) /\
  (pick_CO f = Ok x <-> exists a l, c_coverages f = a ++ [l ++ [x]]).
Proof. exact (fun f x => conj (pick_O_iff f x) (pick_CO_iff f x)). Qed.
Print Assumptions C89_places_exact.

Example C89_places_exact_example : pick_O (end_file (1#2) (1#4)) = Ok (1#2)%Q /\ pick_CO (end_file (1#2) (1#4)) = Ok (1#4)%Q.
Proof. split; reflexivity. Qed.

(** ... which are the coverages of O and CO when these two types come last ... *)
Theorem C89_places_types_partial : forall f a nO nCO, c_types f = a ++ [nO; nCO] -> NoDup (c_types f) ->
  length (c_coverages f) = length (c_types f) ->
  (forall x, pick_O f = Ok x <-> last_of_type f nO x) /\ (forall x, pick_CO f = Ok x <-> last_of_type f nCO x).
Proof. exact pick_types. Qed.
Print Assumptions C89_places_types_partial.

Example C89_places_types_example : c_types (end_file (1#2) (1#4)) = [L "Vac"] ++ [L "O_s"; L "CO_s"] /\
  NoDup (c_types (end_file (1#2) (1#4))).
Proof.
  split; [reflexivity|]. constructor; [intros [H|[H|[]]]; discriminate H|].
  constructor; [intros [H|[]]; discriminate H|]. constructor; [intros []|constructor].
Qed.

(** ... and another type's otherwise. *)
Theorem C89_places_refuted : exists f x y, In (L "O_s") (c_types f) /\ pick_O f = Ok x /\
  last_of_type f (L "O_s") y /\ ~ x == y.
Proof. exact wrong_place. Qed.
Print Assumptions C89_places_refuted.

(** ** C90: rates *)
(** Collected turnover frequencies: for every directory with rates, the pressure in its name and the sum
    of the rates at places 0 and 2 of the sorted names. *)
Theorem C90_tofs_exact : forall number dirs l, extract_tofs number dirs = Ok l <->
  Forall2 (fun dr r => named number (fst dr) (fst r) /\
    exists ns, sorted_names (snd dr) ns /\ sum_of_places (snd dr) ns [0%nat; 2%nat] (snd r)) (with_rates dirs) l.
Proof. exact extract_tofs_sums. Qed.
Print Assumptions C90_tofs_exact.

Example C90_tofs_exact_example :
  extract_tofs number [(L "./0.1", Some (Some rates2)); (L "./0.2", Some None); (L "./x", None)] = Ok [((1#10), (0 + 3 + 7))]%Q.
Proof. vm_compute. reflexivity. Qed.

(** In the table: places 10 and 12; a file without rates is an error there. *)
Theorem C90_map_tofs_exact :
  (forall d s, pick_tof d = Ok s <->
     exists r ns, d = Some r /\ sorted_names r ns /\ sum_of_places r ns [10%nat; 12%nat] s) /\
  pick_tof None = Err KeyError.
Proof. exact (conj pick_tof_sums pick_tof_none). Qed.
Print Assumptions C90_map_tofs_exact.

Example C90_map_tofs_exact_example : exists s,
  pick_tof (Some (map (fun c => ([c], 1%Q)) (L "abcdefghijklm"))) = Ok s /\ s == 2.
Proof. eexists. split; [vm_compute; reflexivity|reflexivity]. Qed.

(** A sum over places fails only for want of names, with an IndexError. *)
Theorem C90_tofs_errors : forall d ns idxs e, sorted_names d ns ->
  (tof_at idxs d = Err e <-> e = IndexError /\ exists i, In i idxs /\ (length ns <= i)%nat).
Proof. exact tof_at_err. Qed.
Print Assumptions C90_tofs_errors.

Example C90_tofs_errors_example : sorted_names rates2 [forward rA; reverse rA; forward rB; reverse rB] /\
  pick_tof (Some rates2) = Err IndexError.
Proof. split; [apply names_iff; vm_compute; reflexivity|vm_compute; reflexivity]. Qed.

(** With every reaction in both directions, the rates at even places are the forward rates of the
    reactions in the order of their names; such an order exists. *)
Theorem C90_forward_rates_partial : forall d rs, both_directions d rs ->
  (exists rs', in_name_order rs rs') /\
  (forall rs' ks s, in_name_order rs rs' ->
    (tof_at (map (fun k => (2 * k)%nat) ks) d = Ok s <->
     exists xs, Forall2 (fun k x => exists r, nth_error rs' k = Some r /\ value_of d (forward r) x) ks xs /\
       s = fold_left Qplus xs 0%Q)).
Proof. exact (fun d rs H => conj (name_order_exists rs (proj1 H)) (fun rs' ks s HO => tof_forward d rs rs' ks s H HO)). Qed.
Print Assumptions C90_forward_rates_partial.

Example C90_forward_rates_example : both_directions rates2 [rB; rA] /\ in_name_order [rB; rA] [rA; rB] /\
  tof_at [0%nat; 2%nat] rates2 = Ok (0 + 3 + 7)%Q.
Proof. split; [now apply both2|]. split; [exact order2|vm_compute; reflexivity]. Qed.

(** Which reactions these are depends on all the others: one that never happens changes the result. *)
Theorem C90_idle_reaction_refuted : exists d r s s', both_directions d [rB; rA] /\
  ~ In (forward r) (map fst d) /\ ~ In (reverse r) (map fst d) /\
  tof_at [0%nat; 2%nat] d = Ok s /\ tof_at [0%nat; 2%nat] (d ++ [(forward r, 0); (reverse r, 0)]%Q) = Ok s' /\ ~ s == s'.
Proof. exact idle_reaction. Qed.
Print Assumptions C90_idle_reaction_refuted.

(** Sorting of the turnover frequencies. *)
Theorem C90_sorted : forall argsort l, (forall p, orders p (argsort p)) ->
  exists p t idx, sorted_tofs argsort l = Ok (p, t) /\
    Permutation idx (seq 0 (length l)) /\ StronglySorted Qle p /\
    Forall2 Qeq p (map (fun i => fst (nth i l (0, 0)%Q)) idx) /\
    t = map (fun i => snd (nth i l (0, 0)%Q)) idx.
Proof. exact sorted_tofs_ok. Qed.
Print Assumptions C90_sorted.

Example C90_sorted_example : (forall p, orders p (argsort p)) /\
  sorted_tofs argsort [((1#5), 1); ((1#10), 3)]%Q = Ok ([1#10; 1#5], [3; 1])%Q.
Proof. split; [exact argsort_orders|vm_compute; reflexivity]. Qed.

(** The bars: always drawn, with the values at even and at odd places of the sorted names ... *)
Theorem C90_bars_exact : forall occ,
  (exists f r, bars occ = Ok (f, r)) /\
  (forall ns f r, sorted_names occ ns ->
    (bars occ = Ok (f, r) <-> Forall2 (value_of occ) (evens ns) f /\ Forall2 (value_of occ) (odds ns) r)) /\
  (forall (ns : list str) k, nth_error (evens ns) k = nth_error ns (2 * k) /\ nth_error (odds ns) k = nth_error ns (2 * k + 1)).
Proof. exact (fun occ => conj (bars_total occ) (conj (fun ns f r H => bars_iff occ ns f r H) (fun ns k => places ns k))). Qed.
Print Assumptions C90_bars_exact.

Example C90_bars_exact_example : bars occ2 = Ok ([3; 7], [2; 5])%Z.
Proof. vm_compute. reflexivity. Qed.

(** ... so with both directions of every reaction, forward and reverse bars of the same reaction are side
    by side ... *)
Theorem C90_bars_pairs_partial : forall occ rs rs' f r, both_directions occ rs -> in_name_order rs rs' ->
  (bars occ = Ok (f, r) <-> Forall2 (fun q x => value_of occ (forward q) x) rs' f /\
                            Forall2 (fun q x => value_of occ (reverse q) x) rs' r).
Proof. exact bars_pairs. Qed.
Print Assumptions C90_bars_pairs_partial.

Example C90_bars_pairs_example : both_directions occ2 [rB; rA] /\ in_name_order [rB; rA] [rA; rB].
Proof. split; [now apply both2|exact order2]. Qed.

(** ... but if one direction is missing, a forward process is drawn as the reverse of another one. *)
Theorem C90_bars_refuted : exists occ f r x, bars occ = Ok (f, r) /\ nth_error r 0 = Some x /\
  value_of occ (forward rB) x /\ forall n, In n (map fst occ) -> n <> reverse rA.
Proof. exact shifted_bars. Qed.
Print Assumptions C90_bars_refuted.

(** Production: the curve is the sum of the rates of the processes with their signs, and it is drawn
    exactly when every process has a reaction that can be read and every process that counts a rate. *)
Theorem C90_production : forall production processes rl,
  (forall ts, plot_tofs production processes rl = Ok ts ->
    exists signs, Forall2 (sign_of production) processes signs /\
      Forall2 (fun rates t => counted signs rates /\ t == signed signs rates) rl ts) /\
  (forall signs, Forall2 (sign_of production) processes signs -> (forall rates, In rates rl -> counted signs rates) ->
    exists ts, plot_tofs production processes rl = Ok ts).
Proof. exact (fun p ps rl => conj (plot_tofs_ok p ps rl) (plot_tofs_total p ps rl)). Qed.
Print Assumptions C90_production.

Example C90_production_example : exists ts,
  plot_tofs (L "CO2_g") [forward rB; forward rA; reverse rB; reverse rA] [[1; 9; 2; 4]; [1; 5; 1; 6]]%Q = Ok ts /\
  Forall2 Qeq ts [5; -(1)]%Q.
Proof. eexists. split; [vm_compute; reflexivity|]. repeat constructor. Qed.

(** The sign: 1 for the forward and -1 for the reverse direction of a reaction in whose final state the
    text of the product occurs, else 0; that of any process in full generality is [sign_of]. *)
Theorem C90_signs : forall production,
  (forall r z, (forall c u, r = c :: u -> ~ In c (L "(->)")) -> (forall c u, r = u ++ [c] -> ~ In c (L "(->)")) ->
    (process_sign production (forward r) = Ok z <-> (makes production r true /\ z = 1%Z) \/ (makes production r false /\ z = 0%Z))) /\
  (forall r z, (forall c u, r = c :: u -> ~ In c (L "(<-)")) -> (forall c u, r = u ++ [c] -> ~ In c (L "(<-)")) ->
    (process_sign production (reverse r) = Ok z <-> (makes production r true /\ z = (-1)%Z) \/ (makes production r false /\ z = 0%Z))) /\
  (forall process z, process_sign production process = Ok z <-> sign_of production process z).
Proof. exact (fun p => conj (sign_forward p) (conj (sign_reverse p) (process_sign_iff p))). Qed.
Print Assumptions C90_signs.

Example C90_signs_example : makes (L "CO2_g") rA true /\ process_sign (L "CO2_g") (reverse rA) = Ok (-1)%Z.
Proof. split; [exact rA_makes|vm_compute; reflexivity]. Qed.

(** It is not the rate of production: two molecules count once, ... *)
Theorem C90_production_amount_refuted : exists r, formed r (L "CO2") (L "g") 2 /\ consumed r (L "CO2") (L "g") 0 /\
  process_sign (L "CO2_g") (forward r) = Ok 1%Z.
Proof. exact two_counted_once. Qed.
Print Assumptions C90_production_amount_refuted.

(** ... another molecule whose name ends alike counts too, ... *)
Theorem C90_production_species_refuted : exists r, formed r (L "CO2") (L "g") 0 /\ consumed r (L "CO2") (L "g") 0 /\
  process_sign (L "CO2_g") (forward r) = Ok 1%Z.
Proof. exact other_counted. Qed.
Print Assumptions C90_production_species_refuted.

(** ... and a reaction that consumes the product does not count at all. *)
Theorem C90_production_consumed_refuted : exists r, formed r (L "CO2") (L "g") 0 /\ consumed r (L "CO2") (L "g") 1 /\
  process_sign (L "CO2_g") (forward r) = Ok 0%Z /\ process_sign (L "CO2_g") (reverse r) = Ok 0%Z.
Proof. exact consumption_ignored. Qed.
Print Assumptions C90_production_consumed_refuted.

(** ** C89, C90: a directory whose name is no number is a ValueError *)
Theorem C89_not_a_number : forall number,
  (forall a d f b l o co, extract_cvgs number a = Ok l ->
     covers f [L "O_s"; L "O_r"; L "O_u"; L "O_d"; L "O_l"] o -> covers f [L "C"] co ->
     number (skipn 2 d) = None -> extract_cvgs number (a ++ (d, Some f) :: b) = Err ValueError) /\
  (forall a d r b l x, extract_tofs number a = Ok l -> tof_at [0%nat; 2%nat] r = Ok x ->
     number (skipn 2 d) = None -> extract_tofs number (a ++ (d, Some (Some r)) :: b) = Err ValueError) /\
  (forall D (pick : D -> res Q) po runs rows,
     number po = None \/ (exists o a c r b, number po = Some o /\ runs = a ++ (c, r) :: b /\ number c = None) ->
     extract_map number pick ((po, runs) :: rows) = Err ValueError).
Proof. exact (fun number => conj (cvgs_name number) (conj (tofs_name number) (fun D => @map_name D number))). Qed.
Print Assumptions C89_not_a_number.

Example C89_not_a_number_example : exists l, extract_cvgs number dirs = Ok l /\ number (skipn 2 (L "./old")) = None /\
  extract_cvgs number (dirs ++ [(L "./old", Some surface)]) = Err ValueError.
Proof. eexists. split; [vm_compute; reflexivity|]. split; vm_compute; reflexivity. Qed.
