(** Model of the analytical Jacobian, scaks/solvers/steady_state_solver.py:256-495.
    The cache of [poly_adsorbate_derivation] is left out. *)
From Coq Require Import String Ascii List ZArith NArith Bool Arith Reals.
Import ListNotations.
From Verif Require Import PyBase Regex Rxn_Model Species_Model PyReal PyExpr_Model MF_Model.
Local Open Scope list_scope.

(** ["theta['{}']".format(sp_name)], steady_state_solver.py:331-332. *)
Definition theta_text (name : str) : str := L "theta['" ++ name ++ L "']".

(** The regular expression "." steady_state_solver.py:268, 375. *)
Definition not_newline (c : ascii) : bool := negb (Ascii.eqb c (ascii_of_nat 10)).
(** The regular expression for one star, steady_state_solver.py:268, 375. *)
Definition star : re := RChr (Ascii.eqb "*").

(** A name inside a pattern.  It stands for itself when it is made of word characters and
    dashes; with a star in it one backslash is put in front (steady_state_solver.py:265-266),
    which is right when the only star comes first.  Other names are not supported here. *)
Definition plain_char (c : ascii) : bool := is_word c || Ascii.eqb c "-".
(** Same lines: steady_state_solver.py:265-266. *)
Definition name_pattern (name : str) : res re :=
  if forallb plain_char name then Ok (rlit name)
  else match name with
       | "*"%char :: t => if forallb plain_char t then Ok (rlit name) else Err Unsupported
       | _ => Err Unsupported
       end.

(** [(\*{2}(\d)|)(\*(.* )|)] (blank added here) with groups [g .. g+3]. *)
Definition tail_pattern (g : nat) : re :=
  RSeq (RGroup g (ROpt (RSeq (rlit (L "**")) (RGroup (S g) (RChr is_digit)))))
       (RGroup (S (S g)) (ROpt (RSeq star (RGroup (S (S (S g))) (RStar not_newline))))).

(** The pattern at steady_state_solver.py:268. *)
Definition term_pattern (nm : re) : re :=
  RSeq (RGroup 1 (ROpt (RSeq (RGroup 2 (RStar not_newline)) star)))
  (RSeq (RGroup 3 (RSeq (rlit (L "theta['")) (RSeq nm (rlit (L "']")))))
        (tail_pattern 4)).

(** [if m.group(n)] steady_state_solver.py:286-303. *)
Definition truthy (m : mtch) (n : nat) : bool :=
  match group m n with Some (_ :: _) => true | _ => false end.

(** The factors besides the power of the coverage, steady_state_solver.py:279-286. *)
Definition term_coefficient (m : mtch) : str :=
  if truthy m 7 && truthy m 2 then group_text m 2 ++ L "*" ++ group_text m 7
  else if truthy m 2 then group_text m 2
  else if truthy m 7 then group_text m 7
  else L "1".
(** The exponent, steady_state_solver.py:288-291. *)
Definition term_power (m : mtch) : Z := if truthy m 4 then int_of (group_text m 5) else 1%Z.

(** [__term_adsorbate_derivation], steady_state_solver.py:256-305. *)
Definition term_derivation (name term : str) : res str :=
  do nm <- name_pattern name;
  match search (term_pattern nm) term with
  | None => Err AttributeError
  | Some m =>
      let coefficient := term_coefficient m in
      let power := term_power m in
      if Z.eqb power 1 then Ok coefficient
      else
        let coefficient := if str_eqb coefficient (L "1") then str_of_Z power
                           else str_of_Z power ++ L "*" ++ coefficient in
        Ok (coefficient ++ L "*" ++ group_text m 3 ++ L "**" ++ str_of_Z (power - 1))
  end.

(** [text in s] steady_state_solver.py:331-395. *)
Fixpoint is_prefix (p s : str) : bool :=
  match p, s with
  | [], _ => true
  | x :: p', y :: s' => Ascii.eqb x y && is_prefix p' s'
  | _ :: _, [] => false
  end.
(** [text in s], steady_state_solver.py:331-395. *)
Fixpoint contains (p s : str) : bool :=
  is_prefix p s || match s with [] => false | _ :: t => contains p t end.

(** [re.sub(r, repl, s)] for a pattern that never matches the empty text and a replacement
    without backslash. steady_state_solver.py:358. *)
Fixpoint sub_fuel (fuel : nat) (r : re) (repl s : str) : str :=
  match fuel with
  | O => s
  | S k => match search r s with
           | None => s
           | Some m => m_before m ++ repl ++ sub_fuel k r repl (m_rest m)
           end
  end.
(** [re.sub(r, repl, s)], steady_state_solver.py:358. *)
Definition re_sub (r : re) (repl s : str) : str := sub_fuel (S (length s)) r repl s.

(** The pattern [theta\['(\*_\w* )'\]] (blank added here), steady_state_solver.py:335. *)
Definition sites_pattern : re :=
  RSeq (rlit (L "theta['")) (RSeq (RGroup 1 (RSeq (rlit (L "*_")) (RStar is_word))) (rlit (L "']"))).

(** The pattern [theta\['\*_] + "*_s" + ['\]], steady_state_solver.py:357: the star of the
    site name repeats the underscore before it. *)
Definition free_pattern (site : str) : re :=
  RSeq (rlit (L "theta['*")) (RSeq (RStar (Ascii.eqb "_")) (rlit (L "_" ++ site ++ L "']"))).

(** [deriv_site_part], steady_state_solver.py:345-367; [site] is the site without star. *)
Definition site_derivation (total : num) (names : list str) (site term : str) : res str :=
  do initial <- term_derivation (L "*_" ++ site) term;
  if contains (theta_text (L "*_" ++ site)) initial then
    let substitute := n_text total ++ concat (map (fun n => L " - " ++ theta_text n) names) in
    if forallb is_word site && negb (has_char "\" substitute) then
      Ok (L "-" ++ re_sub (free_pattern site) (L "(" ++ substitute ++ L ")") initial)
    else Err Unsupported
  else Ok (L "-" ++ initial).

(** The pattern at steady_state_solver.py:376. *)
Definition both_pattern (name : str) : re :=
  RSeq (RGroup 1 (RStar not_newline)) (RSeq star
  (RSeq (RGroup 2 (RSeq (rlit (L "theta['")) (RSeq (rlit name) (rlit (L "']")))))
        (tail_pattern 3))).

(** [__total_term_adsorbate_derivation], steady_state_solver.py:307-395. *)
Definition total_derivation (s : setup) (cl : dict (list str)) (name term : str) : res str :=
  if negb (str_mem name (l_ads (s_lists s))) then Err ValueError
  else
    let sites := map (fun m => group_text m 1) (findall sites_pattern term) in
    do f <- parse_formula name;
    let site_name := L "*_" ++ f_site f in
    do total <- dindex (s_total s) site_name;
    let deriv_site t := do names <- dindex cl site_name; site_derivation total names (f_site f) t in
    if str_mem site_name sites && contains (theta_text name) term then
      if negb (forallb plain_char name) then Err Unsupported
      else match search (both_pattern name) term with
           | None => Err AttributeError
           | Some m =>
               let site_part := if truthy m 5 then group_text m 1 ++ L "*" ++ group_text m 6
                                else group_text m 1 in
               let adsorbate_part := group_text m 2 ++ group_text m 3 in
               do a <- term_derivation name adsorbate_part;
               do b <- deriv_site site_part;
               Ok (a ++ L "*" ++ site_part ++ L " + " ++ b ++ L "*" ++ adsorbate_part)
           end
    else if str_mem site_name sites then deriv_site term
    else if contains (theta_text name) term then term_derivation name term
    else Ok (L "0").

(** [s.split()] steady_state_solver.py:422. *)
Fixpoint words_aux (cur : str) (s : str) : list str :=
  match s with
  | [] => match cur with [] => [] | _ => [cur] end
  | c :: t => if is_space c then match cur with [] => words_aux [] t | _ => cur :: words_aux [] t end
              else words_aux (cur ++ [c]) t
  end.
(** [s.split()], steady_state_solver.py:422. *)
Definition words (s : str) : list str := words_aux [] s.

(** [l[0::2]] *)
Fixpoint every_other {A} (l : list A) : list A :=
  match l with
  | [] => []
  | [x] => [x]
  | x :: _ :: t => x :: every_other t
  end.

(** [poly_adsorbate_derivation], steady_state_solver.py:397-438. *)
Definition poly_derivation (s : setup) (cl : dict (list str)) (name poly : str) : res str :=
  let poly_list := words poly in
  let operators := every_other (skipn 3 poly_list) in
  let terms := every_other (skipn 2 poly_list) in
  do derived <- mapM (total_derivation s cl name) terms;
  do last <- llast derived;
  Ok (join (L " ") (concat (map (fun p => [fst p; snd p]) (combine derived operators)) ++ [last])).

(** [analytical_jacobian], steady_state_solver.py:440-495. *)
Definition analytical_jacobian (s : setup) ks (data : option (dict R * dict R)) (cvgs : list R)
  : res (list (list R)) :=
  do cl <- classify s;
  do lines <- dtheta_dt_expressions s;
  if negb (Nat.eqb (length lines) (length cvgs)) then Err ParameterError
  else
    do theta <- tuple2dict s cl cvgs;
    do (kf, kr) <- ks;
    match data with
    | None => Err AttributeError
    | Some (p, c) =>
        let v := mf_env theta p c kf kr in
        mapM (fun line =>
          mapM (fun name => do d <- poly_derivation s cl name line; eval_text v d)
               (firstn (length cvgs) (l_ads (s_lists s)))) lines
    end.
