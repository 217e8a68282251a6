(** The frequency plugin. *)
From Coq Require Import String Ascii List ZArith NArith Bool Arith QArith Lia Lqa.
Import ListNotations.
From Verif Require Import PyBase PyBaseFacts PyData_Model PyData_Spec PyData_Proofs Fmt_Model Fmt_Proofs
  KCov_Model KPlug_Model KPlug_Spec KPlug_Text KPlug_Tof.
Local Open Scope list_scope.
Local Open Scope nat_scope.

(** ** Steps *)
Lemma first_nonzero_app a b : (first_nonzero_time (a ++ b) ==
  if Qeq_bool (first_nonzero_time a) 0 then first_nonzero_time b else first_nonzero_time a)%Q.
Proof.
  induction a as [|e a IH]; [reflexivity|]. cbn [app first_nonzero_time].
  destruct (Qeq_bool (e_time e) 0) eqn:B; [exact IH|]. rewrite B. reflexivity.
Qed.

Lemma Qeq_bool_proper a b : (a == b)%Q -> Qeq_bool a 0 = Qeq_bool b 0.
Proof.
  intro H. destruct (Qeq_bool a 0) eqn:A, (Qeq_bool b 0) eqn:B; try reflexivity; exfalso.
  - apply Qeq_bool_iff in A. rewrite H in A. apply Qeq_bool_iff in A. congruence.
  - apply Qeq_bool_iff in B. rewrite <- H in B. apply Qeq_bool_iff in B. congruence.
Qed.

Lemma freq_steps nprocess tof_start es : forall s done,
  Forall (fun e => e_picked e < nprocess) es ->
  fq_occurencies s = counts nprocess done ->
  fq_steady s = counts nprocess (steady_steps tof_start done) ->
  (fq_start s == first_nonzero_time (steady_steps tof_start done))%Q ->
  fq_end s = last_time done ->
  exists s', steps_with (freq_register tof_start) s es = Ok s' /\
    fq_file s' = fq_file s /\
    fq_occurencies s' = counts nprocess (done ++ es) /\
    fq_steady s' = counts nprocess (steady_steps tof_start (done ++ es)) /\
    (fq_start s' == first_nonzero_time (steady_steps tof_start (done ++ es)))%Q /\
    fq_end s' = last_time (done ++ es).
Proof.
  induction es as [|e es IH]; intros s done HP H1 H2 H3 H4.
  - exists s. rewrite app_nil_r. repeat split; assumption.
  - inversion HP as [|? ? Hp HP']; subst. cbn [steps_with]. unfold freq_register at 1.
    rewrite H1, counts_step by exact Hp. cbn [bind].
    assert (G : exists s1, (do (steady, start) <-
        (if (tof_start <=? e_step e)%Z then
           do st <- count_at (fq_steady s) (e_picked e);
           Ok (st, if Qeq_bool (fq_start s) 0 then e_time e else fq_start s)
         else Ok (fq_steady s, fq_start s));
      Ok {| fq_occurencies := counts nprocess (done ++ [e]); fq_steady := steady; fq_start := start; fq_end := e_time e;
          fq_file := fq_file s |}) = Ok s1 /\ fq_file s1 = fq_file s /\
       fq_occurencies s1 = counts nprocess (done ++ [e]) /\
       fq_steady s1 = counts nprocess (steady_steps tof_start (done ++ [e])) /\
       (fq_start s1 == first_nonzero_time (steady_steps tof_start (done ++ [e])))%Q /\
       fq_end s1 = last_time (done ++ [e])).
    { assert (LT : last_time (done ++ [e]) = e_time e).
      { unfold last_time. rewrite map_app. cbn [map]. apply last_last. }
      unfold steady_steps. rewrite filter_app. cbn [filter]. fold (steady_steps tof_start done).
      destruct (tof_start <=? e_step e)%Z.
      - rewrite H2, counts_step by exact Hp. cbn [bind]. eexists. split; [reflexivity|].
        cbn [fq_file fq_occurencies fq_steady fq_start fq_end]. repeat split; [|now rewrite LT].
        rewrite first_nonzero_app, <- (Qeq_bool_proper _ _ H3). destruct (Qeq_bool (fq_start s) 0).
        + cbn [first_nonzero_time]. destruct (Qeq_bool (e_time e) 0) eqn:B; [now apply Qeq_bool_iff in B|reflexivity].
        + exact H3.
      - cbn [bind]. rewrite app_nil_r. eexists. split; [reflexivity|].
        cbn [fq_file fq_occurencies fq_steady fq_start fq_end]. repeat split; [assumption|assumption|now rewrite LT]. }
    destruct G as (s1 & -> & G0 & G1 & G2 & G3 & G4). cbn [bind].
    destruct (IH s1 (done ++ [e]) HP' G1 G2 G3 G4) as (s' & E & F0 & F1 & F2 & F3 & F4).
    exists s'. rewrite <- app_assoc in *. cbn [app] in *. split; [exact E|]. rewrite F0. auto.
Qed.

(** ** Reactions *)
Fixpoint share (k : str) (occ : list Z) (mapping : list str) : Z :=
  match occ, mapping with
  | n :: occ', r :: mapping' => ((if str_eqb r k then n else 0) + share k occ' mapping')%Z
  | _, _ => 0%Z
  end.

Lemma reaction_counts_ok occ mapping : exists d, reaction_counts occ mapping = Ok d /\
  map fst d = sorted_set mapping /\
  forall k, dget d k = if str_mem k mapping then Some (share k occ mapping) else None.
Proof.
  unfold reaction_counts.
  assert (G : forall ps (d : dict Z), Forall (fun p => In (snd p) (map fst d)) ps ->
    exists d', fold_left (fun r p => do d <- r; do old <- dindex d (snd p); Ok (dset d (snd p) (old + fst p)%Z)) ps (Ok d) = Ok d' /\
      map fst d' = map fst d /\
      forall k, dget d' k = match dget d k with
        | Some v => Some (v + share k (map fst ps) (map snd ps))%Z
        | None => None end).
  { induction ps as [|[n r] ps IH]; intros d HF.
    - exists d. split; [reflexivity|]. split; [reflexivity|]. intro k. cbn. destruct (dget d k); [now rewrite Z.add_0_r|reflexivity].
    - inversion HF as [|? ? Hr HF']; subst. cbn [snd fst] in Hr. destruct (Fmt_Proofs.dget_key d r Hr) as [v Hv].
      assert (DI : dindex d r = Ok v) by (unfold dindex; now rewrite Hv).
      cbn [fold_left fst snd bind]. rewrite DI. cbn [bind].
      assert (K : map fst (dset d r (v + n)%Z) = map fst d).
      { clear - Hv. induction d as [|[k' v'] d IH]; cbn in Hv; [discriminate|]. cbn [dset].
        destruct (str_eqb r k') eqn:E; cbn [map fst]; [reflexivity|]. f_equal. apply IH. exact Hv. }
      destruct (IH (dset d r (v + n)%Z)) as (d' & E & E1 & E2).
      { rewrite K. exact HF'. }
      exists d'. split; [exact E|]. split; [congruence|]. intro k. rewrite E2, Fmt_Proofs.dget_dset.
      cbn [map fst snd share]. destruct (str_eqb k r) eqn:Ek.
      + apply str_eqb_eq in Ek. subst k. rewrite Hv, str_eqb_refl. f_equal. lia.
      + destruct (dget d k); [|reflexivity]. f_equal.
        destruct (str_eqb r k) eqn:Er; [|lia]. apply str_eqb_eq in Er. subst. rewrite str_eqb_refl in Ek. discriminate. }
  destruct (G (combine occ mapping) (map (fun r => (r, 0%Z)) (sorted_set mapping))) as (d' & E & E1 & E2).
  { apply Forall_forall. intros [n r] H. cbn [snd]. rewrite map_map. cbn [fst]. rewrite map_id.
    apply sorted_set_In. now apply in_combine_r in H. }
  exists d'. split; [exact E|]. split.
  { rewrite E1, map_map. cbn [fst]. apply map_id. }
  intro k. rewrite E2.
  assert (S : forall a b, share k (map fst (combine a b)) (map snd (combine a b)) = share k a b).
  { induction a as [|x a IHa]; intros [|y b]; cbn; try reflexivity. now rewrite IHa. }
  rewrite S.
  assert (D : dget (map (fun r => (r, 0%Z)) (sorted_set mapping)) k = if str_mem k mapping then Some 0%Z else None).
  { destruct (str_mem k mapping) eqn:M.
    - apply str_mem_In in M. pose proof (proj2 (sorted_set_In mapping k) M) as I. clear - I.
      induction (sorted_set mapping) as [|x l IH]; [contradiction|]. cbn [map dget].
      destruct (str_eqb k x) eqn:E; [reflexivity|]. destruct I as [->|I]; [rewrite str_eqb_refl in E; discriminate|auto].
    - apply Fmt_Proofs.dget_absent. rewrite map_map. cbn [fst]. rewrite map_id. intro H.
      apply (proj1 (sorted_set_In _ _)) in H. apply str_mem_In in H. congruence. }
  rewrite D. destruct (str_mem k mapping); reflexivity.
Qed.

(** Sum of a function over the first processes of a reaction. *)
Lemma share_seq k f g n s mapping :
  share k (map (fun p => (f p + g p)%Z) (seq s n)) mapping =
  (share k (map f (seq s n)) mapping + share k (map g (seq s n)) mapping)%Z.
Proof.
  revert s mapping. induction n as [|n IH]; intros s [|r mapping]; cbn [seq map share]; try lia.
  rewrite IH. destruct (str_eqb r k); lia.
Qed.

Lemma share_zero k n s mapping : share k (map (fun _ => 0%Z) (seq s n)) mapping = 0%Z.
Proof.
  revert s mapping. induction n as [|n IH]; intros s [|r mapping]; cbn [seq map share]; try lia.
  rewrite IH. destruct (str_eqb r k); lia.
Qed.

Lemma share_one k n s i mapping : i < n ->
  share k (map (fun p => if s + i =? p then 1%Z else 0%Z) (seq s n)) mapping =
  match nth_error mapping i with Some r => if str_eqb r k then 1%Z else 0%Z | None => 0%Z end.
Proof.
  revert s i mapping. induction n as [|n IH]; intros s i mapping H; [lia|].
  destruct mapping as [|r mapping]; [destruct i; reflexivity|]. cbn [seq map share].
  destruct i as [|i].
  - rewrite Nat.add_0_r, Nat.eqb_refl. cbn [nth_error].
    assert (E : map (fun p => if s =? p then 1%Z else 0%Z) (seq (S s) n) = map (fun _ => 0%Z) (seq (S s) n)).
    { apply map_ext_in. intros p Hp. apply in_seq in Hp. destruct (Nat.eqb_spec s p); [lia|reflexivity]. }
    rewrite E, share_zero. destruct (str_eqb r k); reflexivity.
  - destruct (Nat.eqb_spec (s + S i) s); [lia|]. cbn [nth_error].
    assert (E : map (fun p => if s + S i =? p then 1%Z else 0%Z) (seq (S s) n) =
                map (fun p => if S s + i =? p then 1%Z else 0%Z) (seq (S s) n)).
    { apply map_ext. intro p. replace (s + S i) with (S s + i) by lia. reflexivity. }
    rewrite E, IH by lia. destruct (str_eqb r k); reflexivity.
Qed.

Lemma share_counts k nprocess mapping es : Forall (fun e => e_picked e < nprocess) es ->
  share k (counts nprocess es) mapping = Z.of_nat (reaction_picks mapping k es).
Proof.
  induction 1 as [|e es He _ IH].
  - rewrite counts_nil. rewrite <- counts_nil. unfold counts. cbn. apply share_zero.
  - assert (E : counts nprocess (e :: es) =
      map (fun p => ((if (0 + e_picked e =? p)%nat then 1 else 0) + Z.of_nat (picks p es))%Z) (seq 0 nprocess)).
    { unfold counts. apply map_ext. intro p. unfold picks. cbn [filter]. rewrite Nat.add_0_l.
      destruct (e_picked e =? p); cbn [length]; lia. }
    rewrite E, (share_seq k (fun p => if 0 + e_picked e =? p then 1%Z else 0%Z)), share_one by exact He.
    fold (counts nprocess es). rewrite IH. unfold reaction_picks. cbn [filter].
    destruct (nth_error mapping (e_picked e)) as [r|]; [|lia]. destruct (str_eqb r k); cbn [length]; lia.
Qed.

Lemma steady_picked nprocess t es : Forall (fun e => e_picked e < nprocess) es ->
  Forall (fun e => e_picked e < nprocess) (steady_steps t es).
Proof.
  intro H. apply Forall_forall. intros e He. apply filter_In in He as [He _].
  rewrite Forall_forall in H. auto.
Qed.

(** ** The rates *)
Lemma rates_dict show nsites delta (d : dict Z) :
  ~ (inject_Z nsites * delta == 0)%Q ->
  exists rates : dict str, mapM (fun kv => do r <- rate_of nsites delta (snd kv); Ok (fst kv, show r)) d = Ok rates /\
    map fst rates = map fst d /\
    forall k, dget rates k = option_map (fun n => show (inject_Z n / (inject_Z nsites * delta))%Q) (dget d k).
Proof.
  intro H. induction d as [|[k0 n] d (rates & E & K & D)]; [exists []; repeat split|].
  cbn [mapM fst snd]. unfold rate_of at 1. destruct (Qeq_bool (inject_Z nsites * delta) 0) eqn:B;
    [apply Qeq_bool_iff in B; contradiction|]. cbn [bind]. rewrite E. cbn [bind].
  eexists. split; [reflexivity|]. split; [cbn [map fst]; now rewrite K|].
  intro k. cbn [dget]. destruct (str_eqb k k0); [reflexivity|apply D].
Qed.

Lemma int_texts_get d k : dget (int_texts d) k = option_map str_of_Z (dget d k).
Proof.
  induction d as [|[k0 n] d IH]; [reflexivity|]. cbn [int_texts map fst snd dget].
  destruct (str_eqb k k0); [reflexivity|exact IH].
Qed.

Lemma freq_file_ok show version date mapping nprocess reps basis tof_start es :
  (forall q, number_text (show q) = true) -> ~ In nl version -> ~ In nl date ->
  Forall (fun s => plain s = true) mapping ->
  reps <> [] -> Forall (fun e => e_picked e < nprocess) es ->
  let nsites := (product reps * Z.of_nat basis)%Z in
  let steady := steady_steps tof_start es in
  let delta := (last_time es - first_nonzero_time steady)%Q in
  ~ (inject_Z nsites * delta == 0)%Q ->
  exists s file rate,
    freq_run show true (file_header version date) mapping nprocess reps basis tof_start es = Ok s /\
    fq_file s = Some file /\
    file_list file (L "process_occurencies")
      (map (fun p => VInt (Z.of_nat (picks p es))) (seq 0 nprocess)) /\
    file_dict file (L "reaction_occurencies")
      (fun k => if str_mem k mapping then Some (str_of_Z (Z.of_nat (reaction_picks mapping k es))) else None) /\
    file_dict file (L "steady_reaction_occurencies")
      (fun k => if str_mem k mapping then Some (str_of_Z (Z.of_nat (reaction_picks mapping k steady))) else None) /\
    file_dict file (L "reaction_rates") (fun k => if str_mem k mapping then Some (show (rate k)) else None) /\
    forall k, (rate k * (inject_Z nsites * delta) == inject_Z (Z.of_nat (reaction_picks mapping k steady)))%Q.
Proof.
  intros Hs Hv Hd Hm Hr Hp nsites steady delta Hz. unfold freq_run.
  destruct (freq_steps nprocess tof_start es (freq_setup (file_header version date) (freq_new nprocess)) [] Hp)
    as (s1 & E1 & F0 & F1 & F2 & F3 & F4).
  { cbn. now rewrite counts_nil. }
  { cbn. now rewrite counts_nil. }
  { reflexivity. }
  { reflexivity. }
  cbn [app] in *. fold steady in F2, F3. rewrite E1. cbn [bind]. unfold freq_finalize.
  destruct (list_piece (L "process_occurencies") (map VInt (fq_occurencies s1)) 5) as (t1 & X1 & P1);
    [reflexivity| |discriminate|].
  { apply Forall_forall. intros v H. apply in_map_iff in H as (z & <- & _). apply int_number. }
  rewrite X1. cbn [bind]. rewrite F1, F2.
  destruct (reaction_counts_ok (counts nprocess es) mapping) as (d1 & -> & K1 & D1).
  destruct (reaction_counts_ok (counts nprocess steady) mapping) as (d2 & -> & K2 & D2). cbn [bind].
  assert (PL : forall (d : dict str), map fst d = sorted_set mapping -> Forall (fun kv => number_text (snd kv) = true) d ->
     Forall (fun kv => plain (fst kv) = true /\ number_text (snd kv) = true) d).
  { intros d Hk Hn. apply Forall_forall. intros [k v] Hin. cbn [fst snd]. rewrite Forall_forall in Hn, Hm. split.
    - apply Hm. apply sorted_set_In. rewrite <- Hk. apply in_map_iff. exists (k, v). auto.
    - exact (Hn _ Hin). }
  assert (KI : forall d, map fst (int_texts d) = map fst d).
  { intro d. unfold int_texts. rewrite map_map. reflexivity. }
  assert (NI : forall d, Forall (fun kv => number_text (snd kv) = true) (int_texts d)).
  { intro d. apply Forall_forall. intros [k v] Hin. apply in_map_iff in Hin as ([k' z] & E & _).
    injection E as <- <-. apply int_number. }
  destruct (dict_piece (L "reaction_occurencies") (int_texts d1)) as (t2 & e1 & -> & P2 & Q2);
    [reflexivity|apply PL; [now rewrite KI|apply NI]|].
  destruct (dict_piece (L "steady_reaction_occurencies") (int_texts d2)) as (t3 & e2 & -> & P3 & Q3);
    [reflexivity|apply PL; [now rewrite KI|apply NI]|].
  cbn [bind]. rewrite nsites_ok by exact Hr. cbn [bind]. fold nsites.
  assert (DE : (fq_end s1 - fq_start s1 == delta)%Q) by (rewrite F4, F3; reflexivity).
  destruct (rates_dict show nsites (fq_end s1 - fq_start s1) d2) as (rs & -> & K3 & D3).
  { now rewrite DE. }
  cbn [bind].
  destruct (dict_piece (L "reaction_rates") rs) as (t4 & e3 & -> & P4 & Q4); [reflexivity| |].
  { apply PL; [congruence|]. apply Forall_forall. intros [k v] Hin.
    destruct (in_split _ _ Hin) as (a & b & ->). cbn [snd].
    assert (N : NoDup (map fst (a ++ (k, v) :: b))) by (rewrite K3, K2; apply sorted_set_NoDup).
    specialize (D3 k). assert (G : dget (a ++ (k, v) :: b) k = Some v).
    { clear - N. induction a as [|[k' v'] a IH]; cbn [app dget].
      - now rewrite str_eqb_refl.
      - cbn [app map fst] in N. inversion N as [|? ? N1 N2]; subst. destruct (str_eqb k k') eqn:E; [|auto].
        apply str_eqb_eq in E. subst. exfalso. apply N1. rewrite map_app. apply in_app_iff. right. left. reflexivity. }
    rewrite G in D3. destruct (dget d2 k); [|discriminate]. injection D3 as ->. apply Hs. }
  cbn [bind].
  set (g0 := [(L "times", OVal (VList [])); (L "picked_indices", OVal (VList [])); (L "process_occurencies", OVal (VList []))] : names).
  assert (RH : reads (file_header version date ++ L "times = []" ++ [nl] ++ L "picked_indices = []" ++ [nl] ++
                        L "process_occurencies = []" ++ [nl]) g0).
  { eapply reads_app; [apply header_reads; assumption| |].
    - change (L "times = []" ++ [nl] ++ L "picked_indices = []" ++ [nl] ++ L "process_occurencies = []" ++ [nl]) with
        ((L "times" ++ L " = []" ++ [nl]) ++ (L "picked_indices" ++ L " = []" ++ [nl]) ++ (L "process_occurencies" ++ L " = []" ++ [nl])).
      repeat (apply piece_app; [apply empty_line; reflexivity|]). apply empty_line. reflexivity.
    - reflexivity. }
  cbn [freq_setup fq_file] in F0. rewrite F0. cbn [append_file].
  assert (RF := reads_app _ _ _ _ _ RH (piece_app _ _ _ _ P1 (piece_app _ _ _ _ P2 (piece_app _ _ _ _ P3 P4))) eq_refl).
  apply reads_exec in RF.
  eexists _, _, (fun k => inject_Z (share k (counts nprocess steady) mapping) / (inject_Z nsites * (fq_end s1 - fq_start s1)))%Q.
  split; [reflexivity|]. split; [reflexivity|].
  split. { eexists. split; [exact RF|]. cbn. rewrite F1. unfold counts. rewrite map_map. reflexivity. }
  split. { eexists _, e1. split; [exact RF|]. split; [reflexivity|]. intro k. rewrite Q2, int_texts_get, D1.
           destruct (str_mem k mapping); [|reflexivity]. cbn. now rewrite share_counts. }
  split. { eexists _, e2. split; [exact RF|]. split; [reflexivity|]. intro k. rewrite Q3, int_texts_get, D2.
           destruct (str_mem k mapping); [|reflexivity]. cbn. rewrite share_counts; [reflexivity|now apply steady_picked]. }
  split. { eexists _, e3. split; [exact RF|]. split; [reflexivity|]. intro k. rewrite Q4, D3, D2.
           destruct (str_mem k mapping); reflexivity. }
  intro k. rewrite share_counts by now apply steady_picked. rewrite DE. field.
  split; intro K; apply Hz; rewrite K; ring.
Qed.

(** ** A run without steady time fails *)
Lemma freq_no_time show master header mapping nprocess reps basis tof_start es :
  mapping <> [] -> Forall (fun s => plain s = true) mapping ->
  reps <> [] -> Forall (fun e => e_picked e < nprocess) es ->
  (inject_Z (product reps * Z.of_nat basis) * (last_time es - first_nonzero_time (steady_steps tof_start es)) == 0)%Q ->
  freq_run show master header mapping nprocess reps basis tof_start es = Err ZeroDivisionError.
Proof.
  intros Hn Hm Hr Hp Hz. unfold freq_run.
  destruct (freq_steps nprocess tof_start es (freq_setup header (freq_new nprocess)) [] Hp)
    as (s1 & -> & F0 & F1 & F2 & F3 & F4).
  { cbn. now rewrite counts_nil. }
  { cbn. now rewrite counts_nil. }
  { reflexivity. }
  { reflexivity. }
  cbn [app bind] in *. unfold freq_finalize.
  destruct (list_piece (L "process_occurencies") (map VInt (fq_occurencies s1)) 5) as (t1 & -> & _);
    [reflexivity| |discriminate|].
  { apply Forall_forall. intros v H. apply in_map_iff in H as (z & <- & _). apply int_number. }
  cbn [bind]. rewrite F1, F2.
  destruct (reaction_counts_ok (counts nprocess es) mapping) as (d1 & -> & K1 & D1).
  destruct (reaction_counts_ok (counts nprocess (steady_steps tof_start es)) mapping) as (d2 & -> & K2 & D2). cbn [bind].
  assert (PL : forall (d : dict Z), map fst d = sorted_set mapping ->
     Forall (fun kv => plain (fst kv) = true /\ number_text (snd kv) = true) (int_texts d)).
  { intros d Hk. apply Forall_forall. intros [k v] Hin. cbn [fst snd]. rewrite Forall_forall in Hm. split.
    - apply Hm. apply sorted_set_In. rewrite <- Hk. apply in_map_iff in Hin as ([k' z] & E & Hin). injection E as -> _.
      apply in_map_iff. exists (k, z). auto.
    - apply in_map_iff in Hin as ([k' z] & E & _). injection E as <- <-. apply int_number. }
  destruct (dict_piece (L "reaction_occurencies") (int_texts d1)) as (t2 & e1 & -> & _); [reflexivity|now apply PL|].
  destruct (dict_piece (L "steady_reaction_occurencies") (int_texts d2)) as (t3 & e2 & -> & _); [reflexivity|now apply PL|].
  cbn [bind]. rewrite nsites_ok by exact Hr. cbn [bind].
  destruct d2 as [|[k n] d2].
  { exfalso. cbn in K2. destruct mapping as [|m mapping]; [congruence|].
    assert (I : In m (sorted_set (m :: mapping))) by (apply sorted_set_In; left; reflexivity). rewrite <- K2 in I. exact I. }
  cbn [mapM fst snd]. unfold rate_of at 1.
  replace (Qeq_bool _ 0) with true; [reflexivity|]. symmetry. apply Qeq_bool_iff. rewrite F4, F3. exact Hz.
Qed.

Lemma picks_all nprocess es : Forall (fun e => e_picked e < nprocess) es ->
  fold_right Nat.add 0 (map (fun p => picks p es) (seq 0 nprocess)) = length es.
Proof.
  induction 1 as [|e es He _ IH].
  - assert (G : forall n s, fold_right Nat.add 0 (map (fun p => picks p []) (seq s n)) = 0).
    { clear. induction n as [|n IH]; intro s; [reflexivity|]. exact (IH (S s)). }
    apply G.
  - assert (G : forall n s, fold_right Nat.add 0 (map (fun p => picks p (e :: es)) (seq s n)) =
       (if (s <=? e_picked e) && (e_picked e <? s + n) then 1 else 0) + fold_right Nat.add 0 (map (fun p => picks p es) (seq s n))).
    { clear. induction n as [|n IH]; intro s.
      - cbn [seq map fold_right]. replace (s + 0) with s by lia.
        destruct (Nat.leb_spec s (e_picked e)), (Nat.ltb_spec (e_picked e) s); cbn [andb]; lia.
      - cbn [seq map fold_right]. rewrite IH.
        assert (P : picks s (e :: es) = (if e_picked e =? s then 1 else 0) + picks s es).
        { unfold picks. cbn [filter]. destruct (e_picked e =? s); reflexivity. }
        rewrite P.
        destruct (Nat.eqb_spec (e_picked e) s), (Nat.leb_spec (S s) (e_picked e)), (Nat.ltb_spec (e_picked e) (S s + n)),
          (Nat.leb_spec s (e_picked e)), (Nat.ltb_spec (e_picked e) (s + S n)); cbn [andb]; lia. }
    rewrite G, IH. destruct (Nat.leb_spec 0 (e_picked e)), (Nat.ltb_spec (e_picked e) (0 + nprocess)); cbn [andb length]; lia.
Qed.
