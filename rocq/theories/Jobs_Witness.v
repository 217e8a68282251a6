(** Examples for Jobs_Properties.v. *)
From Coq Require Import String Ascii List ZArith Bool Arith.
Import ListNotations.
From Verif Require Import PyBase PyBaseFacts PyData_Model PyData_Spec Jobs_Model Jobs_Read Jobs_Spec Jobs_Proofs Jobs_Runs.
Local Open Scope list_scope.

Definition setup0 : dict sval :=
  [(L "rxn_expressions", WList [WStr (L "CO_g + *_s -> CO_s"); WStr (L "O2_g + 2*_s -> 2O_s")]);
   (L "species_definitions",
      WDict [(L "CO_g", WDict [(L "pressure", WNum (L "1.0"))]);
             (L "O2_g", WDict [(L "pressure", WNum (L "0.5"))])]);
   (L "temperature", WNum (L "500"));
   (L "area", WNum (L "1.5e-20"));
   (L "repetitions", WTuple [WNum (L "1")]);
   (L "analysis", WWord (L "None"));
   (L "parser", WStr (L "KMCParser"))].

Ltac nodup := cbn [map fst]; repeat (constructor; [let X := fresh in intro X; cbn in X; repeat (destruct X as [X|X]; [discriminate|]); destruct X|]); constructor.

Lemma setup0_writable : writable_setup setup0.
Proof.
  split; [unfold setup0; nodup|]. intros k v H. unfold setup0 in H. cbn [In] in H.
  repeat (destruct H as [E|H]; [injection E as <- <-|]); [..|destruct H].
  1,3-6: split; [reflexivity|cbn; tauto].
  - split; [reflexivity|]. cbn. split; [nodup|]. repeat split; try nodup.
  - split; [reflexivity|]. cbn [settable].
    repeat split; intro X; cbn in X; repeat (destruct X as [X|X]; [discriminate|]); destruct X.
Qed.
Lemma setup0_CO : defined setup0 (L "CO_g").
Proof. eexists _, _. split; reflexivity. Qed.
Lemma setup0_O2 : defined setup0 (L "O2_g").
Proof. eexists _, _. split; reflexivity. Qed.

(** A text that adds settings. *)
Definition evil : str := L "1'" ++ [nl] ++ L "n = [2]" ++ [nl] ++ L "m = '".
Definition evil_text : str := L "a = '1'" ++ [nl] ++ L "n = [2]" ++ [nl] ++ L "m = ''" ++ [nl].
Lemma evil_means : means evil_text [(L "a", WStr (L "1")); (L "n", WList [WNum (L "2")]); (L "m", WStr [])].
Proof.
  change (means evil_text [(L "a", WStr (L "1")); (L "n", WList [WNum (L "2")]); (L "m", WStr [])]).
  apply setup_means; [|vm_compute; reflexivity].
  split; [nodup|]. intros k v H. cbn [In] in H.
  repeat (destruct H as [E|H]; [injection E as <- <-|]); [..|destruct H].
  - split; [reflexivity|]. cbn [settable].
    repeat split; intro X; cbn in X; repeat (destruct X as [X|X]; [discriminate|]); destruct X.
  - split; [reflexivity|cbn; tauto].
  - split; [reflexivity|]. cbn [settable]. repeat split; intro X; destruct X.
Qed.

Definition written0 (s : str) : str := s.
(** Texts of twelve digits at most, as [str] gives them. *)
Definition shown0 (s : str) : str := firstn 14 s.
Definition p1 : str := L "0.041000000000000002".
Definition p2 : str := L "0.041000000000000009".
Definition disk12 : disk := fst (create_jobs_1d shown0 written0 [] (L "CO_g") [p1; p2] (Some setup0) []).
Lemma disk12_one : map fst disk12 = [L "0.041000000000"].
Proof. vm_compute. reflexivity. Qed.

Lemma quoting_lost : exists d text d', dict2setup d = Ok text /\ length d = 1 /\
  means text d' /\ length d' = 3 /\ ~ means text d.
Proof.
  exists [(L "a", WStr evil)], evil_text, [(L "a", WStr (L "1")); (L "n", WList [WNum (L "2")]); (L "m", WStr [])].
  split; [reflexivity|]. split; [reflexivity|]. split; [exact evil_means|]. split; [reflexivity|].
  intro H. pose proof (means_unique _ _ _ H evil_means) as E. discriminate.
Qed.
Lemma own_directory_lost : exists (shown written : str -> str) p q,
  written p <> written q /\
  map fst (fst (create_jobs_1d shown written [] (L "CO_g") [p; q] (Some setup0) [])) = [L "0.041000000000"].
Proof. exists shown0, written0, p1, p2. split; [discriminate|exact disk12_one]. Qed.
