(** Concrete cases for the colour quantizer (C96). *)
From Coq Require Import String Ascii List ZArith QArith Qabs Bool Lia Lqa Permutation Sorted Znumtheory.
Import ListNotations.
From Verif Require Import PyBase PyBaseFacts Script_Model Quant_Model Quant_Spec Quant_Proofs Quant_Learn Quant_Palette.
Local Open Scope list_scope.
Local Open Scope Z_scope.

(** ** The order of the pixels can repeat *)
Lemma repeats n colors : 0 < n -> (499 | n) -> (491 | n) -> (487 | n) -> (503 | n) ->
  ~ NoDup (map (fun r => fst (fst r)) (schedule n colors 1)).
Proof.
  intros N A B C (q & D) ND. unfold schedule in ND. rewrite map_map in ND. cbn [fst] in ND. rewrite Z.div_1_r in ND.
  assert (Q : 0 < q < n) by lia.
  assert (St : stride n = 503).
  { unfold stride. cbn [find]. apply Zdivide_mod in A, B, C. rewrite A, B, C. reflexivity. }
  rewrite NoDup_nth_error in ND. specialize (ND 0%nat (Z.to_nat q)). rewrite map_length, seq_length in ND.
  rewrite !nth_error_map, !nth_error_seq0 in ND by lia. cbn [option_map] in ND.
  assert (E : 0%nat = Z.to_nat q); [|lia]. apply ND; [lia|]. rewrite St, Z2Nat.id by lia. f_equal.
  rewrite <- D. change (Z.of_nat 0) with 0. rewrite Z.mul_0_l, Z.mod_0_l, Z.mod_same by lia. reflexivity.
Qed.
Lemma order_repeats : exists n colors sf, 1 <= sf /\ 100 * sf <= n /\
  ~ NoDup (map (fun r => fst (fst r)) (schedule n colors sf)).
Proof.
  exists (499 * 491 * 487 * 503), 256, 1. split; [lia|]. split; [lia|]. apply repeats; [lia| | | |].
  - exists (491 * 487 * 503). reflexivity.
  - exists (499 * 487 * 503). reflexivity.
  - exists (499 * 491 * 503). reflexivity.
  - exists (499 * 491 * 487). reflexivity.
Qed.

(** ** A picture of one colour *)
Definition plain : list Z := repeat (10 + 256 * 20 + 65536 * 30 + 16777216 * 255) 1000.
Lemma plain_palette : neu_quant Python2 (7, 7, 7)%Q (50, 20) (L "RGBA") plain 10 5
  = Ok [(0, 0, 0, 0); (0, 0, 0, 3); (10, 20, 30, 2); (128, 128, 128, 4); (255, 255, 255, 1)].
Proof. vm_compute. reflexivity. Qed.

(** ** One colour learned *)
Definition start : net := Eval vm_compute in
  match set_up 5 (10, 20, 30)%Q with Ok s => s | Err _ => {| network := []; freq := []; bias := [] |} end.
Definition after : net := Eval vm_compute in
  match learn_pixel [100] false 0 512 2 start with Ok s => s | Err _ => {| network := []; freq := []; bias := [] |} end.
Lemma start_initial : initial 5 (10, 20, 30)%Q start.
Proof.
  split; [reflexivity|]. split; [reflexivity|]. split; [reflexivity|]. split; [reflexivity|]. intros i I.
  destruct i as [|[|i]]; [..|lia]; (eexists; split; [reflexivity|]); reflexivity.
Qed.
Lemma start_taught : taught (rgb_of 100) (512 # 1024) 2 start after /\
  exists m, nth_error (network after) 3 = Some m /\ same_color m (50, 0, 0)%Q.
Proof.
  split.
  - exists 0%nat, 0%nat. split; [|split].
    + eexists. split; [reflexivity|]. split.
      * intros [|[|k]] y H; try (injection H as <-); try discriminate. destruct k; discriminate.
      * intros k y K. lia.
    + eexists. split; [reflexivity|]. split.
      * intros [|[|k]] y H; try (injection H as <-); try discriminate. destruct k; discriminate.
      * intros k y K. lia.
    + split; [reflexivity|]. split; [reflexivity|]. split; [reflexivity|]. split.
      * intros [|[|[|[|[|i]]]]] f b Ef Eb; try (destruct i; discriminate); injection Ef as <-; injection Eb as <-;
          (eexists; eexists; split; [reflexivity|]; split; [reflexivity|]); cbn; split; reflexivity.
      * intros [|[|[|[|[|i]]]]] m Em; try (destruct i; discriminate); injection Em as <-;
          (eexists; split; [reflexivity|]); try reflexivity; repeat split; reflexivity.
  - eexists. split; [reflexivity|]. repeat split; reflexivity.
Qed.
Lemma bias_differs : exists n bg c a rad s s' i f b, (3 < n)%nat /\ initial n bg s /\ taught c a rad s s' /\
  nth_error (freq s') i = Some f /\ nth_error (bias s') i = Some b /\
  ~ (b == 1024 * (1 / inject_Z (Z.of_nat n) - f))%Q.
Proof.
  exists 5%nat, (10, 20, 30)%Q, (rgb_of 100), (512 # 1024), 2, start, after, 4%nat.
  eexists. eexists. split; [lia|]. split; [apply start_initial|]. split; [apply start_taught|].
  split; [reflexivity|]. split; [reflexivity|]. eapply (taught_bias 5 (10, 20, 30)%Q _ _ _ start after 4).
  - lia.
  - apply start_initial.
  - apply start_taught.
  - lia.
  - reflexivity.
  - reflexivity.
Qed.

(** ** A small picture *)
Definition three : list row := [(0, 0, 0, 0); (200, 100, 0, 2); (255, 255, 255, 1)].
Lemma three_picture :
  shape 2 1 [[(190, 120, 10, 7); (250, 230, 240, 9)]] /\
  quantize_without_scipy three 2 1 [[(190, 120, 10, 7); (250, 230, 240, 9)]]
  = Ok [[(200, 100, 0, 7); (255, 255, 255, 9)]].
Proof. split; [split; [reflexivity|repeat constructor]|vm_compute; reflexivity]. Qed.

(** A search that does find a nearest colour. *)
Fixpoint closest (best : nat) (d : Z) (k : nat) (c : color) (l : list color) : nat :=
  match l with [] => best | e :: t => if dist2 e c <? d then closest k (dist2 e c) (S k) c t else closest best d (S k) c t end.
Lemma closest_ok c l : forall pre b e0, nth_error (pre ++ l) b = Some e0 ->
  (forall e, In e pre -> dist2 e0 c <= dist2 e c) ->
  exists d, nth_error (pre ++ l) (closest b (dist2 e0 c) (length pre) c l) = Some d /\
    forall e, In e (pre ++ l) -> dist2 d c <= dist2 e c.
Proof.
  induction l as [|x t IH]; intros pre b e0 E H.
  - exists e0. split; [exact E|]. rewrite app_nil_r. exact H.
  - cbn [closest].
    assert (Eq : pre ++ x :: t = (pre ++ [x]) ++ t) by (rewrite <- app_assoc; reflexivity).
    assert (Len : S (length pre) = length (pre ++ [x])) by (rewrite app_length; cbn; lia).
    rewrite Eq in *. destruct (Z.ltb_spec (dist2 x c) (dist2 e0 c)) as [Lt|Ge]; rewrite Len; apply IH.
    + rewrite nth_error_app1 by (rewrite app_length; cbn; lia). rewrite nth_error_app2, Nat.sub_diag by lia. reflexivity.
    + intros e I. apply in_app_iff in I. destruct I as [I|[<-|[]]]; [specialize (H e I); lia|lia].
    + exact E.
    + intros e I. apply in_app_iff in I. destruct I as [I|[<-|[]]]; [exact (H e I)|lia].
Qed.
Definition search (l : list color) (c : color) : nat :=
  match l with [] => 0%nat | e :: t => closest 0 (dist2 e c) 1 c t end.
Lemma search_ok cm : cm <> [] -> forall c, exists d, nth_error (map of_row cm) (search (map of_row cm) c) = Some d /\
     forall e, In e (map of_row cm) -> dist2 d c <= dist2 e c.
Proof.
  intros C c. destruct cm as [|r t]; [contradiction|]. cbn [map search].
  apply (closest_ok c (map of_row t) [of_row r] 0%nat (of_row r)); [reflexivity|].
  intros e [<-|[]]. lia.
Qed.
Lemma tree_example : exists query : list color -> color -> nat,
  (forall c, exists d, nth_error (map of_row three) (query (map of_row three) c) = Some d /\
     forall e, In e (map of_row three) -> dist2 d c <= dist2 e c) /\
  quantize_with_scipy query three [[(190, 120, 10, 7); (250, 230, 240, 9)]] = Ok [[(200, 100, 0, 7); (255, 255, 255, 9)]].
Proof. exists search. split; [apply search_ok; discriminate|vm_compute; reflexivity]. Qed.

(** ** Pictures the writer should accept *)
Lemma writer_sizes : exists pixels ims,
  503 <= 30 * 20 /\ nq_images Python2 (7, 7, 7)%Q true 10 (((30, 20), pixels) :: ims) = Err ZeroDivisionError /\
  Z.of_nat (length pixels) = 30 * 20.
Proof.
  exists (repeat 0 600), []. split; [lia|]. split; [|reflexivity].
  unfold nq_images. cbn [mapM]. unfold nq_image. cbn [fst snd]. rewrite (sampled_few (7, 7, 7)%Q 30 20 (repeat 0 600) 10 256);
    [reflexivity|repeat constructor|lia|lia|rewrite repeat_length; lia].
Qed.
