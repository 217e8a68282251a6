From Coq Require Import String Ascii List ZArith Bool Arith QArith Qround Lia.
Import ListNotations.
From Verif Require Import PyBase Gif_Model Gif_Spec Gif_Proofs.
Local Open Scope list_scope.

(** ** Two bytes *)
Lemma int_to_bin_ok i : fits i ->
  exists a b, int_to_bin i = Ok [a; b] /\ is_byte a /\ is_byte b /\ word a b = i.
Proof.
  intros [A B]. unfold int_to_bin. rewrite (proj2 (Z.leb_le _ _) A), (proj2 (Z.ltb_lt _ _) B).
  exists (i mod 256)%Z, (i / 256)%Z. split; [reflexivity|]. unfold is_byte, word.
  pose proof (Z.mod_pos_bound i 256 ltac:(lia)). pose proof (Z.div_mod i 256 ltac:(lia)).
  split; [lia|]. split; [|lia]. split; [apply Z.div_pos; lia|apply Z.div_lt_upper_bound; lia].
Qed.

Lemma int_to_bin_err i : ~ fits i -> int_to_bin i = Err OverflowError.
Proof.
  intros N. unfold int_to_bin. destruct (0 <=? i)%Z eqn:A, (i <? 65536)%Z eqn:B; try reflexivity.
  elim N. apply Z.leb_le in A. apply Z.ltb_lt in B. now split.
Qed.

Lemma fits_dec i : {fits i} + {~ fits i}.
Proof.
  destruct (Z_le_dec 0 i), (Z_lt_dec i 65536); [left; now split|right; intros [? ?]; contradiction..].
Qed.

Lemma int_to_bin_exact i l :
  int_to_bin i = Ok l <-> exists a b, l = [a; b] /\ is_byte a /\ is_byte b /\ i = word a b.
Proof.
  split.
  - intros E. destruct (fits_dec i) as [F|F]; [|rewrite int_to_bin_err in E by exact F; discriminate].
    destruct (int_to_bin_ok i F) as (a & b & E' & Ha & Hb & W). exists a, b. rewrite E' in E. injection E as <-. auto.
  - intros (a & b & -> & Ha & Hb & ->). unfold is_byte, word in *.
    destruct (int_to_bin_ok (a + 256 * b)) as (a' & b' & E & Ha' & Hb' & W); [unfold fits; lia|].
    unfold is_byte, word in *. rewrite E. replace a' with a by lia. now replace b' with b by lia.
Qed.

(** ** The palette that is used most *)
Lemma bytes_eqb_eq a : forall b, bytes_eqb a b = true <-> a = b.
Proof.
  unfold bytes_eqb, list_eqb. induction a as [|x a IH]; intros [|y b]; cbn; [now split|now split|now split|].
  specialize (IH b). rewrite andb_true_iff in *. cbn [fst snd]. rewrite andb_true_iff, Z.eqb_eq.
  split.
  - intros (L & -> & F). f_equal. apply IH. now split.
  - intros [= -> ->]. destruct (proj2 IH eq_refl). now repeat split.
Qed.

Lemma count_occ_count p l : count p l = count_occ (list_eq_dec Z.eq_dec) l p.
Proof.
  unfold count. induction l as [|q l IH]; [reflexivity|]. cbn [filter count_occ].
  destruct (bytes_eqb p q) eqn:E; destruct (list_eq_dec Z.eq_dec q p) as [H|H].
  - cbn [length]. now rewrite IH.
  - apply bytes_eqb_eq in E. congruence.
  - subst. rewrite (proj2 (bytes_eqb_eq p p) eq_refl) in E. discriminate.
  - exact IH.
Qed.

Definition occ (l : list bytes) q := count_occ (list_eq_dec Z.eq_dec) l q.

Lemma first_max_spec l all g : first_max l all = Ok g ->
  exists before after, l = before ++ g :: after /\ Forall (fun q => occ all q <= occ all g)%nat all /\
    Forall (fun p => ~ Forall (fun q => occ all q <= occ all p)%nat all) before.
Proof.
  induction l as [|p t IH]; [discriminate|]. cbn [first_max].
  destruct (forallb (fun q => count q all <=? count p all)%nat all) eqn:E.
  - intros [= <-]. exists [], t. split; [reflexivity|]. split; [|constructor].
    rewrite forallb_forall in E. apply Forall_forall. intros q I. specialize (E q I). apply Nat.leb_le in E.
    unfold occ. now rewrite <- !count_occ_count.
  - intros H. destruct (IH H) as (b & a & -> & F & G). exists (p :: b), a. repeat split; [exact F|].
    constructor; [|exact G]. intros A. rewrite Forall_forall in A.
    assert (T : forallb (fun q => count q all <=? count p all)%nat all = true); [|congruence].
    apply forallb_forall. intros q I. apply Nat.leb_le. rewrite !count_occ_count. exact (A q I).
Qed.

Lemma max_exists all l : l <> [] -> exists p, In p l /\ Forall (fun q => occ all q <= occ all p)%nat l.
Proof.
  induction l as [|a l IH]; [contradiction|]. intros _. destruct l as [|b l].
  - exists a. split; [now left|]. constructor; [apply le_n|constructor].
  - destruct IH as (p & I & F); [discriminate|]. destruct (Nat.le_ge_cases (occ all a) (occ all p)) as [H|H].
    + exists p. split; [now right|]. now constructor.
    + exists a. split; [now left|]. constructor; [apply le_n|]. eapply Forall_impl; [|exact F]. cbn. intros; lia.
Qed.

Lemma first_max_total l all : (exists p, In p l /\ Forall (fun q => occ all q <= occ all p)%nat all) ->
  exists g, first_max l all = Ok g.
Proof.
  induction l as [|a l IH]; intros (p & I & F); [contradiction|]. cbn [first_max].
  destruct (forallb (fun q => count q all <=? count a all)%nat all) eqn:E; [eexists; reflexivity|].
  destruct I as [->|I]; [|apply IH; now exists p]. exfalso.
  assert (T : forallb (fun q => count q all <=? count p all)%nat all = true); [|congruence].
  apply forallb_forall. intros q J. apply Nat.leb_le. rewrite !count_occ_count. rewrite Forall_forall in F. exact (F q J).
Qed.

Lemma global_palette_exact l : l <> [] -> exists g, global_palette l = Ok g /\ most_used g l.
Proof.
  intros N. destruct (first_max_total l l (max_exists l l N)) as [g E]. exists g. split; [exact E|].
  destruct (first_max_spec l l g E) as (b & a & S & F & G). exists b, a. split; [exact S|]. cbn zeta. split; [exact F|].
  eapply Forall_impl; [|exact G]. cbn beta. intros p A.
  destruct (Nat.lt_ge_cases (occ l p) (occ l g)) as [H|H]; [exact H|]. elim A.
  eapply Forall_impl; [|exact F]. cbn beta. intros q Q. unfold occ in *. lia.
Qed.

(** ** The control block *)
Lemma land3 s : Z.land s 3 = (s mod 4)%Z.
Proof. change 3%Z with (Z.ones 2). now rewrite Z.land_ones by lia. Qed.

Lemma packed s (tr : bool) :
  let p := Z.lor (Z.shiftl (Z.land s 3) 2) (Z.land (if tr then 1 else 0) 1) in
  is_byte p /\ (p / 4 mod 8 = s mod 4)%Z /\ Z.odd p = tr.
Proof.
  rewrite land3. pose proof (Z.mod_pos_bound s 4 ltac:(lia)) as B. set (m := (s mod 4)%Z) in *.
  assert (C : m = 0%Z \/ m = 1%Z \/ m = 2%Z \/ m = 3%Z) by lia. unfold is_byte.
  destruct C as [-> | [-> | [-> | ->]]]; destruct tr; vm_compute; repeat split; congruence.
Qed.

Lemma one_byte_ok i : is_byte i -> one_byte i = Ok [i].
Proof. intros [A B]. unfold one_byte. now rewrite (proj2 (Z.leb_le _ _) A), (proj2 (Z.ltb_lt _ _) B). Qed.

Lemma trunc_floor x : (0 <= x)%Q -> trunc x = Qfloor x.
Proof. intros H. apply trunc_unique; [exact H|]. split; [apply Qfloor_le|apply Qlt_floor]. Qed.

Lemma good_fits d : good_duration d -> fits (Qfloor (d * 100)) /\ trunc (d * 100) = Qfloor (d * 100).
Proof.
  intros [A B]. assert (P : (0 <= d * 100)%Q) by (apply Qmult_le_0_compat; [exact A|discriminate]).
  split; [|now apply trunc_floor]. split.
  - change 0%Z with (Qfloor 0). now apply Qfloor_resp_le.
  - rewrite Zlt_Qlt. eapply Qle_lt_trans; [apply Qfloor_le|exact B].
Qed.

Lemma control_ext_ok d s (tr : bool) : good_duration d ->
  exists p d0 d1, control_ext d s (if tr then 1 else 0)%Z 255 = Ok [33; 249; 4; p; d0; d1; 255; 0]%Z /\
    is_byte p /\ is_byte d0 /\ is_byte d1 /\ (p / 4 mod 8 = s mod 4)%Z /\ Z.odd p = tr /\ word d0 d1 = Qfloor (d * 100).
Proof.
  intros G. destruct (good_fits d G) as [F T]. unfold control_ext. rewrite T.
  destruct (packed s tr) as (P & P2 & P3). rewrite (one_byte_ok _ P). cbn [bind].
  destruct (int_to_bin_ok _ F) as (d0 & d1 & -> & B0 & B1 & W). cbn [bind].
  change (one_byte 255) with (Ok [255]%Z). cbn [bind app].
  exists (Z.lor (Z.shiftl (Z.land s 3) 2) (Z.land (if tr then 1 else 0) 1)), d0, d1. repeat split; assumption || apply P || apply B0 || apply B1.
Qed.

(** A duration that does not fit. *)
Lemma trunc_neg x : trunc (- x) = (- trunc x)%Z.
Proof. destruct x as [n d]. unfold trunc, Qopp. cbn [Qnum Qden]. apply Z.quot_opp_l. lia. Qed.

Lemma control_ext_err d s f i : (d * 100 <= -1 \/ inject_Z 65536 <= d * 100)%Q -> (f = 0 \/ f = 1)%Z ->
  control_ext d s f i = Err OverflowError.
Proof.
  intros H Hf. unfold control_ext.
  assert (P : one_byte (Z.lor (Z.shiftl (Z.land s 3) 2) (Z.land f 1)) = Ok [Z.lor (Z.shiftl (Z.land s 3) 2) (Z.land f 1)]).
  { apply one_byte_ok. destruct Hf as [-> | ->]; [apply (packed s false)|apply (packed s true)]. }
  rewrite P. cbn [bind]. rewrite int_to_bin_err; [reflexivity|]. intros [A B]. destruct H as [H|H].
  - assert (N : (0 <= - (d * 100))%Q).
    { assert (Q : (- (-1) <= - (d * 100))%Q) by (apply Qopp_le_compat; exact H).
      eapply Qle_trans; [|exact Q]. discriminate. }
    pose proof (trunc_bounds _ N) as [_ C]. rewrite trunc_neg in C.
    assert (Q : (- (-1) <= - (d * 100))%Q) by (apply Qopp_le_compat; exact H).
    assert (R : (inject_Z 1 < inject_Z (- trunc (d * 100) + 1))%Q) by (eapply Qle_lt_trans; [exact Q|exact C]).
    rewrite <- Zlt_Qlt in R. lia.
  - assert (N : (0 <= d * 100)%Q) by (eapply Qle_trans; [|exact H]; discriminate).
    pose proof (trunc_bounds _ N) as [_ C].
    assert (R : (inject_Z 65536 < inject_Z (trunc (d * 100) + 1))%Q) by (eapply Qle_lt_trans; [exact H|exact C]).
    rewrite <- Zlt_Qlt in R. lia.
Qed.

(** ** Reading what has been written *)
Lemma take_app n a rest : Z.of_nat (length a) = n -> take n (a ++ rest) = Some (a, rest).
Proof.
  intros <-. unfold take. rewrite app_length.
  replace (Z.of_nat (length a + length rest) <? Z.of_nat (length a))%Z with false by
    (symmetry; apply Z.ltb_ge; lia).
  rewrite Nat2Z.id, firstn_app, firstn_all, Nat.sub_diag, skipn_app, skipn_all, Nat.sub_diag. cbn [firstn skipn app].
  now rewrite app_nil_r.
Qed.

Lemma read_table_own pal rest : Z.of_nat (length pal) = 768%Z ->
  read_table 135 (pal ++ rest) = Some (Some pal, rest).
Proof.
  intros L. unfold read_table. change (Z.testbit 135 7) with true. cbv iota.
  change (3 * 2 ^ (135 mod 8 + 1))%Z with 768%Z. now rewrite (take_app 768 pal rest L).
Qed.

Lemma read_sub_blocks_ok blocks : forall data rest fuel, blocks_of data blocks -> (length data <= fuel)%nat ->
  read_sub_blocks fuel (data ++ rest) = Some (blocks, rest).
Proof.
  induction blocks as [|b blocks IH]; intros data rest fuel [F ->] L.
  - cbn in L. destruct fuel as [|fuel]; [lia|]. reflexivity.
  - inversion F as [|? ? (Nb & Lb & _) Fb]; subst. cbn [map concat] in *.
    destruct fuel as [|fuel]; [cbn in L; lia|]. cbn [app read_sub_blocks].
    destruct (Z.of_nat (length b) =? 0)%Z eqn:E; [apply Z.eqb_eq in E; destruct b; [now elim Nb|discriminate E]|].
    rewrite <- !app_assoc. rewrite (take_app _ b _ eq_refl).
    specialize (IH (concat (map (fun b => Z.of_nat (length b) :: b) blocks) ++ [0%Z]) rest fuel (conj Fb eq_refl)).
    rewrite <- app_assoc in IH. rewrite IH; [reflexivity|]. rewrite !app_length in *. cbn in *. lia.
Qed.

Lemma read_control fuel c p d0 d1 i rest :
  read_blocks (S fuel) c (33 :: 249 :: 4 :: p :: d0 :: d1 :: i :: 0 :: rest)%Z =
  read_blocks fuel {| c_delay := word d0 d1; c_dispose := p / 4 mod 8;
                      c_transparent := if Z.odd p then Some i else None |} rest.
Proof. reflexivity. Qed.

Lemma read_image fuel c x0 x1 y0 y1 w0 w1 h0 h1 flags t table code data blocks rest :
  read_table flags t = Some (table, code :: data ++ rest) -> blocks_of data blocks ->
  read_blocks (S fuel) c (44 :: x0 :: x1 :: y0 :: y1 :: w0 :: w1 :: h0 :: h1 :: flags :: t)%Z =
  match read_blocks fuel no_control rest with
  | Some (loops, fs) =>
      Some (loops,
            {| f_delay := c_delay c; f_dispose := c_dispose c; f_transparent := c_transparent c;
               f_left := word x0 x1; f_top := word y0 y1; f_width := word w0 w1;
               f_height := word h0 h1; f_table := table; f_code := code; f_blocks := blocks |} :: fs)
  | None => None
  end.
Proof.
  intros T B. cbn [read_blocks]. rewrite T.
  rewrite (read_sub_blocks_ok blocks data rest (length (data ++ rest)) B) by (rewrite app_length; lia). reflexivity.
Qed.

Lemma read_loops fuel c l0 l1 rest :
  read_blocks (S fuel) c (([33; 255; 11] ++ netscape ++ [3; 1; l0; l1; 0])%Z ++ rest) =
  match read_blocks fuel c rest with Some (_, fs) => Some (Some (word l0 l1), fs) | None => None end.
Proof.
  rewrite <- !app_assoc. cbn [app read_blocks].
  rewrite (take_app 11 netscape (3 :: 1 :: l0 :: l1 :: 0 :: rest)%Z) by reflexivity.
  cbv iota. replace (list_eqb Z.eqb netscape netscape) with true by reflexivity. reflexivity.
Qed.

Definition mkframe (c0 c1 : Z) (c2 : option Z) x y w h table code blocks : frame :=
  {| f_delay := c0; f_dispose := c1; f_transparent := c2; f_left := x; f_top := y; f_width := w; f_height := h;
     f_table := table; f_code := code; f_blocks := blocks |}.

Lemma blocks_bytes data blocks : blocks_of data blocks -> Forall is_byte data.
Proof.
  intros [F ->]. apply Forall_app. split; [|constructor; [unfold is_byte; lia|constructor]].
  induction F as [|b t (_ & L & B) _ IH]; [constructor|]. cbn [map concat]. apply Forall_app. split; [|exact IH].
  constructor; [unfold is_byte; lia|exact B].
Qed.

Lemma frame_read tr g d s xy p blocks : from_pil p blocks -> good_duration d -> fits (fst xy) -> fits (snd xy) ->
  exists b f, frame_bytes tr g d s xy p = Ok b /\ Forall is_byte b /\ (2 <= length b)%nat /\
    frame_for g tr p blocks d s xy f /\
    forall fuel c rest, read_blocks (S (S fuel)) c (b ++ rest) =
      match read_blocks fuel no_control rest with Some (loops, fs) => Some (loops, f :: fs) | None => None end.
Proof.
  intros (Fw & Fh & Lp & Bp & (w0 & w1 & h0 & h1 & W0 & W1 & H0 & H1 & Ew & Eh & Ei) & Bd) G Fx Fy.
  destruct (control_ext_ok d s tr G) as (q & d0 & d1 & Ec & Bq & B0 & B1 & Q1 & Q2 & Q3).
  unfold frame_bytes. rewrite Ec. cbn [bind]. unfold image_descriptor.
  destruct (int_to_bin_ok _ Fx) as (x0 & x1 & -> & X0 & X1 & Ex).
  destruct (int_to_bin_ok _ Fy) as (y0 & y1 & -> & Y0 & Y1 & Ey).
  destruct (int_to_bin_ok _ Fw) as (v0 & v1 & -> & V0 & V1 & Ev).
  destruct (int_to_bin_ok _ Fh) as (k0 & k1 & -> & K0 & K1 & Ek). cbn [bind].
  pose proof (blocks_bytes _ _ Bd) as Bb.
  assert (HB : forall z, (0 <= z < 256)%Z -> is_byte z) by (intros z Hz; exact Hz).
  destruct (negb (bytes_eqb (p_palette p) g) || negb (s =? 2)%Z) eqn:Own.
  - eexists. exists (mkframe (Qfloor (d * 100)) (s mod 4) (if tr then Some 255%Z else None) (fst xy) (snd xy)
                       (p_w p) (p_h p) (Some (p_palette p)) 8 blocks).
    split; [reflexivity|]. split; [|split; [cbn; lia|split]].
    + cbn [app]. repeat (apply Forall_cons; [assumption || (apply HB; lia)|]).
      apply Forall_app. split; [|exact Bb]. apply Forall_app. split; [exact Bp|]. constructor; [apply HB; lia|constructor].
    + unfold frame_for, mkframe. cbn. repeat (split; [reflexivity|]). split; [intros _; split; [reflexivity|now destruct xy]|].
      intros E1 ->. rewrite (proj2 (bytes_eqb_eq _ _) E1) in Own. discriminate Own.
    + intros fuel c rest. cbn [app]. rewrite <- !app_assoc. cbn [app].
      rewrite read_control.
      rewrite (read_image fuel _ x0 x1 y0 y1 v0 v1 k0 k1 135 _ (Some (p_palette p)) 8 (concat (p_data p)) blocks rest);
        [|now rewrite (read_table_own (p_palette p) _ Lp)|exact Bd].
      cbn [c_delay c_dispose c_transparent]. rewrite Q1, Q2, Q3, Ex, Ey, Ev, Ek. reflexivity.
  - apply orb_false_iff in Own. destruct Own as [O1 O2]. rewrite negb_false_iff in O1, O2.
    apply bytes_eqb_eq in O1. apply Z.eqb_eq in O2.
    eexists. exists (mkframe (Qfloor (d * 100)) (s mod 4) (if tr then Some 255%Z else None) 0 0
                       (p_w p) (p_h p) None 8 blocks).
    split; [reflexivity|]. rewrite Ei. split; [|split; [cbn; lia|split]].
    + cbn [app]. repeat (apply Forall_cons; [assumption || (apply HB; lia)|]). exact Bb.
    + unfold frame_for, mkframe. cbn. repeat (split; [reflexivity|]). split; [intros [N|N]; congruence|].
      intros _ _. now split.
    + intros fuel c rest. cbn [app].
      rewrite read_control.
      rewrite (read_image fuel _ 0 0 0 0 w0 w1 h0 h1 0 _ None 8 (concat (p_data p)) blocks rest);
        [|reflexivity|exact Bd].
      cbn [c_delay c_dispose c_transparent]. rewrite Q1, Q2, Q3, <- Ew, <- Eh. reflexivity.
Qed.

(** ** All frames *)
Lemma nth_error_ex {A} (l : list A) i : (i < length l)%nat -> exists x, nth_error l i = Some x.
Proof. intros H. destruct (nth_error l i) eqn:E; [eexists; reflexivity|]. apply nth_error_None in E. lia. Qed.

Lemma nth_error_Forall {A} (P : A -> Prop) l i x : Forall P l -> nth_error l i = Some x -> P x.
Proof. intros F E. rewrite Forall_forall in F. exact (F x (nth_error_In _ _ E)). Qed.

Definition fits2 (xy : Z * Z) : Prop := fits (fst xy) /\ fits (snd xy).

Lemma write_frames_read tr g ds ss xys n :
  (forall i d, (i < n)%nat -> nth_error ds i = Some d -> good_duration d) -> Forall fits2 xys ->
  forall pims blocks, Forall2 from_pil pims blocks -> forall k,
  (k + length pims <= n -> k + length pims <= length ds -> k + length pims <= length ss -> k + length pims <= length xys ->
  exists bs fs, write_frames tr g ds ss xys k pims = (bs, Ok (k + length pims)) /\ Forall is_byte bs /\
    2 * length pims <= length bs /\ length fs = length pims /\
    (forall i p b d s xy, nth_error pims i = Some p -> nth_error blocks i = Some b ->
       nth_error ds (k + i) = Some d -> nth_error ss (k + i) = Some s -> nth_error xys (k + i) = Some xy ->
       exists f, nth_error fs i = Some f /\ frame_for g tr p b d s xy f) /\
    forall fuel rest, read_blocks (2 * length pims + fuel) no_control (bs ++ rest) =
      match read_blocks fuel no_control rest with Some (loops, fs') => Some (loops, fs ++ fs') | None => None end)%nat.
Proof.
  intros Fd Fx. induction 1 as [|p b pims blocks Hp _ IH]; intros k Ln Ld Ls Lx.
  - exists [], []. cbn [write_frames length]. rewrite Nat.add_0_r. repeat split; [constructor|cbn; lia| |].
    + intros [|i] p b d s xy E; discriminate E.
    + intros fuel rest. cbn. now destruct (read_blocks fuel no_control rest) as [[? ?]|].
  - cbn [length] in *. destruct (nth_error_ex ds k) as [d D]; [lia|].
    destruct (nth_error_ex ss k) as [s S1]; [lia|]. destruct (nth_error_ex xys k) as [xy X]; [lia|].
    pose proof (Fd k d ltac:(lia) D) as Gd. pose proof (nth_error_Forall _ _ _ _ Fx X) as [X1 X2].
    destruct (frame_read tr g d s xy p b Hp Gd X1 X2) as (c & f & E & Bc & Lc & Ff & R).
    destruct (IH (S k)) as (bs & fs & E' & Bb & Lb & Lf & N & R'); [lia..|].
    exists (c ++ bs), (f :: fs). cbn [write_frames]. unfold at_frame. rewrite D, S1, X. cbn [bind]. rewrite E, E'.
    split; [do 2 f_equal; lia|]. split; [apply Forall_app; now split|]. split; [rewrite app_length; lia|].
    split; [cbn; now rewrite Lf|]. split.
    + intros [|i] p' b' d' s' xy' P1 P2 P3 P4 P5.
      * rewrite Nat.add_0_r in P3, P4, P5. cbn in P1, P2. exists f. split; [reflexivity|].
        rewrite D in P3. rewrite S1 in P4. rewrite X in P5.
        injection P1 as <-. injection P2 as <-. injection P3 as <-. injection P4 as <-. injection P5 as <-. exact Ff.
      * replace (k + S i)%nat with (S k + i)%nat in P3, P4, P5 by lia. exact (N i p' b' d' s' xy' P1 P2 P3 P4 P5).
    + intros fuel rest. replace (2 * S (length pims) + fuel)%nat with (S (S (2 * length pims + fuel))) by lia.
      rewrite <- app_assoc, R, R'. now destruct (read_blocks fuel no_control rest) as [[? ?]|].
Qed.

Lemma app_ext_ok z : fits z ->
  exists a, app_ext (Some z) = Ok a /\ Forall is_byte a /\
    ((loops_for z = None /\ a = []) \/
     (exists n l0 l1, loops_for z = Some n /\ n = word l0 l1 /\ a = ([33; 255; 11] ++ netscape ++ [3; 1; l0; l1; 0])%Z)).
Proof.
  intros F. unfold app_ext, loops_for. destruct (z =? 0)%Z eqn:E0.
  - apply Z.eqb_eq in E0. subst. cbn. eexists. split; [reflexivity|]. split.
    + repeat (apply Forall_cons; [unfold is_byte; lia|]). constructor.
    + right. exists 65535%Z, 255%Z, 255%Z. now repeat split.
  - destruct (z =? 1)%Z eqn:E1; [exists []; repeat split; [constructor|]; left; now split|].
    destruct (int_to_bin_ok z F) as (a & b & -> & A & B & W). cbn [bind]. eexists. split; [reflexivity|]. split.
    + change (text_bytes "NETSCAPE2.0") with [78; 69; 84; 83; 67; 65; 80; 69; 50; 46; 48]%Z. cbn [app].
      repeat (apply Forall_cons; [assumption || (unfold is_byte; lia)|]). constructor.
    + right. exists z, a, b. split; [reflexivity|]. split; [now symmetry|reflexivity].
Qed.

Theorem write_to_file_read tr pims blocks ds ss xys z p0 :
  hd_error pims = Some p0 -> Forall2 from_pil pims blocks ->
  length ds = length pims -> length ss = length pims -> length xys = length pims ->
  Forall good_duration ds -> Forall fits2 xys -> fits z ->
  exists bs g gl, write_to_file tr pims ds (Some z) xys ss = (bs, Ok (length pims)) /\ Forall is_byte bs /\
    read_gif bs = Some g /\ g_width g = p_w p0 /\ g_height g = p_h p0 /\ g_loops g = loops_for z /\
    g_table g = Some gl /\ most_used gl (map p_palette pims) /\ length (g_frames g) = length pims /\
    forall i p b d s xy, nth_error pims i = Some p -> nth_error blocks i = Some b ->
      nth_error ds i = Some d -> nth_error ss i = Some s -> nth_error xys i = Some xy ->
      exists f, nth_error (g_frames g) i = Some f /\ frame_for gl tr p b d s xy f.
Proof.
  intros H0 F Ld Ls Lx Fd Fx Fz.
  destruct (global_palette_exact (map p_palette pims)) as (gl & Eg & Mg); [now destruct pims|].
  assert (Lg : Z.of_nat (length gl) = 768%Z /\ Forall is_byte gl).
  { destruct Mg as (b & a & E & _). assert (I : In gl (map p_palette pims)) by (rewrite E; apply in_elt).
    apply in_map_iff in I. destruct I as (p & <- & I). clear -F I.
    induction F as [|x y l m H _ IH]; [contradiction|]. destruct I as [->|I]; [|now apply IH].
    split; apply H. }
  destruct Lg as [Lg Bg].
  destruct (write_frames_read tr gl ds ss xys (length pims) (fun i d _ => nth_error_Forall _ ds i d Fd) Fx pims blocks F 0) as (bs & fs & E & Bb & Lb & Lf & N & R); [cbn; lia..|].
  destruct (app_ext_ok z Fz) as (a & Ea & Ba & Sa).
  destruct pims as [|p pims]; [discriminate H0|]. injection H0 as ->.
  inversion F as [|? b0 ? ? Hp _]; subst. destruct Hp as (Fw & Fh & _).
  destruct (int_to_bin_ok _ Fw) as (w0 & w1 & Ew & W0 & W1 & Vw).
  destruct (int_to_bin_ok _ Fh) as (h0 & h1 & Eh & H0 & H1 & Vh).
  assert (TB : Forall is_byte (text_bytes "GIF89a")) by
    (vm_compute; repeat (apply Forall_cons; [now split|]); constructor).
  exists (((text_bytes "GIF89a" ++ [w0; w1] ++ [h0; h1] ++ [135; 0; 0]%Z) ++ gl ++ a) ++ bs ++ [59]%Z).
  exists {| g_width := p_w p0; g_height := p_h p0; g_table := Some gl; g_loops := loops_for z; g_frames := fs |}, gl.
  split.
  { unfold write_to_file. rewrite Eg. unfold header_anim. rewrite Ew, Eh. cbn [bind]. rewrite Ea. cbn [bind].
    rewrite E. reflexivity. }
  split.
  { repeat (apply Forall_app; split); try assumption;
      repeat (apply Forall_cons; [assumption || (unfold is_byte; lia)|]); constructor. }
  split; [|repeat split; assumption || exact Lf].
  unfold read_gif. rewrite <- !app_assoc.
  rewrite (take_app 6 (text_bytes "GIF89a")) by reflexivity. cbn [app].
  replace (list_eqb Z.eqb (text_bytes "GIF89a") signature) with true by reflexivity.
  rewrite (read_table_own gl (a ++ bs ++ [59%Z]) Lg).
  assert (RB : forall fuel, (2 * length (p0 :: pims) + 1 <= fuel)%nat ->
                 read_blocks fuel no_control (bs ++ [59%Z]) = Some (None, fs)).
  { intros fuel Hf. replace fuel with (2 * length (p0 :: pims) + S (fuel - 2 * length (p0 :: pims) - 1))%nat by lia.
    rewrite R. cbn [read_blocks]. now rewrite app_nil_r. }
  rewrite <- Vw, <- Vh. destruct Sa as [[-> ->]|(n & l0 & l1 & -> & -> & ->)].
  - cbn [app]. rewrite RB; [reflexivity|]. rewrite app_length. cbn [length] in *. lia.
  - rewrite app_length.
    replace (length ([33; 255; 11] ++ netscape ++ [3; 1; l0; l1; 0])%Z + length (bs ++ [59%Z]))%nat
      with (S (18 + length (bs ++ [59%Z])))%nat by reflexivity.
    rewrite read_loops, RB; [reflexivity|]. rewrite app_length. cbn [length] in *. lia.
Qed.
