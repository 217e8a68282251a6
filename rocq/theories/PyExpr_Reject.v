(** Lemmas: how the reader of rate expressions rejects (C85). *)
From Coq Require Import String Ascii List ZArith Bool Arith Lia.
Import ListNotations.
From Verif Require Import PyBase PyExpr_Model PyExpr_Spec PyExpr_Sound.
Local Open Scope list_scope.
Local Open Scope nat_scope.

Definition bad (ts : list tok) (e : exn) : Prop := e = SyntaxError \/ e = Unsupported /\ In TPow ts.
Definition fine (strict : bool) (ts : list tok) (r : res (expr * list tok)) : Prop :=
  match r with
  | Err e => bad ts e
  | Ok (_, t) => (if strict then length t < length ts else length t <= length ts) /\ incl t ts
  end.

Lemma bad_incl t ts e : incl t ts -> bad t e -> bad ts e.
Proof. intros I [H|[H1 H2]]; [now left|right; auto]. Qed.

Lemma fine_bind b c ts r (k : expr -> list tok -> res (expr * list tok)) t0 :
  fine b t0 r -> incl t0 ts -> (forall e t, r = Ok (e, t) -> (if b then length t < length t0 else length t <= length t0) -> incl t t0 -> fine c ts (k e t)) ->
  fine c ts (do (e, t) <- r; k e t).
Proof.
  intros F I H. destruct r as [[e t]|x]; cbn [bind].
  - destruct F as [F1 F2]. now apply H.
  - cbn in F |- *. now apply (bad_incl t0).
Qed.

Lemma fine_weak b ts t0 r : fine b t0 r -> incl t0 ts -> length t0 < length ts -> fine true ts r.
Proof.
  intros F I Le. destruct r as [[e t]|x]; cbn in *.
  - destruct F as [F1 F2]. split; [destruct b; lia|intros x Hx; auto].
  - now apply (bad_incl t0).
Qed.
Lemma fine_weak' b ts t0 r : fine b t0 r -> incl t0 ts -> length t0 <= length ts -> fine false ts r.
Proof.
  intros F I Le. destruct r as [[e t]|x]; cbn in *.
  - destruct F as [F1 F2]. split; [destruct b; lia|intros x Hx; auto].
  - now apply (bad_incl t0).
Qed.

Lemma tl_incl {A} (x : A) l : incl l (x :: l).
Proof. intros y H. now right. Qed.

Lemma parse_fine : forall f,
  (forall ts, 8 * length ts + 4 <= f -> fine true ts (p_sum f ts)) /\
  (forall e ts, 8 * length ts + 1 <= f -> fine false ts (p_sum_rest f e ts)) /\
  (forall ts, 8 * length ts + 3 <= f -> fine true ts (p_prod f ts)) /\
  (forall e ts, 8 * length ts + 1 <= f -> fine false ts (p_prod_rest f e ts)) /\
  (forall ts, 8 * length ts + 2 <= f -> fine true ts (p_unary f ts)) /\
  (forall ts, 8 * length ts + 1 <= f -> fine true ts (p_atom f ts)).
Proof.
  induction f as [|f (I1 & I2 & I3 & I4 & I5 & I6)]; [repeat split; intros; lia|].
  split; [|split; [|split; [|split; [|split]]]].
  - intros ts B. cbn [p_sum]. apply (fine_bind true true ts _ _ ts (I3 ts ltac:(lia))); [apply incl_refl|].
    intros e t _ Lt It; cbv iota in Lt. apply (fine_weak false ts t); auto. apply I2. lia.
  - intros e ts B. cbn [p_sum_rest]. destruct ts as [|[]]; try (split; [lia|apply incl_refl]).
    all: cbn [length] in B; (eapply fine_bind; [apply I3; lia|apply tl_incl|]);
      intros e' t' _ Lt It; cbv iota in Lt; apply (fine_weak' false _ t');
      [apply I2; lia|intros x Hx; right; auto|cbn [length]; lia].
  - intros ts B. cbn [p_prod]. apply (fine_bind true true ts _ _ ts (I5 ts ltac:(lia))); [apply incl_refl|].
    intros e t _ Lt It; cbv iota in Lt. apply (fine_weak false ts t); auto. apply I4. lia.
  - intros e ts B. cbn [p_prod_rest]. destruct ts as [|[]]; try (split; [lia|apply incl_refl]).
    cbn [length] in B; (eapply fine_bind; [apply I5; lia|apply tl_incl|]);
      intros e' t' _ Lt It; cbv iota in Lt; apply (fine_weak' false _ t');
      [apply I4; lia|intros x Hx; right; auto|cbn [length]; lia].
  - intros ts B.
    assert (D : fine true ts (do (e, r) <- p_atom f ts;
          match r with
          | TPow :: TNum n :: r' => if forallb is_digit n then Ok (EPow e n, r') else Err Unsupported
          | TPow :: _ => Err Unsupported
          | _ => Ok (e, r)
          end)).
    { apply (fine_bind true true ts _ _ ts (I6 ts ltac:(lia))); [apply incl_refl|].
      intros e t _ Lt It; cbv iota in Lt. destruct t as [|[] t]; try (split; [exact Lt|exact It]).
      assert (P : In TPow ts) by (apply It; now left).
      destruct t as [|[] t]; try (now right).
      destruct (forallb is_digit s); [|now right]. split; [cbn [length] in Lt; lia|].
      intros x Hx. apply It. right. now right. }
    cbn [p_unary]. destruct ts as [|[]]; try exact D.
    cbn [length] in B. eapply fine_bind; [apply I5; lia|apply tl_incl|].
    intros e t _ Lt It; cbv iota in Lt. split; [cbn [length]; lia|intros x Hx; right; auto].
  - intros ts B. cbn [p_atom]. destruct ts as [|[]]; try (now left); try (split; [cbn; lia|apply tl_incl]).
    cbn [length] in B. eapply fine_bind; [apply I1; lia|apply tl_incl|].
    intros e t _ Lt It; cbv iota in Lt. destruct t as [|[] t]; try (now left).
    split; [cbn [length] in *; lia|]. intros x Hx. right. apply It. now right.
Qed.

Lemma parse_rejects ts : (forall e, ~ g_sum ts e) ->
  parse_expr ts = Err SyntaxError \/ parse_expr ts = Err Unsupported /\ In TPow ts.
Proof.
  intro N. unfold parse_expr. destruct (parse_fine (parse_fuel ts)) as [F _].
  specialize (F ts ltac:(unfold parse_fuel; lia)).
  pose proof (fun e => proj1 (parse_expr_iff ts e)) as G. unfold parse_expr in G.
  destruct (p_sum (parse_fuel ts) ts) as [[e t]|x]; cbn [bind] in *.
  - destruct t; [exfalso; apply (N e); now apply G|now left].
  - destruct F as [->|[-> P]]; auto.
Qed.

Lemma text_rejects v s : (forall ts, ~ reads ts s) -> eval_text v s = Err Unsupported \/ eval_text v s = Err SyntaxError.
Proof.
  intro N. unfold eval_text. unfold lex. destruct (lrun LStart s) as [[ts st]|] eqn:E; [|now left].
  destruct (lflush st) as [ts'|] eqn:E'; [|now right]. exfalso. apply (N (ts ++ ts')). apply lex_iff.
  unfold lex. now rewrite E, E'.
Qed.

Lemma expr_rejects v s ts : reads ts s -> (forall e, ~ g_sum ts e) ->
  eval_text v s = Err SyntaxError \/ eval_text v s = Err Unsupported /\ In TPow ts.
Proof.
  intros Re N. apply lex_iff in Re. unfold eval_text. rewrite Re. cbn [bind].
  destruct (parse_rejects ts N) as [->|[-> P]]; cbn [bind]; auto.
Qed.
