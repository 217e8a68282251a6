(** Expressions with symbols that have no value (C30). *)
From Coq Require Import String Ascii List ZArith Bool Reals.
Import ListNotations.
From Verif Require Import PyBase PyReal Sym_Model.
Local Open Scope list_scope.
Local Open Scope R_scope.

(** The symbols of an expression. *)
Inductive mentions (n : str) : sexpr -> Prop :=
| me_sym : mentions n (SSym n)
| me_add_l a b : mentions n a -> mentions n (SAdd a b)
| me_add_r a b : mentions n b -> mentions n (SAdd a b)
| me_sub_l a b : mentions n a -> mentions n (SSub a b)
| me_sub_r a b : mentions n b -> mentions n (SSub a b)
| me_mul_l a b : mentions n a -> mentions n (SMul a b)
| me_mul_r a b : mentions n b -> mentions n (SMul a b)
| me_neg a : mentions n a -> mentions n (SNeg a)
| me_pow a k : mentions n a -> mentions n (SPow a k)
| me_exp a : mentions n a -> mentions n (SExp a).
Fixpoint no_quotient (e : sexpr) : Prop :=
  match e with
  | SNum _ | SSym _ => True
  | SAdd a b | SSub a b | SMul a b => no_quotient a /\ no_quotient b
  | SDiv _ _ => False
  | SNeg a | SPow a _ | SExp a => no_quotient a
  end.

Lemma value_or_missing d e : no_quotient e ->
  ((exists x, sev d e = Ok x) /\ forall n, mentions n e -> dget d n <> None) \/
  (sev d e = Err TypeError /\ exists n, mentions n e /\ dget d n = None).
Proof.
  assert (Two : forall a b f,
    (((exists x, sev d a = Ok x) /\ forall n, mentions n a -> dget d n <> None) \/
     (sev d a = Err TypeError /\ exists n, mentions n a /\ dget d n = None)) ->
    (((exists x, sev d b = Ok x) /\ forall n, mentions n b -> dget d n <> None) \/
     (sev d b = Err TypeError /\ exists n, mentions n b /\ dget d n = None)) ->
    ((exists x, (do x <- sev d a; do y <- sev d b; Ok (f x y : R)) = Ok x) /\
       (forall n, mentions n a \/ mentions n b -> dget d n <> None)) \/
    ((do x <- sev d a; do y <- sev d b; Ok (f x y : R)) = Err TypeError /\
       exists n, (mentions n a \/ mentions n b) /\ dget d n = None)).
  { intros a b f [[[x ->] A]|[-> (n & A & E)]].
    - intros [[[y ->] B]|[-> (n & B & E)]].
      + left. split; [eexists; reflexivity|]. intros n [H|H]; auto.
      + right. split; [reflexivity|]. exists n. auto.
    - intros _. right. split; [reflexivity|]. exists n. auto. }
  assert (One : forall a f,
    (((exists x, sev d a = Ok x) /\ forall n, mentions n a -> dget d n <> None) \/
     (sev d a = Err TypeError /\ exists n, mentions n a /\ dget d n = None)) ->
    ((exists x, (do x <- sev d a; Ok (f x : R)) = Ok x) /\ (forall n, mentions n a -> dget d n <> None)) \/
    ((do x <- sev d a; Ok (f x : R)) = Err TypeError /\ exists n, mentions n a /\ dget d n = None)).
  { intros a f [[[x ->] A]|[-> (n & A & E)]].
    - left. split; [eexists; reflexivity|exact A].
    - right. split; [reflexivity|]. exists n. auto. }
  induction e as [x|n|a IHa b IHb|a IHa b IHb|a IHa b IHb|a IHa b IHb|a IHa|a IHa k|a IHa]; cbn [no_quotient sev]; intro Q.
  - left. split; [eauto|]. inversion 1.
  - destruct (dget d n) as [x|] eqn:E.
    + left. split; [eauto|]. intros m H. inversion H; subst. congruence.
    + right. split; [reflexivity|]. exists n. split; [constructor|exact E].
  - destruct Q as [Qa Qb]. destruct (Two a b Rplus (IHa Qa) (IHb Qb)) as [[H A]|[H (n & [A|A] & E)]].
    + left. split; [exact H|]. intros m M. apply A. inversion M; subst; auto.
    + right. split; [exact H|]. exists n. split; [now constructor|exact E].
    + right. split; [exact H|]. exists n. split; [now apply me_add_r|exact E].
  - destruct Q as [Qa Qb]. destruct (Two a b Rminus (IHa Qa) (IHb Qb)) as [[H A]|[H (n & [A|A] & E)]].
    + left. split; [exact H|]. intros m M. apply A. inversion M; subst; auto.
    + right. split; [exact H|]. exists n. split; [now constructor|exact E].
    + right. split; [exact H|]. exists n. split; [now apply me_sub_r|exact E].
  - destruct Q as [Qa Qb]. destruct (Two a b Rmult (IHa Qa) (IHb Qb)) as [[H A]|[H (n & [A|A] & E)]].
    + left. split; [exact H|]. intros m M. apply A. inversion M; subst; auto.
    + right. split; [exact H|]. exists n. split; [now constructor|exact E].
    + right. split; [exact H|]. exists n. split; [now apply me_mul_r|exact E].
  - destruct Q.
  - destruct (One a Ropp (IHa Q)) as [[H A]|[H (n & A & E)]].
    + left. split; [exact H|]. intros m M. apply A. now inversion M; subst.
    + right. split; [exact H|]. exists n. split; [now constructor|exact E].
  - destruct (One a (fun x => x ^ k) (IHa Q)) as [[H A]|[H (n & A & E)]].
    + left. split; [exact H|]. intros m M. apply A. now inversion M; subst.
    + right. split; [exact H|]. exists n. split; [now constructor|exact E].
  - destruct (One a exp (IHa Q)) as [[H A]|[H (n & A & E)]].
    + left. split; [exact H|]. intros m M. apply A. now inversion M; subst.
    + right. split; [exact H|]. exists n. split; [now constructor|exact E].
Qed.
Lemma missing_symbol d e : no_quotient e ->
  ((exists x, sev d e = Ok x) <-> forall n, mentions n e -> dget d n <> None) /\
  (sev d e = Err TypeError <-> exists n, mentions n e /\ dget d n = None).
Proof.
  intro Q. destruct (value_or_missing d e Q) as [[[x H] A]|[H (n & A & E)]].
  - split; split; eauto.
    + rewrite H. discriminate.
    + intros (n & M & E). exfalso. exact (A n M E).
  - split; split; eauto.
    + intros [x Hx]. congruence.
    + intro B. exfalso. exact (B n A E).
Qed.
