(** The text of the derivative of a product that begins with the coverage. *)
From Coq Require Import String Ascii List ZArith NArith Bool Arith Lia.
Import ListNotations.
From Verif Require Import PyBase PyBaseFacts Regex RegexFacts Rxn_Model Rxn_Proofs MF_Model SS_Model SS_Text SS_Term.
Local Open Scope list_scope.
Local Open Scope nat_scope.

Lemma flat_tail f fs : Forall fac_ok (f :: fs) ->
  tail_ok (flat (f :: fs)) /\ exists x q, flat (f :: fs) = "*"%char :: x :: q.
Proof.
  intro F. assert (N : forall l, Forall fac_ok l -> forallb not_newline (flat l) = true).
  { induction 1 as [|g l (T & C & Pw) G IH]; [reflexivity|]. rewrite flat_cons, forallb_app, IH, andb_true_r.
    unfold ftext. rewrite !forallb_app. repeat (apply andb_true_intro; split); try reflexivity.
    - destruct T as [-> | [-> | ->]]; reflexivity.
    - eapply forallb_impl; [|exact C]. intro c. all_ascii c.
    - eapply forallb_impl; [|exact Pw]. intro c. all_ascii c. }
  assert (X : exists x q, flat (f :: fs) = "*"%char :: x :: q /\ x <> "*"%char).
  { inversion F as [|? ? (T & _)]; subst. rewrite flat_cons. unfold ftext.
    destruct T as [-> | [-> | ->]]; cbn [L list_ascii_of_string app]; do 2 eexists; (split; [reflexivity|discriminate]). }
  destruct X as (x & q & E & Nx). split; [split; [now apply N|right; exists x, q; auto]|eauto].
Qed.

Lemma term_derivation_leading name pow n f fs :
  forallb is_species_char name = true -> small_pow pow n -> name_pattern name = Ok (rlit name) ->
  Forall fac_ok (f :: fs) -> (forall g, In g (f :: fs) -> c_tab g = L "theta" -> c_name g <> name) ->
  term_derivation name (theta_text name ++ pow ++ flat (f :: fs))
  = Ok (if Z.eqb n 1 then tl (flat (f :: fs))
        else str_of_Z n ++ flat (f :: fs) ++ L "*" ++ theta_text name ++ L "**" ++ str_of_Z (n - 1)).
Proof.
  intros Nm Pw Np F Last. destruct (flat_tail f fs F) as (TO & x & q & Eq).
  unfold term_derivation. rewrite Np. cbn [bind].
  set (T := theta_text name ++ pow ++ flat (f :: fs)).
  assert (E : search (term_pattern (rlit name)) T =
    Some {| m_before := []; m_caps := rest_caps 6 (flat (f :: fs)) (pow_caps 4 pow [(3, theta_text name); (1, [])]); m_rest := [] |}).
  { assert (H : heads (rmatch (term_pattern (rlit name)) [] T)
        (rest_caps 6 (flat (f :: fs)) (pow_caps 4 pow [(3, theta_text name); (1, [])]), [])).
    { change (rmatch (term_pattern (rlit name)) [] T)
          with (flat_map (fun m => rmatch (core 3 name) (fst m) (snd m))
                 (map (fun m => ((1, consumed T (snd m)) :: fst m, snd m))
                   (rmatch (RSeq (RGroup 2 (RStar not_newline)) star) [] T ++ [([], T)]))).
      rewrite map_app, flat_map_app.
      rewrite (flat_map_nil _ (map _ (rmatch (RSeq (RGroup 2 (RStar not_newline)) star) [] T))).
      - cbn [app map flat_map fst snd]. rewrite app_nil_r. rewrite consumed_self.
        exact (core_first 3 name [(1, [])] pow n _ Pw TO).
      - intros y Hx. apply in_map_iff in Hx as ([c t] & <- & Hx). cbn [fst snd].
        apply core_none. intros r ->. apply rmatch_den in Hx.
        apply den_seq_inv in Hx as (t & D1 & D2). apply den_group_inv in D1. apply den_suffix in D1 as [a Ea].
        apply den_chr_inv in D2 as (z & -> & Ex). apply Ascii.eqb_eq in Ex. subst z.
        assert (E2 : [] ++ flat (this name pow :: f :: fs) = (L "*" ++ a ++ L "*") ++ theta_text name ++ r).
        { rewrite <- !app_assoc. change (L "*" ++ theta_text name ++ r) with ("*"%char :: theta_text name ++ r).
          rewrite <- Ea. unfold T. rewrite flat_cons. unfold ftext, theta_text. cbn [c_tab c_name c_pow this].
          cbn [L list_ascii_of_string app]. rewrite <- ?app_assoc. reflexivity. }
        apply occurs_theta in E2; auto using species_no_quote; [| |reflexivity].
        + destruct E2 as (g1 & g & g2 & E3 & Tg & Ng & Ea2 & _). destruct g1 as [|y g1].
          * cbn [flat map concat app L list_ascii_of_string] in Ea2. injection Ea2 as Ea2.
            destruct a; discriminate.
          * injection E3 as _ E3. apply (Last g); [rewrite E3; apply in_or_app; right; now left|exact Tg|exact Ng].
        + constructor; [|exact F]. repeat split; auto. exact (small_pow_chars pow n Pw). }
    destruct H as [l E]. exact (search_first _ _ _ _ l E). }
  rewrite E. unfold term_coefficient, term_power, truthy, group_text, group. cbn [m_caps]. rewrite Eq.
  cbn [rest_caps tl]. assert (Nx : str_eqb (x :: q) (L "1") = false).
  { destruct (flat_tail f fs F) as (_ & x' & q' & Eq'). rewrite Eq in Eq'. injection Eq' as <- <-.
    inversion F as [|? ? (T1 & _)]; subst. rewrite flat_cons in Eq. unfold ftext in Eq.
    destruct T1 as [T1 | [T1 | T1]]; rewrite T1 in Eq; cbn [L list_ascii_of_string app] in Eq; injection Eq as <- _; reflexivity. }
  destruct Pw as [[-> ->]|(d & D & -> & ->)]; cbn [pow_caps L list_ascii_of_string app cap Nat.eqb andb];
    [reflexivity|].
  destruct (Z.eqb (int_of [d]) 1); [reflexivity|]. fold (L "1"). 
  change (str_eqb (x :: q) ["1"%char]) with (str_eqb (x :: q) (L "1")). rewrite Nx.
  rewrite <- ?app_assoc. cbn [app]. reflexivity.
Qed.
