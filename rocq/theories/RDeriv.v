(** Derivative rules in function form. *)
From Coq Require Import Reals Lra Lia.
Local Open Scope R_scope.

Notation deriv := derivable_pt_lim (only parsing).

Lemma d_id x : deriv (fun u => u) x 1.
Proof. apply derivable_pt_lim_id. Qed.
Lemma d_const c x : deriv (fun _ => c) x 0.
Proof. apply (derivable_pt_lim_const c). Qed.
Lemma d_plus f g x a b : deriv f x a -> deriv g x b -> deriv (fun u => f u + g u) x (a + b).
Proof. apply derivable_pt_lim_plus. Qed.
Lemma d_minus f g x a b : deriv f x a -> deriv g x b -> deriv (fun u => f u - g u) x (a - b).
Proof. apply derivable_pt_lim_minus. Qed.
Lemma d_opp f x a : deriv f x a -> deriv (fun u => - f u) x (- a).
Proof. apply derivable_pt_lim_opp. Qed.
Lemma d_mult f g x a b : deriv f x a -> deriv g x b ->
  deriv (fun u => f u * g u) x (a * g x + f x * b).
Proof. apply derivable_pt_lim_mult. Qed.
Lemma d_scal c f x a : deriv f x a -> deriv (fun u => c * f u) x (c * a).
Proof. apply derivable_pt_lim_scal. Qed.
Lemma d_comp f g x a b : deriv f x a -> deriv g (f x) b -> deriv (fun u => g (f u)) x (b * a).
Proof. apply (derivable_pt_lim_comp f g). Qed.
Lemma d_pow n x : deriv (fun u => u ^ n) x (INR n * x ^ pred n).
Proof. apply derivable_pt_lim_pow. Qed.
Lemma d_pow_comp f n x a : deriv f x a -> deriv (fun u => f u ^ n) x (INR n * f x ^ pred n * a).
Proof. intro H. apply (d_comp f (fun u => u ^ n) x a _ H). apply d_pow. Qed.
Lemma d_inv x : x <> 0 -> deriv (fun u => / u) x (- / (x * x)).
Proof.
  intro H. apply (derivable_pt_lim_ext (fct_cte 1 / id)%F).
  - intro z. unfold div_fct, fct_cte, id, Rdiv. ring.
  - replace (- / (x * x)) with ((0 * id x - 1 * fct_cte 1 x) / (id x)²)
      by (unfold id, fct_cte, Rsqr; field; auto).
    apply derivable_pt_lim_div; auto; [apply derivable_pt_lim_const|apply derivable_pt_lim_id].
Qed.
Lemma d_ln x : 0 < x -> deriv ln x (/ x).
Proof. apply derivable_pt_lim_ln. Qed.
Lemma d_ext f g x a : (forall u, f u = g u) -> deriv f x a -> deriv g x a.
Proof. apply derivable_pt_lim_ext. Qed.
Lemma d_eq f x a b : a = b -> deriv f x a -> deriv f x b.
Proof. now intros ->. Qed.
Lemma d_sum_const f c x a : deriv f x a -> deriv (fun u => f u + c) x a.
Proof. intro H. apply (d_eq _ _ (a + 0)); [ring|]. apply d_plus; auto. apply d_const. Qed.
