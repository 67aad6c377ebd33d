(** Positivity of a polynomial with rational coefficients on an interval: a polynomial p of degree n is
    positive on [a, b] when p(b) > 0 and the coefficients of (1 + t)^n p((a + b t) / (1 + t)) are nonnegative, the first positive;
    [pos_on] halves the interval when that fails. *)
From Coq Require Import Reals List Lra Lia QArith Qreals.
From Verif Require Import SplineProofs.
Import ListNotations.
Open Scope R_scope.

Fixpoint peval (p : list Q) (x : R) : R :=
  match p with [] => 0 | c :: r => Q2R c + x * peval r x end.

Fixpoint padd (p q : list Q) : list Q :=
  match p, q with
  | [], _ => q
  | _, [] => p
  | a :: p', b :: q' => Qred (a + b) :: padd p' q'
  end.
Definition pscale (k : Q) (p : list Q) : list Q := map (fun c => Qred (k * c)) p.
Fixpoint pmul (p q : list Q) : list Q :=
  match p with [] => [] | a :: p' => padd (pscale a q) (0%Q :: pmul p' q) end.

Lemma peval_add p : forall q x, peval (padd p q) x = peval p x + peval q x.
Proof.
  induction p as [|a p IH]; intros [|b q] x; cbn [padd peval]; try ring.
  rewrite IH, Q2R_red, Q2R_plus. ring.
Qed.
Lemma peval_scale k p x : peval (pscale k p) x = Q2R k * peval p x.
Proof.
  induction p as [|a p IH]; [cbn; ring|]. unfold pscale in *. cbn [map peval]. rewrite IH, Q2R_red, Q2R_mult. ring.
Qed.
Lemma peval_mul p q x : peval (pmul p q) x = peval p x * peval q x.
Proof.
  induction p as [|a p IH]; [cbn; ring|].
  cbn [pmul]. rewrite peval_add, peval_scale. cbn [peval]. rewrite IH, Q2R_0'. ring.
Qed.

Fixpoint ppow (p : list Q) (n : nat) : list Q :=
  match n with O => [1%Q] | S n => pmul p (ppow p n) end.
Lemma Q2R_1' : Q2R 1 = 1. Proof. unfold Q2R. cbn. lra. Qed.
Lemma peval_pow p n x : peval (ppow p n) x = peval p x ^ n.
Proof.
  induction n; cbn [ppow pow]; [cbn [peval]; rewrite Q2R_1'; ring|]. rewrite peval_mul, IHn. reflexivity.
Qed.

(** (1 + t)^(length p - 1) p((a + b t) / (1 + t)) *)
Fixpoint hom (a b : Q) (p : list Q) : list Q :=
  match p with
  | [] => []
  | c :: r => padd (pscale c (ppow [1; 1]%Q (length r))) (pmul [a; b] (hom a b r))
  end.
Lemma hom_eval a b t p : 0 <= t ->
  peval (hom a b p) t * (1 + t) = (1 + t) ^ length p * peval p ((Q2R a + Q2R b * t) / (1 + t)).
Proof.
  intros Ht. induction p as [|c r IH]; [cbn; ring|].
  cbn [hom length peval pow]. rewrite peval_add, peval_scale, peval_pow, peval_mul.
  cbn [peval]. rewrite Q2R_1'.
  replace (1 + t * (1 + t * 0)) with (1 + t) by ring.
  replace ((_ + _) * (1 + t)) with
    (Q2R c * (1 + t) ^ length r * (1 + t) + (Q2R a + t * Q2R b) * (peval (hom a b r) t * (1 + t))) by ring.
  rewrite IH. field. lra.
Qed.

Lemma nonneg_eval p t : forallb (Qle_bool 0) p = true -> 0 <= t -> 0 <= peval p t.
Proof.
  induction p as [|c p IH]; intros H Ht; cbn [peval]; [lra|].
  cbn [forallb] in H. apply andb_prop in H. destruct H as [H1 H2].
  apply Qle_bool_iff, Qle_Rle in H1. rewrite Q2R_0' in H1.
  specialize (IH H2 Ht). assert (0 <= t * peval p t) by (apply Rmult_le_pos; lra). lra.
Qed.
Definition allpos (p : list Q) : bool :=
  match p with [] => false | c :: r => Qpos c && forallb (Qle_bool 0) r end.
Lemma allpos_eval p t : allpos p = true -> 0 <= t -> 0 < peval p t.
Proof.
  destruct p as [|c p]; intros H Ht; [discriminate|]. cbn [allpos] in H. apply andb_prop in H.
  destruct H as [H1 H2]. apply Qpos_R in H1. assert (P := nonneg_eval p t H2 Ht). cbn [peval].
  assert (0 <= t * peval p t) by (apply Rmult_le_pos; lra). lra.
Qed.

Fixpoint pevalQ (p : list Q) (x : Q) : Q :=
  match p with [] => 0%Q | c :: r => Qred (c + x * pevalQ r x) end.
Lemma pevalQ_R p x : Q2R (pevalQ p x) = peval p (Q2R x).
Proof.
  induction p as [|c p IH]; cbn [pevalQ peval]; [apply Q2R_0'|]. rewrite Q2R_red, Q2R_plus, Q2R_mult, IH. reflexivity.
Qed.

Definition pos_here (p : list Q) (a b : Q) : bool := allpos (hom a b p) && Qpos (pevalQ p b).
Fixpoint pos_on (fuel : nat) (p : list Q) (a b : Q) : bool :=
  if pos_here p a b then true else
  match fuel with
  | O => false
  | S n => let m := Qred ((a + b) * (1#2)) in if pos_on n p a m then pos_on n p m b else false
  end.

Lemma pos_here_correct p a b : pos_here p a b = true -> forall x, Q2R a <= x <= Q2R b -> 0 < peval p x.
Proof.
  intros H x Hx. unfold pos_here in H. apply andb_prop in H. destruct H as [H1 H2].
  apply Qpos_R in H2. rewrite pevalQ_R in H2.
  destruct (Req_dec x (Q2R b)) as [->|N]; [exact H2|].
  set (t := (x - Q2R a) / (Q2R b - x)).
  assert (Ht : 0 <= t) by (apply Rmult_le_pos; [lra|left; apply Rinv_0_lt_compat; lra]).
  assert (Ex : (Q2R a + Q2R b * t) / (1 + t) = x).
  { unfold t. field. split; lra. }
  assert (P := allpos_eval (hom a b p) t H1 Ht).
  assert (E := hom_eval a b t p Ht). rewrite Ex in E.
  assert (0 < peval (hom a b p) t * (1 + t)) by (apply Rmult_lt_0_compat; lra).
  rewrite E in H. apply (Rmult_lt_reg_l ((1 + t) ^ length p)); [apply pow_lt; lra|]. lra.
Qed.

Lemma pos_on_correct fuel : forall p a b, pos_on fuel p a b = true ->
  forall x, Q2R a <= x <= Q2R b -> 0 < peval p x.
Proof.
  induction fuel as [|n IH]; intros p a b H x Hx; cbn [pos_on] in H.
  - destruct (pos_here p a b) eqn:E; [|discriminate]. exact (pos_here_correct p a b E x Hx).
  - destruct (pos_here p a b) eqn:E; [exact (pos_here_correct p a b E x Hx)|].
    set (m := Qred ((a + b) * (1#2))) in *. destruct (pos_on n p a m) eqn:E1; [|discriminate].
    destruct (Rle_lt_dec x (Q2R m)).
    + apply (IH p a m E1). lra.
    + apply (IH p m b H). lra.
Qed.
