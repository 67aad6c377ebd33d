(** Specification: derivative of a function on Python floats at a finite point. *)
From Coq Require Import Reals Lra.
From Coquelicot Require Import Coquelicot.
From Verif Require Import PyBase.
Open Scope R_scope.

(** [g] returns finite numbers near [x] and, as a real function, has derivative [d] there. *)
Definition xderiv (g : xr -> xr) (x d : R) : Prop :=
  exists gR : R -> R, locally x (fun y => g (Fin y) = Fin (gR y)) /\ is_derive gR x d.

(** [g] is continuous at the finite point [x] (with finite values near [x]). *)
Definition xcontinuous (g : xr -> xr) (x : R) : Prop :=
  exists gR : R -> R, locally x (fun y => g (Fin y) = Fin (gR y)) /\ continuous gR x.

(** The derivative is unique, so [xderiv] determines it. *)
Lemma xderiv_unique g x d1 d2 : xderiv g x d1 -> xderiv g x d2 -> d1 = d2.
Proof.
  intros [g1 [L1 D1]] [g2 [L2 D2]].
  assert (D3 : is_derive g1 x d2).
  { apply (is_derive_ext_loc g2); [|exact D2].
    generalize (filter_and _ _ L1 L2). apply filter_imp. intros y [E1 E2].
    rewrite E1 in E2. injection E2 as E2. symmetry; exact E2. }
  rewrite <- (is_derive_unique _ _ _ D1). apply is_derive_unique. exact D3.
Qed.

Lemma locally_gt a x : a < x -> locally x (fun y => a < y).
Proof. intros H. apply (open_gt a). exact H. Qed.
Lemma locally_lt a x : x < a -> locally x (fun y => y < a).
Proof. intros H. apply (open_lt a). exact H. Qed.
Lemma locally_between a b x : a < x < b -> locally x (fun y => a < y < b).
Proof.
  intros [H1 H2]. apply filter_and; [apply locally_gt|apply locally_lt]; assumption.
Qed.
