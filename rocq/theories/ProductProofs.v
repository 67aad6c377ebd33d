(** Products of complete normed modules over the reals are complete, and how to differentiate a
    curve in one component by component; used with [picard_exists] for systems of equations. *)
From Coq Require Import Reals Lra.
From Coquelicot Require Import Coquelicot.
Open Scope R_scope.

Section Product.
Context {U V : CompleteNormedModule R_AbsRing}.

Definition lim_prod (F : (U * V -> Prop) -> Prop) : U * V :=
  (lim (fun P : U -> Prop => F (fun p => P (fst p))), lim (fun P : V -> Prop => F (fun p => P (snd p)))).

Lemma complete_prod (F : (U * V -> Prop) -> Prop) :
  ProperFilter F -> cauchy F -> forall eps : posreal, F (ball (lim_prod F) eps).
Proof.
  intros PF C eps.
  assert (P1 : ProperFilter (fun P : U -> Prop => F (fun p => P (fst p)))).
  { exact (filtermap_proper_filter _ _ (fun p : U * V => fst p) F PF). }
  assert (P2 : ProperFilter (fun P : V -> Prop => F (fun p => P (snd p)))).
  { exact (filtermap_proper_filter _ _ (fun p : U * V => snd p) F PF). }
  assert (C1 : cauchy (fun P : U -> Prop => F (fun p => P (fst p)))).
  { intros e. destruct (C e) as [x Hx]. exists (fst x). apply filter_imp with (2 := Hx).
    intros p [A _]. exact A. }
  assert (C2 : cauchy (fun P : V -> Prop => F (fun p => P (snd p)))).
  { intros e. destruct (C e) as [x Hx]. exists (snd x). apply filter_imp with (2 := Hx).
    intros p [_ A]. exact A. }
  pose proof (complete_cauchy _ P1 C1 eps) as L1. pose proof (complete_cauchy _ P2 C2 eps) as L2.
  cbv beta in L1, L2. apply filter_imp with (2 := filter_and _ _ L1 L2).
  intros p [A B]. split; assumption.
Qed.

Lemma close_lim_prod (F1 F2 : (U * V -> Prop) -> Prop) :
  filter_le F1 F2 -> filter_le F2 F1 -> close (lim_prod F1) (lim_prod F2).
Proof.
  intros A B eps. split.
  - apply (close_lim (T := U)); intros P; [apply A|apply B].
  - apply (close_lim (T := V)); intros P; [apply A|apply B].
Qed.

Definition prod_complete_mixin := CompleteSpace.Mixin _ lim_prod complete_prod close_lim_prod.

Definition prod_complete : CompleteNormedModule R_AbsRing :=
  CompleteNormedModule.Pack _ (U * V)
    (CompleteNormedModule.Class R_AbsRing _
       (NormedModule.class _ (prod_NormedModule R_AbsRing U V)) prod_complete_mixin) (U * V).

Lemma derive_fst (y : R -> U * V) (t : R) (l : U * V) :
  @is_derive R_AbsRing (prod_NormedModule R_AbsRing U V) y t l ->
  is_derive (fun s => fst (y s)) t (fst l).
Proof.
  intros D. unfold is_derive in *.
  pose proof (filterdiff_comp' y (fun p : U * V => fst p) t _ _ D
    (filterdiff_linear _ is_linear_fst)) as E.
  eapply filterdiff_ext_lin; [exact E|]. intros s. reflexivity.
Qed.

Lemma derive_snd (y : R -> U * V) (t : R) (l : U * V) :
  @is_derive R_AbsRing (prod_NormedModule R_AbsRing U V) y t l ->
  is_derive (fun s => snd (y s)) t (snd l).
Proof.
  intros D. unfold is_derive in *.
  pose proof (filterdiff_comp' y (fun p : U * V => snd p) t _ _ D
    (filterdiff_linear _ is_linear_snd)) as E.
  eapply filterdiff_ext_lin; [exact E|]. intros s. reflexivity.
Qed.
End Product.

Lemma continuous_both {T A B : UniformSpace} (g : T -> A) (h : T -> B) (x : T) :
  continuous g x -> continuous h x -> continuous (fun q => (g q, h q)) x.
Proof.
  intros G H. apply filterlim_locally. intros eps.
  pose proof (proj1 (filterlim_locally g (g x)) G eps) as G'.
  pose proof (proj1 (filterlim_locally h (h x)) H eps) as H'.
  apply filter_imp with (2 := filter_and _ _ G' H'). intros q [P Q]. split; assumption.
Qed.

(** ** Three real components *)
Definition R3 : CompleteNormedModule R_AbsRing :=
  @prod_complete R_CompleteNormedModule (@prod_complete R_CompleteNormedModule R_CompleteNormedModule).

Lemma norm3 (a b c : R) : @norm R_AbsRing R3 (a, (b, c)) = sqrt (a ^ 2 + b ^ 2 + c ^ 2).
Proof.
  change (@norm R_AbsRing R3 (a, (b, c)))
    with (sqrt (Rabs a ^ 2 + sqrt (Rabs b ^ 2 + Rabs c ^ 2) ^ 2)).
  rewrite pow2_sqrt.
  - f_equal. rewrite <- !Rsqr_pow2, <- !Rsqr_abs. unfold Rsqr. ring.
  - pose proof (pow2_ge_0 (Rabs b)). pose proof (pow2_ge_0 (Rabs c)). lra.
Qed.

Lemma minus3 (a b c x y z : R) :
  @minus R3 (a, (b, c)) (x, (y, z)) = (a - x, (b - y, c - z)).
Proof. reflexivity. Qed.

Lemma derive3 (y : R -> R * (R * R)) (t a b c : R) :
  @is_derive R_AbsRing R3 y t (a, (b, c)) ->
  is_derive (fun s => fst (y s)) t a /\ is_derive (fun s => fst (snd (y s))) t b /\
  is_derive (fun s => snd (snd (y s))) t c.
Proof.
  intros D.
  split; [exact (@derive_fst R_CompleteNormedModule
                   (@prod_complete R_CompleteNormedModule R_CompleteNormedModule) y t _ D)|].
  pose proof (@derive_snd R_CompleteNormedModule
                (@prod_complete R_CompleteNormedModule R_CompleteNormedModule) y t _ D) as S.
  cbn [snd] in S. split.
  - exact (@derive_fst R_CompleteNormedModule R_CompleteNormedModule (fun s => snd (y s)) t (b, c) S).
  - exact (@derive_snd R_CompleteNormedModule R_CompleteNormedModule (fun s => snd (y s)) t (b, c) S).
Qed.
