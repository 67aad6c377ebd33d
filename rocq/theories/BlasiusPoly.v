(** Polynomials with integer coefficients, lowest power first, and piecewise approximations of
    the Blasius profile by such polynomials.  Used by the proofs only. *)
From Coq Require Import ZArith List Reals Lra Lia.
From Coquelicot Require Import Coquelicot.
Import ListNotations.
Open Scope R_scope.

Fixpoint zeval (l : list Z) (s : R) : R :=
  match l with [] => 0 | a :: r => IZR a + s * zeval r s end.

Fixpoint zadd (a b : list Z) : list Z :=
  match a, b with
  | [], _ => b
  | _, [] => a
  | x :: a', y :: b' => (x + y)%Z :: zadd a' b'
  end.

Definition zscale (k : Z) (l : list Z) : list Z := map (Z.mul k) l.

Fixpoint zmul (a b : list Z) : list Z :=
  match a with [] => [] | x :: a' => zadd (zscale x b) (0%Z :: zmul a' b) end.

(** [zder_from n l] are the coefficients [n * a_n, (n+1) * a_{n+1}, ...]. *)
Fixpoint zder_from (n : Z) (l : list Z) : list Z :=
  match l with [] => [] | a :: r => (n * a)%Z :: zder_from (n + 1) r end.
Definition zder (l : list Z) : list Z := zder_from 1 (tl l).

Fixpoint zabs (l : list Z) : Z :=
  match l with [] => 0%Z | a :: r => (Z.abs a + zabs r)%Z end.

Fixpoint zsum (l : list Z) : Z :=
  match l with [] => 0%Z | a :: r => (a + zsum r)%Z end.

Lemma zeval_add a b s : zeval (zadd a b) s = zeval a s + zeval b s.
Proof.
  revert b. induction a as [|x a IH]; intros [|y b]; cbn [zadd zeval]; try ring.
  rewrite IH, plus_IZR. ring.
Qed.

Lemma zeval_scale k l s : zeval (zscale k l) s = IZR k * zeval l s.
Proof.
  induction l as [|a l IH]; cbn [zscale map zeval]; [ring|].
  fold (zscale k l). rewrite IH, mult_IZR. ring.
Qed.

Lemma zeval_mul a b s : zeval (zmul a b) s = zeval a s * zeval b s.
Proof.
  induction a as [|x a IH]; cbn [zmul zeval]; [ring|].
  rewrite zeval_add, zeval_scale. cbn [zeval]. rewrite IH. ring.
Qed.

Lemma zeval_one l : zeval l 1 = IZR (zsum l).
Proof. induction l as [|a l IH]; cbn [zeval zsum]; [reflexivity|]. rewrite IH, plus_IZR. ring. Qed.

Lemma zeval_zero l : zeval l 0 = IZR (hd 0%Z l).
Proof. destruct l; cbn [zeval hd]; ring. Qed.

Lemma zder_from_eval n l s : zeval (zder_from (n + 1) l) s = zeval (zder_from n l) s + zeval l s.
Proof.
  revert n. induction l as [|a l IH]; intros n; cbn [zder_from zeval]; [ring|].
  rewrite IH, !mult_IZR, plus_IZR. ring.
Qed.

Lemma zeval_derive l s : is_derive (zeval l) s (zeval (zder l) s).
Proof.
  induction l as [|a l IH].
  - cbn [zeval]. unfold zder. cbn [tl zder_from zeval]. apply (is_derive_const 0).
  - apply (is_derive_ext (fun s => IZR a + s * zeval l s)); [reflexivity|].
    replace (zeval (zder (a :: l)) s) with (0 + (1 * zeval l s + s * zeval (zder l) s)).
    + apply (is_derive_plus (fun _ => IZR a) (fun s => s * zeval l s));
        [apply (is_derive_const (IZR a))|].
      apply (is_derive_mult (fun s => s) (zeval l) s 1 (zeval (zder l) s));
        [apply (is_derive_id (K := R_AbsRing))|exact IH|intros; apply Rmult_comm].
    + unfold zder. cbn [tl]. destruct l as [|b l]; cbn [zder_from zeval tl]; [ring|].
      change (2)%Z with (1 + 1)%Z. rewrite zder_from_eval, mult_IZR. ring.
Qed.

Lemma zeval_bound l s : 0 <= s <= 1 -> Rabs (zeval l s) <= IZR (zabs l).
Proof.
  intros Hs. induction l as [|a l IH]; cbn [zeval zabs].
  - rewrite Rabs_R0. lra.
  - rewrite plus_IZR, abs_IZR. eapply Rle_trans; [apply Rabs_triang|].
    apply Rplus_le_compat_l. rewrite Rabs_mult, (Rabs_pos_eq s) by lra.
    eapply Rle_trans; [|exact IH]. rewrite <- (Rmult_1_l (Rabs (zeval l s))) at 2.
    apply Rmult_le_compat_r; [apply Rabs_pos|lra].
Qed.

(** Value at [p/q], times [q] to the length of the list. *)
Fixpoint zhom (l : list Z) (p q : Z) : Z * Z :=
  match l with
  | [] => (0%Z, 1%Z)
  | a :: r => let '(n, d) := zhom r p q in ((a * (d * q) + p * n)%Z, (d * q)%Z)
  end.

Lemma zhom_eval l p q : (0 < q)%Z ->
  let '(n, d) := zhom l p q in (0 < d)%Z /\ zeval l (IZR p / IZR q) = IZR n / IZR d.
Proof.
  intros Hq. induction l as [|a l IH]; cbn [zhom zeval].
  - split; [lia|]. field.
  - destruct (zhom l p q) as [n d]. destruct IH as [Hd IH]. split; [lia|].
    rewrite IH, plus_IZR, !mult_IZR. apply IZR_lt in Hq, Hd. field. lra.
Qed.

(** ** Computing the pieces
    Each piece covers a quarter unit of eta; with s = 4 (eta - start) and the scale [M], the
    list [l] stands for the polynomial zeval l s / M.  The way the coefficients are found is
    of no importance: [good] and [linked] check what the proof needs. *)
Definition M : Z := (32 * 10 ^ 26)%Z.

Fixpoint extend (n : nat) (k : Z) (l : list Z) : list Z :=
  match n with
  | O => l
  | S n' =>
      let c := nth (Z.to_nat k) (zmul l (zder (zder l))) 0%Z in
      extend n' (k + 1) (l ++ [(- c / (4 * M * (k + 3) * (k + 2) * (k + 1)))%Z])
  end.

Fixpoint pieces (n : nat) (a b c : Z) : list (list Z) :=
  match n with
  | O => []
  | S n' =>
      let l := extend 20 0 [a; b; c] in
      l :: pieces n' (zsum l) (zsum (zder l)) (zsum (zder (zder l)) / 2)
  end.

Definition defect_poly (l : list Z) : list Z :=
  zadd (zscale (4 * M) (zder (zder (zder l)))) (zmul l (zder (zder l))).

(** The polynomial satisfies the equation up to 1e-19 and its second derivative is at most 1. *)
Definition good (l : list Z) : bool :=
  ((16 * zabs (defect_poly l) * 10 ^ 19 <=? M * M) && (16 * zabs (zder (zder l)) <=? M))%Z%bool.

(** One piece continues the other with its first two derivatives. *)
Definition linked (l r : list Z) : bool :=
  ((hd 0 r =? zsum l) && (hd 0 (zder r) =? zsum (zder l))
   && (hd 0 (zder (zder r)) =? zsum (zder (zder l))))%Z%bool.

Fixpoint chained (l : list Z) (rest : list (list Z)) : bool :=
  match rest with
  | [] => good l
  | r :: rest' => (good l && linked l r && chained r rest')%bool
  end.

Definition profile_pieces : list (list Z) :=
  Eval vm_compute in pieces 29 0 0 (4695999888844369 * 10 ^ 10).

Lemma profile_pieces_checked :
  match profile_pieces with l :: r => chained l r | [] => false end = true.
Proof. vm_compute. reflexivity. Qed.

(** [lo/den <= c * zeval l (p/q) / M <= hi/den]. *)
Definition in_range (l : list Z) (p q c lo hi den : Z) : bool :=
  let '(n, d) := zhom l p q in
  ((lo * (d * M) <=? c * n * den) && (c * n * den <=? hi * (d * M)))%Z%bool.

Lemma in_range_true l p q c lo hi den : (0 < q)%Z -> (0 < den)%Z ->
  in_range l p q c lo hi den = true ->
  IZR lo / IZR den <= IZR c * zeval l (IZR p / IZR q) / IZR M <= IZR hi / IZR den.
Proof.
  intros Hq Hd H. unfold in_range in H. assert (HE := zhom_eval l p q Hq).
  destruct (zhom l p q) as [n d]. destruct HE as [Hd' ->].
  apply andb_prop in H. destruct H as [H1 H2]. apply Z.leb_le, IZR_le in H1, H2.
  rewrite !mult_IZR in H1, H2.
  assert (HM : 0 < IZR M) by (apply (IZR_lt 0); reflexivity).
  apply IZR_lt in Hd, Hd'. simpl in Hd, Hd'.
  replace (IZR c * (IZR n / IZR d) / IZR M) with (IZR c * IZR n / (IZR d * IZR M)) by (field; lra).
  assert (0 < IZR d * IZR M) by (apply Rmult_lt_0_compat; assumption).
  split.
  - apply (Rmult_le_reg_r (IZR den * (IZR d * IZR M))); [apply Rmult_lt_0_compat; assumption|].
    replace (IZR lo / IZR den * (IZR den * (IZR d * IZR M))) with (IZR lo * (IZR d * IZR M)) by (field; lra).
    replace (IZR c * IZR n / (IZR d * IZR M) * (IZR den * (IZR d * IZR M))) with (IZR c * IZR n * IZR den)
      by (field; lra). exact H1.
  - apply (Rmult_le_reg_r (IZR den * (IZR d * IZR M))); [apply Rmult_lt_0_compat; assumption|].
    replace (IZR hi / IZR den * (IZR den * (IZR d * IZR M))) with (IZR hi * (IZR d * IZR M)) by (field; lra).
    replace (IZR c * IZR n / (IZR d * IZR M) * (IZR den * (IZR d * IZR M))) with (IZR c * IZR n * IZR den)
      by (field; lra). exact H2.
Qed.

(** ** The integral of f''^2 over the pieces, in the same way *)
Definition kprod (l : list Z) : list Z := zmul (zder (zder l)) (zder (zder l)).

Fixpoint kcoefs (k : Z) (l : list Z) : list Z :=
  match l with [] => [] | a :: r => (64 * a / (M * k))%Z :: kcoefs (k + 1) r end.

Fixpoint kpieces (c : Z) (ls : list (list Z)) : list (list Z * list Z) :=
  match ls with
  | [] => []
  | l :: r => let kl := c :: kcoefs 1 (kprod l) in (l, kl) :: kpieces (zsum kl) r
  end.

Definition kgood (p : list Z * list Z) : bool :=
  (4 * zabs (zadd (zscale M (zder (snd p))) (zscale (-64) (kprod (fst p)))) * 10 ^ 11
   <=? M * M)%Z.

Fixpoint kchained (p : list Z * list Z) (rest : list (list Z * list Z)) : bool :=
  match rest with
  | [] => kgood p
  | r :: rest' => (kgood p && (hd 0 (snd r) =? zsum (snd p))%Z && kchained r rest')%bool
  end.

Definition energy_pieces : list (list Z * list Z) := Eval vm_compute in kpieces 0 profile_pieces.

Lemma energy_pieces_profile : map fst energy_pieces = profile_pieces.
Proof. vm_compute. reflexivity. Qed.

Lemma energy_pieces_checked :
  match energy_pieces with p :: r => kchained p r | [] => false end = true /\
  match energy_pieces with p :: r => hd 0%Z (snd p) | [] => 1%Z end = 0%Z.
Proof. vm_compute. auto. Qed.
