(** Facts about [PyBase]: evaluation on finite arguments. *)
From Coq Require Import Reals List Lra.
From Verif Require Import PyBase.
Open Scope R_scope.

Lemma Rltb_true a b : a < b -> Rltb a b = true.
Proof. intros H. unfold Rltb. destruct (Rlt_dec a b); [reflexivity|lra]. Qed.
Lemma Rltb_false a b : b <= a -> Rltb a b = false.
Proof. intros H. unfold Rltb. destruct (Rlt_dec a b); [lra|reflexivity]. Qed.
Lemma Rleb_true a b : a <= b -> Rleb a b = true.
Proof. intros H. unfold Rleb. destruct (Rle_dec a b); [reflexivity|lra]. Qed.
Lemma Rleb_false a b : b < a -> Rleb a b = false.
Proof. intros H. unfold Rleb. destruct (Rle_dec a b); [lra|reflexivity]. Qed.
Lemma Reqb_true a b : a = b -> Reqb a b = true.
Proof. intros H. unfold Reqb. destruct (Req_EM_T a b); [reflexivity|lra]. Qed.
Lemma Reqb_false a b : a <> b -> Reqb a b = false.
Proof. intros H. unfold Reqb. destruct (Req_EM_T a b); [lra|reflexivity]. Qed.

Lemma Rltb_iff a b : Rltb a b = true <-> a < b.
Proof. unfold Rltb. destruct (Rlt_dec a b); split; intros; try lra; congruence. Qed.
Lemma Rleb_iff a b : Rleb a b = true <-> a <= b.
Proof. unfold Rleb. destruct (Rle_dec a b); split; intros; try lra; congruence. Qed.
Lemma Reqb_iff a b : Reqb a b = true <-> a = b.
Proof. unfold Reqb. destruct (Req_EM_T a b); split; intros; try lra; congruence. Qed.

Lemma xadd_fin a b : xadd (Fin a) (Fin b) = Fin (a + b).  Proof. reflexivity. Qed.
Lemma xsub_fin a b : xsub (Fin a) (Fin b) = Fin (a - b).  Proof. reflexivity. Qed.
Lemma xmul_fin a b : xmul (Fin a) (Fin b) = Fin (a * b).  Proof. reflexivity. Qed.
Lemma xneg_fin a : xneg (Fin a) = Fin (- a).  Proof. reflexivity. Qed.

Lemma xdiv_fin a b : b <> 0 -> xdiv (Fin a) (Fin b) = Fin (a / b).
Proof. intros H. simpl. destruct (Req_EM_T b 0); [contradiction|reflexivity]. Qed.

Lemma py_div_fin a b : b <> 0 -> py_div (Fin a) (Fin b) = Ok (Fin (a / b)).
Proof.
  intros H. unfold py_div. cbn [xeqb]. rewrite Reqb_false by exact H.
  rewrite xdiv_fin by exact H. reflexivity.
Qed.

Lemma xsqrt_fin a : 0 <= a -> xsqrt (Fin a) = Fin (sqrt a).
Proof. intros H. simpl. destruct (Rlt_dec a 0); [lra|reflexivity]. Qed.

Lemma xlog10_fin a : 0 < a -> xlog10 (Fin a) = Fin (ln a / ln 10).
Proof. intros H. simpl. destruct (Rlt_dec 0 a); [reflexivity|lra]. Qed.

Lemma xpow_fin a b : 0 < a -> xpow (Fin a) (Fin b) = Fin (Rpower a b).
Proof.
  intros H. simpl. destruct (Req_EM_T b 0) as [->|Hb].
  - rewrite Rpower_O by exact H. reflexivity.
  - destruct (Rlt_dec 0 a); [reflexivity|lra].
Qed.

Lemma xpow_fin_0 b : 0 < b -> xpow (Fin 0) (Fin b) = Fin 0.
Proof.
  intros H. simpl. destruct (Req_EM_T b 0); [lra|].
  destruct (Rlt_dec 0 0); [lra|]. destruct (Req_EM_T 0 0); [|lra].
  destruct (Rlt_dec 0 b); [reflexivity|lra].
Qed.

Lemma xmax_fin a b : xmax (Fin a) (Fin b) = Fin (Rmax a b).
Proof.
  cbn [xmax xltb]. unfold Rltb. destruct (Rlt_dec a b).
  - rewrite Rmax_right by lra. reflexivity.
  - rewrite Rmax_left by lra. reflexivity.
Qed.
Lemma xmin_fin a b : xmin (Fin a) (Fin b) = Fin (Rmin a b).
Proof.
  cbn [xmin xltb]. unfold Rltb. destruct (Rlt_dec b a).
  - rewrite Rmin_right by lra. reflexivity.
  - rewrite Rmin_left by lra. reflexivity.
Qed.
Lemma xclip_fin x lo hi : xclip (Fin x) (Fin lo) (Fin hi) = Fin (Rmin (Rmax x lo) hi).
Proof. unfold xclip. rewrite xmax_fin, xmin_fin. reflexivity. Qed.

Lemma Fin_inj a b : Fin a = Fin b -> a = b.
Proof. intros H; injection H; auto. Qed.

(** Specification vocabulary used by the property files. *)
Definition finite_pos (v : xr) : Prop := exists r, v = Fin r /\ 0 < r.
Definition fin_lt (a b : xr) : Prop := exists x y, a = Fin x /\ b = Fin y /\ x < y.
Definition fin_le (a b : xr) : Prop := exists x y, a = Fin x /\ b = Fin y /\ x <= y.
