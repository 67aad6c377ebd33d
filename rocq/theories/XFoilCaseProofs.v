(** Proofs about the case data of an XFoil reader. *)
From Coq Require Import Reals List String Bool Lra.
From Verif Require Import PyBase PyBaseFacts PyText XFoilModel XFoilSpec XFoilProps XFoilCaseSpec.
Import ListNotations.
Open Scope R_scope.

Lemma xleb_positive : forall v, xleb v (Fin 0) = negb (positive_value v).
Proof.
  intros [x| | |]; cbn; try reflexivity. unfold Rleb. destruct (Rle_dec x 0), (Rlt_dec 0 x); try reflexivity; exfalso; lra.
Qed.
Lemma xltb_nonnegative : forall v, xltb v (Fin 0) = negb (nonnegative_value v).
Proof.
  intros [x| | |]; cbn; try reflexivity. unfold Rltb. destruct (Rlt_dec x 0), (Rle_dec 0 x); try reflexivity; exfalso; lra.
Qed.

Section History.
Variable floats : string -> option (list xr).
Variable read : string -> res (list string).
Notation act := (do_raction floats read).

Lemma keeps {A} (rd : reader -> A) (given : raction -> option A) (blank : A) :
  (forall r f, rd (fst (act r (RLoad f))) = blank) ->
  (forall r a, (forall f, a <> RLoad f) -> rd (fst (act r a)) = match given a with Some w => w | None => rd r end) ->
  forall l r, rd (do_ractions floats read r l) = latest given blank l (rd r).
Proof.
  intros HL HA. induction l as [|a t IH]; intros r; [reflexivity|]. cbn [do_ractions]. rewrite IH.
  destruct a; cbn [latest]; [rewrite HL; reflexivity| | | | | | | | | | |];
  f_equal; apply HA; discriminate.
Qed.

Ltac dull := let r := fresh in let a := fresh in let Ha := fresh in intros r a Ha; destruct a; try (exfalso; eapply Ha; reflexivity);
  cbn [do_raction gives_name gives_alpha gives_x_trans_upper gives_x_trans_lower gives_u_ref gives_c gives_n_trans gives_reynolds];
  try unfold set_row; try unfold set_wake_row; try unfold rset_u_ref; try unfold rset_c; try unfold rset_re; try unfold rset_n_trans;
  try rewrite xleb_positive; try rewrite xltb_nonnegative; unfold when;
  repeat match goal with |- context [negb ?b] => destruct b; cbn [negb fst] end; try reflexivity;
  repeat match goal with
  | |- context [nth_error ?a ?b] => destruct (nth_error a b)
  | |- context [aset ?f ?x ?v] => destruct (aset f x v)
  | |- context [wset ?f ?x ?v] => destruct (wset f x v)
  end; reflexivity.

Lemma case_history : forall r l, let r' := do_ractions floats read r l in
  rd_name r' = latest gives_name ""%string l (rd_name r) /\
  rd_alpha r' = latest gives_alpha PInf l (rd_alpha r) /\
  rd_u_ref r' = latest gives_u_ref (Fin 1) l (rd_u_ref r) /\
  rd_c r' = latest gives_c (Fin 1) l (rd_c r) /\
  rd_re r' = latest gives_reynolds (Fin 0) l (rd_re r) /\
  rd_xt_upper r' = latest gives_x_trans_upper PInf l (rd_xt_upper r) /\
  rd_xt_lower r' = latest gives_x_trans_lower PInf l (rd_xt_lower r) /\
  rd_n_trans r' = latest gives_n_trans PInf l (rd_n_trans r).
Proof.
  intros r l r'.
  pose proof (load_resets_attributes floats read) as HL.
  repeat split; apply keeps; try (intros r0 f0; cbn [do_raction]; destruct (HL r0 f0) as (A & B & C & D & E & F & G & H); assumption); dull.
Qed.

Lemma case_assignment : forall r a, assigns_case a = true ->
  let r' := fst (act r a) in
  snd (act r a) = (if valid_case a then Ok tt else Err ValueError) /\
  upper_rows r' = upper_rows r /\ lower_rows r' = lower_rows r /\ rd_wake r' = rd_wake r /\ rd_filename r' = rd_filename r.
Proof.
  intros r a Ha. destruct a; try discriminate; cbn [do_raction valid_case];
  try unfold rset_u_ref; try unfold rset_c; try unfold rset_re; try unfold rset_n_trans;
  try rewrite xleb_positive; try rewrite xltb_nonnegative; cbn [valid_case];
  repeat match goal with |- context [negb ?b] => destruct b; cbn [negb fst snd] end; repeat split.
Qed.
End History.
