(** Property C162: the case data of an XFoil reader. *)
From Coq Require Import Reals List String Bool Lra.
From Verif Require Import PyBase PyBaseFacts PyText XFoilModel XFoilSpec XFoilCaseSpec XFoilCaseProofs.
Import ListNotations.
Open Scope R_scope.

(** After any history of loads, assignments and row edits, each of the eight case data reads as the last
    valid value assigned to it since the last load (successful or not), or its default. *)
Theorem xfoil_case_data : forall floats read r l, let r' := do_ractions floats read r l in
  rd_name r' = latest gives_name ""%string l (rd_name r) /\
  rd_alpha r' = latest gives_alpha PInf l (rd_alpha r) /\
  rd_u_ref r' = latest gives_u_ref (Fin 1) l (rd_u_ref r) /\
  rd_c r' = latest gives_c (Fin 1) l (rd_c r) /\
  rd_re r' = latest gives_reynolds (Fin 0) l (rd_re r) /\
  rd_xt_upper r' = latest gives_x_trans_upper PInf l (rd_xt_upper r) /\
  rd_xt_lower r' = latest gives_x_trans_lower PInf l (rd_xt_lower r) /\
  rd_n_trans r' = latest gives_n_trans PInf l (rd_n_trans r).
Proof. exact case_history. Qed.
Print Assumptions xfoil_case_data.

(** An assignment is refused (ValueError) exactly when its value is not valid, and changes no row and
    not the file name. *)
Theorem xfoil_case_assignment : forall floats read r a, assigns_case a = true ->
  let r' := fst (do_raction floats read r a) in
  snd (do_raction floats read r a) = (if valid_case a then Ok tt else Err ValueError) /\
  upper_rows r' = upper_rows r /\ lower_rows r' = lower_rows r /\ rd_wake r' = rd_wake r /\ rd_filename r' = rd_filename r.
Proof. exact case_assignment. Qed.
Print Assumptions xfoil_case_assignment.

(** The chord survives an invalid assignment and an assignment to something else; the Reynolds number does
    not survive a load. *)
Example xfoil_case_example : forall floats read r,
  let r' := do_ractions floats read r [RSetRe (Fin 5); RLoad "a"; RSetC (Fin 2); RSetC (Fin (-1)); RSetURef (Fin 3); RRowUpper 0 FX (Fin 1)] in
  rd_c r' = Fin 2 /\ rd_re r' = Fin 0 /\ rd_u_ref r' = Fin 3 /\ assigns_case (RSetC (Fin (-1))) = true.
Proof.
  intros. destruct (xfoil_case_data floats read r [RSetRe (Fin 5); RLoad "a"; RSetC (Fin 2); RSetC (Fin (-1)); RSetURef (Fin 3); RRowUpper 0 FX (Fin 1)])
    as (_ & _ & U & C & E & _). fold r' in U, C, E. rewrite U, C, E.
  cbn [latest gives_c gives_reynolds gives_u_ref]. unfold positive_value, when.
  destruct (Rlt_dec 0 2), (Rlt_dec 0 (-1)), (Rlt_dec 0 3); try (exfalso; lra). repeat split.
Qed.
