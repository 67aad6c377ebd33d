(** Property C164: the end state that solve returns. [keeps_start]: HandoffSpec; [run]: CoreSpec. *)
From Coq Require Import Reals List Bool String Lra ZArith.
From Verif Require Import PyBase PyBaseFacts ThwaitesFitsModel InitialConditionModel CoreModel CoreSpec CoreRefute HandoffSpec HandoffProps EndStateProofs.
Import ListNotations.
Open Scope R_scope.

(** After a successful solve, also one stopped early, the object reports at the returned x_end what the
    returned f_end says: momentum thickness and shape factor (Head's method) or delta_m^2 / nu (Thwaites'
    methods), until the next solve or assignment of nu.  After an unsuccessful one x_end is the start and
    queries raise. *)
Theorem end_state_reported : forall pchip cubic_spline ivp m a b l m' r h,
  keeps_start ivp -> solve ivp m a b l = (m', Ok r) ->
  List.Forall (fun o => is_solve o = false /\ is_nu o = false) h ->
  let s := run pchip cubic_spline ivp m' h in
  (ir_success r = true -> m_kind m = Head -> forall d H, ir_f_end r = [d; H] ->
     q_delta_m s (ir_x_end r) = Ok d /\ q_shape_d s (ir_x_end r) = Ok H) /\
  (ir_success r = true -> m_kind m <> Head -> forall v, ir_f_end r = [v] ->
     q_delta_m s (ir_x_end r) = Ok (xsqrt (v * m_nu m)%xr)) /\
  (ir_success r = false -> ir_x_end r = a /\ forall x, q_delta_m s x = Err ValueError).
Proof. exact end_state_lemma. Qed.
Print Assumptions end_state_reported.

Example end_state_case : keeps_start ivp_stay /\
  (exists m' r d H, solve ivp_stay (set_initial_condition w_head (new_manual (Fin 2) (Fin 1) (Fin 0))) 1 2 [] = (m', Ok r) /\
     ir_success r = true /\ ir_f_end r = [d; H]) /\
  List.Forall (fun o => is_solve o = false /\ is_nu o = false) [OpCritical (Fin 2); OpInitialDeltaM (Fin 3)].
Proof.
  split. { intros f a b y e r E _. injection E as <-. reflexivity. }
  split; [|repeat constructor].
  unfold solve, ic_set_nu. cbn [xleb m_nu m_ic set_initial_condition set_ic w_head new_manual]. rewrite Rleb_false by lra.
  cbn. rewrite py_div_fin by lra. cbn [bind]. do 4 eexists. repeat split.
Qed.
