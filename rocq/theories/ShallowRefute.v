(** Programs in which shallow copies and their originals are not independent. *)
From Coq Require Import Reals List String Bool ZArith Lra Lia.
From Verif Require Import PyBase PyBaseFacts FiniteDiffModel PPolyModel InitialConditionModel ThwaitesFitsModel HeadModel
  CoreModel CoreSpec CoreProofs CoreRefute CopyModel CopySpec CopyProofs ShallowModel ShallowSpec ShallowProofs.
Import ListNotations.
Open Scope R_scope.

Lemma copy_like_original_lemma : forall pchip cubic_spline solve_ivp n ms p0 i,
  let w := srun pchip cubic_spline solve_ivp (sstart n ms) p0 in
  let j := st_next w in
  (i < st_next w)%nat ->
  seen (shallow_copy w i) j = seen w i /\
  (forall k, (k < st_next w)%nat -> seen (shallow_copy w i) k = seen w k) /\
  (forall o, snd (scall pchip cubic_spline solve_ivp (shallow_copy w i) j o) = snd (scall pchip cubic_spline solve_ivp w i o)).
Proof.
  intros pchip cs ivp n ms p0 i w j Hi. destruct (wfr_run pchip cs ivp p0 (sstart n ms) (proj1 (wfr_start n ms)) (proj2 (wfr_start n ms))) as [_ W].
  fold w in W. destruct (copy_seen_s w i W Hi) as [A B]. split; [exact A|]. split; [exact B|]. intros o. apply first_call; assumption.
Qed.

Lemma initial_value_witness : forall pchip cubic_spline solve_ivp, exists m p,
  created pchip cubic_spline m /\ calls_on 0 p = [] /\
  get_initial_delta_m (seen (srun pchip cubic_spline solve_ivp (sstart 1 (fun _ => m)) p) 0) <> get_initial_delta_m m.
Proof.
  intros pchip cs ivp. exists w_thwaites, [CCopy 0; CCall 1 (OpInitialDeltaM (Fin 1))].
  split; [apply w_thwaites_created|]. split; [reflexivity|].
  destruct (initial_value_shared pchip cs ivp 1 (fun _ => w_thwaites) [] 0 (Fin 1) ltac:(cbn; lia)) as [E _].
  - cbn. discriminate.
  - cbn [xleb]. apply Rleb_false. lra.
  - match goal with |- ?a <> _ => assert (E' : a = Ok (Fin 1)) by exact E end. rewrite E'. cbn. discriminate.
Qed.

Lemma stops_witness : forall pchip cubic_spline, exists solve_ivp m p,
  ivp_contract solve_ivp /\ created pchip cubic_spline m /\ calls_on 0 p = [OpSolve 0 1 []] /\
  exists r r', soutcomes pchip cubic_spline solve_ivp 0 (sstart 1 (fun _ => m)) p = [(OpSolve 0 1 [], Ok (Some r))] /\
    trace pchip cubic_spline solve_ivp m [OpSolve 0 1 []] = [(OpSolve 0 1 [], Ok (Some r'))] /\
    ir_status r = TRANSITIONED /\ ir_status r' = REACHED_END.
Proof.
  intros pchip cs. exists ivp_second, w_head, [CCopy 0; CCall 1 (OpSolve 0 1 [user_event TRANSITIONED true ""]); CCall 0 (OpSolve 0 1 [])].
  split; [exact ivp_second_contract|]. split; [apply w_head_created|]. split; [reflexivity|].
  assert (P : py_div PInf PInf = Ok NaN) by reflexivity.
  assert (L : Rleb 1 0 = false) by (apply Rleb_false; lra).
  set (e := user_event TRANSITIONED true "").
  (* one solve of an object like [w_head] *)
  assert (Q : forall w i l, m_nu (seen w i) = Fin 1 -> m_kind (seen w i) = Head -> q_du_e (seen w i) 0 = Ok 0 ->
     ic_body_of (m_ic (seen w i)) = Manual PInf PInf (Fin 0) ->
     exists c r y, fst (solve_on ivp_second w i 0 1 l) = put_obj (extend_events (put_ic (put_ic w i c) i {| ic_du := Fin 0; ic_nu := Fin 1; ic_body_of := Manual PInf PInf (Fin 0) |}) i l) i y /\
       s_ic y = s_ic (st_obj w i) /\ s_ev y = s_ev (st_obj w i) /\
       snd (solve_on ivp_second w i 0 1 l) = Ok r /\
       match m_events (seen w i) ++ l with _ :: e2 :: _ => ir_status r = ev_reason e2 | _ => ir_status r = REACHED_END end).
  { intros w i l N K D B. unfold solve_on, ic_set_nu. rewrite N. cbn [xleb]. rewrite L. cbv zeta. rewrite !seen_ic.
    change (q_du_e (set_ic (seen w i) {| ic_du := ic_du (m_ic (seen w i)); ic_nu := Fin 1; ic_body_of := ic_body_of (m_ic (seen w i)) |}) 0)
      with (q_du_e (seen w i) 0). rewrite D. rewrite !seen_ic. unfold ode_setup. cbn [set_ic m_kind m_ic]. rewrite K.
    unfold ic_set_du. cbn [ic_nu ic_body_of]. rewrite B. cbn [ic_delta_m ic_shape_d ic_body_of bind]. rewrite P. cbn [bind].
    rewrite seen_extend, !seen_ic.
    set (w3 := extend_events _ i l).
    assert (F : map fst (st_evs w3 (s_ev (st_obj w3 i))) = m_events (seen w i) ++ l).
    { unfold w3. cbn. rewrite upd_same, map_app, map_map. cbn. rewrite map_id. reflexivity. }
    rewrite <- F.
    assert (G : exists r z, match ivp_second (ode_impl (add_kill_events (set_ic (set_ic (seen w i) {| ic_du := ic_du (m_ic (seen w i)); ic_nu := Fin 1; ic_body_of := Manual PInf PInf (Fin 0) |}) {| ic_du := Fin 0; ic_nu := Fin 1; ic_body_of := Manual PInf PInf (Fin 0) |}) l)) 0 1 [PInf; NaN] (event_functions w3 i) with
        | Ok r => r | Err _ => z end = r /\ ivp_second (ode_impl (add_kill_events (set_ic (set_ic (seen w i) {| ic_du := ic_du (m_ic (seen w i)); ic_nu := Fin 1; ic_body_of := Manual PInf PInf (Fin 0) |}) {| ic_du := Fin 0; ic_nu := Fin 1; ic_body_of := Manual PInf PInf (Fin 0) |}) l)) 0 1 [PInf; NaN] (event_functions w3 i) = Ok r /\
        exists q, gather 0 [PInf; NaN] (map fst (st_evs w3 (s_ev (st_obj w3 i)))) r = Ok q /\
        match map fst (st_evs w3 (s_ev (st_obj w3 i))) with _ :: e2 :: _ => ir_status q = ev_reason e2 | _ => ir_status q = REACHED_END end).
    { unfold event_functions. destruct (st_evs w3 (s_ev (st_obj w3 i))) as [|b1 [|b2 L3]]; cbn [map ivp_second fst];
        (eexists; eexists {| r_success := false; r_status := 0; r_message := ""; r_t := []; r_sol := fun _ => []; r_t_events := [] |};
         split; [reflexivity|]; split; [reflexivity|]; eexists; split; reflexivity). }
    destruct G as (r & z & _ & -> & q & G1 & G2).
    match goal with |- context [gather 0 _ (m_events (seen ?w4 i)) r] => assert (H4 : m_events (seen w4 i) = map fst (st_evs w3 (s_ev (st_obj w3 i)))) by (cbn; rewrite ?upd_same; reflexivity) end.
    rewrite H4, G1. cbn [fst snd]. do 3 eexists. split; [reflexivity|]. split; [reflexivity|]. split; [reflexivity|]. split; [reflexivity|exact G2]. }
  set (w1 := shallow_copy (sstart 1 (fun _ => w_head)) 0).
  destruct (Q w1 1%nat [e] eq_refl eq_refl eq_refl eq_refl) as (c & r1 & y & E1 & Y1 & Y2 & S1 & _).
  set (w2 := fst (solve_on ivp_second w1 1 0 1 [e])) in *.
  assert (V : st_obj w2 0%nat = st_obj w1 0%nat /\ st_next w2 = 2%nat /\ m_events (seen w2 0) = [head_sep_event (Fin (24/10)); e] /\
     ic_body_of (m_ic (seen w2 0)) = Manual PInf PInf (Fin 0)).
  { rewrite E1. repeat split. }
  destruct V as (V1 & V2 & V3 & V4).
  assert (Vs : m_nu (seen w2 0) = Fin 1 /\ m_kind (seen w2 0) = Head /\ q_du_e (seen w2 0) 0 = Ok 0).
  { unfold seen, as_seen, q_du_e, call_du, du_of. cbn. unfold attributes. rewrite V1. repeat split. }
  destruct Vs as (Vn & Vk & Vd).
  destruct (Q w2 0%nat [] Vn Vk Vd V4) as (c2 & r2 & y2 & E2 & _ & _ & S2 & T2). rewrite V3 in T2. cbn in T2.
  destruct (Q (sstart 1 (fun _ => w_head)) 0%nat [] eq_refl eq_refl eq_refl eq_refl) as (c3 & r3 & y3 & E3 & _ & _ & S3 & T3). cbn in T3.
  assert (U : exists r', snd (solve ivp_second w_head 0 1 []) = Ok r' /\ ir_status r' = REACHED_END).
  { exists r3. split; [|exact T3]. rewrite <- S3. symmetry.
    destruct (solve_on_alone ivp_second (sstart 1 (fun _ => w_head)) 0 0 1 []) as [Z _].
    - intros b [<-|[]]. reflexivity.
    - rewrite Z. assert (O : own (as_heap (sstart 1 (fun _ => w_head))) 0) by (unfold own; cbn; auto).
      unfold seen. rewrite (own_seen _ _ O), norm_solve. reflexivity. }
  destruct U as (r' & U1 & U2). exists r2, r'.
  split. { cbn [soutcomes sstep sstart st_next Nat.ltb Nat.leb fst snd Nat.eqb scall]. fold (sstart 1 (fun _ => w_head)). fold w1. fold w2.
    cbn [w1 shallow_copy sstart st_next Nat.ltb Nat.leb fst snd Nat.eqb]. fold (sstart 1 (fun _ => w_head)). fold (shallow_copy (sstart 1 (fun _ => w_head)) 0). fold w1. fold w2.
    rewrite V2. cbn [fst snd Nat.ltb Nat.leb]. rewrite S2. reflexivity. }
  split. { cbn [trace step snd]. rewrite U1. reflexivity. }
  split; assumption.
Qed.
