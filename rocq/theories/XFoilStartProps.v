(** C173: a loaded XFoil dump sets up the methods. *)
From Coq Require Import Reals List String Bool Lra Lia Sorted.
From Verif Require Import PyBase PyBaseFacts PyText PPolyModel PchipModel CoreModel CoreSpec
  WorkflowSpec XFoilModel XFoilSpec XFoilProps XFoilFlowSpec XFoilStartProofs.
Import ListNotations.
Open Scope R_scope.

(** The rows [u] and [l] are those on either side of the stagnation point. *)
Theorem xfoil_sets_up_methods : forall floats read r r1 r2 f b u l t wake pu s1 v s2 lv pl w d1 d2 h1 h2,
  file_holds floats read f ((b ++ [u]) ++ l :: t) wake ->
  stations (b ++ [u]) (pu ++ [(s1, v)]) -> stations (l :: t) ((s2, lv) :: pl) ->
  (forall p, In p pu -> 0 <= snd p) -> 0 < v -> lv < 0 ->
  Sorted Rlt (map fst ((pu ++ [(s1, v)]) ++ (s2, lv) :: pl)) ->
  a_delta_m u = Fin d1 -> a_delta_m l = Fin d2 -> 0 < d1 -> 0 < d2 ->
  a_shape_d u = Fin h1 -> a_shape_d l = Fin h2 -> 0 < h1 -> 0 < h2 ->
  set_filename floats read r f = (r1, Ok tt) ->
  do_raction floats read r1 (RSetURef (Fin w)) = (r2, Ok tt) ->
  exists upper lower d0 h0,
    column (qs_upper r2) (map fst upper) /\ column (qu_e_upper r2) (map snd upper) /\
    column (qs_lower r2) (map fst lower) /\ column (qu_e_lower r2) (map snd lower) /\
    nth_error (qdelta_m_upper r2) 0 = Some (Fin d0) /\ nth_error (qshape_d_upper r2) 0 = Some (Fin h0) /\
    nth_error (qdelta_m_lower r2) 0 = Some (Fin d0) /\ nth_error (qshape_d_lower r2) 0 = Some (Fin h0) /\
    Rmin d1 d2 <= d0 <= Rmax d1 d2 /\ Rmin h1 h2 <= h0 <= Rmax h1 h2 /\
    forall ps nu, ps = upper \/ ps = lower -> 0 < nu ->
      (forall crit, exists m m1 m2,
        new_head pchip_scipy (Fin nu) (PTup [PArr (vec (map fst ps)); PArr (vec (map snd ps))]) PNone PNone crit = Ok m /\
        set_initial_delta_m m (Fin d0) = (m1, Ok tt) /\ set_initial_shape_d m1 (Fin h0) = (m2, Ok tt) /\
        m_nu m2 = Fin nu /\ flows_through m2 ps /\ q_u_e m2 0 = Ok 0 /\
        forall x, initial_state m2 x [Fin d0; Fin h0]) /\
      (forall cubic_spline linear a fit, choose_fit cubic_spline a = Ok fit -> exists m m1,
        new_thwaites pchip_scipy cubic_spline linear (Fin nu)
          (PTup [PArr (vec (map fst ps)); PArr (vec (map snd ps))]) PNone PNone a = Ok m /\
        set_initial_delta_m m (Fin d0) = (m1, Ok tt) /\
        m_nu m1 = Fin nu /\ flows_through m1 ps /\ q_u_e m1 0 = Ok 0 /\
        forall x, initial_state m1 x [Fin (d0 * d0 / nu)]).
Proof. exact dump_start_lemma. Qed.
Print Assumptions xfoil_sets_up_methods.

(** An inviscid dump, whose rows have no thickness, gives no initial value: it is refused. *)
Theorem xfoil_inviscid_start_refused : forall floats read r r1 r2 f b u l t wake pu s1 v s2 lv pl w,
  file_holds floats read f ((b ++ [u]) ++ l :: t) wake ->
  stations (b ++ [u]) (pu ++ [(s1, v)]) -> stations (l :: t) ((s2, lv) :: pl) ->
  (forall p, In p pu -> 0 <= snd p) -> 0 < v -> lv < 0 ->
  a_delta_m u = Fin 0 -> a_delta_m l = Fin 0 ->
  set_filename floats read r f = (r1, Ok tt) ->
  do_raction floats read r1 (RSetURef (Fin w)) = (r2, Ok tt) ->
  exists d0, nth_error (qdelta_m_upper r2) 0 = Some d0 /\ nth_error (qdelta_m_lower r2) 0 = Some d0 /\
    forall m, set_initial_delta_m m d0 = (m, Err ValueError).
Proof. exact inviscid_start_lemma. Qed.
Print Assumptions xfoil_inviscid_start_refused.

(** The example dump at reference velocity 10: both rows next to the stagnation point have momentum
    thickness 2 and shape factor 2. *)
Example xfoil_start_case : exists r1 r2,
  file_holds py_floats ex_read "ex" (([u1] ++ [u2]) ++ l1 :: [l2]) [w1; w2] /\
  stations ([u1] ++ [u2]) ([(0, 4)] ++ [(10, 1)]) /\ stations (l1 :: [l2]) ((14, -3) :: [(25, -4)]) /\
  (forall p : R * R, In p [(0, 4)] -> 0 <= snd p) /\
  Sorted Rlt (map fst (([(0, 4)] ++ [(10, 1)]) ++ (14, -3) :: [(25, -4)])) /\
  a_delta_m u2 = Fin 2 /\ a_delta_m l1 = Fin 2 /\ a_shape_d u2 = Fin 2 /\ a_shape_d l1 = Fin 2 /\
  set_filename py_floats ex_read reader0 "ex" = (r1, Ok tt) /\
  do_raction py_floats ex_read r1 (RSetURef (Fin 10)) = (r2, Ok tt).
Proof.
  destruct ex_loads as [r1 H]. exists r1, (rwith_u_ref r1 (Fin 10)).
  split; [exact ex_holds|]. split; [repeat constructor|]. split; [repeat constructor|].
  split; [intros p [<-|[]]; cbn; lra|].
  split. { cbn [map fst app]. repeat (apply Sorted_cons; [|first [apply HdRel_nil|apply HdRel_cons; lra]]). apply Sorted_nil. }
  do 4 (split; [reflexivity|]). split; [exact H|].
  cbn [do_raction]. unfold rset_u_ref. cbn [xleb]. rewrite Rleb_false by lra. reflexivity.
Qed.

(** An inviscid dump: rows without thickness on either side of the stagnation point. *)
Definition ui : arow := awith_delta_m u2 (Fin 0).
Definition line_ui : string := "  10  2  3  1  4  0  6  2  2  1  1  1                                              
"%string.
Definition li : arow := awith_delta_m l1 (Fin 0).
Definition line_li : string := "  14  2  -3  -3  4  0  6  2  2  1  -1  -1                                          
"%string.
Definition inv_read (f : string) : res (list string) :=
  if String.eqb f "inviscid" then Ok [line_ui; line_li] else Err OtherError.

Lemma inv_holds : file_holds py_floats inv_read "inviscid" (([] ++ [ui]) ++ li :: []) [].
Proof.
  split; [discriminate|]. exists [line_ui; line_li], [line_ui; line_li], [].
  split; [reflexivity|]. split.
  { exists []. split; [reflexivity|]. split; [left; reflexivity|].
    split; [intros _; not_hash|]. split; [discriminate|]. split; [repeat (constructor; [len|]); constructor|].
    exact I. }
  split; [repeat (constructor; [reflexivity|]); constructor|].
  split; [intros []|]. constructor.
Qed.

Example xfoil_inviscid_start_case : exists r1 r2,
  file_holds py_floats inv_read "inviscid" (([] ++ [ui]) ++ li :: []) [] /\
  stations ([] ++ [ui]) ([] ++ [(10, 1)]) /\ stations (li :: []) ((14, -3) :: []) /\
  a_delta_m ui = Fin 0 /\ a_delta_m li = Fin 0 /\
  set_filename py_floats inv_read reader0 "inviscid" = (r1, Ok tt) /\
  do_raction py_floats inv_read r1 (RSetURef (Fin 10)) = (r2, Ok tt).
Proof.
  destruct (valid_dump_loads py_floats inv_read reader0 "inviscid" ([] ++ [ui]) [li] [] 1 [10; 14] [])
    as [r1 H].
  - exact inv_holds.
  - split; [discriminate|]. split.
    + constructor; [exists 1; split; [reflexivity|lra]|constructor].
    + exists (-3). split; [reflexivity|lra].
  - exists [], ui. split; reflexivity.
  - exact R1_neq_R0.
  - repeat (constructor; [phys|]). constructor.
  - constructor.
  - reflexivity.
  - repeat (apply Sorted_cons; [|first [apply HdRel_nil|apply HdRel_cons; lra]]). apply Sorted_nil.
  - reflexivity.
  - apply Sorted_nil.
  - exists r1, (rwith_u_ref r1 (Fin 10)). split; [exact inv_holds|]. split; [repeat constructor|].
    split; [repeat constructor|]. split; [reflexivity|]. split; [reflexivity|]. split; [exact H|].
    cbn [do_raction]. unfold rset_u_ref. cbn [xleb]. rewrite Rleb_false by lra. reflexivity.
Qed.
