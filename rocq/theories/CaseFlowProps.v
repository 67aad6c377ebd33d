(** C167: a loaded Stanford case sets up Head's method. *)
From Coq Require Import Reals List String Bool ZArith Lra Lia Sorted.
From Verif Require Import PyBase PyText PPolyModel PchipModel InitialConditionModel CoreModel CoreSpec WorkflowSpec
  XFoilFlowSpec.
From Verif Require Import StanfordModel StanfordSpec StanfordProps CaseQueryModel CaseQuerySpec CaseQueryProps
  CaseFlowProofs.
Import ListNotations.
Open Scope R_scope.

Theorem case_sets_up_head : forall floats float1 read_case junk o c o' first summ smoo rest xs us d0 ds h0 hs nu crit,
  c <> ""%string ->
  case_holds read_case c first (summ :: smoo :: rest) ->
  set_case floats float1 read_case junk o c = (o', Ok tt) ->
  case_x o' = map Fin xs -> case_u_e o' = map Fin us -> case_delta_m o' = map Fin (d0 :: ds) ->
  case_shape_d o' = map Fin (h0 :: hs) -> cd_nu_ref o' = Fin nu -> (2 <= station_count o')%nat ->
  (0 < nu -> Sorted Rlt xs ->
   exists m m1 m2, new_head pchip_scipy (Fin nu) (PTup [PArr (vec xs); PArr (vec us)]) PNone PNone crit = Ok m /\
     set_initial_delta_m m (Fin d0) = (m1, Ok tt) /\ set_initial_shape_d m1 (Fin h0) = (m2, Ok tt) /\
     m_nu m2 = Fin nu /\ get_initial_delta_m m2 = Ok (Fin d0) /\ get_initial_shape_d m2 = Ok (Fin h0) /\
     flows_through m2 (combine xs us) /\
     forall x, hd 0 xs <= x <= last xs 0 -> exists u, q_u_e m2 x = Ok u /\ 0 < u) /\
  (nu <= 0 \/ ~ Sorted Rlt xs ->
   new_head pchip_scipy (Fin nu) (PTup [PArr (vec xs); PArr (vec us)]) PNone PNone crit = Err ValueError).
Proof. exact case_flow_lemma. Qed.
Print Assumptions case_sets_up_head.

Theorem case_gradient_sets_up_head : forall floats float1 read_case junk o c o' first summ smoo rest xs u0 us gs d0 ds h0 hs nu crit,
  c <> ""%string ->
  case_holds read_case c first (summ :: smoo :: rest) ->
  set_case floats float1 read_case junk o c = (o', Ok tt) ->
  case_x o' = map Fin xs -> case_u_e o' = map Fin (u0 :: us) -> case_du_e o' = map Fin gs ->
  case_delta_m o' = map Fin (d0 :: ds) ->
  case_shape_d o' = map Fin (h0 :: hs) -> cd_nu_ref o' = Fin nu -> (2 <= station_count o')%nat ->
  0 < nu -> Sorted Rlt xs ->
  exists m m1 m2, new_head pchip_scipy (Fin nu) (PNum u0) (PTup [PArr (vec xs); PArr (vec gs)]) PNone crit = Ok m /\
    set_initial_delta_m m (Fin d0) = (m1, Ok tt) /\ set_initial_shape_d m1 (Fin h0) = (m2, Ok tt) /\
    m_nu m2 = Fin nu /\ get_initial_delta_m m2 = Ok (Fin d0) /\ get_initial_shape_d m2 = Ok (Fin h0) /\
    q_u_e m2 (hd 0 xs) = Ok u0 /\ (forall x g, In (x, g) (combine xs gs) -> q_du_e m2 x = Ok g).
Proof. exact case_gradient_flow_lemma. Qed.
Print Assumptions case_gradient_sets_up_head.

(** A case of two stations without profiles, the second one metre downstream and slower. *)
Definition f4 : flow := {| f_x := 2; f_u_e := 8; f_du_e := -2; f_theta := 2; f_h := 2; f_hs := 3;
  f_g := 6; f_cf := 2; f_cf_lt := 4; f_cf_exp := 5; f_beta := 0 |}.
Definition row_f4 : string := "2 8 -2 200 2 3 6 2 4 5 0".
Lemma f4_printed : prints py_floats row_f4 (summary_columns SI f4).
Proof. print_row [2; 8; -2; 200; 2; 3; 6; 2; 4; 5; 0]. Qed.
Definition two_sections : list section := [
  {| sc_head1 := with_nl "# SUMMARY"; sc_head2 := with_nl "#  X  UI"; sc_lines := map with_nl [row_f1; row_f4] |};
  {| sc_head1 := with_nl "# SMOOTHED"; sc_head2 := with_nl "#  X  UI"; sc_lines := map with_nl ["5 6 7"%string] |}].
Definition two_lines : list string :=
  head0 :: map with_nl [ident_1100; visc_1100] ++ flat_map section_lines two_sections.
Definition two_read (c : string) : option (list string) := if String.eqb c "1100" then Some two_lines else None.
Lemma two_layout : case_holds two_read "1100" ex_first [[row_f1; row_f4]; ["5 6 7"%string]].
Proof.
  exists two_lines, [], head0, (map with_nl ex_first), ex_first, two_sections, [[row_f1; row_f4]; ["5 6 7"%string]].
  split; [reflexivity|]. split.
  { split; [reflexivity|]. split; [constructor|]. split; [apply (header_hash "CASE")|].
    split; [rows_not_headers|].
    repeat (apply Forall_cons; [split; [eapply header_hash|split; [eapply header_hash|rows_not_headers]]|]).
    apply Forall_nil. }
  split; [split; [no_newlines|left; reflexivity]|]. split; [|split; reflexivity].
  repeat (apply Forall2_cons; [split; [no_newlines|left; reflexivity]|]). apply Forall2_nil.
Qed.
Definition two_entries : list entry :=
  [{| e_flow := f1; e_detail := None; e_profile := [] |}; {| e_flow := f4; e_detail := None; e_profile := [] |}].
Lemma two_file_entries : file_entries py_floats (units_of "1100") [row_f1; row_f4] [] two_entries.
Proof.
  intros [|[|i]]; cbn [nth_error two_entries].
  - exists row_f1, ""%string, []. split; [repeat split|]. split; [exact f1_printed|]. split; [cbn; lra|]. repeat split.
  - exists row_f4, ""%string, []. split; [repeat split|]. split; [exact f4_printed|]. split; [cbn; lra|]. repeat split.
  - replace (nth_error (@nil entry) i) with (@None entry) by (destruct i; reflexivity).
    intros a b r [H _]. destruct i; discriminate.
Qed.
Lemma two_velocity : Forall2 (fun t v => prints py_floats t (velocity_columns (units_of "1100") v))
  ["5 6 7"%string] [{| v_x := 5; v_u_e := 6; v_du_e := 7 |}].
Proof. constructor; [|constructor]. print_row [5; 6; 7]. Qed.
Lemma two_loads : exists o', set_case py_floats ex_float1 two_read ex_junk casedata0 "1100" = (o', Ok tt) /\
  cd_nu_ref o' = Fin (3 / 10000).
Proof.
  destruct (well_formed_case_loads py_floats ex_float1 two_read ex_junk casedata0 "1100" ident_1100 visc_1100 []
    "IDENT" "3" "V" (3 / 10000) [row_f1; row_f4] ["5 6 7"%string] [] [{| v_x := 5; v_u_e := 6; v_du_e := 7 |}])
    as (o' & E & _ & H2 & _).
  - exact two_layout.
  - discriminate.
  - apply plain. reflexivity.
  - exact ex_ident.
  - left. reflexivity.
  - exact ex_visc.
  - left. reflexivity.
  - apply plain. reflexivity.
  - transitivity (Some (Fin 3)); [reflexivity|]. apply f_equal, f_equal. cbn. field.
  - exact two_velocity.
  - intros i a b r (Ha & -> & ->).
    destruct i as [|[|i]]; cbn in Ha; [injection Ha as <-|injection Ha as <-|destruct i; discriminate].
    + apply (proj1 (proj1 (flow_row_loads py_floats ex_junk SI f1 row_f1 f1_printed ltac:(cbn; lra)))).
      repeat split; cbn; lra.
    + apply (proj1 (proj1 (flow_row_loads py_floats ex_junk SI f4 row_f4 f4_printed ltac:(cbn; lra)))).
      repeat split; cbn; lra.
  - exists o'. split; assumption.
Qed.

Lemma two_sorted : Sorted Rlt [1; 2].
Proof. repeat (apply Sorted_cons; [|first [apply HdRel_nil|apply HdRel_cons; lra]]). apply Sorted_nil. Qed.

Example case_sets_up_head_case : exists o' m m1 m2,
  set_case py_floats ex_float1 two_read ex_junk casedata0 "1100" = (o', Ok tt) /\
  case_x o' = [Fin 1; Fin 2] /\ case_u_e o' = [Fin 10; Fin 8] /\
  new_head pchip_scipy (Fin (3 / 10000)) (PTup [PArr (vec [1; 2]); PArr (vec [10; 8])]) PNone PNone (Fin 3) = Ok m /\
  set_initial_delta_m m (Fin 1) = (m1, Ok tt) /\ set_initial_shape_d m1 (Fin 2) = (m2, Ok tt) /\
  q_u_e m2 2 = Ok 8 /\ get_initial_shape_d m2 = Ok (Fin 2) /\
  forall x, 1 <= x <= 2 -> exists u, q_u_e m2 x = Ok u /\ 8 <= u <= 10.
Proof.
  destruct two_loads as (o' & E & En). exists o'.
  destruct (case_arrays py_floats ex_float1 two_read ex_junk casedata0 "1100" o' ex_first [row_f1; row_f4]
    ["5 6 7"%string] [] two_entries _ ltac:(discriminate) two_layout two_file_entries two_velocity E)
    as ((N & X & U & G & _ & D & _ & _ & H & _) & _).
  destruct (proj1 (case_sets_up_head py_floats ex_float1 two_read ex_junk casedata0 "1100" o' ex_first
    [row_f1; row_f4] ["5 6 7"%string] [] [1; 2] [10; 8] 1 [2] 2 [2] (3 / 10000) (Fin 3) ltac:(discriminate)
    two_layout E X U D H En ltac:(rewrite N; cbn; lia)) ltac:(lra) two_sorted)
    as (m & m1 & m2 & E0 & E1 & E2 & _ & _ & G2 & (T & B) & _).
  exists m, m1, m2. split; [exact E|]. split; [exact X|]. split; [exact U|]. split; [exact E0|].
  split; [exact E1|]. split; [exact E2|]. split; [apply T; right; left; reflexivity|]. split; [exact G2|].
  intros x Hx. apply B; [|exact Hx]. intros y u [K|[K|[]]]; injection K as <- <-; lra.
Qed.
Example case_gradient_sets_up_head_case : exists o' m m1 m2,
  set_case py_floats ex_float1 two_read ex_junk casedata0 "1100" = (o', Ok tt) /\
  case_du_e o' = [Fin 3; Fin (-2)] /\
  new_head pchip_scipy (Fin (3 / 10000)) (PNum 10) (PTup [PArr (vec [1; 2]); PArr (vec [3; -2])]) PNone (Fin 3) = Ok m /\
  set_initial_delta_m m (Fin 1) = (m1, Ok tt) /\ set_initial_shape_d m1 (Fin 2) = (m2, Ok tt) /\
  q_u_e m2 1 = Ok 10 /\ q_du_e m2 2 = Ok (-2).
Proof.
  destruct two_loads as (o' & E & En). exists o'.
  destruct (case_arrays py_floats ex_float1 two_read ex_junk casedata0 "1100" o' ex_first [row_f1; row_f4]
    ["5 6 7"%string] [] two_entries _ ltac:(discriminate) two_layout two_file_entries two_velocity E)
    as ((N & X & U & G & _ & D & _ & _ & H & _) & _).
  destruct (case_gradient_sets_up_head py_floats ex_float1 two_read ex_junk casedata0 "1100" o' ex_first
    [row_f1; row_f4] ["5 6 7"%string] [] [1; 2] 10 [8] [3; -2] 1 [2] 2 [2] (3 / 10000) (Fin 3) ltac:(discriminate)
    two_layout E X U G D H En ltac:(rewrite N; cbn; lia) ltac:(lra) two_sorted)
    as (m & m1 & m2 & E0 & E1 & E2 & _ & _ & _ & T0 & T).
  exists m, m1, m2. split; [exact E|]. split; [exact G|]. split; [exact E0|].
  split; [exact E1|]. split; [exact E2|]. split; [exact T0|]. apply T. right. left. reflexivity.
Qed.
