(** C166: the arrays of a loaded Stanford case. *)
From Coq Require Import Reals List String ZArith Lia Lra.
From Verif Require Import PyBase PyText StanfordModel StanfordSpec StanfordProps
  CaseQueryModel CaseQuerySpec CaseQueryProofs.
Import ListNotations.
Open Scope R_scope.

Theorem case_arrays : forall floats float1 read_case junk o c o' first summ smoo rest es vs,
  c <> ""%string ->
  case_holds read_case c first (summ :: smoo :: rest) ->
  file_entries floats (units_of c) summ rest es ->
  Forall2 (fun t v => prints floats t (velocity_columns (units_of c) v)) smoo vs ->
  set_case floats float1 read_case junk o c = (o', Ok tt) ->
  (station_count o' = List.length es /\
   case_x o' = map (either d_x f_x) es /\ case_u_e o' = map (either d_u_e f_u_e) es /\
   case_du_e o' = map (table f_du_e) es /\
   case_delta_d o' = map (either d_dels (fun f => f_h f * f_theta f)) es /\
   case_delta_m o' = map (either d_theta f_theta) es /\
   case_delta_k o' = map (either d_enth (fun f => f_hs f * f_theta f)) es /\
   case_delta_c o' = map (line d_clth) es /\
   case_shape_d o' = map (either d_h f_h) es /\ case_shape_k o' = map (either d_hs f_hs) es /\
   case_shape_eq o' = map (either d_g f_g) es /\ case_c_f o' = map (table f_cf) es /\
   case_c_f_lt o' = map (table f_cf_lt) es /\ case_c_f_exp o' = map (table f_cf_exp) es /\
   case_beta_eq o' = map (table f_beta) es /\
   case_u_star o' = map (either d_us (fun f => f_u_e f * sqrt (f_cf f / 2))) es /\
   case_nu o' = map (line d_nu) es /\ case_re_delta_d o' = map (line d_re_dels) es /\
   case_re_delta_m o' = map (line d_re_theta) es) /\
  (case_x_smooth o' = map (fun v => Fin (v_x v)) vs /\
   case_u_e_smooth o' = map (fun v => Fin (v_u_e v)) vs /\
   case_du_e_smooth o' = map (fun v => Fin (v_du_e v)) vs) /\
  (forall k i e, nth_error es i = Some e -> denotes k (List.length es) i ->
     case_y o' k = Ok (samples p_y e) /\ case_y_plus o' k = Ok (samples p_yplus e) /\
     case_y_c o' k = Ok (samples p_yc e) /\
     case_u o' k = Ok (velocities e) /\
     case_u_plus o' k = Ok (samples p_uplus e) /\ case_u_defect o' k = Ok (samples p_defect e)) /\
  (forall k, (forall i, ~ denotes k (List.length es) i) ->
     case_station o' k = Err IndexError /\ case_y o' k = Err IndexError /\ case_y_plus o' k = Err IndexError /\
     case_y_c o' k = Err IndexError /\ case_u o' k = Err IndexError /\ case_u_plus o' k = Err IndexError /\
     case_u_defect o' k = Err IndexError).
Proof. exact arrays_lemma. Qed.
Print Assumptions case_arrays.

Theorem no_case_arrays : forall read_case floats float1 junk o o',
  set_case floats float1 read_case junk o "" = (o', Ok tt) \/ o' = casedata0 ->
  station_count o' = 0%nat /\ case_x o' = [] /\ case_x_smooth o' = [] /\ case_u_e_smooth o' = [] /\
  case_du_e_smooth o' = [] /\ forall k, case_station o' k = Err IndexError.
Proof. exact nothing_loaded_lemma. Qed.
Print Assumptions no_case_arrays.

(** The example case: two stations with a line and a profile each. *)
Definition ex_entries : list entry :=
  [{| e_flow := f1; e_detail := Some d1; e_profile := [p1; p2] |};
   {| e_flow := f1; e_detail := Some d1; e_profile := [p2] |}].
Lemma ex_file_entries : file_entries py_floats (units_of "1100") [row_f1; row_f1]
  [[row_d1; row_d1]; [row_p1; row_p2]; [row_p2]] ex_entries.
Proof.
  intros [|[|i]]; cbn [nth_error ex_entries].
  - exists row_f1, row_d1, [row_p1; row_p2]. split; [repeat split|].
    split; [exact f1_printed|]. split; [cbn; lra|]. split; [discriminate|]. split; [exact d1_printed|].
    constructor; [exact p1_printed|]. constructor; [exact p2_printed|constructor].
  - exists row_f1, row_d1, [row_p2]. split; [repeat split|].
    split; [exact f1_printed|]. split; [cbn; lra|]. split; [discriminate|]. split; [exact d1_printed|].
    constructor; [exact p2_printed|constructor].
  - replace (nth_error (@nil entry) i) with (@None entry) by (destruct i; reflexivity).
    intros a b r [H _]. destruct i; discriminate.
Qed.
Example case_arrays_case : exists o', set_case py_floats ex_float1 ex_read ex_junk casedata0 "1100" = (o', Ok tt) /\
  case_delta_m o' = [Fin (d_theta d1); Fin (d_theta d1)] /\
  case_y o' (-2) = Ok [Fin (p_y p1); Fin (p_y p2)] /\ case_y o' 1 = Ok [Fin (p_y p2)] /\
  case_y o' 2 = Err IndexError /\ case_y o' (-3) = Err IndexError /\ case_u_e_smooth o' = [Fin 6].
Proof.
  destruct (ex_case_loads casedata0) as (o' & E & _). exists o'. split; [exact E|].
  assert (V : Forall2 (fun t v => prints py_floats t (velocity_columns (units_of "1100") v))
    ["5 6 7"%string] [{| v_x := 5; v_u_e := 6; v_du_e := 7 |}]).
  { constructor; [|constructor]. print_row [5; 6; 7]. }
  destruct (case_arrays py_floats ex_float1 ex_read ex_junk casedata0 "1100" o' ex_first [row_f1; row_f1]
    ["5 6 7"%string] [[row_d1; row_d1]; [row_p1; row_p2]; [row_p2]] ex_entries _ ltac:(discriminate)
    (ex_layout "1100" (or_introl eq_refl)) ex_file_entries V E) as (A & S & P & O).
  split; [apply A|].
  split; [exact (proj1 (P (-2)%Z 0%nat _ eq_refl ltac:(split; [cbn; lia|right; reflexivity])))|].
  split; [exact (proj1 (P 1%Z 1%nat _ eq_refl ltac:(split; [cbn; lia|left; reflexivity])))|].
  split; [apply O; intros i [H1 H2]; cbn in H1, H2; lia|].
  split; [apply O; intros i [H1 H2]; cbn in H1, H2; lia|]. apply S.
Qed.
