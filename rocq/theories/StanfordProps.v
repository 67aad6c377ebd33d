(** 1968 Stanford data: the theorems. *)
From Coq Require Import Reals List Bool String Ascii Lia Lra Classical.
From Verif Require Import PyBase PyBaseFacts PyText StanfordModel StanfordSpec StanfordProofs
  StanfordLoadProofs StanfordHistoryProofs StanfordCaseProofs.
Import ListNotations.
Open Scope R_scope.

(* ---------------- a case for the examples ---------------- *)

Definition ex_float1 (s : string) : option xr := py_float (list_ascii_of_string s).
Definition ex_junk (i : nat) : xr := Fin 7.

Definition f1 : flow := {| f_x := 1; f_u_e := 10; f_du_e := 3; f_theta := 1; f_h := 2; f_hs := 3;
  f_g := 6; f_cf := 2; f_cf_lt := 4; f_cf_exp := 5; f_beta := 0 |}.
Definition row_f1 : string := "1 10 3 100 2 3 6 2 4 5 0".
Definition d1 : detail := {| d_x := 1; d_us := 10; d_u_e := 10; d_nu := 10; d_theta := 1; d_dels := 2;
  d_enth := 3; d_clth := 4; d_h := 2; d_g := 6; d_hs := 3; d_re_theta := 1; d_re_dels := 2 |}.
Definition row_d1 : string := "1 10 10 100000 100 200 300 400 2 6 3 1 2".
(** The same, with a displacement thickness 1 mm larger. *)
Definition d2 : detail := {| d_x := 1; d_us := 10; d_u_e := 10; d_nu := 10; d_theta := 1; d_dels := 2001 / 1000;
  d_enth := 3; d_clth := 4; d_h := 2; d_g := 6; d_hs := 3; d_re_theta := 1; d_re_dels := 2 |}.
Definition row_d2 : string := "1 10 10 100000 100 200.1 300 400 2 6 3 1 2".
Definition p1 : profile := {| p_yplus := 1; p_uplus := 1; p_y := 1; p_ratio := 1; p_yc := 0; p_defect := 0 |}.
Definition row_p1 : string := "1 1 100 1 0 0".
Definition p2 : profile := {| p_yplus := 2; p_uplus := 1; p_y := 2; p_ratio := 1; p_yc := 1; p_defect := 0 |}.
Definition row_p2 : string := "2 1 200 1 1 0".
(** Below the wall. *)
Definition p3 : profile := {| p_yplus := -1; p_uplus := 1; p_y := -1; p_ratio := 1; p_yc := 0; p_defect := 0 |}.
Definition row_p3 : string := "-1 1 -100 1 0 0".
(** In feet and inches. *)
Definition f3 : flow := {| f_x := 3048 / 10000; f_u_e := 2 * (3048 / 10000); f_du_e := 3;
  f_theta := 4 * (254 / 10000); f_h := 2; f_hs := 3; f_g := 6; f_cf := 2; f_cf_lt := 4; f_cf_exp := 5;
  f_beta := 0 |}.
Definition row_f3 : string := "1 2 3 4 2 3 6 2 4 5 0".

Ltac list_eq := unfold summary_columns, detail_columns, profile_columns, velocity_columns;
  repeat (apply f_equal2; [cbn; first [lra|field]|]); reflexivity.
Ltac print_row l := unfold prints; transitivity (Some (map Fin l));
  [reflexivity|apply f_equal, f_equal; list_eq].

Lemma f1_printed : prints py_floats row_f1 (summary_columns SI f1).
Proof. print_row [1; 10; 3; 100; 2; 3; 6; 2; 4; 5; 0]. Qed.
Lemma f3_printed : prints py_floats row_f3 (summary_columns US f3).
Proof. print_row [1; 2; 3; 4; 2; 3; 6; 2; 4; 5; 0]. Qed.
Lemma d1_printed : prints py_floats row_d1 (detail_columns SI d1).
Proof. print_row [1; 10; 10; 100000; 100; 200; 300; 400; 2; 6; 3; 1; 2]. Qed.
Lemma d2_printed : prints py_floats row_d2 (detail_columns SI d2).
Proof. print_row [1; 10; 10; 100000; 100; 2001 / 10; 300; 400; 2; 6; 3; 1; 2]. Qed.
Lemma p1_printed : prints py_floats row_p1 (profile_columns SI p1).
Proof. print_row [1; 1; 100; 1; 0; 0]. Qed.
Lemma p2_printed : prints py_floats row_p2 (profile_columns SI p2).
Proof. print_row [2; 1; 200; 1; 1; 0]. Qed.
Lemma p3_printed : prints py_floats row_p3 (profile_columns SI p3).
Proof. print_row [-1; 1; -100; 1; 0; 0]. Qed.

Lemma sqrt_half_cf : sqrt (2 / 2) = 1.
Proof. replace (2 / 2) with 1 by lra. apply sqrt_1. Qed.
Ltac close := match goal with |- Rabs ?e < _ => replace e with 0 by lra; rewrite Rabs_R0; lra
                            | |- Rabs ?e <= _ => replace e with 0 by lra; rewrite Rabs_R0; lra end.
Lemma f1_positive : positive_flow f1.  Proof. repeat split; cbn; lra. Qed.
Lemma f3_positive : positive_flow f3.  Proof. repeat split; cbn; lra. Qed.
Lemma d1_positive : positive_detail d1.  Proof. repeat split; cbn; lra. Qed.
Lemma d2_positive : positive_detail d2.  Proof. repeat split; cbn; lra. Qed.
Lemma f1_d1_agree : agree f1 d1.
Proof. unfold agree. cbn. rewrite sqrt_half_cf. repeat apply conj; close. Qed.
Lemma f1_d2_agree : agree f1 d2.
Proof.
  unfold agree. cbn. rewrite sqrt_half_cf. repeat apply conj; try close;
  apply Rabs_def1; lra.
Qed.
Lemma p1_agrees d : d = d1 \/ d = d2 -> sample_agrees d p1.
Proof. intros [-> | ->]; unfold sample_agrees; cbn; repeat apply conj; apply Rabs_le; lra. Qed.
Lemma p2_agrees : sample_agrees d1 p2.
Proof. unfold sample_agrees; cbn; repeat apply conj; apply Rabs_le; lra. Qed.
Lemma p3_agrees : sample_agrees d1 p3.
Proof. unfold sample_agrees; cbn; repeat apply conj; apply Rabs_le; lra. Qed.

Definition with_nl (t : string) : string := (t ++ String nl "")%string.
Definition head0 : string := with_nl "# CASE".
Definition ident_1100 : string := "IDENT = 1100".
Definition visc_1100 : string := " V =  3 ".
Definition ex_sections : list section := [
  {| sc_head1 := with_nl "# SUMMARY"; sc_head2 := with_nl "#  X  UI"; sc_lines := map with_nl [row_f1; row_f1] |};
  {| sc_head1 := with_nl "# SMOOTHED"; sc_head2 := with_nl "#  X  UI"; sc_lines := map with_nl ["5 6 7"%string] |};
  {| sc_head1 := with_nl "# STATIONS"; sc_head2 := with_nl "#  X  US"; sc_lines := map with_nl [row_d1; ""%string; row_d1] |};
  {| sc_head1 := with_nl "# PROFILE 1"; sc_head2 := with_nl "#  Y+"; sc_lines := map with_nl [row_p1; row_p2] |};
  {| sc_head1 := with_nl "# PROFILE 2"; sc_head2 := with_nl "#  Y+"; sc_lines := [row_p2] |}].
Definition ex_lines : list string :=
  [with_nl "Example"] ++ head0 :: map with_nl [ident_1100; visc_1100] ++ flat_map section_lines ex_sections.
Definition ex_first : list string := [ident_1100; visc_1100].
Definition ex_rows : list (list string) :=
  [[row_f1; row_f1]; ["5 6 7"%string]; [row_d1; row_d1]; [row_p1; row_p2]; [row_p2]].
Definition ex_read (c : string) : option (list string) :=
  if String.eqb c "1100" then Some ex_lines
  else if String.eqb c "1200" then Some ex_lines
  else None.

Lemma header_hash t : header_line (with_nl ("# " ++ t)).
Proof. exists ""%string, (t ++ String nl "")%string. reflexivity. Qed.
Lemma not_header l : has_marker l = false -> ~ header_line l.
Proof. intros H C. apply has_marker_iff in C. congruence. Qed.
Lemma no_nl t : existsb (Ascii.eqb nl) (list_ascii_of_string t) = false -> ~ has_newline t.
Proof.
  intros H (a & b & ->). rewrite chars_app, existsb_app in H. apply orb_false_iff in H.
  destruct H as [_ H]. cbn in H. discriminate.
Qed.
Ltac rows_not_headers := repeat (apply Forall_cons; [apply not_header; reflexivity|]); apply Forall_nil.
Ltac no_newlines := repeat (apply Forall_cons; [apply no_nl; reflexivity|]); apply Forall_nil.

Lemma ex_layout c : c = "1100"%string \/ c = "1200"%string -> case_holds ex_read c ex_first ex_rows.
Proof.
  intros Hc. exists ex_lines, [with_nl "Example"], head0, (map with_nl ex_first), ex_first, ex_sections,
    [[row_f1; row_f1]; ["5 6 7"%string]; [row_d1; ""%string; row_d1]; [row_p1; row_p2]; [row_p2]].
  split; [destruct Hc as [-> | ->]; reflexivity|]. split.
  { split; [reflexivity|]. split; [rows_not_headers|]. split; [apply (header_hash "CASE")|].
    split; [rows_not_headers|].
    repeat (apply Forall_cons; [split; [eapply header_hash|split; [eapply header_hash|rows_not_headers]]|]).
    apply Forall_nil. }
  split; [split; [no_newlines|left; reflexivity]|]. split; [|split; reflexivity].
  repeat (apply Forall2_cons; [split; [no_newlines|first [left; reflexivity|
    right; exists [], row_p2; split; reflexivity]]|]). apply Forall2_nil.
Qed.

(* ---------------- C66: units ---------------- *)

Theorem flow_row_loads floats junk u f t :
  prints floats t (summary_columns u f) -> 0 < f_cf f ->
  (positive_flow f <-> exists s, new_station floats junk (is_si u) t "" [] = Ok s) /\
  (forall s, new_station floats junk (is_si u) t "" [] = Ok s -> shows_flow s f /\ shows_no_profile s).
Proof. exact (flow_station floats junk u f t). Qed.
Print Assumptions flow_row_loads.
Example flow_row_loads_us : exists s, new_station py_floats ex_junk false row_f3 "" [] = Ok s /\
  st_x s = Fin (3048 / 10000) /\ st_delta_m s = Fin (4 * (254 / 10000)).
Proof.
  destruct (flow_row_loads py_floats ex_junk US f3 row_f3 f3_printed) as [H1 H2]; [cbn; lra|].
  destruct (proj1 H1 f3_positive) as [s Hs]. exists s. split; [exact Hs|].
  destruct (H2 s Hs) as [(_ & Hx & _ & Hm & _) _]. split; assumption.
Qed.

Theorem station_loads floats junk u f d t t2 rows ps :
  prints floats t (summary_columns u f) -> 0 < f_cf f ->
  prints floats t2 (detail_columns u d) -> t2 <> ""%string ->
  Forall2 (fun t p => prints floats t (profile_columns u p)) rows ps ->
  (positive_flow f /\ agree f d /\ positive_detail d /\ Forall (sample_agrees d) ps <->
   exists s, new_station floats junk (is_si u) t t2 rows = Ok s) /\
  (forall s, new_station floats junk (is_si u) t t2 rows = Ok s ->
   shows_detail s f d /\ shows_profile s d ps).
Proof. exact (detail_station floats junk u f d t t2 rows ps). Qed.
Print Assumptions station_loads.
Lemma ex_station : exists s, new_station py_floats ex_junk true row_f1 row_d1 [row_p1; row_p2] = Ok s.
Proof.
  apply (station_loads py_floats ex_junk SI f1 d1 row_f1 row_d1 _ [p1; p2] f1_printed);
    [cbn; lra|exact d1_printed|discriminate|
     constructor; [exact p1_printed|constructor; [exact p2_printed|constructor]]|].
  split; [exact f1_positive|]. split; [exact f1_d1_agree|]. split; [exact d1_positive|].
  constructor; [apply p1_agrees; left; reflexivity|constructor; [exact p2_agrees|constructor]].
Qed.
Lemma ex_station2 : exists s, new_station py_floats ex_junk true row_f1 row_d1 [row_p2] = Ok s.
Proof.
  apply (station_loads py_floats ex_junk SI f1 d1 row_f1 row_d1 _ [p2] f1_printed);
    [cbn; lra|exact d1_printed|discriminate|constructor; [exact p2_printed|constructor]|].
  split; [exact f1_positive|]. split; [exact f1_d1_agree|]. split; [exact d1_positive|].
  constructor; [exact p2_agrees|constructor].
Qed.
Example station_loads_ex : exists s, new_station py_floats ex_junk true row_f1 row_d1 [row_p1; row_p2] = Ok s /\
  sa_y s = [Fin 1; Fin 2].
Proof.
  destruct ex_station as [s Hs]. exists s. split; [exact Hs|].
  destruct (station_loads py_floats ex_junk SI f1 d1 row_f1 row_d1 [row_p1; row_p2] [p1; p2] f1_printed) as [_ H];
    [cbn; lra|exact d1_printed|discriminate|
     constructor; [exact p1_printed|constructor; [exact p2_printed|constructor]]|].
  destruct (H s Hs) as [_ (_ & _ & Hy & _)]. exact Hy.
Qed.

Theorem units_immaterial floats junk a_us a_si b_us b_si r_us r_si :
  rewritten floats summary_to_si a_us a_si ->
  (b_us = ""%string <-> b_si = ""%string) -> rewritten floats detail_to_si b_us b_si ->
  Forall2 (rewritten floats profile_to_si) r_us r_si ->
  new_station floats junk false a_us b_us r_us = new_station floats junk true a_si b_si r_si.
Proof. exact (new_station_units floats junk a_us a_si b_us b_si r_us r_si). Qed.
Print Assumptions units_immaterial.
(** 10000 ft is 3048 m, 100 in is 254 cm, 10000 ft^2/s is 9290304 cm^2/s.  One pair of summary rows
    is fine, one is refused (negative momentum thickness). *)
Ltac rewrite_row us si := unfold rewritten;
  match goal with |- py_floats ?t = match py_floats ?r with _ => _ end =>
    change (py_floats r) with (Some (map Fin us)); transitivity (Some (map Fin si)); [reflexivity|];
    cbn [map summary_to_si detail_to_si profile_to_si velocity_to_si]; apply f_equal;
    repeat (apply f_equal2; [unfold ft, inch, ft2; cbn [xmul]; first [reflexivity|apply f_equal; lra]|]);
    reflexivity end.
Example summary_rewritten :
  rewritten py_floats summary_to_si "10000 20000 3 100 2 3 6 2 4 5 0" "3048 6096 3 254 2 3 6 2 4 5 0".
Proof. rewrite_row [10000; 20000; 3; 100; 2; 3; 6; 2; 4; 5; 0] [3048; 6096; 3; 254; 2; 3; 6; 2; 4; 5; 0]. Qed.
Example bad_summary_rewritten :
  rewritten py_floats summary_to_si "10000 20000 3 -100 2 3 6 2 4 5 0" "3048 6096 3 -254 2 3 6 2 4 5 0".
Proof. rewrite_row [10000; 20000; 3; -100; 2; 3; 6; 2; 4; 5; 0] [3048; 6096; 3; -254; 2; 3; 6; 2; 4; 5; 0]. Qed.
Example detail_rewritten :
  rewritten py_floats detail_to_si "10000 20000 10000 10000 100 100 100 100 2 6 3 1 2"
                                   "3048 6096 3048 9290304 254 254 254 254 2 6 3 1 2".
Proof.
  rewrite_row [10000; 20000; 10000; 10000; 100; 100; 100; 100; 2; 6; 3; 1; 2]
              [3048; 6096; 3048; 9290304; 254; 254; 254; 254; 2; 6; 3; 1; 2].
Qed.
Example no_detail_rewritten : rewritten py_floats detail_to_si "" "".
Proof. reflexivity. Qed.
Example profile_rewritten : rewritten py_floats profile_to_si "1 1 100 1 0 0" "1 1 254 1 0 0".
Proof. rewrite_row [1; 1; 100; 1; 0; 0] [1; 1; 254; 1; 0; 0]. Qed.

Theorem units_immaterial_velocity floats r_us r_si :
  Forall2 (rewritten floats velocity_to_si) r_us r_si ->
  new_smooth floats false r_us = new_smooth floats true r_si.
Proof. exact (new_smooth_units floats r_us r_si). Qed.
Print Assumptions units_immaterial_velocity.
Example velocity_rewritten : rewritten py_floats velocity_to_si "10000 20000 3" "3048 6096 3".
Proof. rewrite_row [10000; 20000; 3] [3048; 6096; 3]. Qed.

(* ---------------- C67: derived quantities ---------------- *)

Theorem derived_quantities_partial floats junk si a rows s :
  new_station floats junk si a "" rows = Ok s -> st_x s <> PInf -> derived s.
Proof. exact (derived_no_detail floats junk si a rows s). Qed.
Print Assumptions derived_quantities_partial.
Example derived_quantities_ex : exists s, new_station py_floats ex_junk true row_f1 "" [] = Ok s /\ st_x s <> PInf.
Proof.
  destruct (flow_row_loads py_floats ex_junk SI f1 row_f1 f1_printed) as [H1 H2]; [cbn; lra|].
  destruct (proj1 H1 f1_positive) as [s Hs]. exists s. split; [exact Hs|].
  destruct (H2 s Hs) as [(_ & Hx & _) _]. rewrite Hx. discriminate.
Qed.

Theorem derived_quantities_close floats junk u f d t t2 rows ps s :
  prints floats t (summary_columns u f) -> 0 < f_cf f ->
  prints floats t2 (detail_columns u d) -> t2 <> ""%string ->
  Forall2 (fun t p => prints floats t (profile_columns u p)) rows ps ->
  new_station floats junk (is_si u) t t2 rows = Ok s ->
  shows_detail s f d /\ close_to_derived f d.
Proof.
  intros H1 Hc H2 Hn Hr Hs.
  destruct (station_loads floats junk u f d t t2 rows ps H1 Hc H2 Hn Hr) as [Hi Hw].
  destruct (proj2 Hi (ex_intro _ s Hs)) as (P & A & D & _).
  split; [apply (Hw s Hs)|exact (agree_close f d P A D)].
Qed.
Print Assumptions derived_quantities_close.

(** With a station line the thicknesses are read, not derived. *)
Theorem derived_quantities_refuted : exists t t2 s,
  new_station py_floats ex_junk true t t2 [] = Ok s /\ ~ derived s.
Proof.
  destruct (station_loads py_floats ex_junk SI f1 d2 row_f1 row_d2 [] [] f1_printed) as [H1 H2];
    [cbn; lra|exact d2_printed|discriminate|constructor|].
  destruct (proj1 H1) as [s Hs].
  { split; [exact f1_positive|]. split; [exact f1_d2_agree|]. split; [exact d2_positive|constructor]. }
  exists row_f1, row_d2, s. split; [exact Hs|].
  destruct (H2 s Hs) as [(_ & _ & _ & Em & Eh & _ & _ & Ed & _) _]. intros (C & _).
  rewrite Em, Eh, Ed in C. cbn [d_theta d_h d_dels d2] in C. rewrite xmul_fin in C. apply Fin_inj in C. lra.
Qed.
Print Assumptions derived_quantities_refuted.

(* ---------------- C68, C89: whole cases ---------------- *)

Theorem stations_paired floats float1 read_case junk o c o' first summ smoo rest :
  c <> ""%string -> case_holds read_case c first (summ :: smoo :: rest) ->
  set_case floats float1 read_case junk o c = (o', Ok tt) ->
  forall i st, nth_error (cd_station o') i = Some st <->
    exists a b r, station_source summ rest i a b r /\
      new_station floats junk (is_si (units_of c)) a b r = Ok st.
Proof. exact (case_pairing floats float1 read_case junk o c o' first summ smoo rest). Qed.
Print Assumptions stations_paired.

Theorem well_formed_case_loads floats float1 read_case junk o c ident visc more key w kv nu summ smoo rest vs :
  case_holds read_case c (ident :: visc :: more) (summ :: smoo :: rest) ->
  c <> ""%string -> plain_word c ->
  assigns ident key c -> key = "IDENT"%string \/ key = "ident"%string ->
  assigns visc kv w -> kv = "V"%string \/ kv = "v"%string -> plain_word w ->
  float1 w = Some (Fin (nu / viscosity_unit (units_of c))) ->
  Forall2 (fun t v => prints floats t (velocity_columns (units_of c) v)) smoo vs ->
  (forall i a b r, station_source summ rest i a b r ->
     exists st, new_station floats junk (is_si (units_of c)) a b r = Ok st) ->
  exists o', set_case floats float1 read_case junk o c = (o', Ok tt) /\
    cd_case o' = c /\ cd_nu_ref o' = Fin nu /\
    (exists m, cd_smooth o' = Some m /\ shows_velocities m vs) /\
    (forall i st, nth_error (cd_station o') i = Some st <->
       exists a b r, station_source summ rest i a b r /\
         new_station floats junk (is_si (units_of c)) a b r = Ok st).
Proof.
  exact (case_loads floats float1 read_case junk o c ident visc more key w kv nu summ smoo rest vs).
Qed.
Print Assumptions well_formed_case_loads.

Lemma blanks s : forallb is_space (list_ascii_of_string s) = true -> blank s.
Proof. intros H. unfold blank. apply Forall_forall. rewrite forallb_forall in H. exact H. Qed.
Lemma plain s : forallb (fun c => negb (is_space c) && negb (Ascii.eqb c "=")) (list_ascii_of_string s) = true ->
  plain_word s.
Proof.
  intros H. unfold plain_word. apply Forall_forall. rewrite forallb_forall in H. intros c Hc.
  specialize (H c Hc). apply andb_true_iff in H. destruct H as [H1 H2].
  apply negb_true_iff in H1. apply negb_true_iff, Ascii.eqb_neq in H2. auto.
Qed.
Lemma ex_ident : assigns ident_1100 "IDENT" "1100".
Proof. exists ""%string, " "%string, " "%string, ""%string. repeat (split; [apply blanks; reflexivity|]). reflexivity. Qed.
Lemma ex_visc : assigns visc_1100 "V" "3".
Proof. exists " "%string, " "%string, "  "%string, " "%string. repeat (split; [apply blanks; reflexivity|]). reflexivity. Qed.

Lemma ex_case_loads o : exists o', set_case py_floats ex_float1 ex_read ex_junk o "1100" = (o', Ok tt) /\
  cd_case o' = "1100"%string /\ cd_nu_ref o' = Fin (3 / 10000) /\ station_count o' = 2%nat.
Proof.
  destruct (well_formed_case_loads py_floats ex_float1 ex_read ex_junk o "1100" ident_1100 visc_1100 []
    "IDENT" "3" "V" (3 / 10000) [row_f1; row_f1] ["5 6 7"%string]
    [[row_d1; row_d1]; [row_p1; row_p2]; [row_p2]] [{| v_x := 5; v_u_e := 6; v_du_e := 7 |}])
    as (o' & E & H1 & H2 & _ & H4).
  - apply ex_layout. left. reflexivity.
  - discriminate.
  - apply plain. reflexivity.
  - exact ex_ident.
  - left. reflexivity.
  - exact ex_visc.
  - left. reflexivity.
  - apply plain. reflexivity.
  - transitivity (Some (Fin 3)); [reflexivity|]. apply f_equal, f_equal. cbn. field.
  - constructor; [|constructor]. print_row [5; 6; 7].
  - intros i a b r (Ha & Hb & Hr).
    destruct i as [|[|i]]; cbn in Ha, Hb, Hr;
      [injection Ha as <-; injection Hb as <-; injection Hr as <-; exact ex_station
      |injection Ha as <-; injection Hb as <-; injection Hr as <-; exact ex_station2
      |destruct i; discriminate].
  - exists o'. repeat (split; [assumption|]). unfold station_count.
    assert (L : forall i, nth_error (cd_station o') i <> None <-> (i < 2)%nat).
    { intros i. split.
      - intros N. destruct (nth_error (cd_station o') i) as [st|] eqn:En; [|congruence].
        apply H4 in En. destruct En as (a & b & r & (Ha & _) & _).
        destruct i as [|[|i]]; [lia|lia|destruct i; discriminate].
      - intros Hi. destruct i as [|[|i]]; [| |lia].
        + destruct ex_station as [st Hst].
          assert (Q : nth_error (cd_station o') 0 = Some st).
          { apply H4. exists row_f1, row_d1, [row_p1; row_p2]. split; [repeat split|exact Hst]. }
          rewrite Q. discriminate.
        + destruct ex_station2 as [st Hst].
          assert (Q : nth_error (cd_station o') 1 = Some st).
          { apply H4. exists row_f1, row_d1, [row_p2]. split; [repeat split|exact Hst]. }
          rewrite Q. discriminate. }
    pose proof (fun i => nth_error_Some (cd_station o') i) as NS.
    pose proof (proj2 (L 1%nat)) as L1. pose proof (proj1 (L 2%nat)) as L2.
    rewrite (NS 1%nat) in L1. rewrite (NS 2%nat) in L2. lia.
Qed.
Example stations_paired_ex : exists o', set_case py_floats ex_float1 ex_read ex_junk casedata0 "1100" = (o', Ok tt) /\
  case_holds ex_read "1100" ex_first ([row_f1; row_f1] :: ["5 6 7"%string] :: [[row_d1; row_d1]; [row_p1; row_p2]; [row_p2]]).
Proof.
  destruct (ex_case_loads casedata0) as (o' & E & _). exists o'. split; [exact E|].
  apply ex_layout. left. reflexivity.
Qed.

(* ---------------- C69: sections ---------------- *)

Theorem file_sections read_case c first sections :
  case_holds read_case c first sections -> get_case_data read_case c = first :: sections.
Proof. exact (case_sections read_case c first sections). Qed.
Print Assumptions file_sections.
Example file_sections_ex : case_holds ex_read "1100" ex_first ex_rows.
Proof. apply ex_layout. left. reflexivity. Qed.

(* ---------------- C82: profiles agree with the station ---------------- *)

Theorem profile_consistent floats junk u f d t t2 rows ps s :
  prints floats t (summary_columns u f) -> 0 < f_cf f ->
  prints floats t2 (detail_columns u d) -> t2 <> ""%string ->
  Forall2 (fun t p => prints floats t (profile_columns u p)) rows ps ->
  new_station floats junk (is_si u) t t2 rows = Ok s ->
  List.length (sa_y s) = List.length rows /\
  exists u_e u_star nu delta_c, st_u_e s = Fin u_e /\ st_u_star s = Fin u_star /\ st_nu s = Fin nu /\
    st_delta_c s = Fin delta_c /\
    forall i, (i < List.length rows)%nat -> exists yplus uplus y v yc defect,
      nth_error (sa_y_plus s) i = Some (Fin yplus) /\ nth_error (sa_u_plus s) i = Some (Fin uplus) /\
      nth_error (sa_y s) i = Some (Fin y) /\ nth_error (sa_u s) i = Some (Fin v) /\
      nth_error (sa_y_c s) i = Some (Fin yc) /\ nth_error (sa_u_defect s) i = Some (Fin defect) /\
      Rabs (yplus - y * u_star / nu) <= 1 /\ Rabs (yc - y / delta_c) <= 1 / 2 /\
      Rabs (uplus - v / u_star) <= 1 / 2 /\ Rabs (defect - (u_e - v) / u_star) <= 1 / 2.
Proof.
  intros H1 Hc H2 Hn Hr Hs.
  destruct (station_loads floats junk u f d t t2 rows ps H1 Hc H2 Hn Hr) as [Hi Hw].
  destruct (proj2 Hi (ex_intro _ s Hs)) as (_ & _ & _ & Hp).
  destruct (Hw s Hs) as [(_ & _ & Eu & _ & _ & _ & _ & _ & _ & Es & En & Ec & _) (Q1 & Q2 & Q3 & Q4 & Q5 & Q6)].
  assert (L : List.length rows = List.length ps) by (clear - Hr; induction Hr; cbn; congruence).
  split; [rewrite Q3, map_length; symmetry; exact L|].
  exists (d_u_e d), (d_us d), (d_nu d), (d_clth d). repeat (split; [assumption|]).
  intros i Hlt. destruct (nth_error ps i) as [p|] eqn:Ep.
  2:{ apply nth_error_None in Ep. lia. }
  rewrite Forall_forall in Hp. destruct (Hp p (nth_error_In _ _ Ep)) as (A1 & A2 & A3 & A4).
  exists (p_yplus p), (p_uplus p), (p_y p), (d_u_e d * p_ratio p), (p_yc p), (p_defect p).
  rewrite Q1, Q2, Q3, Q4, Q5, Q6, !nth_error_map, Ep.
  repeat (split; [first [reflexivity|assumption]|]). assumption.
Qed.
Print Assumptions profile_consistent.

(* ---------------- C83: reset is like new ---------------- *)

Theorem reset_like_new floats junk si a b rows s :
  (forall s', reset floats junk si a b rows s = (s', Ok tt) <-> new_station floats junk si a b rows = Ok s') /\
  (forall e, snd (reset floats junk si a b rows s) = Err e <-> new_station floats junk si a b rows = Err e).
Proof. exact (reset_as_new floats junk si a b rows s). Qed.
Print Assumptions reset_like_new.
Example reset_like_new_ex : exists s, new_station py_floats ex_junk true row_f1 row_d1 [row_p2] = Ok s /\
  forall used, reset py_floats ex_junk true row_f1 row_d1 [row_p2] used = (s, Ok tt).
Proof.
  destruct ex_station2 as [s Hs]. exists s. split; [exact Hs|]. intros used. apply reset_like_new. exact Hs.
Qed.

(* ---------------- C84, C85: changing the case ---------------- *)

Theorem case_change_like_new floats float1 read_case junk o1 o2 c :
  let r1 := set_case floats float1 read_case junk o1 c in
  let r2 := set_case floats float1 read_case junk o2 c in
  snd r1 = snd r2 /\ cd_nu_ref (fst r1) = cd_nu_ref (fst r2) /\ cd_smooth (fst r1) = cd_smooth (fst r2) /\
  cd_station (fst r1) = cd_station (fst r2) /\ (snd r1 = Ok tt -> fst r1 = fst r2).
Proof. exact (set_case_history floats float1 read_case junk o1 o2 c). Qed.
Print Assumptions case_change_like_new.
Example case_change_ex : exists o1 o2, set_case py_floats ex_float1 ex_read ex_junk casedata0 "1100" = (o1, Ok tt) /\
  station_count o1 = 2%nat /\ set_case py_floats ex_float1 ex_read ex_junk o1 "1100" = (o2, Ok tt) /\ o2 = o1.
Proof.
  destruct (ex_case_loads casedata0) as (o1 & E1 & _ & _ & N). exists o1.
  destruct (ex_case_loads o1) as (o2 & E2 & _). exists o2. repeat (split; [assumption|]).
  pose proof (case_change_like_new py_floats ex_float1 ex_read ex_junk casedata0 o1 "1100") as H.
  cbv zeta in H. rewrite E1, E2 in H. cbn [fst snd] in H. symmetry. apply H. reflexivity.
Qed.

(** After a failure the object keeps no data of the old case... *)
Theorem failed_change_drops_data_partial floats float1 read_case junk o c :
  c <> ""%string -> read_case c = None ->
  exists o', set_case floats float1 read_case junk o c = (o', Err IndexError) /\ cd_case o' = cd_case o /\
    cd_nu_ref o' = PInf /\ cd_smooth o' = None /\ cd_station o' = [].
Proof. exact (set_case_missing floats float1 read_case junk o c). Qed.
Print Assumptions failed_change_drops_data_partial.
(** ... but still carries its name, so it is neither the old case nor an empty object. *)
Theorem failed_change_consistent_refuted : exists o c o' e,
  set_case py_floats ex_float1 ex_read ex_junk o c = (o', Err e) /\
  set_case py_floats ex_float1 ex_read ex_junk casedata0 "1100" = (o, Ok tt) /\
  o' <> o /\ cd_case o' = "1100"%string /\ cd_station o' = [].
Proof.
  destruct (ex_case_loads casedata0) as (o & E & Ec & _ & N).
  destruct (failed_change_drops_data_partial py_floats ex_float1 ex_read ex_junk o "9999") as (o' & E' & Hc & _ & _ & Hs);
    [discriminate|reflexivity|].
  exists o, "9999"%string, o', IndexError. repeat (split; [assumption|]).
  split; [|split; [rewrite Hc; exact Ec|exact Hs]].
  intros ->. unfold station_count in N. rewrite Hs in N. discriminate.
Qed.
Print Assumptions failed_change_consistent_refuted.

Theorem wrong_ident_rejected floats float1 read_case junk o c ident more sections key other :
  case_holds read_case c (ident :: more) sections -> c <> ""%string ->
  assigns ident key other -> plain_word key -> plain_word other ->
  (key <> "IDENT"%string /\ key <> "ident"%string) \/ other <> c ->
  exists o', set_case floats float1 read_case junk o c = (o', Err ValueError) /\ cd_case o' = cd_case o /\
    cd_nu_ref o' = PInf /\ cd_smooth o' = None /\ cd_station o' = [].
Proof. exact (set_case_wrong_ident floats float1 read_case junk o c ident more sections key other). Qed.
Print Assumptions wrong_ident_rejected.
Example wrong_ident_ex : exists o', set_case py_floats ex_float1 ex_read ex_junk casedata0 "1200" = (o', Err ValueError).
Proof.
  destruct (wrong_ident_rejected py_floats ex_float1 ex_read ex_junk casedata0 "1200" ident_1100 [visc_1100] ex_rows
    "IDENT" "1100") as (o' & E & _).
  - apply ex_layout. right. reflexivity.
  - discriminate.
  - exact ex_ident.
  - apply plain. reflexivity.
  - apply plain. reflexivity.
  - right. discriminate.
  - exists o'. exact E.
Qed.

Theorem empty_case_clears floats float1 read_case junk o :
  exists o', set_case floats float1 read_case junk o "" = (o', Ok tt) /\ cd_case o' = ""%string /\
    cd_nu_ref o' = PInf /\ cd_smooth o' = None /\ cd_station o' = [].
Proof. exact (set_case_empty floats float1 read_case junk o). Qed.
Print Assumptions empty_case_clears.

(* ---------------- C86, C87: signs ---------------- *)

Theorem station_positive floats junk ops si a b rows s :
  new_station floats junk si a b rows = Ok s ->
  positive_station (fold_left (fun s o => run_op floats junk o s) ops s).
Proof. intros H. apply positive_run. exact (positive_new floats junk si a b rows s H). Qed.
Print Assumptions station_positive.
Example station_positive_ex : exists s, new_station py_floats ex_junk true row_f1 row_d1 [row_p2] = Ok s /\
  run_op py_floats ex_junk (OpNu (Fin 0)) s = s /\ st_nu (run_op py_floats ex_junk (OpNu (Fin 4)) s) = Fin 4.
Proof.
  destruct ex_station2 as [s Hs]. exists s. split; [exact Hs|]. unfold run_op, set_nu.
  rewrite fin_le_true by lra. rewrite fin_le_false by lra. split; reflexivity.
Qed.

Theorem profile_nonnegative_refuted : exists t t2 r s,
  new_station py_floats ex_junk true t t2 [r] = Ok s /\ sa_y s = [Fin (-1)] /\
  set_y (sa_y s) s = (s, Err ValueError).
Proof.
  destruct (station_loads py_floats ex_junk SI f1 d1 row_f1 row_d1 [row_p3] [p3] f1_printed) as [H1 H2];
    [cbn; lra|exact d1_printed|discriminate|constructor; [exact p3_printed|constructor]|].
  destruct (proj1 H1) as [s Hs].
  { split; [exact f1_positive|]. split; [exact f1_d1_agree|]. split; [exact d1_positive|].
    constructor; [exact p3_agrees|constructor]. }
  exists row_f1, row_d1, row_p3, s. split; [exact Hs|].
  destruct (H2 s Hs) as [_ (_ & _ & Hy & _)]. split; [exact Hy|].
  unfold set_y. rewrite Hy. cbn [map any_negative existsb p3 p_y xltb].
  rewrite Rltb_true by lra. reflexivity.
Qed.
Print Assumptions profile_nonnegative_refuted.

(* ---------------- C88: rows of the wrong shape ---------------- *)

Theorem wrong_columns_rejected floats junk si a b rows s :
  new_station floats junk si a b rows = Ok s ->
  has_columns floats a 11 /\ (b = ""%string \/ has_columns floats b 13) /\
  Forall (fun t => has_columns floats t 6) rows.
Proof. exact (new_columns floats junk si a b rows s). Qed.
Print Assumptions wrong_columns_rejected.
Example wrong_columns_ex : exists e, new_station py_floats ex_junk true "1 10 3 100 2 3 6 2 4 5" "" [] = Err e.
Proof. eexists. reflexivity. Qed.

Theorem wrong_velocity_columns_rejected floats si rows m :
  new_smooth floats si rows = Ok m -> Forall (fun t => has_columns floats t 3) rows.
Proof. exact (smooth_columns floats si rows m). Qed.
Print Assumptions wrong_velocity_columns_rejected.
