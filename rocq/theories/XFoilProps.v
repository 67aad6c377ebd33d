(** XFoil reader: the theorems. *)
From Coq Require Import Reals List Bool String Ascii Lia Lra Sorted.
From Verif Require Import PyBase PyBaseFacts PyText XFoilModel XFoilSpec XFoilProofs XFoilLoadProofs
  XFoilHistoryProofs XFoilQueryProofs.
Import ListNotations.
Open Scope R_scope.

(* ---------------- a file for the examples ---------------- *)

Definition u1 : arow := {| a_s := Fin 0; a_x := Fin 10; a_y := Fin 0; a_u_e_rel := Fin 4; a_delta_d := Fin 20; a_delta_m := Fin 10; a_c_f := Fin 5; a_shape_d := Fin 2; a_shape_k := Fin 2; a_mom_defect := Fin 1; a_mass_defect := Fin 1; a_ke_defect := Fin 1 |}.
Definition line_u1 : string := "  0  10  0  4  20  10  5  2  2  1  1  1                                            
"%string.
Definition u2 : arow := {| a_s := Fin 10; a_x := Fin 2; a_y := Fin 3; a_u_e_rel := Fin 1; a_delta_d := Fin 4; a_delta_m := Fin 2; a_c_f := Fin 6; a_shape_d := Fin 2; a_shape_k := Fin 2; a_mom_defect := Fin 1; a_mass_defect := Fin 1; a_ke_defect := Fin 1 |}.
Definition line_u2 : string := "  10  2  3  1  4  2  6  2  2  1  1  1                                              
"%string.
Definition uz : arow := {| a_s := Fin 10; a_x := Fin 2; a_y := Fin 3; a_u_e_rel := Fin 0; a_delta_d := Fin 4; a_delta_m := Fin 2; a_c_f := Fin 6; a_shape_d := Fin 2; a_shape_k := Fin 2; a_mom_defect := Fin 1; a_mass_defect := Fin 1; a_ke_defect := Fin 1 |}.
Definition line_uz : string := "  10  2  3  0  4  2  6  2  2  1  1  1                                              
"%string.
Definition l1 : arow := {| a_s := Fin 14; a_x := Fin 2; a_y := Fin (-3); a_u_e_rel := Fin (-3); a_delta_d := Fin 4; a_delta_m := Fin 2; a_c_f := Fin 6; a_shape_d := Fin 2; a_shape_k := Fin 2; a_mom_defect := Fin 1; a_mass_defect := Fin (-1); a_ke_defect := Fin (-1) |}.
Definition line_l1 : string := "  14  2  -3  -3  4  2  6  2  2  1  -1  -1                                          
"%string.
Definition l2 : arow := {| a_s := Fin 25; a_x := Fin 10; a_y := Fin 0; a_u_e_rel := Fin (-4); a_delta_d := Fin 20; a_delta_m := Fin 10; a_c_f := Fin 5; a_shape_d := Fin 2; a_shape_k := Fin 2; a_mom_defect := Fin 1; a_mass_defect := Fin (-1); a_ke_defect := Fin (-1) |}.
Definition line_l2 : string := "  25  10  0  -4  20  10  5  2  2  1  -1  -1                                        
"%string.
Definition line_nan : string := "  0  10  0  4  nan  10  5  2  2  1  1  1                                           
"%string.
Definition w1 : wrow := {| w_s := Fin 25; w_x := Fin 10; w_y := Fin 0; w_u_e_rel := Fin 4; w_delta_d := Fin 3; w_delta_m := Fin 2; w_shape_d := Fin 2 |}.
Definition line_w1 : string := "  25  10  0  4  3  2  0  2
"%string.
Definition w2 : wrow := {| w_s := Fin 30; w_x := Fin 15; w_y := Fin 0; w_u_e_rel := Fin 5; w_delta_d := Fin 3; w_delta_m := Fin 2; w_shape_d := Fin 2 |}.
Definition line_w2 : string := "  30  15  0  5  3  2  0  2
"%string.
Definition ubad : arow := awith_delta_d u2 (Fin (-4)).
Definition line_bad : string := "  10  2  3  1  -4  2  6  2  2  1  1  1                                             
"%string.
Definition header : string := "#    s        x        y     Ue/Vinf    Dstar     Theta      Cf       H            
"%string.
Definition ex_lines : list string := [header; line_u1; line_u2; line_l1; line_l2; line_w1; line_w2].
Definition ex_read (f : string) : res (list string) :=
  if String.eqb f "ex" then Ok ex_lines
  else if String.eqb f "zero" then Ok [line_u1; line_uz; line_l1; line_l2]
  else if String.eqb f "nan" then Ok [line_nan; line_u2; line_l1]
  else if String.eqb f "upper" then Ok [line_u1; line_u2]
  else if String.eqb f "lower" then Ok [line_l1; line_l2]
  else if String.eqb f "bad" then Ok [line_bad; line_l1]
  else Err OtherError.

Ltac len := apply Nat.leb_le; reflexivity.
Ltac not_hash := eexists; split; [reflexivity|discriminate].

Lemma ex_holds : file_holds py_floats ex_read "ex" ([u1; u2] ++ [l1; l2]) [w1; w2].
Proof.
  split; [discriminate|]. exists ex_lines, [line_u1; line_u2; line_l1; line_l2], [line_w1; line_w2].
  split; [reflexivity|]. split.
  { exists [header]. split; [reflexivity|]. split; [right; exists header; split; reflexivity|].
    split; [discriminate|]. split; [discriminate|]. split; [repeat (constructor; [len|]); constructor|].
    apply Nat.ltb_lt. reflexivity. }
  split; [repeat (constructor; [reflexivity|]); constructor|].
  split; [intros [H|[H|[]]]; discriminate|].
  constructor; [exists (Fin 0); reflexivity|]. constructor; [exists (Fin 0); reflexivity|constructor].
Qed.
Lemma ex_sides : two_sided [u1; u2] [l1; l2].
Proof.
  split; [discriminate|]. split.
  - constructor; [exists 4; split; [reflexivity|lra]|]. constructor; [exists 1; split; [reflexivity|lra]|constructor].
  - exists (-3). split; [reflexivity|lra].
Qed.
Lemma ex_last : last_velocity [u1; u2] 1.
Proof. exists [u1], u2. split; reflexivity. Qed.
Ltac phys := repeat split; eexists; (split; [reflexivity|lra]).
Lemma ex_physical : Forall physical_row ([u1; u2] ++ [l1; l2]).
Proof. repeat (constructor; [phys|]). constructor. Qed.
Lemma ex_physical_wake : Forall physical_wake_row [w1; w2].
Proof. repeat (constructor; [phys|]). constructor. Qed.
Lemma ex_column : column (map a_s ([u1; u2] ++ [l1; l2])) [0; 10; 14; 25].
Proof. reflexivity. Qed.
Lemma ex_wake_column : column (map w_s [w1; w2]) [25; 30].
Proof. reflexivity. Qed.
Lemma ex_sorted : Sorted Rle [0; 10; 14; 25].
Proof. repeat (apply Sorted_cons; [|first [apply HdRel_nil|apply HdRel_cons; lra]]). apply Sorted_nil. Qed.
Lemma ex_wake_sorted : Sorted Rle [25; 30].
Proof. repeat (apply Sorted_cons; [|first [apply HdRel_nil|apply HdRel_cons; lra]]). apply Sorted_nil. Qed.

(* ---------------- C79 ---------------- *)

Theorem valid_dump_loads : forall floats read r f up lo wake v ss ws,
  file_holds floats read f (up ++ lo) wake -> two_sided up lo -> last_velocity up v -> v <> 0 ->
  Forall physical_row (up ++ lo) -> Forall physical_wake_row wake ->
  column (map a_s (up ++ lo)) ss -> Sorted Rle ss ->
  column (map w_s wake) ws -> Sorted Rle ws ->
  exists r', set_filename floats read r f = (r', Ok tt).
Proof. exact valid_dump_loads_holds. Qed.
Print Assumptions valid_dump_loads.

Example ex_loads : exists r', set_filename py_floats ex_read reader0 "ex" = (r', Ok tt).
Proof.
  exact (valid_dump_loads _ _ reader0 _ _ _ _ _ _ _ ex_holds ex_sides ex_last R1_neq_R0 ex_physical
    ex_physical_wake ex_column ex_sorted ex_wake_column ex_wake_sorted).
Qed.

(* ---------------- C58 ---------------- *)

Theorem xfoil_partition : forall floats read r r' f up lo wake v,
  file_holds floats read f (up ++ lo) wake -> two_sided up lo -> last_velocity up v -> v <> 0 ->
  set_filename floats read r f = (r', Ok tt) ->
  exists s0 sw stag U L,
    upper_rows r' = stag :: U /\ Forall2 (upper_image s0) (rev up) U /\
    lower_rows r' = stag :: L /\ Forall2 (lower_image s0) lo L /\
    Forall2 (wake_image sw) wake (rd_wake r') /\
    upper_count r' = S (List.length up) /\ lower_count r' = S (List.length lo) /\
    wake_count r' = List.length wake.
Proof. exact partition_holds. Qed.
Print Assumptions xfoil_partition.

Example xfoil_partition_example : exists r', set_filename py_floats ex_read reader0 "ex" = (r', Ok tt) /\
  upper_count r' = 3%nat /\ lower_count r' = 3%nat /\ wake_count r' = 2%nat.
Proof.
  destruct ex_loads as [r' H]. exists r'. split; [exact H|].
  destruct (xfoil_partition _ _ _ _ _ _ _ _ _ ex_holds ex_sides ex_last R1_neq_R0 H)
    as (s0 & sw & stag & U & L & _ & _ & _ & _ & _ & E1 & E2 & E3).
  repeat split; assumption.
Qed.

(* ---------------- C59 ---------------- *)

Theorem xfoil_arc_lengths : forall floats read r r' f up lo wake v ss ws,
  file_holds floats read f (up ++ lo) wake -> two_sided up lo -> last_velocity up v -> v <> 0 ->
  column (map a_s (up ++ lo)) ss -> Sorted Rle ss ->
  column (map w_s wake) ws -> Sorted Rle ws ->
  set_filename floats read r f = (r', Ok tt) ->
  exists su sl sw,
    column (qs_upper r') (0 :: su) /\ Sorted Rle (0 :: su) /\
    column (qs_lower r') (0 :: sl) /\ Sorted Rle (0 :: sl) /\
    column (qs_wake r') sw /\ Sorted Rle sw /\ (wake <> [] -> nth_error sw 0 = Some 0).
Proof. exact arc_lengths_hold. Qed.
Print Assumptions xfoil_arc_lengths.

Example xfoil_arc_lengths_example : exists r' su,
  set_filename py_floats ex_read reader0 "ex" = (r', Ok tt) /\ column (qs_upper r') (0 :: su).
Proof.
  destruct ex_loads as [r' H].
  destruct (xfoil_arc_lengths _ _ _ _ _ _ _ _ _ _ _ ex_holds ex_sides ex_last R1_neq_R0
    ex_column ex_sorted ex_wake_column ex_wake_sorted H) as (su & _ & _ & E & _).
  exists r', su. split; assumption.
Qed.

(* ---------------- C60 ---------------- *)

(** The mass and kinetic energy defects of the lower surface are reported with the sign turned, and so
    they are interpolated. *)
Theorem stagnation_point_partial : forall floats read r r' f b u l t wake v lv,
  file_holds floats read f ((b ++ [u]) ++ l :: t) wake -> two_sided (b ++ [u]) (l :: t) ->
  a_u_e_rel u = Fin v -> a_u_e_rel l = Fin lv -> v <> 0 ->
  set_filename floats read r f = (r', Ok tt) ->
  exists stag s0 nu nl,
    nth_error (upper_rows r') 0 = Some stag /\ nth_error (lower_rows r') 0 = Some stag /\
    nth_error (upper_rows r') 1 = Some nu /\ nth_error (lower_rows r') 1 = Some nl /\
    a_u_e_rel stag = Fin 0 /\
    Forall (fun q => forall x1 x2, q u = Fin x1 -> q l = Fin x2 -> q stag = Fin (at_zero v x1 lv x2))
      [a_y; a_delta_d; a_delta_m; a_c_f; a_shape_d; a_shape_k; a_mom_defect] /\
    Forall (fun q => forall x1 x2, q u = Fin x1 -> q l = Fin x2 -> q stag = Fin (at_zero v x1 lv (- x2)))
      [a_mass_defect; a_ke_defect] /\
    (forall x1 x2, a_x u = Fin x1 -> a_x l = Fin x2 ->
       a_x stag = Fin (Rabs (at_zero v x1 lv (- x2)))) /\
    (forall s1 s2, a_s u = Fin s1 -> a_s l = Fin s2 ->
       s0 = at_zero v s1 lv s2 /\ a_s stag = Fin 0 /\
       a_s nu = Fin (s0 - s1) /\ a_s nl = Fin (s2 - s0)).
Proof. exact stagnation_holds. Qed.
Print Assumptions stagnation_point_partial.

(** The x coordinate of the stagnation point is not the interpolated one. *)
Theorem stagnation_point_refuted : exists f b u l t wake v lv x1 x2 r' stag,
  file_holds py_floats ex_read f ((b ++ [u]) ++ l :: t) wake /\ two_sided (b ++ [u]) (l :: t) /\
  Forall physical_row ((b ++ [u]) ++ l :: t) /\
  a_u_e_rel u = Fin v /\ a_u_e_rel l = Fin lv /\ v <> 0 /\ a_x u = Fin x1 /\ a_x l = Fin x2 /\
  new_reader py_floats ex_read f = Ok r' /\
  nth_error (upper_rows r') 0 = Some stag /\ a_x stag <> Fin (at_zero v x1 lv x2).
Proof.
  exists "ex"%string, [u1], u2, l1, [l2], [w1; w2], 1, (-3), 2, 2.
  destruct ex_loads as [r' H].
  destruct (stagnation_point_partial _ _ reader0 r' "ex" [u1] u2 l1 [l2] [w1; w2] 1 (-3)
    ex_holds ex_sides eq_refl eq_refl R1_neq_R0 H) as (stag & s0 & nu & nl & E & _ & _ & _ & _ & _ & _ & Ex & _).
  exists r', stag.
  split; [exact ex_holds|]. split; [exact ex_sides|]. split; [exact ex_physical|].
  split; [reflexivity|]. split; [reflexivity|]. split; [exact R1_neq_R0|].
  split; [reflexivity|]. split; [reflexivity|].
  split; [unfold new_reader; rewrite H; reflexivity|].
  split; [exact E|]. rewrite (Ex 2 2 eq_refl eq_refl). unfold at_zero. intros K. apply Fin_inj in K.
  replace (2 + (- (2) - 2) * ((0 - 1) / (-3 - 1))) with 1 in K by field.
  rewrite Rabs_R1 in K. lra.
Qed.
Print Assumptions stagnation_point_refuted.

(* ---------------- C61 ---------------- *)

(** Every dump with a zero-velocity row (at positive arc length) before the first negative one is
    rejected. *)
Theorem zero_velocity_rejected : forall floats read r f b u lo wake s,
  file_holds floats read f ((b ++ [u]) ++ lo) wake -> two_sided (b ++ [u]) lo ->
  a_u_e_rel u = Fin 0 -> a_s u = Fin s -> 0 < s ->
  snd (set_filename floats read r f) = Err ValueError.
Proof. exact zero_velocity_rejected_holds. Qed.
Print Assumptions zero_velocity_rejected.

Theorem zero_velocity_loads_refuted : exists f up lo,
  file_holds py_floats ex_read f (up ++ lo) [] /\ two_sided up lo /\ last_velocity up 0 /\
  Forall physical_row (up ++ lo) /\
  (exists ss, column (map a_s (up ++ lo)) ss /\ Sorted Rle ss) /\
  new_reader py_floats ex_read f = Err ValueError.
Proof.
  assert (FH : file_holds py_floats ex_read "zero" (([u1] ++ [uz]) ++ [l1; l2]) []).
  { split; [discriminate|]. exists [line_u1; line_uz; line_l1; line_l2], [line_u1; line_uz; line_l1; line_l2], [].
    split; [reflexivity|]. split.
    { exists []. split; [reflexivity|]. split; [left; reflexivity|].
      split; [intros _; not_hash|]. split; [discriminate|]. split; [repeat (constructor; [len|]); constructor|exact I]. }
    split; [repeat (constructor; [reflexivity|]); constructor|].
    split; [intros []|constructor]. }
  assert (TS : two_sided ([u1] ++ [uz]) [l1; l2]).
  { split; [discriminate|]. split.
    - constructor; [exists 4; split; [reflexivity|lra]|]. constructor; [exists 0; split; [reflexivity|lra]|constructor].
    - exists (-3). split; [reflexivity|lra]. }
  exists "zero"%string, [u1; uz], [l1; l2].
  split; [exact FH|]. split; [exact TS|].
  split; [exists [u1], uz; split; reflexivity|].
  split; [repeat (constructor; [phys|]); constructor|].
  split; [exists [0; 10; 14; 25]; split; [reflexivity|exact ex_sorted]|].
  pose proof (zero_velocity_rejected _ _ reader0 "zero" [u1] uz [l1; l2] [] 10 FH TS eq_refl eq_refl
    ltac:(lra)) as K.
  unfold new_reader. destruct (set_filename py_floats ex_read reader0 "zero") as [r' [[]|e]];
    cbn [snd] in K; congruence.
Qed.
Print Assumptions zero_velocity_loads_refuted.

(* ---------------- C62 ---------------- *)

(** The file name reads back as "" after any history. *)
Theorem filename_never_kept : forall floats read f r0 l,
  new_reader floats read f = Ok r0 -> rd_filename (do_ractions floats read r0 l) = ""%string.
Proof. exact filename_never_kept_holds. Qed.
Print Assumptions filename_never_kept.

Theorem filename_kept_refuted : exists f r', f <> ""%string /\
  new_reader py_floats ex_read f = Ok r' /\ rd_filename r' <> f.
Proof.
  destruct ex_loads as [r' H]. exists "ex"%string, r'. split; [discriminate|].
  assert (E : new_reader py_floats ex_read "ex" = Ok r') by (unfold new_reader; rewrite H; reflexivity).
  split; [exact E|]. pose proof (filename_never_kept _ _ _ _ [] E) as K. cbn [do_ractions] in K.
  rewrite K. discriminate.
Qed.
Print Assumptions filename_kept_refuted.

(* ---------------- C63 ---------------- *)

(** The outcome of a load, rows, attributes and exception, does not depend on what the reader held;
    in particular after any two histories. *)
Theorem load_replaces_all : forall floats read f g r1 r2 l1 l2,
  do_raction floats read (do_ractions floats read r1 l1) (RLoad f) =
    do_raction floats read (do_ractions floats read r2 l2) (RLoad f) /\
  (new_reader floats read f = Ok g ->
    do_raction floats read (do_ractions floats read r1 l1) (RLoad f) = (g, Ok tt)).
Proof.
  intros floats read f g r1 r2 h1 h2. split; [apply load_independent_holds|].
  cbn [do_raction]. rewrite (load_independent_holds floats read _ reader0). unfold new_reader.
  destruct (set_filename floats read reader0 f) as [r' [[]|]]; [|discriminate].
  intros H. inversion H. reflexivity.
Qed.
Print Assumptions load_replaces_all.

(** Whatever its outcome, a load resets every attribute that does not come from the file. *)
Theorem load_resets_attributes : forall floats read r f,
  let r' := fst (set_filename floats read r f) in
  rd_name r' = ""%string /\ rd_alpha r' = PInf /\ rd_u_ref r' = Fin 1 /\
  rd_c r' = Fin 1 /\ rd_re r' = Fin 0 /\ rd_xt_upper r' = PInf /\ rd_xt_lower r' = PInf /\
  rd_n_trans r' = PInf.
Proof. intros floats read r f. exact (proj2 (load_resets_holds floats read r f)). Qed.
Print Assumptions load_resets_attributes.

(* ---------------- C64 ---------------- *)

Theorem xfoil_edge_velocity : forall floats read r r1 r2 f up lo wake v w,
  file_holds floats read f (up ++ lo) wake -> two_sided up lo -> last_velocity up v -> v <> 0 ->
  set_filename floats read r f = (r1, Ok tt) ->
  do_raction floats read r1 (RSetURef w) = (r2, Ok tt) ->
  qu_e_upper r2 = map (fun q => w * q)%xr (Fin 0 :: map a_u_e_rel (rev up)) /\
  qu_e_lower r2 = map (fun q => w * q)%xr (Fin 0 :: map (fun a => a_u_e_rel a * Fin (-1))%xr lo) /\
  qu_e_wake r2 = map (fun q => w * q)%xr (map w_u_e_rel wake) /\
  upper_rows r2 = upper_rows r1 /\ lower_rows r2 = lower_rows r1 /\ rd_wake r2 = rd_wake r1 /\
  rd_c r2 = rd_c r1 /\ rd_re r2 = rd_re r1 /\ rd_alpha r2 = rd_alpha r1 /\ rd_name r2 = rd_name r1 /\
  rd_xt_upper r2 = rd_xt_upper r1 /\ rd_xt_lower r2 = rd_xt_lower r1 /\ rd_n_trans r2 = rd_n_trans r1.
Proof. exact edge_velocity_holds. Qed.
Print Assumptions xfoil_edge_velocity.

Example xfoil_edge_velocity_example : exists r1 r2,
  set_filename py_floats ex_read reader0 "ex" = (r1, Ok tt) /\
  do_raction py_floats ex_read r1 (RSetURef (Fin 10)) = (r2, Ok tt) /\
  qu_e_lower r2 = [Fin 0; Fin 30; Fin 40].
Proof.
  destruct ex_loads as [r1 H]. exists r1.
  assert (E : do_raction py_floats ex_read r1 (RSetURef (Fin 10)) = (rwith_u_ref r1 (Fin 10), Ok tt)).
  { cbn [do_raction]. unfold rset_u_ref. cbn [xleb]. rewrite Rleb_false by lra. reflexivity. }
  exists (rwith_u_ref r1 (Fin 10)). split; [exact H|]. split; [exact E|].
  destruct (xfoil_edge_velocity _ _ _ _ _ _ _ _ _ _ _ ex_holds ex_sides ex_last R1_neq_R0 H E) as (_ & -> & _).
  cbn [map a_u_e_rel l1 l2]. rewrite !xmul_fin.
  repeat (apply f_equal2; [apply f_equal; ring|]). reflexivity.
Qed.

(** The reference quantities refuse nonpositive values (the Reynolds number negative ones). *)
Theorem xfoil_setter_rejects : forall r v,
  (snd (rset_u_ref r v) = Err ValueError <-> v = NInf \/ exists x, v = Fin x /\ x <= 0) /\
  (snd (rset_c r v) = Err ValueError <-> v = NInf \/ exists x, v = Fin x /\ x <= 0) /\
  (snd (rset_n_trans r v) = Err ValueError <-> v = NInf \/ exists x, v = Fin x /\ x <= 0) /\
  (snd (rset_re r v) = Err ValueError <-> v = NInf \/ exists x, v = Fin x /\ x < 0).
Proof. exact setter_rejects_holds. Qed.
Print Assumptions xfoil_setter_rejects.

(* ---------------- C65 ---------------- *)

(** No history of loads, setters and row edits makes a row negative where it may not be. *)
Theorem row_invariants_partial : forall floats read f r0 l,
  new_reader floats read f = Ok r0 ->
  Forall checked_row (upper_rows (do_ractions floats read r0 l)) /\
  Forall checked_row (lower_rows (do_ractions floats read r0 l)) /\
  Forall checked_wake_row (rd_wake (do_ractions floats read r0 l)).
Proof. exact row_invariants_hold. Qed.
Print Assumptions row_invariants_partial.

Theorem bad_row_rejected : forall floats read r f rows wake a,
  file_holds floats read f rows wake -> In a rows -> ~ checked_row a ->
  snd (set_filename floats read r f) = Err ValueError.
Proof. exact bad_row_rejected_holds. Qed.
Print Assumptions bad_row_rejected.

Example bad_row_example : new_reader py_floats ex_read "bad" = Err ValueError.
Proof.
  assert (K : snd (set_filename py_floats ex_read reader0 "bad") = Err ValueError).
  { apply (bad_row_rejected _ _ _ _ [ubad; l1] [] ubad).
    - split; [discriminate|]. exists [line_bad; line_l1], [line_bad; line_l1], [].
      split; [reflexivity|]. split.
      { exists []. split; [reflexivity|]. split; [left; reflexivity|].
        split; [intros _; not_hash|]. split; [discriminate|]. split; [repeat (constructor; [len|]); constructor|exact I]. }
      split; [repeat (constructor; [reflexivity|]); constructor|]. split; [intros []|constructor].
    - left. reflexivity.
    - intros (_ & [H|[H|(x & H & Hx)]] & _); [discriminate..|]. apply Fin_inj in H. lra. }
  unfold new_reader. destruct (set_filename py_floats ex_read reader0 "bad") as [r' [[]|e]];
    cbn [snd] in K; congruence.
Qed.

(** A nan thickness is accepted. *)
Theorem row_invariants_refuted : exists f r',
  new_reader py_floats ex_read f = Ok r' /\ ~ Forall (fun a => nonneg (a_delta_d a)) (upper_rows r').
Proof.
  set (un := awith_delta_d u1 NaN).
  assert (FH : file_holds py_floats ex_read "nan" ([un; u2] ++ [l1]) []).
  { split; [discriminate|]. exists [line_nan; line_u2; line_l1], [line_nan; line_u2; line_l1], [].
    split; [reflexivity|]. split.
    { exists []. split; [reflexivity|]. split; [left; reflexivity|].
      split; [intros _; not_hash|]. split; [discriminate|]. split; [repeat (constructor; [len|]); constructor|exact I]. }
    split; [repeat (constructor; [reflexivity|]); constructor|].
    split; [intros []|constructor]. }
  assert (TS : two_sided [un; u2] [l1]).
  { split; [discriminate|]. split.
    - constructor; [exists 4; split; [reflexivity|lra]|]. constructor; [exists 1; split; [reflexivity|lra]|constructor].
    - exists (-3). split; [reflexivity|lra]. }
  assert (H : exists r', set_filename py_floats ex_read reader0 "nan" = (r', Ok tt)).
  { destruct FH as (Hf & lines & A & W & R & D & FA & NW & FW).
    pose proof (dump_file_split ex_read lines A W "nan" R D) as G.
    assert (V : Forall row_valid ([un; u2] ++ [l1])).
    { pose proof ex_physical as PP. cbn [app] in PP |- *.
      inversion PP as [|? ? P1 PP1]; subst. inversion PP1 as [|? ? P2 PP2]; subst.
      inversion PP2 as [|? ? P3 PP3]; subst.
      apply physical_valid in P1. apply physical_valid in P2. apply physical_valid in P3.
      constructor; [|constructor; [exact P2|constructor; [exact P3|constructor]]].
      destruct P1 as (Q1 & _ & Q3 & Q4 & Q5 & Q6). repeat split; assumption. }
    pose proof (parsed_rows_valid py_floats A _ (lines_nonempty _ _ _ D) FA V) as F2.
    inversion F2 as [|a ? A1 ? Ha F2']; subst. inversion F2' as [|b ? A2 ? Hb F2'']; subst.
    inversion F2'' as [|c ? A3 ? Hc F2''']; subst. inversion F2'''; subst. inversion FW; subst.
    apply (load_total py_floats ex_read reader0 "nan" _ [] [a; b] c [] [un; u2] [l1] Hf G eq_refl).
    - discriminate.
    - constructor; [exact Ha|constructor; [exact Hb|constructor]].
    - eapply Forall_impl; [|exact (proj1 (proj2 TS))]. intros x. apply nonneg_not_lt.
    - exact F2''.
    - cbn [xltb a_u_e_rel l1]. apply Rltb_true. lra.
    - cbn [rev app xeqb a_u_e_rel u2]. apply Reqb_false. lra.
    - intros b' u l t E1 E2. change [un; u2] with ([un] ++ [u2]) in E1.
      apply app_inj_tail in E1. destruct E1 as [<- <-]. inversion E2; subst l t.
      assert (P2 : physical_row u2) by phys. assert (P3 : physical_row l1) by phys.
      destruct (interpolate_succeeds u2 l1 1 (-3) ltac:(lra) ltac:(lra) P2 P3) as [p Ep].
      exists (Fin (1 / (1 - -3))), p. split.
      { cbn [a_u_e_rel u2 l1]. rewrite xmul_fin, xadd_fin, py_div_fin by lra. apply f_equal, f_equal. field. }
      split; [exact Ep|]. apply interpolate_fields in Ep. destruct Ep as (Es & _).
      cbn [a_s u2 l1 neg_row awith_ke_defect awith_mass_defect awith_u_e_rel] in Es.
      rewrite mix_real in Es by lra.
      assert (E11 : at_zero 1 10 (-3) 14 = 11) by (unfold at_zero; field). rewrite E11 in Es.
      rewrite Es. split.
      + cbn [rev app]. unfold upper_arc, aset_s.
        repeat constructor; rewrite nonneg_not_lt; try (eexists; reflexivity).
        * rewrite Es, xsub_fin. eexists. split; [reflexivity|lra].
        * cbn [a_s u2]. rewrite xsub_fin. eexists. split; [reflexivity|lra].
        * change (a_s un) with (Fin 0). rewrite xsub_fin. eexists. split; [reflexivity|lra].
      + cbn [map]. unfold lower_arc, aset_s.
        repeat constructor; rewrite nonneg_not_lt; try (eexists; reflexivity).
        * rewrite Es, xsub_fin. eexists. split; [reflexivity|lra].
        * change (a_s (neg_row l1)) with (Fin 14). rewrite xsub_fin. eexists. split; [reflexivity|lra].
    - exists [], []. split; [constructor|reflexivity]. }
  destruct H as [r' H]. exists "nan"%string, r'.
  split; [unfold new_reader; rewrite H; reflexivity|].
  assert (LV : last_velocity [un; u2] 1) by (exists [un], u2; split; reflexivity).
  destruct (xfoil_partition _ _ _ _ _ _ _ _ _ FH TS LV R1_neq_R0 H)
    as (s0 & sw & stag & U & L & EU & FU & _).
  rewrite EU. intros K. inversion K as [|? ? _ K2]; subst.
  cbn [rev app] in FU. inversion FU as [|? c1 ? U1 _ FU1]; subst. inversion FU1 as [|? c2 ? U2 I2 _]; subst.
  inversion K2 as [|? ? _ K3]; subst. inversion K3 as [|? ? K4 _]; subst.
  destruct I2 as (_ & _ & _ & _ & E & _). destruct K4 as (x & Ex & _). rewrite E in Ex. discriminate.
Qed.
Print Assumptions row_invariants_refuted.

(* ---------------- C80 ---------------- *)

Theorem no_upper_side_rejected : forall floats read r f l t wake v,
  file_holds floats read f (l :: t) wake -> Forall checked_row (l :: t) ->
  a_u_e_rel l = Fin v -> v < 0 ->
  snd (set_filename floats read r f) = Err IndexError.
Proof. exact no_upper_rejected_holds. Qed.
Print Assumptions no_upper_side_rejected.

Theorem no_lower_side_rejected : forall floats read r f up wake v,
  file_holds floats read f up wake -> Forall checked_row up ->
  Forall (fun a => nonneg (a_u_e_rel a)) up -> last_velocity up v -> v <> 0 ->
  snd (set_filename floats read r f) = Err ZeroDivisionError.
Proof. exact no_lower_rejected_holds. Qed.
Print Assumptions no_lower_side_rejected.

Lemma physical_checked a : physical_row a -> checked_row a.
Proof. intros H. apply row_valid_checked, physical_valid, H. Qed.

Example one_sided_examples :
  new_reader py_floats ex_read "upper" = Err ZeroDivisionError /\
  new_reader py_floats ex_read "lower" = Err IndexError.
Proof.
  split.
  - assert (K : snd (set_filename py_floats ex_read reader0 "upper") = Err ZeroDivisionError).
    { apply (no_lower_side_rejected _ _ _ _ [u1; u2] [] 1).
      - split; [discriminate|]. exists [line_u1; line_u2], [line_u1; line_u2], [].
        split; [reflexivity|]. split.
        { exists []. split; [reflexivity|]. split; [left; reflexivity|].
          split; [intros _; not_hash|]. split; [discriminate|]. split; [repeat (constructor; [len|]); constructor|exact I]. }
        split; [repeat (constructor; [reflexivity|]); constructor|]. split; [intros []|constructor].
      - repeat (constructor; [apply physical_checked; phys|]). constructor.
      - exact (proj1 (proj2 ex_sides)).
      - exact ex_last.
      - exact R1_neq_R0. }
    unfold new_reader. destruct (set_filename py_floats ex_read reader0 "upper") as [r' [[]|e]];
      cbn [snd] in K; congruence.
  - assert (K : snd (set_filename py_floats ex_read reader0 "lower") = Err IndexError).
    { apply (no_upper_side_rejected _ _ _ _ l1 [l2] [] (-3)).
      - split; [discriminate|]. exists [line_l1; line_l2], [line_l1; line_l2], [].
        split; [reflexivity|]. split.
        { exists []. split; [reflexivity|]. split; [left; reflexivity|].
          split; [intros _; not_hash|]. split; [discriminate|]. split; [repeat (constructor; [len|]); constructor|exact I]. }
        split; [repeat (constructor; [reflexivity|]); constructor|]. split; [intros []|constructor].
      - repeat (constructor; [apply physical_checked; phys|]). constructor.
      - reflexivity.
      - lra. }
    unfold new_reader. destruct (set_filename py_floats ex_read reader0 "lower") as [r' [[]|e]];
      cbn [snd] in K; congruence.
Qed.

(* ---------------- C81 ---------------- *)

Theorem rows_independent_upper : forall floats read r r' r'' f up lo wake v i fd x,
  file_holds floats read f (up ++ lo) wake -> two_sided up lo -> last_velocity up v -> v <> 0 ->
  set_filename floats read r f = (r', Ok tt) ->
  do_raction floats read r' (RRowUpper i fd x) = (r'', Ok tt) ->
  lower_rows r'' = lower_rows r' /\ rd_wake r'' = rd_wake r' /\
  (exists a b, nth_error (upper_rows r') i = Some a /\ aset fd a x = Ok b /\
     nth_error (upper_rows r'') i = Some b) /\
  forall j, j <> i -> nth_error (upper_rows r'') j = nth_error (upper_rows r') j.
Proof. exact rows_independent_upper_holds. Qed.
Print Assumptions rows_independent_upper.

Theorem rows_independent_lower : forall floats read r r' r'' f up lo wake v i fd x,
  file_holds floats read f (up ++ lo) wake -> two_sided up lo -> last_velocity up v -> v <> 0 ->
  set_filename floats read r f = (r', Ok tt) ->
  do_raction floats read r' (RRowLower i fd x) = (r'', Ok tt) ->
  upper_rows r'' = upper_rows r' /\ rd_wake r'' = rd_wake r' /\
  (exists a b, nth_error (lower_rows r') i = Some a /\ aset fd a x = Ok b /\
     nth_error (lower_rows r'') i = Some b) /\
  forall j, j <> i -> nth_error (lower_rows r'') j = nth_error (lower_rows r') j.
Proof. exact rows_independent_lower_holds. Qed.
Print Assumptions rows_independent_lower.

(** Moving the stagnation point of the upper list leaves that of the lower list. *)
Example rows_independent_example : exists r' r'',
  set_filename py_floats ex_read reader0 "ex" = (r', Ok tt) /\
  do_raction py_floats ex_read r' (RRowUpper 0 FX (Fin 5)) = (r'', Ok tt) /\
  lower_rows r'' = lower_rows r'.
Proof.
  destruct ex_loads as [r' H]. exists r'.
  assert (K : exists r'', do_raction py_floats ex_read r' (RRowUpper 0 FX (Fin 5)) = (r'', Ok tt)).
  { cbn [do_raction]. unfold set_row.
    destruct (xfoil_partition _ _ _ _ _ _ _ _ _ ex_holds ex_sides ex_last R1_neq_R0 H)
      as (s0 & sw & stag & U & L & _ & _ & _ & _ & _ & E1 & _).
    unfold upper_count in E1. destruct (rd_upper r') as [|k ks]; [discriminate|].
    cbn [nth_error aset aset_x]. eexists. reflexivity. }
  destruct K as [r'' K]. exists r''. split; [exact H|]. split; [exact K|].
  exact (proj1 (rows_independent_upper _ _ _ _ _ _ _ _ _ _ _ _ _ ex_holds ex_sides ex_last R1_neq_R0 H K)).
Qed.

(* ---------------- C106 ---------------- *)

(** Each query returns its own column of the file: the stagnation point followed by the rows
    of the side (upper side from the stagnation point back to the trailing edge), and the
    wake rows. *)
Theorem xfoil_columns : forall floats read r r' f up lo wake v,
  file_holds floats read f (up ++ lo) wake -> two_sided up lo -> last_velocity up v -> v <> 0 ->
  set_filename floats read r f = (r', Ok tt) ->
  exists stag s0 sw,
    nth_error (upper_rows r') 0 = Some stag /\ nth_error (lower_rows r') 0 = Some stag /\
    qs_upper r' = a_s stag :: map (fun a => s0 - a_s a)%xr (rev up) /\
    qs_lower r' = a_s stag :: map (fun a => a_s a - s0)%xr lo /\
    qx_upper r' = a_x stag :: map a_x (rev up) /\
    qx_lower r' = a_x stag :: map a_x lo /\
    qy_upper r' = a_y stag :: map a_y (rev up) /\
    qy_lower r' = a_y stag :: map a_y lo /\
    qdelta_d_upper r' = a_delta_d stag :: map a_delta_d (rev up) /\
    qdelta_d_lower r' = a_delta_d stag :: map a_delta_d lo /\
    qdelta_m_upper r' = a_delta_m stag :: map a_delta_m (rev up) /\
    qdelta_m_lower r' = a_delta_m stag :: map a_delta_m lo /\
    qshape_d_upper r' = a_shape_d stag :: map a_shape_d (rev up) /\
    qshape_d_lower r' = a_shape_d stag :: map a_shape_d lo /\
    qshape_k_upper r' = a_shape_k stag :: map a_shape_k (rev up) /\
    qshape_k_lower r' = a_shape_k stag :: map a_shape_k lo /\
    qc_f_upper r' = a_c_f stag :: map a_c_f (rev up) /\
    qc_f_lower r' = a_c_f stag :: map a_c_f lo /\
    qmom_defect_upper r' = a_mom_defect stag :: map a_mom_defect (rev up) /\
    qmom_defect_lower r' = a_mom_defect stag :: map a_mom_defect lo /\
    qmass_defect_upper r' = a_mass_defect stag :: map a_mass_defect (rev up) /\
    qmass_defect_lower r' = a_mass_defect stag :: map (fun a => a_mass_defect a * Fin (-1))%xr lo /\
    qke_defect_upper r' = a_ke_defect stag :: map a_ke_defect (rev up) /\
    qke_defect_lower r' = a_ke_defect stag :: map (fun a => a_ke_defect a * Fin (-1))%xr lo /\
    qdelta_k_upper r' = (a_shape_k stag * a_delta_m stag)%xr
      :: map (fun a => a_shape_k a * a_delta_m a)%xr (rev up) /\
    qdelta_k_lower r' = (a_shape_k stag * a_delta_m stag)%xr
      :: map (fun a => a_shape_k a * a_delta_m a)%xr lo /\
    qs_wake r' = map (fun w => w_s w - sw)%xr wake /\
    qx_wake r' = map w_x wake /\ qy_wake r' = map w_y wake /\
    qdelta_d_wake r' = map w_delta_d wake /\ qdelta_m_wake r' = map w_delta_m wake /\
    qshape_d_wake r' = map w_shape_d wake.
Proof. exact columns_hold. Qed.
Print Assumptions xfoil_columns.

Example xfoil_columns_example : exists r' stag,
  set_filename py_floats ex_read reader0 "ex" = (r', Ok tt) /\
  qdelta_d_upper r' = [stag; Fin 4; Fin 20] /\ qx_wake r' = [Fin 10; Fin 15].
Proof.
  destruct ex_loads as [r' H]. exists r'.
  destruct (xfoil_columns _ _ _ _ _ _ _ _ _ ex_holds ex_sides ex_last R1_neq_R0 H)
    as (stag & s0 & sw & K). decompose [and] K. clear K.
  exists (a_delta_d stag). split; [exact H|]. split; assumption.
Qed.
