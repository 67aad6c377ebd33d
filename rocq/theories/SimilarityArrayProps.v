(** C150-C152: the similarity solutions' queries with arrays and the two kinds of floats, and
    requests for no positions. *)
From Coq Require Import Reals List Lra Lia.
From Verif Require Import PyBase PyBaseFacts CoreModel CoreSpec SimilarityModel SimilaritySpec SimilarityFlowProofs
  ThwaitesArrayModel HeadArrayModel HeadArrayProofs
  SimilarityArrayModel SimilarityArraySpec SimilarityArrayProofs ProfileSpec ProfileEdgeProofs BlasiusSpec.
Import ListNotations.
Open Scope R_scope.

(** Every object with a flow is usual: all that the constructors make for beta < 2, and what
    histories of calls leave of them. *)
Lemma flow_usual o b u n : flow o b u n -> usual o.
Proof. intros (A & _ & B & C & D & _ & P & Q & _). unfold usual. eauto 10. Qed.

(** C150 *)
Theorem array_one_position : forall o Q q l, usual o -> one_position Q q ->
  elementwise (q o) l (Q o (NpArr l)).
Proof. intros o Q q l U H. exact (one_array o U Q q l H). Qed.
Print Assumptions array_one_position.

(** Two positions of which at least one is an array: the answer for each point that numpy's
    broadcasting makes of them. A Python float for x must be positive if y is an array. *)
Theorem array_two_positions : forall o x y, usual o -> (is_array x \/ is_array y) ->
  (forall c, x = PyNum c -> 0 < c) ->
  match points x y with
  | Some ps =>
      elementwise (fun p => q_eta o (fst p) (snd p)) ps (a_eta o x y) /\
      (ps <> [] -> elementwise (fun p => q_u o (fst p) (snd p)) ps (a_u o x y) /\
                   elementwise (fun p => q_v o (fst p) (snd p)) ps (a_v o x y))
  | None => s_beta o <> Fin 2 ->
      a_eta o x y = Err ValueError /\ a_u o x y = Err ValueError /\ a_v o x y = Err ValueError
  end.
Proof.
  intros o x y U A T. destruct (points x y) as [ps|] eqn:P.
  - split; [exact (eta_array o U x y ps P)|]. intros N.
    split; [exact (u_array o U x y ps T P N)|exact (v_array o U x y ps T P N)].
  - intros NB. destruct (expo_ok o U NB) as (b & _ & E).
    destruct x as [c|c|l], y as [d|d|r]; try discriminate P;
      try (destruct A as [[? A]|[? A]]; discriminate A).
    exact (misfit o U _ E l r P).
Qed.
Print Assumptions array_two_positions.

(** The profile functions f, f_p and f_pp with similarity coordinates in an array; a number, of Python or numpy, gives
    the same answer. *)
Theorem array_profile : forall o A q (l : list xr) eta,
  In (A, q) [(a_f, q_f); (a_f_p, q_f_p); (a_f_pp, q_f_pp)] ->
  (l <> [] -> elementwise (q o) l (A o (VArr l))) /\
  same_answer (q o eta) (A o (VPy eta)) /\ same_answer (q o eta) (A o (VNp eta)).
Proof.
  intros o A q l eta H.
  assert (G : exists k, (A, q) = ((fun o e => match s_f o with None => Err ValueError | Some y => dense y k e end),
    fun o e => match s_f o with None => Err ValueError | Some y => Ok (k (y e)) end)).
  { destruct H as [H|[H|[H|[]]]]; rewrite <- H; eexists; reflexivity. }
  destruct G as [k G]. injection G as -> ->. destruct (s_f o) as [y|].
  - split; [|split; reflexivity]. intros NE. left. exists (map (fun v => k (y v)) l).
    split; [destruct l; [contradiction|reflexivity]|]. clear. induction l; constructor; auto.
  - split; [|split; reflexivity]. intros _. right. exists ValueError. split; [reflexivity|]. intros _. reflexivity.
Qed.
Print Assumptions array_profile.

(** C151 *)
Theorem numpy_float_answer : forall o Q q x x' y y', usual o ->
  (one_position Q q -> same_answer (q o x) (Q o (NpNum x))) /\
  ((x' = NpNum x /\ (y' = NpNum y \/ y' = PyNum y)) ->
   same_answer (q_eta o x y) (a_eta o x' y') /\ same_answer (q_u o x y) (a_u o x' y') /\
   same_answer (q_v o x y) (a_v o x' y')).
Proof.
  intros o Q q x x' y y' U. split.
  - intros H. exact (proj1 (one_scalar o U Q q x H)).
  - intros [H H']. exact (two_scalar_all o U x' y' x y (or_introl H) H').
Qed.
Print Assumptions numpy_float_answer.

Theorem python_float_answer_partial : forall o Q q x y y', usual o -> 0 < x ->
  (one_position Q q -> same_answer (q o x) (Q o (PyNum x))) /\
  ((y' = NpNum y \/ y' = PyNum y) ->
   same_answer (q_eta o x y) (a_eta o (PyNum x) y') /\ same_answer (q_u o x y) (a_u o (PyNum x) y') /\
   same_answer (q_v o x y) (a_v o (PyNum x) y')).
Proof.
  intros o Q q x y y' U P. split.
  - intros H. exact (proj2 (one_scalar o U Q q x H) P).
  - intros H'. exact (two_scalar_all o U (PyNum x) y' x y (or_intror (conj eq_refl P)) H').
Qed.
Print Assumptions python_float_answer_partial.

(** At the leading edge of a plate the answers differ. *)
Theorem python_float_zero_refuted : forall o, usual o -> s_beta o = Fin 0 ->
  a_delta_m o (PyNum 0) = Err ZeroDivisionError /\ (exists v, a_delta_m o (NpNum 0) = Ok (VNp v)) /\
  exists v, a_delta_m o (NpArr [0]) = Ok (VArr [v]).
Proof.
  intros o U B. destruct (py_zero o U B) as (Z & g & G). unfold a_delta_m, a_over_g. rewrite Z, G. cbn [bind ndiv nbin].
  split; [reflexivity|]. split; [eauto|]. 
  destruct (expo_ok o U ltac:(rewrite B; intros Q; injection Q; lra)) as (b & _ & E).
  destruct (one_array o U a_delta_m qs_delta_m [0] ltac:(left; cbn; auto)) as [(vs & V & F)|(e & _ & W)].
  - inversion F as [|? v ? ? _ F']; subst. inversion F'; subst. exists v. exact V.
  - specialize (W 0). unfold qs_delta_m in W. rewrite (gg_ok o _ E) in W. discriminate W.
Qed.
Print Assumptions python_float_zero_refuted.

(** Upstream of a wedge a Python float gives a complex velocity, numpy's gives nan. *)
Theorem python_float_negative_refuted : forall o b x, usual o -> s_beta o = Fin b -> b <> 2 ->
  frac_part (b / (2 - b)) <> 0 -> x < 0 ->
  a_u_e o (PyNum x) = Ok VCx /\ a_u_e o (NpNum x) = Ok (VNp NaN).
Proof. intros o b x U. exact (py_negative o U b x). Qed.
Print Assumptions python_float_negative_refuted.

(** C151, refuted: in decelerating wedge flow the edge velocity at x = 0 is inf for a numpy float and a
    ZeroDivisionError for a Python float. *)
Theorem python_float_decelerating_refuted : forall o b, usual o -> s_beta o = Fin b -> b < 0 ->
  a_u_e o (PyNum 0) = Err ZeroDivisionError /\ a_u_e o (NpNum 0) = Ok (VNp PInf).
Proof. intros o b U. exact (py_zero_decelerating o U b). Qed.
Print Assumptions python_float_decelerating_refuted.

(** C152 *)
Theorem no_positions_refuted : forall m rho u_call du,
  (delta_m_arr m [] = Err ValueError /\ shape_d_arr m [] = Err ValueError /\ delta_d_arr m [] = Err ValueError /\
   tau_w_arr m [] rho = Err ValueError /\ v_e_arr m [] = Err ValueError) /\
  (head_tau_w m u_call (LArray []) rho = (LArray [], Err ValueError) /\
   head_v_e_at m u_call du (LArray []) = (LArray [], Err ValueError)) /\
  forall o, usual o -> s_beta o <> Fin 2 ->
    a_u o (NpArr []) (NpArr []) = Err ValueError /\ a_v o (NpArr []) (NpArr []) = Err ValueError.
Proof.
  intros m rho uc du.
  assert (S : sol0_arr m [] = Err ValueError) by (unfold sol0_arr; destruct (m_sol m); reflexivity).
  split; [|split; [exact (conj (proj1 (head_empty_lemma m uc du rho)) (proj2 (head_empty_lemma m uc du rho)))|]].
  - unfold v_e_arr, tau_w_arr, delta_d_arr, shape_d_arr, delta_m_arr. rewrite S. repeat split.
  - intros o U NB. destruct (expo_ok o U NB) as (b & _ & E).
    exact (proj2 (no_points o U _ E (NpArr []) (NpArr []) ltac:(intros c H; discriminate H) eq_refl)).
Qed.
Print Assumptions no_positions_refuted.

(** The similarity solutions' other queries do answer so, unless they fail for every position. *)
Theorem no_positions_partial : forall o Q q, usual o ->
  (one_position Q q ->
   Q o (NpArr []) = Ok (VArr []) \/ exists e, Q o (NpArr []) = Err e /\ forall x, q o x = Err e) /\
  forall y, (y = NpArr [] \/ exists c, y = NpNum c \/ y = PyNum c) -> s_beta o <> Fin 2 ->
    a_eta o (NpArr []) y = Ok (VArr []).
Proof.
  intros o Q q U. split.
  - intros H. destruct (one_array o U Q q [] H) as [(vs & V & F)|W]; [left|right; exact W].
    inversion F; subst. exact V.
  - intros y Hy NB. destruct (expo_ok o U NB) as (b & _ & E).
    refine (proj1 (no_points o U _ E (NpArr []) y ltac:(intros c H; discriminate H) _)).
    destruct Hy as [->|[c [->| ->]]]; reflexivity.
Qed.
Print Assumptions no_positions_partial.

(** A default Blasius object is usual; positions in an array, and arrays that fit and that do not. *)
Example similarity_array_case : exists ivp quad bisect o,
  new_blasius ivp quad bisect (Fin 10) (Fin (1/100)) None None = Ok o /\ usual o /\ s_beta o = Fin 0 /\
  (exists a b, a_u_e o (NpArr [1; 2]) = Ok (VArr [Fin a; Fin b])) /\
  points (NpArr [1; 2]) (PyNum 3) = Some [(1, 3); (2, 3)] /\
  points (NpArr [1; 2]) (NpArr [1; 2; 3]) = None.
Proof.
  destruct tangent_object as (i & q & s & c & d & A & Q & Bi & _ & B).
  destruct (B 10 (1/100) ltac:(lra) ltac:(lra)) as (o & E & _). exists i, q, s, o.
  destruct (blasius_flow i q s _ _ _ _ o E) as [Fl _]. pose proof (flow_usual o _ _ _ Fl) as U.
  split; [exact E|]. split; [exact U|]. pose proof Fl as (AL & _ & BE & UR & _).
  split; [exact BE|]. split; [|split; reflexivity].
  destruct (expo_ok o U ltac:(rewrite BE; intros H; injection H; lra)) as (b & B' & EX).
  rewrite BE in B'. injection B' as <-.
  unfold a_u_e. unfold expo in EX. rewrite EX, UR. cbn [bind of_arg npow map nmul nbin].
  unfold xpow. destruct (Req_EM_T (0 / (2 - 0)) 0) as [_|N]; [|exfalso; apply N; unfold Rdiv; lra].
  rewrite !xmul_fin. eauto.
Qed.

(** A wedge whose exponent 1/3 is no integer. *)
Example python_float_negative_case : exists o, usual o /\ s_beta o = Fin (1/2) /\
  frac_part (1/2 / (2 - 1/2)) <> 0.
Proof.
  exists {| s_class := CFalknerSkan; s_u_ref := Fin 1; s_nu_ref := Fin 1; s_alpha := Fin 1; s_beta := Fin (1/2);
            s_gamma := Fin 1; s_f := None; s_eta_inf := Fin 8; s_eta_d := Fin 1; s_eta_m := Fin 1;
            s_eta_k := Fin 1; s_eta_s := Fin 8 |}.
  split; [|split; [reflexivity|]].
  - unfold usual. cbn. split; [reflexivity|]. split; [eauto|]. split; eexists; (split; [reflexivity|lra]).
  - intros H. replace (1/2 / (2 - 1/2)) with (1/3) in H by field.
    assert (K := base_fp (1/3)). unfold frac_part in H.
    assert (Z : IZR (Int_part (1/3)) = 1/3) by lra.
    assert (Z1 : (0 < Int_part (1/3))%Z) by (apply lt_IZR; rewrite Z; lra).
    assert (Z2 : (Int_part (1/3) < 1)%Z) by (apply lt_IZR; rewrite Z; lra). lia.
Qed.

Example python_float_decelerating_case : exists o, usual o /\ s_beta o = Fin (-1/10).
Proof.
  exists {| s_class := CFalknerSkan; s_u_ref := Fin 1; s_nu_ref := Fin 1; s_alpha := Fin 1; s_beta := Fin (-1/10);
            s_gamma := Fin 1; s_f := None; s_eta_inf := Fin 8; s_eta_d := Fin 1; s_eta_m := Fin 1;
            s_eta_k := Fin 1; s_eta_s := Fin 8 |}.
  split; [|reflexivity]. unfold usual. cbn. split; [reflexivity|]. split; [eauto|]. split; eexists; (split; [reflexivity|lra]).
Qed.
