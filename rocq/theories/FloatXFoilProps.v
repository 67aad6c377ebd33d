(** C125: the arc lengths of a loaded XFoil dump, with the rounding of binary64 arithmetic. *)
From Coq Require Import Reals ZArith List Sorted Lra Lia.
From Flocq Require Import Core IEEE754.BinarySingleNaN.
From Verif Require Import PyBase XFoilSpec FloatModel FloatSpec FloatFacts FloatXFoilModel FloatXFoilSpec FloatXFoilProofs.
Import ListNotations.
Open Scope R_scope.

(** C125 fails: a file whose arc lengths never decrease is refused when the two rows around the
    stagnation point print the same arc length. *)
Theorem float_arc_lengths_refuted : exists up u l lo,
  Forall2 printed_row (up ++ u :: l :: lo) [(0, 100000); (97565, 1793); (97565, -3766)]%Z /\
  rising (map fst (up ++ u :: l :: lo)) /\ Forall (fun r => 0 < real_of (snd r)) (up ++ [u]) /\ real_of (snd l) < 0 /\
  load_arcs64 (up ++ u :: l :: lo) [] = Err ValueError.
Proof.
  exists [w_row1], w_row2, w_row3, []. split; [exact w_printed|].
  split; [apply (printed_sorted _ [0; 97565; 97565]%Z)|split; [|split; [|exact w_load]]].
  - pose proof w_printed as H. inversion H as [|? ? ? ? [P1 _] H1]; subst. inversion H1 as [|? ? ? ? [P2 _] H2]; subst.
    inversion H2 as [|? ? ? ? [P3 _] _]; subst. repeat (constructor; [assumption|]). constructor.
  - repeat constructor; discriminate.
  - repeat constructor; unfold real_of, w_row1, w_row2, b_1, B2R, F2R; simpl; lra.
  - unfold real_of, w_row3, B2R, F2R; simpl; lra.
Qed.
Print Assumptions float_arc_lengths_refuted.

(** C125, any size of numbers: when the exact stagnation point is a few units of roundoff away from its
    two neighbours, the file loads and the arc lengths of both surfaces and of the wake start at zero,
    never decrease and are close to the exact ones. *)
Theorem float_arc_lengths_partial up u l lo wake S smax :
  Forall numeric (up ++ u :: l :: lo) ->
  rising (map fst (up ++ u :: l :: lo)) -> lengths smax (map fst (up ++ u :: l :: lo)) ->
  Forall (fun r => 0 <= real_of (snd r)) up -> smax <= 2 ^ 400 ->
  moderate (real_of (fst l)) -> moderate (real_of (snd u)) -> moderate (- real_of (snd l)) ->
  S = at_zero (real_of (snd u)) (real_of (fst u)) (real_of (snd l)) (real_of (fst l)) ->
  real_of (fst u) + real_of (fst l) / 2 ^ 49 <= S <= real_of (fst l) - real_of (fst l) / 2 ^ 49 ->
  rising wake -> lengths smax wake ->
  exists U L W, load_arcs64 (up ++ u :: l :: lo) wake = Ok (U, L, W) /\
    from_zero U /\ rising U /\
    within (smax / 2 ^ 48) U (map (fun s => S - s) (S :: rev (map (fun r => real_of (fst r)) (up ++ [u])))) /\
    from_zero L /\ rising L /\
    within (smax / 2 ^ 48) L (map (fun s => s - S) (S :: map (fun r => real_of (fst r)) (l :: lo))) /\
    (wake = [] \/ from_zero W) /\ rising W /\
    within (smax / 2 ^ 48) W (map (fun s => real_of s - real_of (hd b_0 wake)) wake).
Proof. exact (load_arcs_lemma up u l lo wake S smax). Qed.
Print Assumptions float_arc_lengths_partial.

(** C125 for a file as XFoil prints it, with five decimals (the integers k stand for k/100000), all
    numbers at most 100: enough that the two rows around the stagnation point print different arc
    lengths. *)
Theorem float_printed_dump_partial up u l lo wake kup ku kl klo kw :
  Forall2 printed_row (up ++ u :: l :: lo) (kup ++ ku :: kl :: klo) -> List.length up = List.length kup ->
  Forall2 printed wake kw ->
  Forall (fun k => (0 <= k <= 10000000)%Z) (map fst (kup ++ ku :: kl :: klo) ++ kw) ->
  Sorted Z.le (map fst (kup ++ ku :: kl :: klo)) -> Sorted Z.le kw ->
  Forall (fun k => (0 <= snd k)%Z) kup -> (0 < snd ku <= 10000000)%Z -> (-10000000 <= snd kl < 0)%Z ->
  (fst ku < fst kl)%Z ->
  let S := at_zero (real_of (snd u)) (real_of (fst u)) (real_of (snd l)) (real_of (fst l)) in
  exists U L W, load_arcs64 (up ++ u :: l :: lo) wake = Ok (U, L, W) /\
    from_zero U /\ rising U /\
    within (/ 2 ^ 41) U (map (fun s => S - s) (S :: rev (map (fun r => real_of (fst r)) (up ++ [u])))) /\
    from_zero L /\ rising L /\
    within (/ 2 ^ 41) L (map (fun s => s - S) (S :: map (fun r => real_of (fst r)) (l :: lo))) /\
    (wake = [] \/ from_zero W) /\ rising W /\
    within (/ 2 ^ 41) W (map (fun s => real_of s - real_of (hd b_0 wake)) wake).
Proof. exact (printed_dump_lemma up u l lo wake kup ku kl klo kw). Qed.
Print Assumptions float_printed_dump_partial.

(** A file that meets the hypotheses: the rows 0.00000 1.00000, 0.97565 0.01793, 1.00000 -0.03766 and
    a wake starting at 1.00000. *)
Example float_printed_case : exists up u l lo wake,
  Forall2 printed_row (up ++ u :: l :: lo) ([(0, 100000)] ++ (97565, 1793) :: (100000, -3766) :: [])%Z /\
  List.length up = 1%nat /\ Forall2 printed wake [100000]%Z /\
  Forall (fun k => (0 <= k <= 10000000)%Z) (map fst ([(0, 100000)] ++ (97565, 1793) :: (100000, -3766) :: []) ++ [100000])%Z /\
  Sorted Z.le (map fst ([(0, 100000)] ++ (97565, 1793) :: (100000, -3766) :: []))%Z /\
  exists U L W, load_arcs64 (up ++ u :: l :: lo) wake = Ok (U, L, W) /\ rising U /\ rising L.
Proof.
  pose proof w_printed as H. inversion H as [|? ? ? ? [P1 Q1] H1]; subst. inversion H1 as [|? ? ? ? [P2 Q2] H2]; subst.
  inversion H2 as [|? ? ? ? [P3 Q3] _]; subst. cbn [fst snd] in *. clear H H1 H2.
  assert (A : Forall2 printed_row ([w_row1] ++ w_row2 :: (snd w_row1, snd w_row3) :: []) ([(0, 100000)] ++ (97565, 1793) :: (100000, -3766) :: [])%Z).
  { repeat (constructor; [split; assumption|]). constructor. }
  assert (B : Forall2 printed [snd w_row1] [100000]%Z) by (constructor; [exact Q1|constructor]).
  assert (C : Forall (fun k => (0 <= k <= 10000000)%Z) (map fst ([(0, 100000)] ++ (97565, 1793) :: (100000, -3766) :: []) ++ [100000])%Z)
    by (cbn [map fst app]; repeat (constructor; [lia|]); constructor).
  assert (D : Sorted Z.le (map fst ([(0, 100000)] ++ (97565, 1793) :: (100000, -3766) :: []))%Z)
    by (cbn [map fst app]; repeat constructor; discriminate).
  exists [w_row1], w_row2, (snd w_row1, snd w_row3), [], [snd w_row1].
  split; [exact A|]. split; [reflexivity|]. split; [exact B|]. split; [exact C|]. split; [exact D|].
  destruct (float_printed_dump_partial [w_row1] w_row2 (snd w_row1, snd w_row3) [] [snd w_row1] _ _ _ _ _ A eq_refl B C D)
    as (U & L & W & E & _ & RU & _ & _ & RL & _).
  - constructor; constructor.
  - constructor; [cbn [snd]; lia|constructor].
  - cbn [snd]; lia.
  - cbn [snd]; lia.
  - cbn [fst]; lia.
  - exists U, L, W. auto.
Qed.

(** C125 fails for every file with a row of velocity exactly zero at a positive arc length: ValueError. *)
Theorem float_zero_velocity_refused up u l lo wake smax :
  Forall numeric (up ++ u :: l :: lo) ->
  rising (map fst (up ++ u :: l :: lo)) -> lengths smax (map fst (up ++ u :: l :: lo)) ->
  Forall (fun r => 0 <= real_of (snd r)) up -> smax <= 2 ^ 400 ->
  real_of (snd u) = 0 -> real_of (snd l) < 0 -> 0 < real_of (fst u) ->
  load_arcs64 (up ++ u :: l :: lo) wake = Err ValueError.
Proof. exact (zero_velocity64_lemma up u l lo wake smax). Qed.
Print Assumptions float_zero_velocity_refused.

(** A file in which the velocity stays positive is refused with ZeroDivisionError, whatever the rounding. *)
Theorem float_one_sided_refused up u wake :
  Forall numeric (up ++ [u]) -> Forall (fun r => 0 <= real_of (fst r)) (up ++ [u]) ->
  Forall (fun r => 0 <= real_of (snd r)) up -> 0 < real_of (snd u) ->
  load_arcs64 (up ++ [u]) wake = Err ZeroDivisionError.
Proof. exact (one_sided64_lemma up u wake). Qed.
Print Assumptions float_one_sided_refused.

(** The rows 0 1, 1 0, 1 -1 meet the hypotheses of the first, the rows 0 1, 1 1 those of the second. *)
Example float_refused_case :
  (let rows := [(b_0, b_1)] ++ (b_1, b_0) :: (b_1, b_m1) :: [] in
   Forall numeric rows /\ rising (map fst rows) /\ lengths 1 (map fst rows) /\ load_arcs64 rows [] = Err ValueError) /\
  (let rows := [(b_0, b_1)] ++ [(b_1, b_1)] in
   Forall numeric rows /\ load_arcs64 rows [] = Err ZeroDivisionError).
Proof.
  assert (O := one_val). assert (Z := zero_val). destruct O as [O1 O2], Z as [Z1 Z2].
  assert (M1 : is_number b_m1) by reflexivity. assert (M2 : real_of b_m1 = -1) by (unfold real_of, b_m1, B2R, F2R; simpl; lra).
  cbv zeta. cbn [app].
  assert (A : Forall numeric [(b_0, b_1); (b_1, b_0); (b_1, b_m1)]) by (repeat (constructor; [split; assumption|]); constructor).
  assert (B : rising (map fst [(b_0, b_1); (b_1, b_0); (b_1, b_m1)])).
  { unfold rising. cbn [map fst]. rewrite O2, Z2. repeat (constructor; try lra). }
  assert (C : lengths 1 (map fst [(b_0, b_1); (b_1, b_0); (b_1, b_m1)])).
  { cbn [map fst]. repeat (constructor; [split; [assumption|lra]|]). constructor. }
  split.
  - split; [exact A|]. split; [exact B|]. split; [exact C|].
    apply (float_zero_velocity_refused [(b_0, b_1)] (b_1, b_0) (b_1, b_m1) [] [] 1 A B C); cbn [snd fst]; try lra.
    + constructor; [cbn [snd]; lra|constructor].
  - assert (D : Forall numeric [(b_0, b_1); (b_1, b_1)]) by (repeat (constructor; [split; assumption|]); constructor).
    split; [exact D|]. apply (float_one_sided_refused [(b_0, b_1)] (b_1, b_1) [] D).
    + repeat (constructor; [cbn [fst]; lra|]). constructor.
    + constructor; [cbn [snd]; lra|constructor].
    + cbn [snd]. lra.
Qed.
