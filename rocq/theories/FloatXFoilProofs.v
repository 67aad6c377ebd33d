(** Arc lengths of a loaded XFoil dump in binary64 arithmetic (C125). *)
From Coq Require Import Reals ZArith List Sorted Lra Lia.
From Coquelicot Require Import Rcomplements.
From Flocq Require Import Core IEEE754.BinarySingleNaN.
From Verif Require Import PyBase XFoilSpec FloatModel FloatSpec FloatFacts FloatXFoilModel FloatXFoilSpec.
Import ListNotations.
Open Scope R_scope.

(** ** Exactly rounded subtraction *)
Lemma rnd_le x y : x <= y -> rnd x <= rnd y.
Proof. intros L. unfold rnd. apply round_le; [apply FLT_exp_valid; reflexivity|typeclasses eauto|exact L]. Qed.
Lemma rnd_0 : rnd 0 = 0.
Proof. unfold rnd. apply round_0. typeclasses eauto. Qed.
Lemma rnd_ge_0 x : 0 <= x -> 0 <= rnd x.
Proof. intros H. rewrite <- rnd_0. apply rnd_le, H. Qed.
Lemma sub_rnd x y : is_number x -> is_number y -> Rabs (real_of x - real_of y) <= huge ->
  is_number (x - y)%b64 /\ real_of (x - y)%b64 = rnd (real_of x - real_of y).
Proof.
  unfold is_number, real_of, fsub. intros Fx Fy H.
  pose proof (Bminus_correct prec emax Hprec Hmax mode_NE _ _ Fx Fy) as C. simpl round_mode in C.
  change (round radix2 (SpecFloat.fexp prec emax) ZnearestE (B2R x - B2R y)) with (rnd (B2R x - B2R y)) in C.
  rewrite Rlt_bool_true in C by (apply rnd_fits, H). destruct C as (E & F & _). auto.
Qed.

Lemma zero_val : is_number b_0 /\ real_of b_0 = 0.
Proof. split; reflexivity. Qed.
Lemma one_val : is_number b_1 /\ real_of b_1 = 1.
Proof. destruct (literal 4503599627370496 (-52) eq_refl) as [A B]. split; [exact A|]. unfold b_1. rewrite B. simpl. lra. Qed.
Lemma flt_number x y : is_number x -> is_number y -> flt x y = Rlt_bool (real_of x) (real_of y).
Proof. apply Bltb_correct. Qed.
Lemma feq_number x y : is_number x -> is_number y -> feq x y = Req_bool (real_of x) (real_of y).
Proof. apply Beqb_correct. Qed.
Lemma set_ok s : is_number s -> 0 <= real_of s -> set_s64 s = Ok s.
Proof.
  intros N P. unfold set_s64. rewrite flt_number by (try exact N; apply zero_val).
  rewrite (proj2 zero_val), Rlt_bool_false by exact P. reflexivity.
Qed.
Lemma new_ok (r : row64) : is_number (fst r) -> 0 <= real_of (fst r) -> new_row64 r = Ok r.
Proof. intros N P. unfold new_row64. rewrite set_ok by assumption. destruct r. reflexivity. Qed.

(** Negation by multiplication with -1 is exact. *)
Lemma negate_val x : is_number x -> is_number (x * b_m1)%b64 /\ real_of (x * b_m1)%b64 = - real_of x.
Proof.
  unfold is_number, real_of, fmul. intros F.
  pose proof (Bmult_correct prec emax Hprec Hmax mode_NE x b_m1) as C. simpl round_mode in C.
  assert (M : B2R b_m1 = -1) by (unfold b_m1, B2R, F2R; simpl; lra).
  rewrite M in C. replace (B2R x * -1) with (- B2R x) in C by ring.
  rewrite round_generic in C; [|typeclasses eauto|apply generic_format_opp, generic_format_B2R].
  rewrite Rlt_bool_true in C by (rewrite Rabs_Ropp; apply abs_B2R_lt_emax).
  destruct C as (E & F1 & _). rewrite F in F1. auto.
Qed.

(** ** The interpolated arc length *)
Definition sc : R := 2 ^ 400.
Lemma sc_facts : 1 <= sc /\ 1000 * (sc * sc) <= huge /\ tiny * sc <= uu / 1000 /\ tiny <= / sc * (uu / 1000) /\ tiny <= uu / 1000.
Proof.
  assert (P : 1 <= sc) by (unfold sc; rewrite <- (pow1 400); apply pow_incr; lra).
  assert (B2 : huge = sc * sc * 2 ^ 200) by (unfold huge, sc; rewrite <- !pow_add; reflexivity).
  assert (B3 : 1 <= 2 ^ 190) by (rewrite <- (pow1 190); apply pow_incr; lra).
  assert (B4 : 2 ^ 200 = 1024 * 2 ^ 190) by (replace 200%nat with (10 + 190)%nat by reflexivity; rewrite pow_add; f_equal; lra).
  assert (P2 : 1 <= sc * sc) by nra.
  assert (T0 : tiny * huge = 1).
  { unfold tiny. change (2 ^ 1000) with huge. apply Rinv_l. rewrite B2. nra. }
  assert (PT := tiny_pos).
  assert (Q : tiny * sc <= uu / 1000 * / sc).
  { apply (Rmult_le_reg_r sc); [lra|]. replace (uu / 1000 * / sc * sc) with (uu / 1000) by (field; lra).
    replace (tiny * sc * sc) with (/ 2 ^ 200).
    - unfold uu. apply Rle_trans with (/ 2 ^ 100); [|lra]. apply Rinv_le_contravar; [lra|]. apply Rle_pow; [lra|]. apply PeanoNat.Nat.leb_le. reflexivity.
    - apply (Rmult_eq_reg_r (2 ^ 200)); [|lra]. rewrite Rinv_l by lra. rewrite <- T0, B2. ring. }
  assert (Pu : 0 < uu / 1000) by (unfold uu; lra).
  assert (I1 : 0 < / sc <= 1).
  { split; [apply Rinv_0_lt_compat; lra|]. rewrite <- Rinv_1. apply Rinv_le_contravar; lra. }
  split; [exact P|]. split; [rewrite B2, B4; nra|].
  assert (Q2 : uu / 1000 * / sc <= uu / 1000) by nra.
  assert (Q3 : tiny <= tiny * sc) by nra.
  repeat split; lra.
Qed.

Lemma stag_near up lo su uu' sl ul :
  is_number (fst up) -> is_number (snd up) -> is_number (fst lo) -> is_number (snd lo) ->
  real_of (fst up) = su -> real_of (snd up) = uu' -> real_of (fst lo) = sl -> real_of (snd lo) = ul ->
  0 <= su <= sl -> / sc <= sl <= sc -> / sc <= uu' <= sc -> / sc <= ul <= sc ->
  let S := su + (sl - su) * (uu' / (uu' + ul)) in
  exists r, stag_s64 up lo = set_s64 r /\ is_number r /\ Rabs (real_of r - S) <= 16 * uu * sl.
Proof.
  intros N1 N2 N3 N4 E1 E2 E3 E4 Hs Hl Hu Hv S.
  destruct sc_facts as (C1 & C2 & C3 & C4 & C5). assert (PT := tiny_pos).
  assert (Pi : 0 < / sc) by (apply Rinv_0_lt_compat; lra).
  assert (Ue : 0 < uu <= / 1000000000) by (unfold uu; lra).
  assert (C6 : sc <= sc * sc) by nra.
  set (w := uu' + ul). assert (Pw : 2 * / sc <= w) by (unfold w; lra). assert (Pw0 : 0 < w) by lra.
  set (f := uu' / w). assert (Hf : 0 < f < 1).
  { unfold f. split; [apply Rdiv_lt_0_compat; lra|]. apply (Rmult_lt_reg_r w); [lra|]. unfold Rdiv. rewrite Rmult_assoc, Rinv_l by lra. unfold w; lra. }
  unfold stag_s64. cbv zeta.
  (* the sum of the velocities *)
  destruct (add_near (snd up) (snd lo) N2 N4) as [Nd Ed].
  { rewrite E2, E4, Rabs_pos_eq by lra. lra. }
  rewrite E2, E4 in Ed. fold w in Ed. rewrite (Rabs_pos_eq w) in Ed by lra.
  set (du := (snd up + snd lo)%b64) in *.
  assert (Tw : tiny <= w * (uu / 1000)) by (apply Rle_trans with (1 := C4); apply Rmult_le_compat_r; lra).
  assert (Ed' : Rabs (real_of du - w) <= 1001/1000 * uu * w) by lra.
  apply Rabs_le_between in Ed'.
  assert (Pd : w / 2 <= real_of du) by nra.
  rewrite feq_number by (try exact Nd; apply zero_val). rewrite (proj2 zero_val), Req_bool_false by (apply Rgt_not_eq; change (real_of du > 0); lra).
  (* the fraction *)
  assert (Eq : Rabs (uu' / real_of du - f) <= 2002/1000 * uu).
  { replace (uu' / real_of du - f) with (f * ((w - real_of du) / real_of du)) by (unfold f; field; lra).
    rewrite Rabs_mult, (Rabs_pos_eq f) by lra.
    assert (Q : Rabs ((w - real_of du) / real_of du) <= 2002/1000 * uu).
    { unfold Rdiv. rewrite Rabs_mult, (Rabs_pos_eq (/ real_of du)) by (left; apply Rinv_0_lt_compat; lra).
      apply (Rmult_le_reg_r (real_of du)); [lra|]. rewrite Rmult_assoc, Rinv_l, Rmult_1_r by lra.
      apply Rle_trans with (1001/1000 * uu * w); [apply Rabs_le_between; lra|]. nra. }
    pose proof (Rabs_pos ((w - real_of du) / real_of du)). nra. }
  apply Rabs_le_between in Eq.
  destruct (div_near (snd up) du N2 Nd ltac:(lra)) as [Nf Ef].
  { rewrite E2, Rabs_pos_eq; [|apply Rlt_le, Rdiv_lt_0_compat; lra]. nra. }
  rewrite E2 in Ef. rewrite (Rabs_pos_eq (uu' / real_of du)) in Ef by (apply Rlt_le, Rdiv_lt_0_compat; lra).
  set (frac := (snd up / du)%b64) in *.
  assert (Ef' : Rabs (real_of frac - f) <= 4 * uu).
  { assert (Q : uu * (uu' / real_of du) <= uu * (1001/1000)) by (apply Rmult_le_compat_l; lra).
    apply Rabs_le_between in Ef. apply Rabs_le_between. lra. }
  apply Rabs_le_between in Ef'. clear Ef Eq.
  (* one minus it *)
  destruct one_val as [No Eo].
  destruct (sub_near b_1 frac No Nf) as [Ng Eg].
  { rewrite Eo. apply Rle_trans with 2; [apply Rabs_le_between; lra|lra]. }
  rewrite Eo in Eg. set (g := (b_1 - frac)%b64) in *.
  assert (Eg' : Rabs (real_of g - (1 - f)) <= 51/10 * uu).
  { assert (Rabs (1 - real_of frac) <= 1001/1000) by (apply Rabs_le_between; lra).
    assert (Q : uu * Rabs (1 - real_of frac) <= uu * (1001/1000)) by (apply Rmult_le_compat_l; lra).
    apply Rabs_le_between in Eg. apply Rabs_le_between. lra. }
  apply Rabs_le_between in Eg'. clear Eg.
  (* the products *)
  assert (Tl : tiny <= sl * (uu / 1000)) by (apply Rle_trans with (1 := C4); apply Rmult_le_compat_r; lra).
  destruct (mul_near frac (fst lo) Nf N3) as [Na Ea].
  { rewrite E3. apply Rle_trans with (2 * sc); [|lra]. rewrite Rabs_mult, (Rabs_pos_eq sl) by lra.
    apply Rmult_le_compat; try lra; [apply Rabs_pos|]. apply Rabs_le_between; lra. }
  rewrite E3 in Ea. set (A := (frac * fst lo)%b64) in *.
  assert (Ea' : Rabs (real_of A - f * sl) <= 52/10 * (uu * sl)).
  { assert (Q1 : Rabs (real_of frac * sl) <= 1001/1000 * sl).
    { rewrite Rabs_mult, (Rabs_pos_eq sl) by lra. apply Rmult_le_compat_r; [lra|]. apply Rabs_le_between; lra. }
    assert (Q2 : Rabs (real_of frac * sl - f * sl) <= 4 * uu * sl).
    { replace (real_of frac * sl - f * sl) with ((real_of frac - f) * sl) by ring.
      rewrite Rabs_mult, (Rabs_pos_eq sl) by lra. apply Rmult_le_compat_r; [lra|]. apply Rabs_le_between; lra. }
    assert (Q3 : uu * Rabs (real_of frac * sl) <= uu * (1001/1000 * sl)) by (apply Rmult_le_compat_l; lra).
    apply Rabs_le_between in Ea. apply Rabs_le_between in Q2. apply Rabs_le_between. lra. }
  destruct (mul_near g (fst up) Ng N1) as [Nb Eb].
  { rewrite E1. apply Rle_trans with (2 * sc); [|lra]. rewrite Rabs_mult, (Rabs_pos_eq su) by lra.
    apply Rmult_le_compat; try lra; [apply Rabs_pos|]. apply Rabs_le_between; lra. }
  rewrite E1 in Eb. set (B := (g * fst up)%b64) in *.
  assert (Us : uu * su <= uu * sl) by (apply Rmult_le_compat_l; lra).
  assert (Eb' : Rabs (real_of B - (1 - f) * su) <= 62/10 * (uu * sl)).
  { assert (Q1 : Rabs (real_of g * su) <= 1001/1000 * su).
    { rewrite Rabs_mult, (Rabs_pos_eq su) by lra. apply Rmult_le_compat_r; [lra|]. apply Rabs_le_between; lra. }
    assert (Q2 : Rabs (real_of g * su - (1 - f) * su) <= 51/10 * uu * su).
    { replace (real_of g * su - (1 - f) * su) with ((real_of g - (1 - f)) * su) by ring.
      rewrite Rabs_mult, (Rabs_pos_eq su) by lra. apply Rmult_le_compat_r; [lra|]. apply Rabs_le_between; lra. }
    assert (Q3 : uu * Rabs (real_of g * su) <= uu * (1001/1000 * su)) by (apply Rmult_le_compat_l; lra).
    apply Rabs_le_between in Eb. apply Rabs_le_between in Q2. apply Rabs_le_between. lra. }
  apply Rabs_le_between in Ea'. apply Rabs_le_between in Eb'.
  (* the sum *)
  assert (ES : S = f * sl + (1 - f) * su) by (unfold S, f; fold w; ring).
  assert (HS : 0 <= S <= sl).
  { rewrite ES. assert (0 <= f * sl) by (apply Rmult_le_pos; lra). assert (0 <= (1 - f) * su) by (apply Rmult_le_pos; lra).
    assert ((1 - f) * su <= (1 - f) * sl) by (apply Rmult_le_compat_l; lra). lra. }
  assert (Ul : uu * sl <= / 1000000000 * sl) by (apply Rmult_le_compat_r; lra).
  assert (Bs : Rabs (real_of A + real_of B) <= 1001/1000 * sl) by (apply Rabs_le_between; lra).
  destruct (add_near A B Na Nb) as [Nr Er].
  { apply Rle_trans with (1 := Bs). lra. }
  exists (A + B)%b64. split; [reflexivity|]. split; [exact Nr|].
  assert (Q3 : uu * Rabs (real_of A + real_of B) <= uu * (1001/1000 * sl)) by (apply Rmult_le_compat_l; lra).
  apply Rabs_le_between in Er. apply Rabs_le_between. lra.
Qed.

(** ** The loops *)
Lemma each_ok {X Y} (f : X -> res Y) (g : X -> Y) l : (forall x, In x l -> f x = Ok (g x)) -> each64 f l = Ok (map g l).
Proof.
  induction l as [|x t IH]; intros H; [reflexivity|]. cbn [each64 map]. rewrite H by (left; reflexivity). cbn [bind].
  rewrite IH; [reflexivity|]. intros y Hy. apply H. right. exact Hy.
Qed.

Lemma upper_loop_app rows rest up : (forall r, In r rows -> is_number (fst r) /\ is_number (snd r) /\
    0 <= real_of (fst r) /\ 0 <= real_of (snd r)) ->
  upper_loop64 (rows ++ rest) up = upper_loop64 rest (rev rows ++ up).
Proof.
  revert up. induction rows as [|r t IH]; intros up H; [reflexivity|].
  destruct (H r (or_introl eq_refl)) as (A & B & C & D).
  cbn [app upper_loop64]. rewrite new_ok by assumption. cbn [bind].
  rewrite flt_number by (try exact B; apply zero_val). rewrite (proj2 zero_val), Rlt_bool_false by exact D.
  rewrite IH by (intros q Hq; apply H; right; exact Hq). cbn [rev]. rewrite <- app_assoc. reflexivity.
Qed.
Lemma upper_loop_stop r rest up : is_number (fst r) -> is_number (snd r) -> 0 <= real_of (fst r) -> real_of (snd r) < 0 ->
  upper_loop64 (r :: rest) up = Ok (up, Some (r :: rest)).
Proof.
  intros A B C D. cbn [upper_loop64]. rewrite new_ok by assumption. cbn [bind].
  rewrite flt_number by (try exact B; apply zero_val). rewrite (proj2 zero_val), Rlt_bool_true by exact D. reflexivity.
Qed.

(** Values rounded from a monotone list are monotone. *)
Lemma sorted_map {X} (h k : X -> R) (P : R -> R -> Prop) l :
  (forall x y, In x l -> In y l -> P (h x) (h y) -> k x <= k y) -> Sorted P (map h l) -> Sorted Rle (map k l).
Proof.
  induction l as [|x t IH]; intros H S; [constructor|]. cbn [map] in *. inversion S as [|? ? S1 S2]; subst.
  constructor; [apply IH; [intros a b Ha Hb; apply H; right; assumption|exact S1]|].
  destruct t as [|y t']; [constructor|]. cbn [map] in *. inversion S2; subst. constructor. apply H; [left; reflexivity|right; left; reflexivity|assumption].
Qed.

Section Arcs.
Context (stag : b64) (l : list b64) (M : R).
Context (Ns : is_number stag) (Hs : 0 <= real_of stag <= M) (HM : M <= huge).
Context (Nl : forall s, In s l -> is_number s /\ 0 <= real_of s <= M).
Lemma arc_number x y : is_number x -> is_number y -> 0 <= real_of x <= M -> 0 <= real_of y <= M ->
  is_number (x - y)%b64 /\ real_of (x - y)%b64 = rnd (real_of x - real_of y) /\
  Rabs (real_of (x - y)%b64 - (real_of x - real_of y)) <= uu * M + tiny.
Proof.
  intros Nx Ny Hx Hy. assert (B : Rabs (real_of x - real_of y) <= M) by (apply Rabs_le_between; lra).
  destruct (sub_rnd x y Nx Ny ltac:(lra)) as [N E]. split; [exact N|]. split; [exact E|]. rewrite E.
  eapply Rle_trans; [apply rnd_error|]. assert (0 < uu) by (unfold uu; lra).
  assert (uu * Rabs (real_of x - real_of y) <= uu * M) by (apply Rmult_le_compat_l; lra). lra.
Qed.

Lemma upper_arcs_ok : (forall s, In s l -> real_of s <= real_of stag) -> Sorted Rge (map real_of l) ->
  upper_arcs64 stag l = Ok (map (fun s => stag - s)%b64 l) /\
  Forall (fun v => is_number v /\ 0 <= real_of v) (map (fun s => stag - s)%b64 l) /\
  Sorted Rle (map real_of (map (fun s => stag - s)%b64 l)) /\
  Forall2 (fun v s => Rabs (real_of v - (real_of stag - real_of s)) <= uu * M + tiny) (map (fun s => stag - s)%b64 l) l.
Proof.
  intros Le So.
  assert (A : forall s, In s l -> is_number (stag - s)%b64 /\ real_of (stag - s)%b64 = rnd (real_of stag - real_of s) /\
     0 <= real_of (stag - s)%b64 /\ Rabs (real_of (stag - s)%b64 - (real_of stag - real_of s)) <= uu * M + tiny).
  { intros s Hi. destruct (Nl s Hi) as [N1 B1]. destruct (arc_number stag s Ns N1 Hs B1) as (N & E & F).
    split; [exact N|]. split; [exact E|]. split; [|exact F]. rewrite E. apply rnd_ge_0. specialize (Le s Hi). lra. }
  split; [|split; [|split]].
  - apply each_ok. intros s Hi. apply set_ok; apply A, Hi.
  - apply Forall_map, Forall_forall. intros s Hi. split; apply A, Hi.
  - rewrite map_map. apply (sorted_map real_of (fun s => real_of (stag - s)%b64) Rge l); [|exact So].
    intros x y Hx Hy R. rewrite (proj1 (proj2 (A x Hx))), (proj1 (proj2 (A y Hy))). apply rnd_le. lra.
  - clear So Le. induction l as [|s t IH]; [constructor|]. cbn [map]. constructor; [apply A; left; reflexivity|].
    apply IH; intros; [apply Nl|apply A]; right; assumption.
Qed.
Lemma lower_arcs_ok : (forall s, In s l -> real_of stag <= real_of s) -> Sorted Rle (map real_of l) ->
  lower_arcs64 stag l = Ok (map (fun s => s - stag)%b64 l) /\
  Forall (fun v => is_number v /\ 0 <= real_of v) (map (fun s => s - stag)%b64 l) /\
  Sorted Rle (map real_of (map (fun s => s - stag)%b64 l)) /\
  Forall2 (fun v s => Rabs (real_of v - (real_of s - real_of stag)) <= uu * M + tiny) (map (fun s => s - stag)%b64 l) l.
Proof.
  intros Le So.
  assert (A : forall s, In s l -> is_number (s - stag)%b64 /\ real_of (s - stag)%b64 = rnd (real_of s - real_of stag) /\
     0 <= real_of (s - stag)%b64 /\ Rabs (real_of (s - stag)%b64 - (real_of s - real_of stag)) <= uu * M + tiny).
  { intros s Hi. destruct (Nl s Hi) as [N1 B1]. destruct (arc_number s stag N1 Ns B1 Hs) as (N & E & F).
    split; [exact N|]. split; [exact E|]. split; [|exact F]. rewrite E. apply rnd_ge_0. specialize (Le s Hi). lra. }
  split; [|split; [|split]].
  - apply each_ok. intros s Hi. apply set_ok; apply A, Hi.
  - apply Forall_map, Forall_forall. intros s Hi. split; apply A, Hi.
  - rewrite map_map. apply (sorted_map real_of (fun s => real_of (s - stag)%b64) Rle l); [|exact So].
    intros x y Hx Hy R. rewrite (proj1 (proj2 (A x Hx))), (proj1 (proj2 (A y Hy))). apply rnd_le. lra.
  - clear So Le. induction l as [|s t IH]; [constructor|]. cbn [map]. constructor; [apply A; left; reflexivity|].
    apply IH; intros; [apply Nl|apply A]; right; assumption.
Qed.
End Arcs.

(** ** The whole loader *)
Lemma sorted_app_l {A} (P : A -> A -> Prop) l m : Sorted P (l ++ m) -> Sorted P l.
Proof.
  induction l as [|x t IH]; intros H; [constructor|]. inversion H; subst. constructor; [auto|].
  destruct t; [constructor|]. cbn [app] in *. match goal with H : HdRel _ _ _ |- _ => inversion H; subst end. constructor. assumption.
Qed.
Lemma sorted_app_r {A} (P : A -> A -> Prop) l m : Sorted P (l ++ m) -> Sorted P m.
Proof. induction l as [|x t IH]; intros H; [exact H|]. inversion H; subst. auto. Qed.
Lemma rising_le l : Sorted Rle l -> forall a b c, l = a :: b -> In c l -> a <= c.
Proof.
  intros S a b c -> [->|I]; [lra|]. apply Sorted_StronglySorted in S; [|intros x y z; lra].
  inversion S as [|? ? _ F]; subst. rewrite Forall_forall in F. apply F, I.
Qed.
Lemma falling_rev l : Sorted Rle l -> Sorted Rge (rev l).
Proof.
  induction l as [|x t IH]; intros H; [constructor|]. inversion H; subst. cbn [rev].
  match goal with H : Sorted Rle t |- _ => specialize (IH H) end.
  match goal with H : HdRel _ _ _ |- _ => rename H into Hh end.
  destruct t as [|y t]; [constructor; constructor|]. inversion Hh as [|? ? Lxy]; subst. clear - IH Lxy.
  cbn [rev] in *. revert IH. generalize (rev t) as q. induction q as [|z q IHq]; cbn [app]; intros S.
  - constructor; [constructor; constructor|constructor; lra].
  - inversion S as [|? ? S1 S2]; subst. constructor; [apply IHq; assumption|].
    destruct q; cbn [app] in *; inversion S2; subst; constructor; assumption.
Qed.
Lemma rising_last l x : Sorted Rle (l ++ [x]) -> forall c, In c l -> c <= x.
Proof.
  induction l as [|y t IH]; intros S c I; [destruct I|]. cbn [app] in S. destruct I as [->|I].
  - apply (rising_le _ S c (t ++ [x])); [reflexivity|]. right. apply in_or_app. right. left. reflexivity.
  - inversion S; subst. apply IH; assumption.
Qed.

Lemma within_shift (g : b64 -> b64) (h k : R -> R) e d (q : list row64) :
  Forall (fun v => is_number v /\ 0 <= real_of v) (map g (map fst q)) ->
  Forall2 (fun v s => Rabs (real_of v - h (real_of s)) <= e) (map g (map fst q)) (map fst q) ->
  (forall x, Rabs (h x - k x) <= d - e) -> within d (map g (map fst q)) (map k (map (fun r => real_of (fst r)) q)).
Proof.
  intros WB WD K. induction q as [|s t IH]; [constructor|].
  cbn [map] in *. inversion WB as [|? ? W1 W2]; subst. inversion WD as [|? ? ? ? W3 W4]; subst.
  constructor; [|apply IH; assumption]. split; [tauto|]. specialize (K (real_of (fst s))). cbv beta in *.
  apply Rabs_le_between in K. apply Rabs_le_between in W3. apply Rabs_le_between.
  change (real_of (fst s)) with (real_of (@fst b64 b64 s)) in *. lra.
Qed.

Lemma load_arcs_lemma up u l lo wake S smax :
  Forall numeric (up ++ u :: l :: lo) ->
  rising (map fst (up ++ u :: l :: lo)) -> lengths smax (map fst (up ++ u :: l :: lo)) ->
  Forall (fun r => 0 <= real_of (snd r)) up -> smax <= 2 ^ 400 ->
  moderate (real_of (fst l)) -> moderate (real_of (snd u)) -> moderate (- real_of (snd l)) ->
  S = at_zero (real_of (snd u)) (real_of (fst u)) (real_of (snd l)) (real_of (fst l)) ->
  real_of (fst u) + real_of (fst l) / 2 ^ 49 <= S <= real_of (fst l) - real_of (fst l) / 2 ^ 49 ->
  rising wake -> lengths smax wake ->
  exists U L W, load_arcs64 (up ++ u :: l :: lo) wake = Ok (U, L, W) /\
    from_zero U /\ rising U /\
    within (smax / 2 ^ 48) U (map (fun s => S - s) (S :: rev (map (fun r => real_of (fst r)) (up ++ [u])))) /\
    from_zero L /\ rising L /\
    within (smax / 2 ^ 48) L (map (fun s => s - S) (S :: map (fun r => real_of (fst r)) (l :: lo))) /\
    (wake = [] \/ from_zero W) /\ rising W /\
    within (smax / 2 ^ 48) W (map (fun s => real_of s - real_of (hd b_0 wake)) wake).
Proof.
  intros Nu Ri Le Vu Hmx Ml Mu Mv ES HS Rw Lw.
  set (su := real_of (fst u)) in *. set (sl := real_of (fst l)) in *.
  destruct sc_facts as (C1 & C2 & C3 & C4 & C5). assert (PT := tiny_pos).
  assert (Eu : uu = / 2 ^ 53) by reflexivity. assert (Pu : 0 < uu) by (rewrite Eu; lra).
  unfold moderate in *. fold sc in *.
  assert (Pi : 0 < / sc) by (apply Rinv_0_lt_compat; lra).
  assert (Cs : sc <= huge) by nra.
  unfold lengths in Le, Lw. rewrite Forall_forall in Le.
  assert (LI : forall r, In r (up ++ u :: l :: lo) -> is_number (fst r) /\ is_number (snd r) /\ 0 <= real_of (fst r) <= smax).
  { intros r Hr. rewrite Forall_forall in Nu. destruct (Nu r Hr) as [A B].
    destruct (Le (fst r) (in_map fst _ _ Hr)) as [_ C]. auto. }
  assert (Iu : In u (up ++ u :: l :: lo)) by (apply in_or_app; right; left; reflexivity).
  assert (Il : In l (up ++ u :: l :: lo)) by (apply in_or_app; right; right; left; reflexivity).
  destruct (LI u Iu) as (Nu1 & Nu2 & Bu). destruct (LI l Il) as (Nl1 & Nl2 & Bl). fold su in Bu. fold sl in Bl.
  assert (Ri' := Ri). unfold rising in Ri'. rewrite !map_map in Ri'. rewrite map_app in Ri'. cbn [map] in Ri'. fold su sl in Ri'.
  assert (Ri2 := sorted_app_r _ _ _ Ri').
  assert (Hsul : su <= sl) by (apply (rising_le _ Ri2 su _ sl eq_refl); right; left; reflexivity).
  destruct (negate_val (snd l) Nl2) as [Nn En].
  set (u' := real_of (snd u)) in *. set (v' := - real_of (snd l)) in *.
  destruct (stag_near u (fst l, (snd l * b_m1)%b64) su u' sl v' Nu1 Nu2 Nl1 Nn eq_refl eq_refl eq_refl En
             ltac:(lra) Ml Mu Mv) as (stag & Est & Ns & Er).
  assert (EqS : su + (sl - su) * (u' / (u' + v')) = S).
  { rewrite ES. unfold at_zero. f_equal. f_equal. unfold v'. field. unfold v' in Mv. lra. }
  rewrite EqS in Er. clear EqS ES. assert (Er2 := Er). apply Rabs_le_between in Er2.
  assert (E49 : sl / 2 ^ 49 = 16 * uu * sl) by (rewrite Eu; lra). rewrite E49 in HS.
  assert (Hst : su <= real_of stag <= sl) by lra.
  assert (Bst : 0 <= real_of stag <= smax) by lra.
  rewrite (set_ok stag Ns) in Est by lra.
  (* the upper rows *)
  assert (Lp : upper_loop64 (up ++ u :: l :: lo) [] = Ok (u :: rev up, Some (l :: lo))).
  { replace (up ++ u :: l :: lo) with ((up ++ [u]) ++ l :: lo) by (rewrite <- app_assoc; reflexivity).
    rewrite upper_loop_app.
    - rewrite rev_app_distr, app_nil_r. cbn [rev app]. apply upper_loop_stop; try assumption; [change (0 <= sl); lra|]. change (real_of (snd l) < 0). unfold v' in Mv. lra.
    - intros r Hr. apply in_app_or in Hr. destruct Hr as [Hr|[<-|[]]].
      + destruct (LI r ltac:(apply in_or_app; left; exact Hr)) as (A & B & C). rewrite Forall_forall in Vu.
        specialize (Vu r Hr). tauto.
      + split; [exact Nu1|split; [exact Nu2|split; [change (0 <= su); lra|change (0 <= u'); lra]]]. }
  assert (Lw' : lower_rows64 (up ++ u :: l :: lo) (Some (l :: lo)) = Ok (map (fun r => (fst r, (snd r * b_m1)%b64)) (l :: lo))).
  { unfold lower_rows64. rewrite (each_ok _ (fun r => r)); [cbn [bind]; rewrite map_id; reflexivity|].
    intros r Hr. apply new_ok; apply LI; apply in_or_app; right; right; exact Hr. }
  (* the arc lengths *)
  assert (UpS : Sorted Rle (map real_of (map fst (up ++ [u])))).
  { rewrite map_map, map_app. cbn [map]. fold su.
    apply (sorted_app_l Rle _ (sl :: map (fun x => real_of (fst x)) lo)). rewrite <- app_assoc. exact Ri'. }
  assert (UpF : forall s, In s (map fst (u :: rev up)) -> real_of s <= su).
  { intros s Hs. apply in_map_iff in Hs. destruct Hs as (r & <- & [<-|Hr]); [fold su; lra|]. apply in_rev in Hr.
    rewrite map_map, map_app in UpS. cbn [map] in UpS. fold su in UpS. apply (rising_last _ _ UpS).
    apply (in_map (fun r => real_of (fst r))), Hr. }
  assert (LoF : forall s, In s (map fst (l :: lo)) -> sl <= real_of s).
  { intros s Hs. apply in_map_iff in Hs. destruct Hs as (r & <- & Hr). inversion Ri2 as [|? ? Ri3 _]; subst.
    apply (rising_le _ Ri3 sl _ _ eq_refl).
    change (sl :: map (fun x => real_of (fst x)) lo) with (map (fun x => real_of (fst x)) (l :: lo)).
    apply (in_map (fun r => real_of (fst r))), Hr. }
  destruct (upper_arcs_ok stag (stag :: map fst (u :: rev up)) smax Ns Bst ltac:(lra)) as (UA & UB & UC & UD).
  { intros s [<-|Hs]; [tauto|]. apply in_map_iff in Hs. destruct Hs as (r & <- & Hr).
    destruct (LI r) as (A & B & C); [|tauto]. apply in_or_app. destruct Hr as [<-|Hr]; [right; left; reflexivity|left; apply in_rev, Hr]. }
  { intros s [<-|Hs]; [lra|]. specialize (UpF s Hs). lra. }
  { cbn [map]. constructor; [|constructor; fold su; lra].
    replace (real_of (fst u) :: map real_of (map fst (rev up))) with (rev (map real_of (map fst (up ++ [u])))); [apply falling_rev, UpS|].
    rewrite <- !map_rev, rev_app_distr. reflexivity. }
  destruct (lower_arcs_ok stag (stag :: map fst (l :: lo)) smax Ns Bst ltac:(lra)) as (LA & LB & LC & LD).
  { intros s [<-|Hs]; [tauto|]. apply in_map_iff in Hs. destruct Hs as (r & <- & Hr).
    destruct (LI r) as (A & B & C); [|tauto]. apply in_or_app. right; right; exact Hr. }
  { intros s [<-|Hs]; [lra|]. specialize (LoF s Hs). lra. }
  { cbn [map]. inversion Ri2 as [|? ? Ri3 _]; subst. constructor; [rewrite map_map; exact Ri3|constructor; fold sl; lra]. }
  assert (Small : uu * smax + tiny <= 17 / 16 * uu * smax).
  { assert (tiny <= sl * (uu / 1000)) by (apply Rle_trans with (1 := C4); apply Rmult_le_compat_r; lra).
    assert (sl * (uu / 1000) <= smax * (uu / 1000)) by (apply Rmult_le_compat_r; lra).
    assert (0 <= uu * smax) by (apply Rmult_le_pos; lra). lra. }
  assert (Small2 : 16 * uu * sl <= 16 * uu * smax) by (apply Rmult_le_compat_l; lra).
  assert (E48 : smax / 2 ^ 48 = 32 * uu * smax) by (rewrite Eu; lra).
  assert (P0 : 0 <= uu * smax) by (apply Rmult_le_pos; lra).
  (* the wake *)
  assert (WK : exists W, wake_arcs64 wake = Ok W /\ (wake = [] \/ from_zero W) /\ rising W /\
     within (smax / 2 ^ 48) W (map (fun s => real_of s - real_of (hd b_0 wake)) wake)).
  { rewrite Forall_forall in Lw. unfold wake_arcs64. rewrite (each_ok _ (fun s => s)) by (intros s Hs; apply set_ok; apply Lw, Hs).
    rewrite map_id. cbn [bind]. destruct wake as [|w0 wk].
    - exists []. split; [reflexivity|]. split; [left; reflexivity|]. split; constructor.
    - destruct (Lw w0 (or_introl eq_refl)) as [Nw Bw]. unfold rising in Rw.
      destruct (lower_arcs_ok w0 (w0 :: wk) smax Nw Bw ltac:(lra)) as (WA & WB & WC & WD).
      + exact Lw.
      + intros s Hs. apply (rising_le _ Rw (real_of w0) (map real_of wk)); [reflexivity|]. apply (in_map real_of), Hs.
      + exact Rw.
      + eexists. split; [exact WA|]. split; [right|split; [exact WC|]].
        * eexists _, _. split; [reflexivity|]. split; [inversion WB; subst; tauto|].
          destruct (sub_rnd w0 w0 Nw Nw) as [_ E]; [replace (real_of w0 - real_of w0) with 0 by ring; rewrite Rabs_R0; lra|].
          rewrite E. replace (real_of w0 - real_of w0) with 0 by ring. apply rnd_0.
        * cbn [hd]. clear -WB WD Small E48 P0. revert WB WD. generalize (w0 :: wk) as q. induction q as [|s t IH]; intros WB WD; [constructor|].
          cbn [map] in *. inversion WB; subst. inversion WD; subst. constructor; [|apply IH; assumption].
          split; [tauto|]. lra. }
  destruct WK as (W & EW & ZW & RW & WW).
  assert (Zero : is_number (stag - stag)%b64 /\ real_of (stag - stag)%b64 = 0).
  { destruct (sub_rnd stag stag Ns Ns) as [N E]; [replace (real_of stag - real_of stag) with 0 by ring; rewrite Rabs_R0; lra|].
    split; [exact N|]. rewrite E. replace (real_of stag - real_of stag) with 0 by ring. apply rnd_0. }
  eexists _, _, W. split.
  { unfold load_arcs64. rewrite Lp. cbn [bind]. rewrite Lw'. cbn [bind].
    rewrite feq_number by (try exact Nu2; apply zero_val).
    rewrite (proj2 zero_val), Req_bool_false by (apply Rgt_not_eq; fold u'; lra).
    cbn [map]. rewrite Est. cbn [bind]. change (fst u :: map fst (rev up)) with (map fst (u :: rev up)). rewrite UA. cbn [bind].
    rewrite map_map. cbn [fst]. rewrite (map_ext (fun x : row64 => fst x) fst) by reflexivity.
    change (fst l :: map fst lo) with (map fst (l :: lo)). rewrite LA. cbn [bind]. rewrite EW. reflexivity. }
  assert (Z0 : is_number (stag - stag)%b64 /\ Rabs (real_of (stag - stag)%b64 - (S - S)) <= smax / 2 ^ 48).
  { split; [tauto|]. rewrite (proj2 Zero). replace (0 - (S - S)) with 0 by ring. rewrite Rabs_R0. lra. }
  split; [eexists _, _; split; [reflexivity|exact Zero]|]. split; [exact UC|]. split.
  { change (map (fun s => stag - s)%b64 (stag :: map fst (u :: rev up))) with
      ((stag - stag)%b64 :: map (fun s => stag - s)%b64 (map fst (u :: rev up))) in UB, UD |- *.
    rewrite <- map_rev, rev_app_distr.
    inversion UB as [|? ? _ UB2]. inversion UD as [|? ? ? ? _ UD2].
    constructor; [exact Z0|].
    apply (within_shift (fun s => stag - s)%b64 (fun x => real_of stag - x) (fun x => S - x) (uu * smax + tiny) _ (u :: rev up)); [exact UB2|exact UD2|].
    intros z. replace (real_of stag - z - (S - z)) with (real_of stag - S) by ring. lra. }
  split; [eexists _, _; split; [reflexivity|exact Zero]|]. split; [exact LC|]. split.
  { change (map (fun s => s - stag)%b64 (stag :: map fst (l :: lo))) with
      ((stag - stag)%b64 :: map (fun s => s - stag)%b64 (map fst (l :: lo))) in LB, LD |- *.
    inversion LB as [|? ? _ LB2]. inversion LD as [|? ? ? ? _ LD2].
    constructor; [exact Z0|].
    apply (within_shift (fun s => s - stag)%b64 (fun x => x - real_of stag) (fun x => x - S) (uu * smax + tiny) _ (l :: lo)); [exact LB2|exact LD2|].
    intros z. replace (z - real_of stag - (z - S)) with (- (real_of stag - S)) by ring. rewrite Rabs_Ropp. lra. }
  split; [exact ZW|]. split; [exact RW|exact WW].
Qed.

(** ** Numbers printed with five decimals *)
Definition dec (k : Z) : R := IZR k / 10 ^ 5.
Lemma printed_val v k : printed v k -> is_number v /\ real_of v = rnd (dec k).
Proof. intros [A B]. split; [exact A|exact B]. Qed.
Lemma printed_le v w j k : printed v j -> printed w k -> (j <= k)%Z -> real_of v <= real_of w.
Proof.
  intros [_ A]%printed_val [_ B]%printed_val H. rewrite A, B. apply rnd_le. unfold dec.
  apply Rmult_le_compat_r; [lra|]. apply IZR_le, H.
Qed.
Lemma printed_close v k : printed v k -> Rabs (real_of v - dec k) <= uu * Rabs (dec k) + tiny.
Proof. intros [_ A]%printed_val. rewrite A. apply rnd_error. Qed.
Lemma dec_le j k : (j <= k)%Z -> dec j <= dec k.
Proof. intros H. unfold dec. apply Rmult_le_compat_r; [lra|]. apply IZR_le, H. Qed.
Lemma printed_0 v : printed v 0 -> real_of v = 0.
Proof. intros [_ A]%printed_val. rewrite A. unfold dec. replace (0 / 10 ^ 5) with 0 by lra. apply rnd_0. Qed.
Lemma printed_near v k : printed v k -> (-10000000 <= k <= 10000000)%Z -> dec k - / 10 ^ 13 <= real_of v <= dec k + / 10 ^ 13.
Proof.
  intros H B. pose proof (printed_close _ _ H) as E. destruct sc_facts as (_ & _ & _ & _ & T).
  assert (A : Rabs (dec k) <= 100).
  { destruct B as [B1 B2]. apply dec_le in B1. apply dec_le in B2. unfold dec in *. apply Rabs_le_between. lra. }
  assert (uu * Rabs (dec k) <= uu * 100) by (apply Rmult_le_compat_l; [unfold uu; lra|exact A]).
  apply Rabs_le_between in E. unfold uu in *. lra.
Qed.
Lemma printed_nonneg v k : printed v k -> (0 <= k)%Z -> 0 <= real_of v.
Proof.
  intros [_ A]%printed_val H. rewrite A. apply rnd_ge_0. unfold dec. apply Rmult_le_pos; [apply IZR_le, H|lra].
Qed.
Lemma dec_lt j k : (j < k)%Z -> dec j + / 10 ^ 5 <= dec k.
Proof.
  intros H. assert (G : (j + 1 <= k)%Z) by lia. apply dec_le in G. unfold dec in *. rewrite plus_IZR in G. lra.
Qed.

Lemma printed_sorted vs ks : Forall2 printed vs ks -> Sorted Z.le ks -> rising vs.
Proof.
  intros F. unfold rising. induction F as [|v k vs ks P F IH]; intros S; [constructor|]. cbn [map].
  inversion S as [|? ? S1 S2]; subst. constructor; [apply IH, S1|].
  inversion F as [|w j ? ? P2 F2]; subst; [constructor|]. cbn [map]. constructor. inversion S2; subst. eapply printed_le; eauto.
Qed.
Lemma printed_lengths vs ks : Forall2 printed vs ks -> Forall (fun k => (0 <= k <= 10000000)%Z) ks -> lengths 101 vs.
Proof.
  intros F. unfold lengths. induction F as [|v k vs ks P F IH]; intros S; [constructor|].
  inversion S as [|? ? S1 S2]; subst. constructor; [|apply IH, S2]. split; [apply P|]. split; [eapply printed_nonneg; [exact P|lia]|].
  destruct (printed_near v k P ltac:(lia)) as [_ B]. destruct S1 as [_ S1]. apply dec_le in S1. unfold dec in *. lra.
Qed.

Lemma forall2_length {A B} (P : A -> B -> Prop) l m : Forall2 P l m -> List.length l = List.length m.
Proof. induction 1; cbn [List.length]; congruence. Qed.
Lemma app_split {A} (a b c d : list A) : List.length a = List.length c -> a ++ b = c ++ d -> a = c /\ b = d.
Proof.
  revert c. induction a as [|x t IH]; intros [|y c] L E; try discriminate; [auto|]. cbn [app] in E. injection E as -> E.
  destruct (IH c) as [-> ->]; [injection L; auto|exact E|auto].
Qed.

Lemma printed_dump_lemma up u l lo wake kup ku kl klo kw :
  Forall2 printed_row (up ++ u :: l :: lo) (kup ++ ku :: kl :: klo) -> List.length up = List.length kup ->
  Forall2 printed wake kw ->
  Forall (fun k => (0 <= k <= 10000000)%Z) (map fst (kup ++ ku :: kl :: klo) ++ kw) ->
  Sorted Z.le (map fst (kup ++ ku :: kl :: klo)) -> Sorted Z.le kw ->
  Forall (fun k => (0 <= snd k)%Z) kup -> (0 < snd ku <= 10000000)%Z -> (-10000000 <= snd kl < 0)%Z ->
  (fst ku < fst kl)%Z ->
  let S := at_zero (real_of (snd u)) (real_of (fst u)) (real_of (snd l)) (real_of (fst l)) in
  exists U L W, load_arcs64 (up ++ u :: l :: lo) wake = Ok (U, L, W) /\
    from_zero U /\ rising U /\
    within (/ 2 ^ 41) U (map (fun s => S - s) (S :: rev (map (fun r => real_of (fst r)) (up ++ [u])))) /\
    from_zero L /\ rising L /\
    within (/ 2 ^ 41) L (map (fun s => s - S) (S :: map (fun r => real_of (fst r)) (l :: lo))) /\
    (wake = [] \/ from_zero W) /\ rising W /\
    within (/ 2 ^ 41) W (map (fun s => real_of s - real_of (hd b_0 wake)) wake).
Proof.
  intros F Hlen Fw B So Sw Vu Hu Hl Hlt S.
  assert (F1 : Forall2 printed (map fst (up ++ u :: l :: lo)) (map fst (kup ++ ku :: kl :: klo))).
  { clear -F. induction F as [|? ? ? ? P]; cbn [map]; constructor; [apply P|assumption]. }
  apply Forall_app in B. destruct B as [B1 B2]. assert (B0 := B1).
  destruct (Forall2_app_inv_l _ _ F) as (k1 & k2 & Fa & Fb & Eq).
  assert (El : k1 = kup /\ k2 = ku :: kl :: klo).
  { apply forall2_length in Fa. destruct (app_split kup (ku :: kl :: klo) k1 k2) as [A1 A2]; [congruence|exact Eq|auto]. }
  destruct El as [-> ->]. clear Eq.
  inversion Fb as [|? ? ? ? Pu Fc]; subst. inversion Fc as [|? ? ? ? Pl Fd]; subst.
  destruct Pu as [Pu1 Pu2]. destruct Pl as [Pl1 Pl2].
  rewrite map_app in B1. apply Forall_app in B1. destruct B1 as [_ B1]. cbn [map] in B1.
  inversion B1 as [|? ? B3 B4]; subst. inversion B4 as [|? ? B5 _]; subst.
  pose proof (printed_near _ _ Pu1 ltac:(lia)) as R1. pose proof (printed_near _ _ Pl1 ltac:(lia)) as R2.
  pose proof (printed_near _ _ Pu2 ltac:(lia)) as R3. pose proof (printed_near _ _ Pl2 ltac:(lia)) as R4.
  pose proof (printed_nonneg _ _ Pu1 ltac:(lia)) as R5.
  apply dec_lt in Hlt. destruct Hu as [Hu1 Hu2]. apply dec_lt in Hu1. apply dec_le in Hu2.
  destruct Hl as [Hl1 Hl2]. apply dec_le in Hl1. apply dec_lt in Hl2. destruct B5 as [_ B5]. apply dec_le in B5.
  destruct B3 as [B3 _]. apply dec_le in B3.
  assert (D0 : dec 0 = 0) by (unfold dec; lra). assert (D1 : dec 10000000 = 100) by (unfold dec; lra).
  assert (D2 : dec (-10000000) = -100) by (unfold dec; lra).
  rewrite D0 in *. rewrite D1 in *. rewrite D2 in *.
  assert (Big : 1000 <= 2 ^ 400).
  { apply Rle_trans with (2 ^ 20); [lra|]. apply Rle_pow; [lra|]. apply PeanoNat.Nat.leb_le. reflexivity. }
  assert (Sm : / 2 ^ 400 <= / 2 ^ 20).
  { apply Rinv_le_contravar; [lra|]. apply Rle_pow; [lra|]. apply PeanoNat.Nat.leb_le. reflexivity. }
  set (su := real_of (fst u)) in *. set (sl := real_of (fst l)) in *. set (a := real_of (snd u)) in *. set (b := real_of (snd l)) in *.
  assert (Gap : 9 / 10 ^ 6 <= sl - su) by lra.
  assert (Ha : 9 / 10 ^ 6 <= a <= 101) by lra. assert (Hb : 9 / 10 ^ 6 <= - b <= 101) by lra.
  assert (Hsl : sl <= 101) by lra.
  set (f := a / (a - b)). assert (ES : S = su + (sl - su) * f).
  { unfold S, at_zero, f. f_equal. f_equal. field. lra. }
  assert (Hf : 4 / 10 ^ 8 <= f <= 1 - 4 / 10 ^ 8).
  { unfold f. split; [apply (Rmult_le_reg_r (a - b)); [lra|]; unfold Rdiv; rewrite (Rmult_assoc a), Rinv_l by lra; lra|].
    apply (Rmult_le_reg_r (a - b)); [lra|]; unfold Rdiv; rewrite (Rmult_assoc a), Rinv_l by lra; lra. }
  assert (Low : 9 / 10 ^ 6 * (4 / 10 ^ 8) <= (sl - su) * f) by (apply Rmult_le_compat; lra).
  assert (Upp : 9 / 10 ^ 6 * (4 / 10 ^ 8) <= (sl - su) * (1 - f)) by (apply Rmult_le_compat; lra).
  destruct (load_arcs_lemma up u l lo wake S 101) as (U & L & W & E & C1 & C2 & C3 & C4 & C5 & C6 & C7 & C8 & C9).
  - clear -F. induction F as [|? ? ? ? P]; constructor; [|assumption]. split; apply P.
  - apply (printed_sorted _ _ F1 So).
  - apply (printed_lengths _ _ F1 B0).
  - clear -Fa Vu. induction Fa as [|? ? ? ? P]; constructor; inversion Vu; subst; [|auto]. eapply printed_nonneg; [apply P|assumption].
  - lra.
  - fold sl. split; lra.
  - fold a. split; lra.
  - fold b. split; lra.
  - reflexivity.
  - fold su sl. lra.
  - apply (printed_sorted _ _ Fw Sw).
  - apply (printed_lengths _ _ Fw B2).
  - assert (Wk : forall vs ws, within (101 / 2 ^ 48) vs ws -> within (/ 2 ^ 41) vs ws).
    { intros vs ws H. induction H as [|? ? ? ? [P Q]]; constructor; [|assumption]. split; [exact P|]. lra. }
    exists U, L, W. split; [exact E|]. split; [exact C1|]. split; [exact C2|]. split; [apply Wk, C3|].
    split; [exact C4|]. split; [exact C5|]. split; [apply Wk, C6|]. split; [exact C7|]. split; [exact C8|apply Wk, C9].
Qed.

(** ** Two rows printed with the same arc length around the stagnation point *)
Definition w_row1 : row64 := (b_0, b_1).
Definition w_row2 : row64 := (@B754_finite 53 1024 false 8787873952888049 (-53) eq_refl, @B754_finite 53 1024 false 5167970644400192 (-58) eq_refl).
Definition w_row3 : row64 := (@B754_finite 53 1024 false 8787873952888049 (-53) eq_refl, @B754_finite 53 1024 true 5427377982936732 (-57) eq_refl).
Lemma w_load : load_arcs64 [w_row1; w_row2; w_row3] [] = Err ValueError.
Proof. vm_compute. reflexivity. Qed.

(** The nearest double of a positive number. *)
Lemma rnd_literal x m e : bpow radix2 (e + 52) <= x < bpow radix2 (e + 53) -> (-1074 <= e)%Z ->
  Rabs (x * bpow radix2 (- e) - IZR m) < / 2 -> rnd x = IZR m * bpow radix2 e.
Proof.
  intros H He Hm. unfold rnd, round.
  assert (Mg : mag radix2 x = (e + 53)%Z :> Z).
  { apply mag_unique_pos. replace (e + 53 - 1)%Z with (e + 52)%Z by ring. exact H. }
  assert (Ce : cexp radix2 (SpecFloat.fexp prec emax) x = e).
  { unfold cexp. rewrite Mg. change (Z.max (e + 53 - 53) (-1074) = e). lia. }
  unfold scaled_mantissa. rewrite Ce. rewrite (Znearest_imp _ _ m Hm). reflexivity.
Qed.
Lemma printed_literal v k m e : is_number v -> real_of v = IZR m * bpow radix2 e ->
  bpow radix2 (e + 52) <= dec k < bpow radix2 (e + 53) -> (-1074 <= e)%Z ->
  Rabs (dec k * bpow radix2 (- e) - IZR m) < / 2 -> printed v k.
Proof.
  intros N E H He Hm. split; [exact N|]. rewrite E. symmetry. exact (rnd_literal _ m e H He Hm).
Qed.
Lemma w_printed : Forall2 printed_row [w_row1; w_row2; w_row3] [(0, 100000); (97565, 1793); (97565, -3766)]%Z.
Proof.
  assert (Z0 : printed b_0 0).
  { split; [reflexivity|]. change (0 = rnd (dec 0)). replace (dec 0) with 0 by (unfold dec; lra). rewrite rnd_0. reflexivity. }
  assert (Z1 : printed b_1 100000).
  { apply (printed_literal _ _ 4503599627370496 (-52)); [reflexivity|reflexivity| |lia|]; unfold dec; simpl.
    - lra.
    - apply Rabs_def1; lra. }
  assert (Z2 : printed (fst w_row2) 97565).
  { apply (printed_literal _ _ 8787873952888049 (-53)); [reflexivity|reflexivity| |lia|]; unfold dec; simpl.
    - lra.
    - apply Rabs_def1; lra. }
  assert (Z3 : printed (snd w_row2) 1793).
  { apply (printed_literal _ _ 5167970644400192 (-58)); [reflexivity|reflexivity| |lia|]; unfold dec; simpl.
    - lra.
    - apply Rabs_def1; lra. }
  assert (Z4 : printed (snd w_row3) (-3766)).
  { assert (Q : rnd (dec 3766) = IZR 5427377982936732 * bpow radix2 (-57)).
    { apply rnd_literal; [|lia|]; unfold dec; simpl; [lra|apply Rabs_def1; lra]. }
    split; [reflexivity|]. change (real_of (snd w_row3) = rnd (dec (-3766))).
    replace (dec (-3766)) with (- dec 3766) by (unfold dec; lra). unfold rnd. rewrite round_NE_opp.
    change (real_of (snd w_row3) = - rnd (dec 3766)). rewrite Q. unfold real_of, w_row3, B2R, F2R; simpl. lra. }
  repeat (constructor; [split; assumption|]). constructor.
Qed.

(** ** Files that are refused *)
Lemma add_rnd x y : is_number x -> is_number y -> Rabs (real_of x + real_of y) <= huge ->
  is_number (x + y)%b64 /\ real_of (x + y)%b64 = rnd (real_of x + real_of y).
Proof.
  unfold is_number, real_of, fadd. intros Fx Fy H.
  pose proof (Bplus_correct prec emax Hprec Hmax mode_NE _ _ Fx Fy) as C. simpl round_mode in C.
  change (round radix2 (SpecFloat.fexp prec emax) ZnearestE (B2R x + B2R y)) with (rnd (B2R x + B2R y)) in C.
  rewrite Rlt_bool_true in C by (apply rnd_fits, H). destruct C as (E & F & _). auto.
Qed.
Lemma huge_pos : 0 <= huge.
Proof. unfold huge. apply pow_le. lra. Qed.

Lemma zero_velocity64_lemma up u l lo wake smax :
  Forall numeric (up ++ u :: l :: lo) ->
  rising (map fst (up ++ u :: l :: lo)) -> lengths smax (map fst (up ++ u :: l :: lo)) ->
  Forall (fun r => 0 <= real_of (snd r)) up -> smax <= 2 ^ 400 ->
  real_of (snd u) = 0 -> real_of (snd l) < 0 -> 0 < real_of (fst u) ->
  load_arcs64 (up ++ u :: l :: lo) wake = Err ValueError.
Proof.
  intros Nu Ri Le Vu Hmx Zu Vl Ps.
  destruct sc_facts as (C1 & C2 & _). fold sc in Hmx. assert (Cs : smax <= huge) by nra.
  unfold lengths in Le. rewrite Forall_forall in Le.
  assert (LI : forall r, In r (up ++ u :: l :: lo) -> is_number (fst r) /\ is_number (snd r) /\ 0 <= real_of (fst r) <= smax).
  { intros r Hr. rewrite Forall_forall in Nu. destruct (Nu r Hr) as [A B].
    destruct (Le (fst r) (in_map fst _ _ Hr)) as [_ C]. auto. }
  assert (Iu : In u (up ++ u :: l :: lo)) by (apply in_or_app; right; left; reflexivity).
  assert (Il : In l (up ++ u :: l :: lo)) by (apply in_or_app; right; right; left; reflexivity).
  destruct (LI u Iu) as (Nu1 & Nu2 & Bu). destruct (LI l Il) as (Nl1 & Nl2 & Bl).
  assert (Lp : upper_loop64 (up ++ u :: l :: lo) [] = Ok (u :: rev up, Some (l :: lo))).
  { replace (up ++ u :: l :: lo) with ((up ++ [u]) ++ l :: lo) by (rewrite <- app_assoc; reflexivity).
    rewrite upper_loop_app.
    - rewrite rev_app_distr, app_nil_r. cbn [rev app]. apply upper_loop_stop; try assumption. apply Bl.
    - intros r Hr. apply in_app_or in Hr. destruct Hr as [Hr|[<-|[]]].
      + destruct (LI r ltac:(apply in_or_app; left; exact Hr)) as (A & B & C). rewrite Forall_forall in Vu.
        specialize (Vu r Hr). tauto.
      + split; [exact Nu1|split; [exact Nu2|]]. split; [apply Bu|]. apply Req_le. symmetry. exact Zu. }
  assert (Lw' : lower_rows64 (up ++ u :: l :: lo) (Some (l :: lo)) = Ok (map (fun r => (fst r, (snd r * b_m1)%b64)) (l :: lo))).
  { unfold lower_rows64. rewrite (each_ok _ (fun r => r)); [cbn [bind]; rewrite map_id; reflexivity|].
    intros r Hr. apply new_ok; apply LI; apply in_or_app; right; right; exact Hr. }
  assert (Ri' := Ri). unfold rising in Ri'. rewrite !map_map in Ri'. rewrite map_app in Ri'. cbn [map] in Ri'.
  assert (UpS : Sorted Rle (map (fun x => real_of (fst x)) up ++ [real_of (fst u)])).
  { apply (sorted_app_l Rle _ (real_of (fst l) :: map (fun x => real_of (fst x)) lo)). rewrite <- app_assoc. exact Ri'. }
  assert (UpF : forall s, In s (map fst (u :: rev up)) -> real_of s <= real_of (fst u)).
  { intros s Hs. apply in_map_iff in Hs. destruct Hs as (r & <- & [<-|Hr]); [lra|]. apply in_rev in Hr.
    apply (rising_last _ _ UpS). apply (in_map (fun r => real_of (fst r))), Hr. }
  destruct (upper_arcs_ok (fst u) (map fst (u :: rev up)) smax Nu1 Bu Cs) as (UA & _).
  { intros s Hs. apply in_map_iff in Hs. destruct Hs as (r & <- & Hr).
    destruct (LI r) as (A & B & C); [|tauto]. apply in_or_app. destruct Hr as [<-|Hr]; [right; left; reflexivity|left; apply in_rev, Hr]. }
  { exact UpF. }
  { replace (map real_of (map fst (u :: rev up))) with (rev (map (fun x => real_of (fst x)) up ++ [real_of (fst u)])); [apply falling_rev, UpS|].
    rewrite rev_app_distr, map_map. cbn [map rev app]. rewrite map_rev. reflexivity. }
  destruct (sub_rnd (fst u) (fst u) Nu1 Nu1) as [N0 E0]; [rewrite Rminus_eq_0, Rabs_R0; apply huge_pos|].
  rewrite Rminus_eq_0, rnd_0 in E0.
  destruct (sub_rnd (fst u - fst u)%b64 (fst u) N0 Nu1) as [N1 E1].
  { rewrite E0. replace (0 - real_of (fst u)) with (- real_of (fst u)) by ring. rewrite Rabs_Ropp, Rabs_pos_eq; lra. }
  assert (E2 : real_of ((fst u - fst u) - fst u)%b64 = - real_of (fst u)).
  { rewrite E1, E0. replace (0 - real_of (fst u)) with (- real_of (fst u)) by ring. unfold rnd.
    apply round_generic; [typeclasses eauto|]. apply generic_format_opp. apply (generic_format_B2R 53 1024). }
  unfold load_arcs64. rewrite Lp. cbn [bind]. rewrite Lw'. cbn [bind].
  rewrite feq_number by (try exact Nu2; apply zero_val). rewrite Zu, (proj2 zero_val), Req_bool_true by reflexivity.
  rewrite UA. cbn [bind]. unfold lower_arcs64. cbn [each64]. unfold set_s64 at 1.
  rewrite flt_number by (try exact N1; apply zero_val). rewrite E2, (proj2 zero_val), Rlt_bool_true by lra. reflexivity.
Qed.

Lemma one_sided64_lemma (up : list row64) (u : row64) wake :
  Forall numeric (up ++ [u]) -> Forall (fun r => 0 <= real_of (fst r)) (up ++ [u]) ->
  Forall (fun r => 0 <= real_of (snd r)) up -> 0 < real_of (snd u) ->
  load_arcs64 (up ++ [u]) wake = Err ZeroDivisionError.
Proof.
  intros Nu Ps Vu Pu. rewrite Forall_forall in Nu, Ps, Vu.
  assert (Iu : In u (up ++ [u])) by (apply in_or_app; right; left; reflexivity).
  destruct (Nu u Iu) as [N1 N2].
  assert (Lp : upper_loop64 (up ++ [u]) [] = Ok (u :: rev up, None)).
  { rewrite <- (app_nil_r (up ++ [u])). rewrite upper_loop_app; [rewrite rev_app_distr, app_nil_r; reflexivity|].
    intros r Hr. destruct (Nu r Hr) as [A B]. split; [exact A|]. split; [exact B|]. split; [apply Ps, Hr|].
    apply in_app_or in Hr. destruct Hr as [Hr|[<-|[]]]; [apply Vu, Hr|apply Rlt_le; exact Pu]. }
  assert (Lw : lower_rows64 (up ++ [u]) None = Ok [(fst u, (snd u * b_m1)%b64)]).
  { unfold lower_rows64. replace (skipn (List.length (up ++ [u]) - 1) (up ++ [u])) with [u].
    - cbn [each64]. rewrite new_ok by (try exact N1; apply Ps, Iu). reflexivity.
    - rewrite app_length. cbn [List.length]. replace (List.length up + 1 - 1)%nat with (List.length up) by lia.
      rewrite skipn_app, skipn_all, Nat.sub_diag. reflexivity. }
  unfold load_arcs64. rewrite Lp. cbn [bind]. rewrite Lw. cbn [bind].
  rewrite feq_number by (try exact N2; apply zero_val). rewrite (proj2 zero_val), Req_bool_false by lra.
  destruct (negate_val (snd u) N2) as [Nn En].
  destruct (add_rnd (snd u) (snd u * b_m1)%b64 N2 Nn) as [Nd Ed]; rewrite En, Rplus_opp_r in *; [rewrite Rabs_R0; apply huge_pos|].
  rewrite rnd_0 in Ed.
  unfold stag_s64. cbn [fst snd]. cbv zeta. rewrite feq_number by (try exact Nd; apply zero_val).
  rewrite Ed, (proj2 zero_val), Req_bool_true by reflexivity. reflexivity.
Qed.
