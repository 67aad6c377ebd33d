(** The finite-difference closures in binary64 (C108-C110). *)
From Coq Require Import Reals ZArith Lra Lia.
From Coquelicot Require Import Coquelicot.
From Flocq Require Import Core IEEE754.BinarySingleNaN.
From Verif Require Import FiniteDiffModel FiniteDiffProofs FloatModel FloatSpec FloatFacts.
Open Scope R_scope.

(** A convenient bound on the unit roundoff 2^-53. *)
Lemma near_bound x z B : near x z -> Rabs z <= B ->
  is_number x /\ - (112 / 10 ^ 18 * B + tiny) <= real_of x - z <= 112 / 10 ^ 18 * B + tiny.
Proof.
  intros [A H] HB. split; [exact A|]. apply Rabs_le_between. eapply Rle_trans; [exact H|].
  assert (U : 0 <= uu <= 112 / 10 ^ 18) by (unfold uu; lra).
  apply Rplus_le_compat_r. pose proof (Rabs_pos z). nra.
Qed.

Definition big : R := 2 ^ 900.
Definition HH : R := 7378697629483821 / 2 ^ 66.
Notation dx4 := b_1e_4.

Lemma big_facts : 1 <= big /\ 1000000000000000000000000000000 * big <= huge.
Proof.
  split.
  - unfold big. rewrite <- (pow1 900). apply pow_incr. lra.
  - rewrite <- huge_room. fold big. apply Rmult_le_compat_r; [unfold big; apply pow_le; lra|]. lra.
Qed.

Lemma tiny_small : 0 < tiny <= / 1000000000000000000000000000000.
Proof.
  split; [apply tiny_pos|]. unfold tiny.
  replace (2 ^ 1000) with (2 ^ 100 * 2 ^ 900) by (rewrite <- pow_add; reflexivity).
  apply Rinv_le_contravar; [lra|].
  assert (1 <= 2 ^ 900) by (rewrite <- (pow1 900); apply pow_incr; lra).
  assert (1000000000000000000000000000000 <= 2 ^ 100) by lra. nra.
Qed.

Ltac abs_bound := apply Rabs_le_between; lra.

(** The differences and quotients after the function values are known. *)
Lemma first_arith dx h v1 v2 v3 v4 F1 F2 F3 F4 e W l :
  is_number dx -> real_of dx = h -> 9 / 10 ^ 6 <= h <= / 9000 ->
  is_number v1 -> is_number v2 -> is_number v3 -> is_number v4 ->
  Rabs (real_of v1) <= W -> Rabs (real_of v2) <= W -> Rabs (real_of v3) <= W -> Rabs (real_of v4) <= W ->
  Rabs (real_of v1 - F1) <= e -> Rabs (real_of v2 - F2) <= e ->
  Rabs (real_of v3 - F3) <= e -> Rabs (real_of v4 - F4) <= e ->
  Rabs (F1 - F2) <= 4 * l -> Rabs (F3 - F4) <= 2 * l -> 0 <= l -> W <= big ->
  let q := (((v1 - v2) / b_12 - b_2 * (v3 - v4) / b_3) / dx)%b64 in
  is_number q /\
  Rabs (real_of q - ((F1 - F2) / 12 - 2 * (F3 - F4) / 3) / h) 
    <= (150005 / 100000 * e + 2 / 10 ^ 15 * l) / h + 10 ^ 7 * tiny.
Proof.
  intros TH VH hv N1 N2 N3 N4 B1 B2 B3 B4 E1 E2 E3 E4 D1 D2 HL HW.
  apply Rabs_le_between in B1, B2, B3, B4, E1, E2, E3, E4, D1, D2.
  destruct two_val as [T2 V2]. destruct three_val as [T3 V3]. destruct twelve_val as [T12 V12].
  destruct big_facts as [BG1 BG2]. destruct tiny_small as [TP TS].
  assert (Hgb : forall z, - (1000000 * big) <= z <= 1000000 * big -> Rabs z <= huge).
  { intros z Hz. apply Rabs_le_between. lra. }
  clear BG2.
  (* v1 - v2, over 12 *)
  pose proof (sub_near v1 v2 N1 N2 ltac:(apply Hgb; lra)) as Pa.
  destruct (near_bound _ _ (4 * l + 2 * e) Pa ltac:(abs_bound)) as [Na Ea].
  destruct (near_bound _ _ (2 * W) Pa ltac:(abs_bound)) as [_ Ea'].
  set (a := (v1 - v2)%b64) in *. clearbody a. clear Pa.
  assert (D12 : - (1000000 * big) <= real_of a / 12 <= 1000000 * big) by lra.
  assert (Pq : near (a / b_12)%b64 (real_of a / 12)).
  { rewrite <- V12 in *. apply div_near; try assumption; [rewrite V12; lra|apply Hgb; rewrite V12 in *; lra]. }
  destruct (near_bound _ _ ((5 * l + 3 * e + tiny) / 12) Pq ltac:(abs_bound)) as [Nq Eq].
  destruct (near_bound _ _ (W + 1) Pq ltac:(abs_bound)) as [_ Eq'].
  set (q := (a / b_12)%b64) in *. clearbody q. clear Pq.
  (* v3 - v4, twice, over 3 *)
  pose proof (sub_near v3 v4 N3 N4 ltac:(apply Hgb; lra)) as Pb.
  destruct (near_bound _ _ (2 * l + 2 * e) Pb ltac:(abs_bound)) as [Nb Eb].
  destruct (near_bound _ _ (2 * W) Pb ltac:(abs_bound)) as [_ Eb'].
  set (b := (v3 - v4)%b64) in *. clearbody b. clear Pb.
  assert (Pc : near (b_2 * b)%b64 (2 * real_of b)).
  { rewrite <- V2. apply mul_near; try assumption. apply Hgb. rewrite V2. lra. }
  destruct (near_bound _ _ (5 * l + 5 * e + 3 * tiny) Pc ltac:(abs_bound)) as [Nc Ec].
  destruct (near_bound _ _ (5 * W + 3) Pc ltac:(abs_bound)) as [_ Ec'].
  set (c := (b_2 * b)%b64) in *. clearbody c. clear Pc.
  assert (Pd : near (c / b_3)%b64 (real_of c / 3)).
  { rewrite <- V3. apply div_near; try assumption; [rewrite V3; lra|apply Hgb; rewrite V3; lra]. }
  destruct (near_bound _ _ (2 * l + 2 * e + 2 * tiny) Pd ltac:(abs_bound)) as [Nd Ed].
  destruct (near_bound _ _ (2 * W + 2) Pd ltac:(abs_bound)) as [_ Ed'].
  set (d := (c / b_3)%b64) in *. clearbody d. clear Pd.
  (* their difference, over dx *)
  pose proof (sub_near q d Nq Nd ltac:(apply Hgb; lra)) as Ps.
  destruct (near_bound _ _ (3 * l + 3 * e + 5 * tiny) Ps ltac:(abs_bound)) as [Ns Es].
  destruct (near_bound _ _ (4 * W + 4) Ps ltac:(abs_bound)) as [_ Es'].
  set (s := (q - d)%b64) in *. clearbody s. clear Ps.
  set (S0 := (F1 - F2) / 12 - 2 * (F3 - F4) / 3) in *.
  assert (ES : Rabs (real_of s - S0) <= 1500001 / 1000000 * e + 12 / 10 ^ 16 * l + 5 * tiny) by (unfold S0; abs_bound).
  assert (Hp : 0 < h) by lra.
  assert (IH : 0 < / h <= 112000).
  { split; [apply Rinv_0_lt_compat; exact Hp|].
    apply (Rmult_le_reg_r h); try assumption; rewrite Rinv_l by lra; lra. }
  assert (Z : forall z B, Rabs z <= B -> Rabs (z / h) <= B * / h).
  { intros z B Hz. unfold Rdiv. rewrite Rabs_mult, (Rabs_pos_eq (/ h)) by lra.
    apply Rmult_le_compat_r; [lra|exact Hz]. }
  assert (Pr : near (s / dx)%b64 (real_of s / h)).
  { rewrite <- VH. apply div_near; try assumption; [rewrite VH; lra|]. rewrite VH.
    eapply Rle_trans; [apply (Z _ (10 * W + 10)); abs_bound|].
    apply Rle_trans with ((10 * W + 10) * 112000); [apply Rmult_le_compat_l; lra|].
    destruct big_facts. lra. }
  destruct (near_bound _ _ ((4 * l + 4 * e + 7 * tiny) * / h) Pr) as [Nr Er].
  { apply Z. abs_bound. }
  split; [exact Nr|].
  assert (ES' := Z _ _ ES).
  replace (real_of (s / dx)%b64 - S0 / h)
    with ((real_of (s / dx)%b64 - real_of s / h) + (real_of s - S0) / h) by (field; lra).
  eapply Rle_trans; [apply Rabs_triang|].
  assert (Er' : Rabs (real_of (s / dx)%b64 - real_of s / h)
                <= 112 / 10 ^ 18 * ((4 * l + 4 * e + 7 * tiny) * / h) + tiny) by abs_bound.
  assert (e0 : 0 <= e) by lra.
  assert (M1 : 0 <= l * / h) by (apply Rmult_le_pos; lra).
  assert (M2 : 0 <= e * / h) by (apply Rmult_le_pos; lra).
  assert (M3 : tiny * / h <= tiny * 112000) by (apply Rmult_le_compat_l; lra).
  replace ((1500001 / 1000000 * e + 12 / 10 ^ 16 * l + 5 * tiny) * / h)
    with (1500001 / 1000000 * (e * / h) + 12 / 10 ^ 16 * (l * / h) + 5 * (tiny * / h)) in ES' by ring.
  replace ((4 * l + 4 * e + 7 * tiny) * / h)
    with (4 * (l * / h) + 4 * (e * / h) + 7 * (tiny * / h)) in Er' by ring.
  replace ((150005 / 100000 * e + 2 / 10 ^ 15 * l) / h)
    with (150005 / 100000 * (e * / h) + 2 / 10 ^ 15 * (l * / h)) by (field; lra).
  clear - ES' Er' M1 M2 M3 TP. lra.
Qed.

(** The arguments at which the function is evaluated. *)
Lemma points dx h x :
  is_number dx -> real_of dx = h -> 9 / 10 ^ 6 <= h <= / 9000 -> is_number x -> Rabs (real_of x) <= big ->
  (is_number (x - b_2 * dx)%b64 /\ is_number (x + b_2 * dx)%b64 /\
   is_number (x - dx)%b64 /\ is_number (x + dx)%b64) /\
  let d := (Rabs (real_of x) + / 1000) / 2 ^ 53 in
  Rabs (real_of (x - b_2 * dx)%b64 - (real_of x - 2 * h)) <= d /\
  Rabs (real_of (x + b_2 * dx)%b64 - (real_of x + 2 * h)) <= d /\
  Rabs (real_of (x - dx)%b64 - (real_of x - h)) <= d /\
  Rabs (real_of (x + dx)%b64 - (real_of x + h)) <= d.
Proof.
  intros TH VH hv Nx Bx.
  destruct two_val as [T2 V2].
  destruct big_facts as [BG1 BG2]. destruct tiny_small as [TP TS].
  assert (Hgb : forall z, - (1000000 * big) <= z <= 1000000 * big -> Rabs z <= huge).
  { intros z Hz. apply Rabs_le_between. lra. }
  clear BG2.
  set (X := real_of x) in *. set (AX := Rabs X) in *.
  assert (BX : - AX <= X <= AX) by (apply Rabs_le_between; apply Rle_refl).
  assert (NB : forall y z B, near y z -> Rabs z <= B ->
    is_number y /\ - (uu * B + tiny) <= real_of y - z <= uu * B + tiny).
  { intros y z B [A H] HB. split; [exact A|]. apply Rabs_le_between. eapply Rle_trans; [exact H|].
    assert (U : 0 <= uu) by (unfold uu; lra). apply Rplus_le_compat_r, Rmult_le_compat_l; assumption. }
  assert (P2 : near (b_2 * dx)%b64 (2 * h)).
  { rewrite <- V2, <- VH. apply mul_near; try assumption. apply Hgb. rewrite V2, VH. lra. }
  destruct (NB _ _ (3 / 10000) P2 ltac:(abs_bound)) as [N2 E2].
  set (d2 := (b_2 * dx)%b64) in *. clearbody d2.
  unfold uu in *.
  destruct (NB _ _ (AX + 4 / 10000) (sub_near x d2 Nx N2 ltac:(apply Hgb; fold X; lra)) ltac:(fold X; abs_bound)) as [M1 Q1].
  destruct (NB _ _ (AX + 4 / 10000) (add_near x d2 Nx N2 ltac:(apply Hgb; fold X; lra)) ltac:(fold X; abs_bound)) as [M2 Q2].
  assert (HB1 : Rabs (X - real_of dx) <= huge) by (rewrite VH; apply Hgb; lra).
  assert (HB2 : Rabs (X + real_of dx) <= huge) by (rewrite VH; apply Hgb; lra).
  destruct (NB _ _ (AX + 4 / 10000) (sub_near x dx Nx TH HB1) ltac:(fold X; rewrite VH; abs_bound)) as [M3 Q3].
  destruct (NB _ _ (AX + 4 / 10000) (add_near x dx Nx TH HB2) ltac:(fold X; rewrite VH; abs_bound)) as [M4 Q4].
  fold X in Q1, Q2, Q3, Q4. rewrite VH in Q3, Q4.
  split; [repeat split; assumption|].
  repeat split; abs_bound.
Qed.

Lemma lipschitz f x r L n : smooth_near f (S n) x r ->
  (forall t, Rabs (t - x) <= r -> Rabs (Derive f t) <= L) ->
  forall a b, Rabs (a - x) <= r -> Rabs (b - x) <= r -> Rabs (f a - f b) <= L * Rabs (a - b).
Proof.
  intros S HL a b Ha Hb.
  assert (I : forall t, Rmin b a <= t <= Rmax b a -> Rabs (t - x) <= r).
  { intros t Ht. apply Rabs_le_between in Ha, Hb. apply Rabs_le_between.
    revert Ht. unfold Rmin, Rmax. destruct (Rle_dec b a); lra. }
  assert (D : forall t, Rmin b a <= t <= Rmax b a -> is_derive f t (Derive f t)).
  { intros t Ht. apply Derive_correct. apply (S t (I t Ht) 1%nat). lia. }
  destruct (MVT_gen f b a (Derive f)) as (c & Hc & E).
  - intros t Ht. apply D. lra.
  - intros t Ht. apply continuity_pt_filterlim. apply (ex_derive_continuous f). eexists. apply D, Ht.
  - rewrite E, Rabs_mult. apply Rmult_le_compat_r; [apply Rabs_pos|]. apply HL, I, Hc.
Qed.

Lemma b64_first_gen dx h g f x r eta K L V :
  let X := real_of x in
  is_number dx -> real_of dx = h -> 9 / 10 ^ 6 <= h <= / 9000 ->
  is_number x -> Rabs X <= 2 ^ 900 -> / 1000 + Rabs X / 2 ^ 50 <= r -> smooth_near f 5 X r ->
  (forall t, Rabs (t - X) <= r ->
     Rabs (f t) <= V /\ Rabs (Derive f t) <= L /\ Rabs (Derive_n f 5 t) <= K) ->
  V + eta <= 2 ^ 900 -> computes g f X r eta ->
  is_number (fd_1f_b64 g x dx) /\
  Rabs (real_of (fd_1f_b64 g x dx) - Derive f X)
    <= K * h ^ 4 / 18 + 150005 / 100000 * (eta + L * ((Rabs X + 1) / 2 ^ 53)) / h + / 2 ^ 900
  /\ 0 <= K /\ 0 <= L /\ 0 <= eta.
Proof.
  intros X TH VH hv Nx BX Hr S HB HV HC. unfold fd_1f_b64.
  destruct (points dx h x TH VH hv Nx BX) as ((M1 & M2 & M3 & M4) & Q). fold X in Q. cbv zeta in Q.
  destruct Q as (Q1 & Q2 & Q3 & Q4).
  set (d := (Rabs X + / 1000) / 2 ^ 53) in *.
  assert (PX := Rabs_pos X).
  assert (Hd : 0 <= d <= / 1000 / 2 + Rabs X / 2 ^ 50 / 2) by (unfold d; lra).
  assert (In : forall p z, Rabs (p - z) <= d -> Rabs (z - X) <= 2 * h -> Rabs (p - X) <= r /\ Rabs (z - X) <= r).
  { intros p z Hp Hz. apply Rabs_le_between in Hp, Hz. split; apply Rabs_le_between; lra. }
  destruct (In _ _ Q1 ltac:(abs_bound)) as [I1 J1]. destruct (In _ _ Q2 ltac:(abs_bound)) as [I2 J2].
  destruct (In _ _ Q3 ltac:(abs_bound)) as [I3 J3]. destruct (In _ _ Q4 ltac:(abs_bound)) as [I4 J4].
  assert (J0 : Rabs (X - X) <= r) by (replace (X - X) with 0 by ring; rewrite Rabs_R0; lra).
  assert (HL : 0 <= L) by (destruct (HB X J0) as (_ & A & _); pose proof (Rabs_pos (Derive f X)); lra).
  assert (HK : 0 <= K) by (destruct (HB X J0) as (_ & _ & A); pose proof (Rabs_pos (Derive_n f 5 X)); lra).
  assert (Lip := lipschitz f X r L 4 S (fun t Ht => proj1 (proj2 (HB t Ht)))).
  set (e := eta + L * d).
  assert (val : forall p z, is_number p -> Rabs (real_of p - X) <= r -> Rabs (z - X) <= r ->
     Rabs (real_of p - z) <= d ->
     is_number (g p) /\ Rabs (real_of (g p)) <= V + eta /\ Rabs (real_of (g p) - f z) <= e).
  { intros p z Np Ip Iz Hp. destruct (HC p Np Ip) as [A B]. split; [exact A|]. split.
    - destruct (HB _ Ip) as (C & _). replace (real_of (g p)) with ((real_of (g p) - f (real_of p)) + f (real_of p)) by ring.
      eapply Rle_trans; [apply Rabs_triang|]. lra.
    - replace (real_of (g p) - f z) with ((real_of (g p) - f (real_of p)) + (f (real_of p) - f z)) by ring.
      eapply Rle_trans; [apply Rabs_triang|]. unfold e. apply Rplus_le_compat; [exact B|].
      eapply Rle_trans; [apply Lip; assumption|]. apply Rmult_le_compat_l; assumption. }
  destruct (val _ _ M1 I1 J1 Q1) as (A1 & B1 & C1). destruct (val _ _ M2 I2 J2 Q2) as (A2 & B2 & C2).
  destruct (val _ _ M3 I3 J3 Q3) as (A3 & B3 & C3). destruct (val _ _ M4 I4 J4 Q4) as (A4 & B4 & C4).
  assert (D1 : Rabs (f (X - 2 * h) - f (X + 2 * h)) <= 4 * (h * L)).
  { eapply Rle_trans; [apply Lip; assumption|].
    replace (X - 2 * h - (X + 2 * h)) with (- (4 * h)) by ring. rewrite Rabs_Ropp, Rabs_pos_eq by lra. lra. }
  assert (D2 : Rabs (f (X - h) - f (X + h)) <= 2 * (h * L)).
  { eapply Rle_trans; [apply Lip; assumption|].
    replace (X - h - (X + h)) with (- (2 * h)) by ring. rewrite Rabs_Ropp, Rabs_pos_eq by lra. lra. }
  assert (l0 : 0 <= h * L) by (apply Rmult_le_pos; lra).
  destruct (first_arith dx h _ _ _ _ _ _ _ _ e (V + eta) (h * L) TH VH hv A1 A2 A3 A4 B1 B2 B3 B4 C1 C2 C3 C4 D1 D2 l0 HV) as [Nq Eq].
  split; [exact Nq|].
  assert (eta0 : 0 <= eta) by (destruct (HC x Nx J0) as [_ A]; pose proof (Rabs_pos (real_of (g x) - f (real_of x))); lra).
  split; [|repeat split; assumption].
  assert (T := fd_1f_error f X h r K ltac:(lra) ltac:(lra) S (fun t Ht => proj2 (proj2 (HB t Ht)))).
  unfold fd_1f in T.
  match type of Eq with Rabs (?q - ?m) <= _ => replace (q - Derive f X) with ((q - m) + (m - Derive f X)) by ring end.
  eapply Rle_trans; [apply Rabs_triang|].
  assert (T1 : 10 ^ 7 * tiny <= / 2 ^ 900).
  { rewrite <- tiny_room. pose proof tiny_pos. assert (10 ^ 7 <= 2 ^ 100) by lra. nra. }
  assert (E1 : 150005 / 100000 * e + 2 / 10 ^ 15 * (h * L)
               <= 150005 / 100000 * (eta + L * ((Rabs X + 1) / 2 ^ 53))).
  { unfold e, d. assert (X1 : 2 / 10 ^ 15 * (h * L) <= 2 / 10 ^ 18 * L).
    { replace (2 / 10 ^ 15 * (h * L)) with (2 / 10 ^ 15 * h * L) by ring.
      apply Rmult_le_compat_r; [exact HL|]. lra. }
    replace (L * ((Rabs X + 1) / 2 ^ 53)) with (L * ((Rabs X + / 1000) / 2 ^ 53) + L * (999 / 1000 / 2 ^ 53)) by field.
    lra. }
  assert (E2 : (150005 / 100000 * e + 2 / 10 ^ 15 * (h * L)) / h
               <= 150005 / 100000 * (eta + L * ((Rabs X + 1) / 2 ^ 53)) / h).
  { apply Rmult_le_compat_r; [left; apply Rinv_0_lt_compat; lra|exact E1]. }
  lra.
Qed.

Lemma b64_first g f x r eta K L V :
  let X := real_of x in
  is_number x -> Rabs X <= 2 ^ 900 -> / 1000 + Rabs X / 2 ^ 50 <= r -> smooth_near f 5 X r ->
  (forall t, Rabs (t - X) <= r ->
     Rabs (f t) <= V /\ Rabs (Derive f t) <= L /\ Rabs (Derive_n f 5 t) <= K) ->
  V + eta <= 2 ^ 900 -> computes g f X r eta ->
  is_number (du_e_b64 g x) /\
  Rabs (real_of (du_e_b64 g x) - Derive f X)
    <= K * (1 / 10000) ^ 4 / 17 + 15001 * (eta + L * ((Rabs X + 1) / 2 ^ 53)) + / 2 ^ 900.
Proof.
  intros X Nx BX Hr S HB HV HC. destruct step_val as [TH VH]. fold HH in VH.
  destruct (b64_first_gen _ HH g f x r eta K L V TH VH ltac:(unfold HH; lra) Nx BX Hr S HB HV HC)
    as (N & E & HK & HL & He).
  split; [exact N|]. eapply Rle_trans; [exact E|]. apply Rplus_le_compat_r, Rplus_le_compat.
  - assert (HH ^ 4 / 18 <= (1 / 10000) ^ 4 / 17) by (unfold HH; lra). unfold Rdiv in *. rewrite !Rmult_assoc.
    apply Rmult_le_compat_l; assumption.
  - unfold Rdiv at 1. rewrite (Rmult_comm (_ * _)), <- Rmult_assoc. apply Rmult_le_compat_r.
    + pose proof (Rabs_pos X). pose proof (Rmult_le_pos L ((Rabs X + 1) / 2 ^ 53) HL ltac:(lra)). lra.
    + apply (Rmult_le_reg_l HH); [unfold HH; lra|]. rewrite <- Rmult_assoc, Rinv_r by (unfold HH; lra).
      unfold HH; lra.
Qed.

Lemma b64_given g f x r eta K L V :
  let X := real_of x in
  is_number x -> Rabs X <= 2 ^ 900 -> / 1000 + Rabs X / 2 ^ 50 <= r -> smooth_near f 5 X r ->
  (forall t, Rabs (t - X) <= r ->
     Rabs (f t) <= V /\ Rabs (Derive f t) <= L /\ Rabs (Derive_n f 5 t) <= K) ->
  V + eta <= 2 ^ 900 -> computes g f X r eta ->
  is_number (d2u_e_from_b64 g x) /\
  Rabs (real_of (d2u_e_from_b64 g x) - Derive f X)
    <= K * (1 / 100000) ^ 4 / 17 + 150010 * (eta + L * ((Rabs X + 1) / 2 ^ 53)) + / 2 ^ 900.
Proof.
  intros X Nx BX Hr S HB HV HC. destruct small_step_val as [TH VH].
  set (H5 := 5902958103587057 / 2 ^ 69) in VH.
  destruct (b64_first_gen _ H5 g f x r eta K L V TH VH ltac:(unfold H5; lra) Nx BX Hr S HB HV HC)
    as (N & E & HK & HL & He).
  split; [exact N|]. eapply Rle_trans; [exact E|]. apply Rplus_le_compat_r, Rplus_le_compat.
  - assert (H5 ^ 4 / 18 <= (1 / 100000) ^ 4 / 17) by (unfold H5; lra). unfold Rdiv in *. rewrite !Rmult_assoc.
    apply Rmult_le_compat_l; assumption.
  - unfold Rdiv at 1. rewrite (Rmult_comm (_ * _)), <- Rmult_assoc. apply Rmult_le_compat_r.
    + pose proof (Rabs_pos X). pose proof (Rmult_le_pos L ((Rabs X + 1) / 2 ^ 53) HL ltac:(lra)). lra.
    + apply (Rmult_le_reg_l H5); [unfold H5; lra|]. rewrite <- Rmult_assoc, Rinv_r by (unfold H5; lra).
      unfold H5; lra.
Qed.

Lemma second_arith v0 v1 v2 v3 v4 sq F0 F1 F2 F3 F4 e W :
  is_number v0 -> is_number v1 -> is_number v2 -> is_number v3 -> is_number v4 ->
  Rabs (real_of v0) <= W -> Rabs (real_of v1) <= W -> Rabs (real_of v2) <= W ->
  Rabs (real_of v3) <= W -> Rabs (real_of v4) <= W ->
  Rabs (real_of v0 - F0) <= e -> Rabs (real_of v1 - F1) <= e -> Rabs (real_of v2 - F2) <= e ->
  Rabs (real_of v3 - F3) <= e -> Rabs (real_of v4 - F4) <= e -> W <= big ->
  is_number sq -> Rabs (real_of sq - HH ^ 2) <= HH ^ 2 / 2 ^ 52 ->
  let q := ((- (v1 + v2) / b_12 - b_2_5 * v0 + b_4 * (v3 + v4) / b_3) / sq)%b64 in
  is_number q /\
  Rabs (real_of q - (- (F1 + F2) / 12 - 5 / 2 * F0 + 4 * (F3 + F4) / 3) / HH ^ 2)
    <= 10 ^ 8 * (55 / 10 * e + 44 / 10 ^ 16 * W) + 10 ^ 10 * tiny.
Proof.
  intros N0 N1 N2 N3 N4 B0 B1 B2 B3 B4 E0 E1 E2 E3 E4 HW Nsq Esq.
  apply Rabs_le_between in B0, B1, B2, B3, B4, E0, E1, E2, E3, E4, Esq.
  destruct four_val as [T4 V4]. destruct three_val as [T3 V3]. destruct twelve_val as [T12 V12].
  destruct half5_val as [T5 V5].
  destruct big_facts as [BG1 BG2]. destruct tiny_small as [TP TS].
  assert (Hgb : forall z, - (1000000000000 * big) <= z <= 1000000000000 * big -> Rabs z <= huge).
  { intros z Hz. apply Rabs_le_between. lra. }
  clear BG2.
  (* minus the sum of the outer values, over 12 *)
  pose proof (add_near v1 v2 N1 N2 ltac:(apply Hgb; lra)) as Pa.
  destruct (near_bound _ _ (2 * W) Pa ltac:(abs_bound)) as [Na Ea].
  set (a := (v1 + v2)%b64) in *. clearbody a. clear Pa.
  destruct (opp_near a Na) as [Nm Em]. set (m := (- a)%b64) in *. clearbody m.
  assert (Pq : near (m / b_12)%b64 (real_of m / 12)).
  { rewrite <- V12 in *. apply div_near; try assumption; [rewrite V12; lra|apply Hgb; rewrite V12 in *; lra]. }
  destruct (near_bound _ _ (W / 5 + tiny) Pq ltac:(abs_bound)) as [Nq Eq].
  set (q := (m / b_12)%b64) in *. clearbody q. clear Pq.
  (* 2.5 times the central value *)
  assert (Pt : near (b_2_5 * v0)%b64 (5 / 2 * real_of v0)).
  { rewrite <- V5. apply mul_near; try assumption. apply Hgb. rewrite V5. lra. }
  destruct (near_bound _ _ (5 / 2 * W) Pt ltac:(abs_bound)) as [Nt Et].
  set (t := (b_2_5 * v0)%b64) in *. clearbody t. clear Pt.
  pose proof (sub_near q t Nq Nt ltac:(apply Hgb; lra)) as Pu.
  destruct (near_bound _ _ (27 / 10 * W + 5 * tiny) Pu ltac:(abs_bound)) as [Nu Eu].
  set (u := (q - t)%b64) in *. clearbody u. clear Pu.
  (* 4/3 of the sum of the inner values *)
  pose proof (add_near v3 v4 N3 N4 ltac:(apply Hgb; lra)) as Pb.
  destruct (near_bound _ _ (2 * W) Pb ltac:(abs_bound)) as [Nb Eb].
  set (b := (v3 + v4)%b64) in *. clearbody b. clear Pb.
  assert (Pc : near (b_4 * b)%b64 (4 * real_of b)).
  { rewrite <- V4. apply mul_near; try assumption. apply Hgb. rewrite V4. lra. }
  destruct (near_bound _ _ (801 / 100 * W + 5 * tiny) Pc ltac:(abs_bound)) as [Nc Ec].
  set (c := (b_4 * b)%b64) in *. clearbody c. clear Pc.
  assert (Pd : near (c / b_3)%b64 (real_of c / 3)).
  { rewrite <- V3. apply div_near; try assumption; [rewrite V3; lra|apply Hgb; rewrite V3; lra]. }
  destruct (near_bound _ _ (27 / 10 * W + 5 * tiny) Pd ltac:(abs_bound)) as [Nd Ed].
  set (d := (c / b_3)%b64) in *. clearbody d. clear Pd.
  pose proof (add_near u d Nu Nd ltac:(apply Hgb; lra)) as Ps.
  destruct (near_bound _ _ (54 / 10 * W + 10 * tiny) Ps ltac:(abs_bound)) as [Ns Es].
  set (s := (u + d)%b64) in *. clearbody s. clear Ps.
  set (S0 := - (F1 + F2) / 12 - 5 / 2 * F0 + 4 * (F3 + F4) / 3) in *.
  assert (ES : Rabs (real_of s - S0) <= 54 / 10 * e + 23 / 10 ^ 16 * W + 10 * tiny) by (unfold S0; abs_bound).
  assert (BS : Rabs (real_of s) <= 55 / 10 * W + 20 * tiny) by abs_bound.
  assert (HHv : 99999999 / 10 ^ 16 <= HH ^ 2 <= 100000001 / 10 ^ 16) by (unfold HH; lra).
  assert (HH1 : 999999999 / 10 ^ 17 <= HH ^ 2 <= 1000000001 / 10 ^ 17) by (unfold HH; lra).
  set (Q := HH ^ 2) in *. clearbody Q.
  set (R := real_of sq) in *. 
  assert (RR : 99999999 / 10 ^ 16 <= R <= 100000001 / 10 ^ 16) by lra.
  assert (Inv : forall z, 999999 / 10 ^ 14 <= z <= 1000001 / 10 ^ 14 -> 0 < / z <= 100000101).
  { intros z Hz. split; [apply Rinv_0_lt_compat; lra|].
    apply (Rmult_le_reg_r z); [lra|]. rewrite Rinv_l by lra. lra. }
  assert (Z : forall w z B, 999999 / 10 ^ 14 <= z <= 1000001 / 10 ^ 14 -> Rabs w <= B -> Rabs (w / z) <= B * 100000101).
  { intros w z B Hz HB. destruct (Inv z Hz). unfold Rdiv. rewrite Rabs_mult, (Rabs_pos_eq (/ z)) by lra.
    apply Rmult_le_compat; try lra. apply Rabs_pos. }
  assert (Pr : near (s / sq)%b64 (real_of s / R)).
  { apply div_near; try assumption; [fold R; lra|]. fold R.
    eapply Rle_trans; [apply (Z (real_of s) R _ ltac:(lra) BS)|]. destruct big_facts. lra. }
  destruct (near_bound _ _ _ Pr (Z (real_of s) R _ ltac:(lra) BS)) as [Nr Er].
  split; [exact Nr|].
  assert (K1 : Rabs ((Q - R) / Q) <= / 2 ^ 52).
  { unfold Rdiv. rewrite Rabs_mult, (Rabs_pos_eq (/ Q)) by (left; apply Rinv_0_lt_compat; lra).
    apply (Rmult_le_reg_r Q); [lra|]. rewrite Rmult_assoc, Rinv_l by lra. rewrite Rmult_1_r. abs_bound. }
  assert (K2 := Z (real_of s) R _ ltac:(lra) BS).
  assert (K3 : Rabs ((real_of s / R) * ((Q - R) / Q)) <= ((55 / 10 * W + 20 * tiny) * 100000101) * / 2 ^ 52).
  { rewrite Rabs_mult. apply Rmult_le_compat; auto using Rabs_pos. }
  assert (K4 := Z _ Q _ ltac:(lra) ES).
  replace (real_of (s / sq)%b64 - S0 / Q)
    with ((real_of (s / sq)%b64 - real_of s / R) + (real_of s / R) * ((Q - R) / Q) + (real_of s - S0) / Q)
    by (field; lra).
  eapply Rle_trans; [apply Rabs_triang|].
  eapply Rle_trans; [apply Rplus_le_compat_r, Rabs_triang|].
  assert (Er' : Rabs (real_of (s / sq)%b64 - real_of s / R)
     <= 112 / 10 ^ 18 * ((55 / 10 * W + 20 * tiny) * 100000101) + tiny) by abs_bound.
  assert (W0 : 0 <= W) by lra. assert (e0 : 0 <= e) by lra.
  clear - K3 K4 Er' W0 e0 TP. lra.
Qed.

Lemma b64_second sq g f x r eta K L V :
  let X := real_of x in
  is_number x -> Rabs X <= 2 ^ 900 -> / 1000 + Rabs X / 2 ^ 50 <= r -> smooth_near f 6 X r ->
  (forall t, Rabs (t - X) <= r ->
     Rabs (f t) <= V /\ Rabs (Derive f t) <= L /\ Rabs (Derive_n f 6 t) <= K) ->
  V + eta <= 2 ^ 900 -> computes g f X r eta ->
  is_number sq -> Rabs (real_of sq - HH ^ 2) <= HH ^ 2 / 2 ^ 52 ->
  is_number (d2u_e_b64 sq g x) /\
  Rabs (real_of (d2u_e_b64 sq g x) - Derive_n f 2 X)
    <= K * (1 / 10000) ^ 4 / 53
       + 10 ^ 8 * (6 * (eta + L * ((Rabs X + 1) / 2 ^ 53)) + 40 * V / 2 ^ 53) + / 2 ^ 900.
Proof.
  intros X Nx BX Hr S HB HV HC Nsq Esq. unfold d2u_e_b64, fd_2f_b64.
  assert (HHv : 99999999 / 10 ^ 12 <= HH <= 100000001 / 10 ^ 12) by (unfold HH; lra).
  destruct (points dx4 HH x (proj1 step_val) (proj2 step_val) ltac:(unfold HH; lra) Nx BX) as ((M1 & M2 & M3 & M4) & Q). fold X in Q. cbv zeta in Q.
  destruct Q as (Q1 & Q2 & Q3 & Q4).
  set (d := (Rabs X + / 1000) / 2 ^ 53) in *.
  assert (PX := Rabs_pos X).
  assert (Hd : 0 <= d <= / 1000 / 2 + Rabs X / 2 ^ 50 / 2) by (unfold d; lra).
  assert (In : forall p z, Rabs (p - z) <= d -> Rabs (z - X) <= 2 * HH -> Rabs (p - X) <= r /\ Rabs (z - X) <= r).
  { intros p z Hp Hz. apply Rabs_le_between in Hp, Hz. split; apply Rabs_le_between; lra. }
  destruct (In _ _ Q1 ltac:(abs_bound)) as [I1 J1]. destruct (In _ _ Q2 ltac:(abs_bound)) as [I2 J2].
  destruct (In _ _ Q3 ltac:(abs_bound)) as [I3 J3]. destruct (In _ _ Q4 ltac:(abs_bound)) as [I4 J4].
  assert (J0 : Rabs (X - X) <= r) by (replace (X - X) with 0 by ring; rewrite Rabs_R0; lra).
  assert (HL : 0 <= L) by (destruct (HB X J0) as (_ & A & _); pose proof (Rabs_pos (Derive f X)); lra).
  assert (HK : 0 <= K) by (destruct (HB X J0) as (_ & _ & A); pose proof (Rabs_pos (Derive_n f 6 X)); lra).
  assert (HV0 : 0 <= V) by (destruct (HB X J0) as (A & _); pose proof (Rabs_pos (f X)); lra).
  assert (Lip := lipschitz f X r L 5 S (fun t Ht => proj1 (proj2 (HB t Ht)))).
  set (e := eta + L * d).
  assert (val : forall p z, is_number p -> Rabs (real_of p - X) <= r -> Rabs (z - X) <= r ->
     Rabs (real_of p - z) <= d ->
     is_number (g p) /\ Rabs (real_of (g p)) <= V + eta /\ Rabs (real_of (g p) - f z) <= e).
  { intros p z Np Ip Iz Hp. destruct (HC p Np Ip) as [A B]. split; [exact A|]. split.
    - destruct (HB _ Ip) as (C & _). replace (real_of (g p)) with ((real_of (g p) - f (real_of p)) + f (real_of p)) by ring.
      eapply Rle_trans; [apply Rabs_triang|]. lra.
    - replace (real_of (g p) - f z) with ((real_of (g p) - f (real_of p)) + (f (real_of p) - f z)) by ring.
      eapply Rle_trans; [apply Rabs_triang|]. unfold e. apply Rplus_le_compat; [exact B|].
      eapply Rle_trans; [apply Lip; assumption|]. apply Rmult_le_compat_l; assumption. }
  destruct (val _ _ M1 I1 J1 Q1) as (A1 & B1 & C1). destruct (val _ _ M2 I2 J2 Q2) as (A2 & B2 & C2).
  destruct (val _ _ M3 I3 J3 Q3) as (A3 & B3 & C3). destruct (val _ _ M4 I4 J4 Q4) as (A4 & B4 & C4).
  assert (Q0 : Rabs (real_of x - X) <= d) by (unfold X; replace (real_of x - real_of x) with 0 by ring; rewrite Rabs_R0; lra).
  destruct (val _ _ Nx J0 J0 Q0) as (A0 & B0 & C0).
  assert (eta0 : 0 <= eta) by (destruct (HC x Nx J0) as [_ A]; pose proof (Rabs_pos (real_of (g x) - f (real_of x))); lra).
  destruct (second_arith _ _ _ _ _ sq _ _ _ _ _ e (V + eta) A0 A1 A2 A3 A4 B0 B1 B2 B3 B4 C0 C1 C2 C3 C4 HV Nsq Esq) as [Nq Eq].
  split; [exact Nq|].
  assert (T := fd_2f_error f X HH r K ltac:(lra) ltac:(lra) S (fun t Ht => proj2 (proj2 (HB t Ht)))).
  unfold fd_2f in T.
  match type of Eq with Rabs (?q - ?m) <= _ => replace (q - Derive_n f 2 X) with ((q - m) + (m - Derive_n f 2 X)) by ring end.
  eapply Rle_trans; [apply Rabs_triang|].
  assert (H4 : K * HH ^ 4 / 54 <= K * (1 / 10000) ^ 4 / 53).
  { assert (HH ^ 4 / 54 <= (1 / 10000) ^ 4 / 53) by (unfold HH; lra). unfold Rdiv in *. rewrite !Rmult_assoc.
    apply Rmult_le_compat_l; assumption. }
  assert (T1 : 10 ^ 10 * tiny <= / 2 ^ 900).
  { rewrite <- tiny_room. pose proof tiny_pos. assert (10 ^ 10 <= 2 ^ 100) by lra. nra. }
  assert (E1 : e <= eta + L * ((Rabs X + 1) / 2 ^ 53)).
  { unfold e, d. apply Rplus_le_compat_l, Rmult_le_compat_l; [exact HL|]. lra. }
  assert (e1 : eta <= e) by (unfold e; pose proof (Rmult_le_pos L d HL ltac:(lra)); lra).
  set (E := eta + L * ((Rabs X + 1) / 2 ^ 53)) in *. clearbody E e.
  match type of T with Rabs ?a <= _ => replace (Rabs a) with (Rabs a) in T by reflexivity end.
  eapply Rle_trans; [apply Rplus_le_compat; [exact Eq|]|].
  { match goal with |- Rabs ?a <= _ => match type of T with Rabs ?b <= _ => replace a with b; [exact T|] end end.
    unfold Rdiv. ring_simplify. field; lra. }
  clear - H4 T1 E1 e1 HV0 eta0. lra.
Qed.

(** ** A constant function *)
Lemma sub_self c : is_number c -> (c - c)%b64 = b_0.
Proof.
  unfold is_number, fsub. intros F.
  pose proof (Bminus_correct 53 1024 Hprec Hmax mode_NE _ _ F F) as C. simpl round_mode in C.
  rewrite Rminus_diag_eq in C by reflexivity. rewrite Generic_fmt.round_0 in C by typeclasses eauto.
  rewrite Rlt_bool_true in C by (rewrite Rabs_R0; apply bpow_gt_0).
  destruct C as (E & G & Sg). rewrite Rcompare_Eq in Sg by reflexivity.
  destruct (Bminus mode_NE c c) as [s|s| |s m e H]; try discriminate G.
  - simpl in Sg. destruct (Bsign c); simpl in Sg; subst s; reflexivity.
  - exfalso. simpl in E. apply eq_0_F2R in E. destruct s; discriminate E.
Qed.

Lemma constant_first c x : is_number c ->
  du_e_b64 (fun _ => c) x = b_0 /\ d2u_e_from_b64 (fun _ => c) x = b_0.
Proof.
  intros N. unfold du_e_b64, d2u_e_from_b64, fd_1f_b64. rewrite sub_self by exact N. split; reflexivity.
Qed.

(** ** The round trip of the shape factor *)
Lemma shape_round_trip s m :
  is_number s -> is_number m -> / 2 ^ 400 <= real_of s <= 2 ^ 400 -> / 2 ^ 400 <= real_of m <= 2 ^ 400 ->
  is_number (read_shape_d (stored_del_d s m) m) /\
  Rabs (real_of (read_shape_d (stored_del_d s m) m) - real_of s) <= (/ 2 ^ 52 + / 2 ^ 100) * real_of s.
Proof.
  intros Ns Nm Hs Hm. unfold read_shape_d, stored_del_d.
  set (S := real_of s) in *. set (M := real_of m) in *.
  set (k := / 2 ^ 400) in *.
  assert (k0 : 0 < k) by (unfold k; apply Rinv_0_lt_compat, pow_lt; lra).
  assert (k1 : k <= 1).
  { unfold k. rewrite <- Rinv_1. apply Rinv_le_contravar; [lra|]. rewrite <- (pow1 400). apply pow_incr. lra. }
  assert (Tk : tiny = k * k * / 2 ^ 200).
  { unfold tiny, k. replace (2 ^ 1000) with (2 ^ 400 * 2 ^ 400 * 2 ^ 200) by (rewrite <- !pow_add; reflexivity).
    rewrite !Rinv_mult by (try apply Rmult_integral_contrapositive_currified; apply pow_nonzero; lra). reflexivity. }
  assert (T0 : 0 < tiny) by apply tiny_pos.
  assert (w0 : 0 < / 2 ^ 200) by (apply Rinv_0_lt_compat, pow_lt; lra).
  assert (w1 : / 2 ^ 200 <= / 2 ^ 100 / 2 ^ 50) by (unfold Rdiv; rewrite <- Rinv_mult by lra; apply Rinv_le_contravar; lra).
  set (w := / 2 ^ 200) in *. clearbody w.
  assert (TM : 0 <= tiny / M <= w * S).
  { split; [apply Rmult_le_pos; [lra|left; apply Rinv_0_lt_compat; lra]|].
    apply (Rmult_le_reg_r M); [lra|]. unfold Rdiv. rewrite Rmult_assoc, Rinv_l, Rmult_1_r by lra.
    rewrite Tk. apply Rle_trans with (w * S * k).
    - replace (k * k * w) with (w * k * k) by ring. apply Rmult_le_compat_r; [lra|]. apply Rmult_le_compat_l; lra.
    - apply Rmult_le_compat_l; [apply Rmult_le_pos; lra|lra]. }
  assert (TS : tiny <= w * S).
  { rewrite Tk. replace (k * k * w) with (w * (k * k)) by ring. apply Rmult_le_compat_l; [lra|]. nra. }
  assert (U : uu = / 2 ^ 53) by reflexivity.
  assert (HU : 2 ^ 400 * 2 ^ 400 * 4 <= huge).
  { unfold huge. replace (2 ^ 1000) with (2 ^ 400 * 2 ^ 400 * 2 ^ 200) by (rewrite <- !pow_add; reflexivity).
    apply Rmult_le_compat_l; [|lra]. apply Rmult_le_pos; apply pow_le; lra. }
  assert (P1 : 1 <= 2 ^ 400) by (rewrite <- (pow1 400); apply pow_incr; lra).
  set (big4 := 2 ^ 400) in *. clearbody big4 k.
  assert (SM : 0 <= S * M <= big4 * big4).
  { split; [apply Rmult_le_pos; lra|]. apply Rmult_le_compat; lra. }
  destruct (mul_near s m Ns Nm) as [Np Ep].
  { fold S M. rewrite Rabs_pos_eq by lra. lra. }
  fold S M in Ep. rewrite (Rabs_pos_eq (S * M)) in Ep by lra.
  set (p := (s * m)%b64) in *. set (P := real_of p) in *. clearbody p.
  assert (E1 : Rabs (P / M - S) <= uu * S + w * S).
  { replace (P / M - S) with ((P - S * M) * / M) by (field; lra).
    rewrite Rabs_mult, (Rabs_pos_eq (/ M)) by (left; apply Rinv_0_lt_compat; lra).
    apply Rle_trans with ((uu * (S * M) + tiny) * / M).
    - apply Rmult_le_compat_r; [left; apply Rinv_0_lt_compat; lra|exact Ep].
    - replace ((uu * (S * M) + tiny) * / M) with (uu * S + tiny / M) by (field; lra). lra. }
  assert (B1 : Rabs (P / M) <= S + uu * S + w * S).
  { replace (P / M) with ((P / M - S) + S) by ring. eapply Rle_trans; [apply Rabs_triang|].
    rewrite (Rabs_pos_eq S) by lra. lra. }
  assert (S0 : 0 < S) by lra.
  assert (wS : w * S <= / 2 ^ 100 / 2 ^ 50 * S) by (apply Rmult_le_compat_r; lra).
  destruct (div_near p m Np Nm ltac:(fold M; lra)) as [Nq Eq].
  { fold P M. eapply Rle_trans; [exact B1|]. rewrite U. assert (S <= big4 * big4) by nra. lra. }
  fold P M in Eq. split; [exact Nq|].
  set (Q := real_of (p / m)%b64) in *. clearbody Q.
  replace (Q - S) with ((Q - P / M) + (P / M - S)) by ring.
  eapply Rle_trans; [apply Rabs_triang|].
  assert (Eq' : Rabs (Q - P / M) <= uu * (S + uu * S + w * S) + tiny).
  { eapply Rle_trans; [exact Eq|]. apply Rplus_le_compat_r, Rmult_le_compat_l; [rewrite U; lra|exact B1]. }
  rewrite U in *. lra.
Qed.

(** ** A concrete function *)
Lemma square_computes x : is_number x -> Rabs (real_of x) <= 2 ->
  is_number (x * x)%b64 /\ Rabs (real_of (x * x)%b64 - real_of x ^ 2) <= 5 / 10 ^ 16.
Proof.
  intros N B. destruct (big_facts) as [B1 B2]. destruct tiny_small as [TP TS].
  assert (Q : 0 <= real_of x * real_of x <= 4).
  { apply Rabs_le_between in B. nra. }
  destruct (mul_near x x N N) as [M E]; [rewrite Rabs_pos_eq by lra; lra|].
  split; [exact M|]. rewrite (Rabs_pos_eq (real_of x * real_of x)) in E by lra. simpl pow. rewrite Rmult_1_r.
  eapply Rle_trans; [exact E|]. unfold uu. lra.
Qed.

Lemma smooth_square n x r : smooth_near (fun t => t ^ 2) n x r.
Proof. intros t _ i _. apply ex_derive_n_pow. Qed.

Lemma constant_second : exists c, is_number c /\ forall x,
    is_number (d2u_e_b64 sq_1e_4 (fun _ => c) x) /\
    real_of (d2u_e_b64 sq_1e_4 (fun _ => c) x) < - / 10 ^ 8.
Proof.
  set (c := @B754_finite 53 1024 false 5404319552844595 (-54) eq_refl).
  exists c. split; [reflexivity|]. intros x.
  assert (E : B2SF (d2u_e_b64 sq_1e_4 (fun _ => c) x) = SpecFloat.S754_finite true 6710886400000000 (-79))
    by (vm_compute; reflexivity).
  unfold is_number, real_of. rewrite <- is_finite_SF_B2SF, <- SF2R_B2SF, E. split; [reflexivity|].
  unfold SF2R, F2R. simpl. lra.
Qed.

Lemma constant_second_bound sq c x :
  is_number c -> Rabs (real_of c) <= 2 ^ 899 ->
  is_number sq -> Rabs (real_of sq - HH ^ 2) <= HH ^ 2 / 2 ^ 52 ->
  is_number (d2u_e_b64 sq (fun _ => c) x) /\
  Rabs (real_of (d2u_e_b64 sq (fun _ => c) x)) <= 5 / 10 ^ 7 * Rabs (real_of c) + / 2 ^ 900.
Proof.
  intros N B Ns Es. unfold d2u_e_b64, fd_2f_b64.
  assert (Z : Rabs (real_of c - real_of c) <= 0) by (rewrite Rminus_diag_eq, Rabs_R0 by reflexivity; lra).
  assert (HB : Rabs (real_of c) <= big).
  { eapply Rle_trans; [exact B|]. unfold big. apply Rle_pow; [lra|]. apply PeanoNat.Nat.leb_le. reflexivity. }
  destruct (second_arith c c c c c sq _ _ _ _ _ 0 (Rabs (real_of c)) N N N N N
    (Rle_refl _) (Rle_refl _) (Rle_refl _) (Rle_refl _) (Rle_refl _) Z Z Z Z Z HB Ns Es) as [M E].
  split; [exact M|].
  match type of E with Rabs (?q - ?z) <= _ => replace z with 0 in E; [rewrite Rminus_0_r in E|] end.
  - eapply Rle_trans; [exact E|]. pose proof (Rabs_pos (real_of c)).
    assert (T1 : 10 ^ 10 * tiny <= / 2 ^ 900).
    { rewrite <- tiny_room. pose proof tiny_pos. assert (10 ^ 10 <= 2 ^ 100) by lra. nra. }
    lra.
  - field. unfold HH. lra.
Qed.

Lemma shape_not_back : exists s m, is_number s /\ is_number m /\ 0 < real_of s /\ 0 < real_of m /\
    real_of (read_shape_d (stored_del_d s m) m) <> real_of s.
Proof.
  set (s := @B754_finite 53 1024 false 6755399441055744 (-52) eq_refl).
  set (m := @B754_finite 53 1024 false 6917529027641082 (-61) eq_refl).
  exists s, m. split; [reflexivity|]. split; [reflexivity|].
  destruct (literal 6755399441055744 (-52) eq_refl) as [_ S]. fold s in S.
  destruct (literal 6917529027641082 (-61) eq_refl) as [_ M]. fold m in M.
  rewrite S, M. simpl bpow. split; [lra|]. split; [lra|].
  assert (E : B2SF (read_shape_d (stored_del_d s m) m) = SpecFloat.S754_finite false 6755399441055745 (-52))
    by (vm_compute; reflexivity).
  unfold real_of. rewrite <- SF2R_B2SF, E. unfold SF2R, F2R. simpl. lra.
Qed.
