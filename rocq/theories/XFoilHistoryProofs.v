(** Accepted and rejected dumps, and histories of an XFoil reader. *)
From Coq Require Import Reals List Bool String Ascii Lia Lra Sorted.
From Verif Require Import PyBase PyBaseFacts XFoilModel XFoilSpec XFoilProofs XFoilLoadProofs.
Import ListNotations.
Open Scope R_scope.

Section Text.
Variable floats : string -> option (list xr).
Variable read : string -> res (list string).

(* ---------------- accepted dumps ---------------- *)

Lemma mix_nonneg v lv a b : 0 < v -> lv < 0 -> nonneg a -> nonneg b ->
  nonneg (mix (Fin (v / (v - lv))) a b).
Proof.
  intros Hv Hl (x & -> & Hx) (y & -> & Hy). rewrite mix_real by assumption.
  eexists. split; [reflexivity|]. unfold at_zero.
  assert (E : (0 - v) / (lv - v) = v / (v - lv)) by (field; lra). rewrite E.
  assert (0 <= v / (v - lv) <= 1).
  { split; [apply Rmult_le_pos; [lra|left; apply Rinv_0_lt_compat; lra]|].
    apply Rmult_le_reg_r with (v - lv); [lra|]. unfold Rdiv. rewrite Rmult_assoc, Rinv_l; lra. }
  nra.
Qed.
Lemma mix_pos v lv a b : 0 < v -> lv < 0 -> posit a -> posit b ->
  posit (mix (Fin (v / (v - lv))) a b).
Proof.
  intros Hv Hl (x & -> & Hx) (y & -> & Hy). rewrite mix_real by assumption.
  eexists. split; [reflexivity|]. unfold at_zero.
  assert (E : (0 - v) / (lv - v) = v / (v - lv)) by (field; lra). rewrite E.
  assert (0 <= v / (v - lv) < 1).
  { split; [apply Rmult_le_pos; [lra|left; apply Rinv_0_lt_compat; lra]|].
    apply Rmult_lt_reg_r with (v - lv); [lra|]. unfold Rdiv. rewrite Rmult_assoc, Rinv_l; lra. }
  set (k := v / (v - lv)) in *. nra.
Qed.

Lemma posit_not_le v : posit v -> xleb v (Fin 0) = false.
Proof. intros H. apply xleb_false_not_nonpositive. right. right. exact H. Qed.

Lemma interpolate_succeeds u l v lv : 0 < v -> lv < 0 -> physical_row u -> physical_row l ->
  exists p, interpolate u (neg_row l) (Fin (v / (v - lv))) = Ok p.
Proof.
  intros Hv Hl (U1 & U2 & U3 & U4 & U5 & U6) (L1 & L2 & L3 & L4 & L5 & L6). unfold interpolate.
  unfold aset_s, aset_x, aset_y, aset_u_e_rel, aset_delta_d, aset_delta_m, aset_c_f, aset_shape_d,
    aset_shape_k, aset_mom_defect, aset_mass_defect, aset_ke_defect. cbn [bind].
  rewrite (nonneg_not_lt (mix _ (a_s (neg_row l)) _)) by (apply mix_nonneg; assumption). cbn [bind].
  rewrite (nonneg_not_lt (mix _ (a_delta_d (neg_row l)) _)) by (apply mix_nonneg; assumption). cbn [bind].
  rewrite (nonneg_not_lt (mix _ (a_delta_m (neg_row l)) _)) by (apply mix_nonneg; assumption). cbn [bind].
  rewrite (nonneg_not_lt (mix _ (a_c_f (neg_row l)) _)) by (apply mix_nonneg; assumption). cbn [bind].
  rewrite (posit_not_le (mix _ (a_shape_d (neg_row l)) _)) by (apply mix_pos; assumption). cbn [bind].
  rewrite (posit_not_le (mix _ (a_shape_k (neg_row l)) _)) by (apply mix_pos; assumption). cbn [bind].
  eexists. reflexivity.
Qed.

Lemma shift_wake_succeeds off ws : Forall (fun w => nonneg (w_s w - off)%xr) ws ->
  exists ws', shift_wake_st off ws = (ws', Ok tt).
Proof.
  induction 1 as [|w t H F [t' IH]]; cbn [shift_wake_st]; [eexists; reflexivity|].
  unfold wset_s. rewrite (nonneg_not_lt _ H). rewrite IH. eexists. reflexivity.
Qed.

Lemma valid_dump_loads_holds r f up lo wake v ss ws :
  file_holds floats read f (up ++ lo) wake -> two_sided up lo -> last_velocity up v -> v <> 0 ->
  Forall physical_row (up ++ lo) -> Forall physical_wake_row wake ->
  column (map a_s (up ++ lo)) ss -> Sorted Rle ss ->
  column (map w_s wake) ws -> Sorted Rle ws ->
  exists r', set_filename floats read r f = (r', Ok tt).
Proof.
  intros F T LV N PR PW CS SS CW SW.
  pose proof (last_velocity_pos _ _ _ T LV N) as Hv.
  destruct F as (Hf & lines & A & W & R & D & FA & NW & FW).
  destruct T as (NU & HU & HL). destruct LV as (b & u & Eu & Ev).
  pose proof (dump_file_split read lines A W f R D) as G.
  assert (V : Forall row_valid (up ++ lo)).
  { eapply Forall_impl; [|exact PR]. intros a. apply physical_valid. }
  pose proof (parsed_rows_valid floats A (up ++ lo) (lines_nonempty _ _ _ D) FA V) as F2.
  apply Forall2_app_inv_r in F2. destruct F2 as (P & Q & FP & FQ & EA).
  destruct lo as [|l t]; [contradiction|]. destruct HL as (lv & El & Hl).
  inversion FQ as [|n ? N' ? Hn HN]; subst.
  assert (HPne : P <> []).
  { intros ->. inversion FP as [|]. destruct b; discriminate. }
  assert (LT : xltb (a_u_e_rel l) (Fin 0) = true).
  { rewrite El. cbn [xltb]. apply Rltb_true. exact Hl. }
  assert (HU' : Forall (fun r => xltb (a_u_e_rel r) (Fin 0) = false) (b ++ [u])).
  { eapply Forall_impl; [|exact HU]. intros a Ha. apply nonneg_not_lt. exact Ha. }
  assert (HZ : match rev (b ++ [u]) with u :: _ => xeqb (a_u_e_rel u) (Fin 0) = false | [] => False end).
  { rewrite rev_app_distr. cbn [rev app]. rewrite Ev. cbn [xeqb]. apply Reqb_false. exact N. }
  apply (load_total floats read r f _ W P n N' (b ++ [u]) (l :: t) Hf G eq_refl HPne FP HU' FQ LT HZ).
  - intros b' u' l' t' E1 E2. apply app_inj_tail in E1. destruct E1 as [<- <-].
    inversion E2; subst l' t'. clear E2.
    assert (Pu : physical_row u).
    { rewrite Forall_forall in PR. apply PR. rewrite <- app_assoc. apply in_or_app. right. left. reflexivity. }
    assert (Pl : physical_row l).
    { rewrite Forall_forall in PR. apply PR. apply in_or_app. right. left. reflexivity. }
    destruct (interpolate_succeeds u l v lv Hv Hl Pu Pl) as [p Ei].
    exists (Fin (v / (v - lv))), p.
    split.
    { rewrite Ev, El, xmul_fin, xadd_fin, py_div_fin by lra. apply f_equal, f_equal. field. lra. }
    split; [exact Ei|].
    apply interpolate_fields in Ei. destruct Ei as (Is & _).
    unfold column in CS. rewrite map_app in CS. apply map_Fin_app in CS.
    destruct CS as (s1 & s2 & -> & C1 & C2). apply Sorted_strong in SS.
    apply strong_app in SS. destruct SS as (S1 & S2 & S12).
    rewrite map_app in C1. cbn [map] in C1.
    pose proof C1 as C1'. apply map_Fin_app in C1'. destruct C1' as (sb & su & -> & Cb & Cu).
    destruct su as [|su [|]]; try discriminate. cbn [map] in Cu. inversion Cu as [Eus]. clear Cu.
    destruct s2 as [|sl s2]; [discriminate|]. cbn [map] in C2. inversion C2 as [[Els C2']].
    change (a_s (neg_row l)) with (a_s l) in Is. rewrite Eus, Els, mix_real in Is by assumption.
    set (s0 := at_zero v su lv sl) in *.
    assert (B : su <= s0 <= sl).
    { apply at_zero_between; [assumption..|]. rewrite Forall_forall in S12.
      assert (K : Forall (Rle su) (sl :: s2)) by (apply S12; apply in_or_app; right; left; reflexivity).
      inversion K; assumption. }
    rewrite Is. split.
    + constructor.
      { unfold upper_arc, aset_s. rewrite nonneg_not_lt; [eexists; reflexivity|].
        rewrite Is, xsub_fin. exists (s0 - s0). split; [reflexivity|lra]. }
      apply Forall_rev. apply Forall_forall. intros a Ha.
      assert (K : exists s, In s (sb ++ [su]) /\ a_s a = Fin s).
      { assert (Ka : In (a_s a) (map Fin (sb ++ [su]))).
        { rewrite <- C1. change [a_s u] with (map a_s [u]). rewrite <- map_app. apply in_map. exact Ha. }
        apply in_map_iff in Ka. destruct Ka as (s & E & I). exists s. auto. }
      destruct K as (s & I & Es).
      assert (s <= su).
      { apply in_app_or in I. destruct I as [I|[<-|[]]]; [|lra].
        apply strong_app in S1. destruct S1 as (_ & _ & S1). rewrite Forall_forall in S1.
        specialize (S1 s I). inversion S1; subst. assumption. }
      unfold upper_arc, aset_s. rewrite nonneg_not_lt; [eexists; reflexivity|].
      rewrite Es, xsub_fin. exists (s0 - s). split; [reflexivity|lra].
    + constructor.
      { unfold lower_arc, aset_s. rewrite nonneg_not_lt; [eexists; reflexivity|].
        rewrite Is, xsub_fin. exists (s0 - s0). split; [reflexivity|lra]. }
      apply Forall_forall. intros a' Ha. apply in_map_iff in Ha. destruct Ha as (a & <- & Ha).
      assert (K : exists s, In s (sl :: s2) /\ a_s a = Fin s).
      { assert (Ka : In (a_s a) (map Fin (sl :: s2))).
        { cbn [map]. rewrite <- C2', <- Els. change (In (a_s a) (map a_s (l :: t))). apply in_map. exact Ha. }
        apply in_map_iff in Ka. destruct Ka as (s & E & I). exists s. auto. }
      destruct K as (s & I & Es).
      assert (sl <= s).
      { destruct I as [<-|I]; [lra|]. inversion S2 as [|? ? _ K]; subst.
        rewrite Forall_forall in K. apply K. exact I. }
      unfold lower_arc, aset_s. change (a_s (neg_row a)) with (a_s a).
      rewrite nonneg_not_lt; [eexists; reflexivity|].
      rewrite Es, xsub_fin. exists (s - s0). split; [reflexivity|lra].
  - exists wake.
    destruct (shift_wake_succeeds (match wake with w :: _ => w_s w | [] => PInf end) wake) as [ws' E].
    { unfold column in CW. destruct wake as [|w wt]; [constructor|].
      destruct ws as [|w0 wst]; [discriminate|].
      assert (E0 : w_s w = Fin w0) by (cbn [map] in CW; congruence).
      rewrite E0. apply Forall_forall. intros a Ha.
      assert (Ka : In (w_s a) (map Fin (w0 :: wst))) by (rewrite <- CW; apply in_map; exact Ha).
      apply in_map_iff in Ka. destruct Ka as (s & Es & I). rewrite <- Es, xsub_fin.
      exists (s - w0). split; [reflexivity|].
      apply Sorted_strong in SW. inversion SW as [|? ? _ K]; subst.
      destruct I as [<-|I]; [lra|]. rewrite Forall_forall in K. specialize (K s I). lra. }
    exists ws'. split; [|exact E].
    clear - FW NW PW. revert NW PW. induction FW as [|s w W wake H FW IH]; intros NW PW; constructor.
    + apply new_wrow_valid; [intros ->; apply NW; left; reflexivity|exact H|].
      inversion PW as [|? ? (P1 & P2 & P3 & P4)]; subst.
      split; [apply nonneg_not_lt; exact P1|]. split; [apply nonneg_not_lt; exact P2|].
      split; [apply nonneg_not_lt; exact P3|]. apply posit_not_le. exact P4.
    + apply IH; [intros K; apply NW; right; exact K|]. inversion PW; assumption.
Qed.

(* ---------------- rejected dumps ---------------- *)

(** A load either meets a bad airfoil row or has parsed them all. *)
Lemma parse_or_bad r f A W rows : f <> ""%string -> get_dump_data read f = Ok (A, W) ->
  Forall (fun l => l <> ""%string) A -> Forall2 (line_holds floats) A rows ->
  snd (set_filename floats read r f) = Err ValueError \/
  (Forall2 (fun l r => new_arow floats l = Ok r) A rows /\ Forall row_valid rows).
Proof.
  intros Hf G HA FA.
  assert (Dc : Forall (fun l => exists a, new_arow floats l = Ok a) A \/
               exists l, In l A /\ new_arow floats l = Err ValueError).
  { clear -A. induction A as [|l t IH]; [left; constructor|].
    destruct (new_arow floats l) as [a|e] eqn:E.
    - destruct IH as [IH|(k & I & K)]; [left; constructor; [eexists; exact E|exact IH]|].
      right. exists k. split; [right; exact I|exact K].
    - right. exists l. split; [left; reflexivity|]. rewrite E. apply new_arow_err in E. congruence. }
  destruct Dc as [P|(l & I & B)].
  - right. apply parsed_rows; assumption.
  - left. eapply load_bad; eassumption.
Qed.

Lemma bad_row_rejected_holds r f rows wake a :
  file_holds floats read f rows wake -> In a rows -> ~ checked_row a ->
  snd (set_filename floats read r f) = Err ValueError.
Proof.
  intros (Hf & lines & A & W & R & D & FA & NW & FW) HI B.
  pose proof (dump_file_split read lines A W f R D) as G.
  destruct (parse_or_bad r f A W rows Hf G (lines_nonempty _ _ _ D) FA) as [E|[_ V]]; [exact E|].
  exfalso. apply B. apply row_valid_checked. rewrite Forall_forall in V. apply V. exact HI.
Qed.

Lemma each_err f ls : forall st st' e, each f ls st = (st', Err e) -> exists a, f a = Err e.
Proof.
  induction ls as [|l t IH]; intros st st' e; cbn [each]; [discriminate|].
  destruct (f (get st l)) as [r|e'] eqn:E; [apply IH|]. intros H. inversion H; subst.
  eexists. exact E.
Qed.

Lemma upper_arc_err s0 a e : upper_arc s0 a = Err e -> e = ValueError.
Proof. unfold upper_arc, aset_s. destruct (xltb _ _); congruence. Qed.

Lemma zero_velocity_rejected_holds r f b u lo wake s :
  file_holds floats read f ((b ++ [u]) ++ lo) wake -> two_sided (b ++ [u]) lo ->
  a_u_e_rel u = Fin 0 -> a_s u = Fin s -> 0 < s ->
  snd (set_filename floats read r f) = Err ValueError.
Proof.
  intros (Hf & lines & A & W & R & D & FA & NW & FW) (NU & HU & HL) Ev Es Hs.
  pose proof (dump_file_split read lines A W f R D) as G.
  destruct (parse_or_bad r f A W _ Hf G (lines_nonempty _ _ _ D) FA) as [E|[F2 V]]; [exact E|].
  apply Forall2_app_inv_r in F2. destruct F2 as (P & Q & FP & FQ & EA).
  destruct lo as [|l t]; [contradiction|]. destruct HL as (lv & El & Hl).
  inversion FQ as [|n ? N ? Hn HN]; subst.
  assert (LT : xltb (a_u_e_rel l) (Fin 0) = true).
  { rewrite El. cbn [xltb]. apply Rltb_true. exact Hl. }
  assert (HU' : Forall (fun r => xltb (a_u_e_rel r) (Fin 0) = false) (b ++ [u])).
  { eapply Forall_impl; [|exact HU]. intros a Ha. apply nonneg_not_lt. exact Ha. }
  unfold set_filename.
  destruct (String.eqb f "") eqn:Ef; [apply String.eqb_eq in Ef; contradiction|].
  rewrite G. set (rp := b ++ [u]) in *.
  rewrite (upper_loop_spec floats P rp n N l [] [] 0 FP HU' Hn LT). cbn [app List.length Nat.add].
  rewrite app_nil_r.
  cbn [lower_lines]. rewrite skipn_app, skipn_all, Nat.sub_diag. cbn [skipn app].
  assert (Em : map_r (new_arow floats) (n :: N) = Ok (l :: t)).
  { apply map_r_spec. constructor; assumption. }
  rewrite Em. set (rl := l :: t) in *. set (lo := seq (List.length rp) (List.length rl)).
  assert (NDl : NoDup lo) by apply seq_NoDup.
  assert (HLl : Forall (fun k => k < List.length (rp ++ rl))%nat lo).
  { eapply Forall_impl; [|apply In_seq_range]. cbn beta. intros k Hk. rewrite app_length. lia. }
  destruct (each negate_row lo (rp ++ rl)) as [st2 [[]|e]] eqn:E2.
  2:{ destruct (each_succeeds negate_row lo (rp ++ rl) NDl HLl) as [s' Es'].
      { apply Forall_forall. intros k _. eexists. apply negate_row_ok. }
      rewrite Es' in E2. discriminate. }
  pose proof (each_ok negate_row lo _ _ NDl HLl E2) as (L2 & _ & O2).
  assert (Mup : map (get st2) (seq 0 (List.length rp)) = rp).
  { transitivity (map (get (rp ++ rl)) (seq 0 (List.length rp))).
    - apply map_ext_in. intros k Hk. apply in_seq in Hk. apply O2. intro K. apply in_seq in K. lia.
    - exact (map_get_seq [] rp rl). }
  assert (Mupr : map (get st2) (rev (seq 0 (List.length rp))) = rev rp).
  { etransitivity; [apply map_rev|]. f_equal. exact Mup. }
  assert (ND : NoDup (rev (seq 0 (List.length rp)))) by apply NoDup_rev_seq.
  assert (RG : Forall (fun k => k < List.length st2)%nat (rev (seq 0 (List.length rp)))).
  { apply Forall_rev. eapply Forall_impl; [|apply In_seq_range]. cbn beta. intros k Hk.
    rewrite L2, app_length. lia. }
  destruct (rev (seq 0 (List.length rp))) as [|u0 ur] eqn:Eup.
  { unfold rp in Mupr. rewrite rev_app_distr in Mupr. discriminate. }
  assert (Gu : get st2 u0 = u).
  { unfold rp in Mupr. rewrite rev_app_distr in Mupr. cbn [rev app map] in Mupr. congruence. }
  unfold insert_stagnation. rewrite Gu, Ev. cbn [xeqb]. rewrite Reqb_true by reflexivity.
  destruct (each (upper_arc (a_s u)) (u0 :: ur) st2) as [st4 [[]|e]] eqn:E4.
  2:{ apply each_err in E4. destruct E4 as [a Ea]. apply upper_arc_err in Ea. subst. reflexivity. }
  pose proof (each_ok _ _ _ _ ND RG E4) as (_ & F4 & _). cbn [map] in F4.
  inversion F4 as [|? ? ? ? H4 _]; subst.
  apply upper_arc_image in H4. destruct H4 as [H4 _].
  cbn [each]. unfold lower_arc, aset_s. rewrite H4, Es, !xsub_fin. cbn [xltb].
  rewrite Rltb_true by lra. reflexivity.
Qed.

(** No upper row. *)
Lemma no_upper_rejected_holds r f l t wake v :
  file_holds floats read f (l :: t) wake -> Forall checked_row (l :: t) ->
  a_u_e_rel l = Fin v -> v < 0 ->
  snd (set_filename floats read r f) = Err IndexError.
Proof.
  intros (Hf & lines & A & W & R & D & FA & NW & FW) CH Ev Hv.
  pose proof (dump_file_split read lines A W f R D) as G.
  assert (V : Forall row_valid (l :: t)).
  { eapply Forall_impl; [|exact CH]. intros a. apply row_valid_checked. }
  pose proof (parsed_rows_valid floats A _ (lines_nonempty _ _ _ D) FA V) as F2.
  inversion F2 as [|n ? N ? Hn HN]; subst.
  assert (LT : xltb (a_u_e_rel l) (Fin 0) = true).
  { rewrite Ev. cbn [xltb]. apply Rltb_true. exact Hv. }
  unfold set_filename.
  destruct (String.eqb f "") eqn:Ef; [apply String.eqb_eq in Ef; contradiction|].
  rewrite G. cbn [upper_loop]. rewrite Hn, LT. cbn [lower_lines skipn].
  assert (Em : map_r (new_arow floats) (n :: N) = Ok (l :: t)) by (apply map_r_spec; exact F2).
  rewrite Em.
  destruct (each negate_row _ _) as [st2 [[]|e]] eqn:E2; [reflexivity|].
  apply each_err in E2. destruct E2 as [a Ea]. rewrite negate_row_ok in Ea. discriminate.
Qed.

Lemma upper_loop_all P rp : forall st up idx,
  Forall2 (fun l r => new_arow floats l = Ok r) P rp ->
  Forall (fun r => xltb (a_u_e_rel r) (Fin 0) = false) rp ->
  upper_loop floats P idx st up =
    (st ++ rp, rev (seq (List.length st) (List.length rp)) ++ up, Ok None).
Proof.
  intros st up idx F. revert st up idx.
  induction F as [|l a P rp H F IH]; intros st up idx HU.
  - cbn [upper_loop List.length seq rev app]. rewrite app_nil_r. reflexivity.
  - inversion HU as [|? ? U1 U2]; subst. cbn [upper_loop]. rewrite H, U1.
    rewrite IH by assumption.
    rewrite <- app_assoc. cbn [app List.length seq rev].
    rewrite app_length. cbn [List.length]. rewrite Nat.add_1_r, <- app_assoc. reflexivity.
Qed.

(** No lower row. *)
Lemma no_lower_rejected_holds r f up wake v :
  file_holds floats read f up wake -> Forall checked_row up ->
  Forall (fun a => nonneg (a_u_e_rel a)) up -> last_velocity up v -> v <> 0 ->
  snd (set_filename floats read r f) = Err ZeroDivisionError.
Proof.
  intros (Hf & lines & A & W & R & D & FA & NW & FW) CH HU (b & u & -> & Ev) N.
  pose proof (dump_file_split read lines A W f R D) as G.
  assert (V : Forall row_valid (b ++ [u])).
  { eapply Forall_impl; [|exact CH]. intros a. apply row_valid_checked. }
  pose proof (parsed_rows_valid floats A _ (lines_nonempty _ _ _ D) FA V) as F2.
  assert (HU' : Forall (fun r => xltb (a_u_e_rel r) (Fin 0) = false) (b ++ [u])).
  { eapply Forall_impl; [|exact HU]. intros a Ha. apply nonneg_not_lt. exact Ha. }
  unfold set_filename.
  destruct (String.eqb f "") eqn:Ef; [apply String.eqb_eq in Ef; contradiction|].
  rewrite G. rewrite (upper_loop_all A (b ++ [u]) [] [] 0 F2 HU'). cbn [app List.length].
  rewrite app_nil_r.
  pose proof F2 as F3. apply Forall2_app_inv_r in F3. destruct F3 as (P & Q & FP & FQ & EA).
  inversion FQ as [|n ? N' ? Hn HN]; subst. inversion HN; subst. cbn [lower_lines].
  assert (Es : skipn (List.length (P ++ [n]) - 1) (P ++ [n]) = [n]).
  { rewrite app_length. cbn [List.length]. replace (List.length P + 1 - 1)%nat with (List.length P) by lia.
    rewrite skipn_app, skipn_all, Nat.sub_diag. reflexivity. }
  rewrite Es. cbn [map_r]. rewrite Hn. cbn [bind].
  set (rp := b ++ [u]). cbn [List.length seq each].
  assert (Gl : get (rp ++ [u]) (List.length rp) = u).
  { unfold get. rewrite app_nth2, Nat.sub_diag by lia. reflexivity. }
  rewrite Gl, negate_row_ok.
  set (st2 := upd (rp ++ [u]) (List.length rp) (neg_row u)).
  assert (Hlen : (List.length rp < List.length (rp ++ [u]))%nat) by (rewrite app_length; cbn; lia).
  assert (G2 : get st2 (List.length rp) = neg_row u) by (apply get_upd_same; exact Hlen).
  destruct (rev (seq 0 (List.length rp))) as [|u0 ur] eqn:Eup.
  { apply (f_equal (@List.length nat)) in Eup. rewrite rev_length, seq_length in Eup.
    unfold rp in Eup. rewrite app_length in Eup. cbn in Eup. lia. }
  assert (Hu0 : u0 = List.length b).
  { unfold rp in Eup. rewrite app_length in Eup. cbn [List.length] in Eup.
    rewrite Nat.add_1_r, seq_S, rev_app_distr in Eup. cbn in Eup. congruence. }
  assert (Gu : get st2 u0 = u).
  { unfold st2. rewrite get_upd_other by (unfold rp; rewrite app_length; cbn; lia).
    unfold get, rp. rewrite Hu0, <- app_assoc, app_nth2, Nat.sub_diag by lia. reflexivity. }
  unfold insert_stagnation. rewrite Gu, G2.
  change (a_u_e_rel (neg_row u)) with (a_u_e_rel u * Fin (-1))%xr. rewrite Ev. cbn [xeqb].
  rewrite Reqb_false by exact N. rewrite xmul_fin, xadd_fin.
  assert (Ez : v + v * -1 = 0) by ring. rewrite Ez.
  unfold py_div. cbn [xeqb]. rewrite Reqb_true by reflexivity. reflexivity.
Qed.

(* ---------------- histories ---------------- *)

Lemma load_independent_holds r1 r2 f : set_filename floats read r1 f = set_filename floats read r2 f.
Proof. reflexivity. Qed.

(** What a load leaves in the attributes that are not rows. *)
Definition attrs_reset (r : reader) : Prop :=
  rd_filename r = ""%string /\ rd_name r = ""%string /\ rd_alpha r = PInf /\ rd_u_ref r = Fin 1 /\
  rd_c r = Fin 1 /\ rd_re r = Fin 0 /\ rd_xt_upper r = PInf /\ rd_xt_lower r = PInf /\
  rd_n_trans r = PInf.

Lemma load_resets_holds r f : attrs_reset (fst (set_filename floats read r f)).
Proof.
  unfold set_filename.
  destruct (String.eqb f ""); [repeat split|].
  destruct (get_dump_data read f) as [[A W]|e]; [|repeat split].
  destruct (upper_loop floats A 0 [] []) as [[st up] [idx|e]]; [|repeat split].
  destruct (map_r (new_arow floats) _) as [rows|e]; [|repeat split].
  destruct (each negate_row _ _) as [st2 [[]|e]]; [|repeat split].
  destruct (insert_stagnation st2 up _) as [[[[st3 up3] lo3] s0]|e]; [|repeat split].
  destruct (each (upper_arc s0) up3 st3) as [st4 [[]|e]]; [|repeat split].
  destruct (each (lower_arc s0) lo3 st4) as [st5 [[]|e]]; [|repeat split].
  destruct W as [|w wt]; [repeat split|].
  destruct (map_r (new_wrow floats) (w :: wt)) as [ws|e]; [|repeat split].
  destruct (shift_wake_st _ ws) as [ws' rr]. repeat split.
Qed.

Definition all_valid (r : reader) : Prop :=
  Forall row_valid (rd_store r) /\ Forall wrow_valid (rd_wake r).

Lemma get_valid st l : Forall row_valid st -> row_valid (get st l).
Proof.
  intros H. unfold get. destruct (nth_in_or_default l st arow_inf) as [I|E].
  - rewrite Forall_forall in H. apply H. exact I.
  - rewrite E. apply arow_inf_valid.
Qed.

Lemma upd_valid st l a : Forall row_valid st -> row_valid a -> Forall row_valid (upd st l a).
Proof.
  intros H Ha. revert l. induction H as [|h t Hh Ht IH]; intros [|l]; cbn [upd]; constructor; auto.
Qed.

Lemma each_valid f ls : (forall a b, row_valid a -> f a = Ok b -> row_valid b) ->
  forall st, Forall row_valid st -> Forall row_valid (fst (each f ls st)).
Proof.
  intros Hf. induction ls as [|l t IH]; intros st H; cbn [each]; [exact H|].
  destruct (f (get st l)) as [a|e] eqn:E; [|exact H]. apply IH. apply upd_valid; [exact H|].
  eapply Hf; [|exact E]. apply get_valid. exact H.
Qed.

Lemma upper_loop_valid lines : forall idx st up, Forall row_valid st ->
  Forall row_valid (fst (fst (upper_loop floats lines idx st up))).
Proof.
  induction lines as [|a t IH]; intros idx st up H; cbn [upper_loop]; [exact H|].
  destruct (new_arow floats a) as [p|e] eqn:E; [|exact H].
  destruct (xltb (a_u_e_rel p) (Fin 0)); [exact H|]. apply IH. apply Forall_app.
  split; [exact H|]. constructor; [eapply new_arow_row_valid; exact E|constructor].
Qed.

Lemma map_r_valid {A B} (f : A -> res B) (Q : B -> Prop) l :
  (forall a b, f a = Ok b -> Q b) -> forall r, map_r f l = Ok r -> Forall Q r.
Proof.
  intros Hf r H. apply map_r_spec in H. induction H; constructor; eauto.
Qed.

Lemma negate_valid a b : row_valid a -> negate_row a = Ok b -> row_valid b.
Proof. intros V. rewrite negate_row_ok. intros H. inversion H. exact V. Qed.
Lemma upper_arc_valid s0 a b : row_valid a -> upper_arc s0 a = Ok b -> row_valid b.
Proof. intros V H. apply (aset_valid FS _ _ _ V H). Qed.
Lemma lower_arc_valid s0 a b : row_valid a -> lower_arc s0 a = Ok b -> row_valid b.
Proof. intros V H. apply (aset_valid FS _ _ _ V H). Qed.

Lemma insert_valid st up lo st3 up3 lo3 s0 : Forall row_valid st ->
  insert_stagnation st up lo = Ok (st3, up3, lo3, s0) -> Forall row_valid st3.
Proof.
  intros H. unfold insert_stagnation. destruct up as [|u0 ur]; [discriminate|].
  destruct (xeqb _ _); [intros E; inversion E; subst; exact H|].
  destruct lo as [|l0 lr]; [discriminate|].
  destruct (py_div _ _) as [frac|]; cbn [bind]; [|discriminate].
  destruct (interpolate _ _ frac) as [p|] eqn:Ei; cbn [bind]; [|discriminate].
  apply interpolate_fields in Ei. destruct Ei as (_ & _ & _ & _ & V).
  intros E. inversion E; subst. apply Forall_app. split; [exact H|]. repeat (constructor; [exact V|]). constructor.
Qed.

Lemma shift_wake_valid off ws : Forall wrow_valid ws -> Forall wrow_valid (fst (shift_wake_st off ws)).
Proof.
  induction 1 as [|w t H F IH]; cbn [shift_wake_st]; [constructor|].
  destruct (wset_s w (w_s w - off)%xr) as [w'|] eqn:E; [|constructor; assumption].
  destruct (shift_wake_st off t) as [t' rr]. cbn [fst] in *. constructor; [|exact IH].
  apply (wset_valid WS _ _ _ H E).
Qed.

Lemma load_valid r f : all_valid (fst (set_filename floats read r f)).
Proof.
  unfold set_filename. assert (N : Forall row_valid []) by constructor.
  destruct (String.eqb f ""); [split; constructor|].
  destruct (get_dump_data read f) as [[A W]|e]; [|split; constructor].
  pose proof (upper_loop_valid A 0 [] [] N) as V1.
  destruct (upper_loop floats A 0 [] []) as [[st up] [idx|e]]; cbn [fst] in V1;
    [|split; [exact V1|constructor]].
  destruct (map_r (new_arow floats) _) as [rows|e] eqn:Em; [|split; [exact V1|constructor]].
  pose proof (map_r_valid _ row_valid _ (new_arow_row_valid floats) _ Em) as Vr.
  assert (V2 : Forall row_valid (st ++ rows)) by (apply Forall_app; split; assumption).
  pose proof (each_valid negate_row (seq (List.length st) (List.length rows)) negate_valid _ V2) as V3.
  destruct (each negate_row _ _) as [st2 [[]|e]]; cbn [fst] in V3; [|split; [exact V3|constructor]].
  destruct (insert_stagnation st2 up _) as [[[[st3 up3] lo3] s0]|e] eqn:Ei;
    [|split; [exact V3|constructor]].
  pose proof (insert_valid _ _ _ _ _ _ _ V3 Ei) as V4.
  pose proof (each_valid (upper_arc s0) up3 (upper_arc_valid s0) _ V4) as V5.
  destruct (each (upper_arc s0) up3 st3) as [st4 [[]|e]]; cbn [fst] in V5;
    [|split; [exact V5|constructor]].
  pose proof (each_valid (lower_arc s0) lo3 (lower_arc_valid s0) _ V5) as V6.
  destruct (each (lower_arc s0) lo3 st4) as [st5 [[]|e]]; cbn [fst] in V6;
    [|split; [exact V6|constructor]].
  destruct W as [|w wt]; [split; [exact V6|constructor]|].
  destruct (map_r (new_wrow floats) (w :: wt)) as [ws|e] eqn:Ew; [|split; [exact V6|constructor]].
  pose proof (map_r_valid _ wrow_valid _ (new_wrow_row_valid floats) _ Ew) as Vw.
  pose proof (shift_wake_valid (match ws with w :: _ => w_s w | [] => PInf end) ws Vw) as Vw'.
  destruct (shift_wake_st _ ws) as [ws' rr]. split; [exact V6|exact Vw'].
Qed.

Lemma wupd_valid ws : Forall wrow_valid ws -> forall i w, wrow_valid w -> Forall wrow_valid (wupd ws i w).
Proof.
  induction 1 as [|h t Hh Ht IH]; intros [|i] w Hw; cbn [wupd]; constructor; auto.
Qed.

Lemma do_raction_valid r a : all_valid r -> all_valid (fst (do_raction floats read r a)).
Proof.
  intros [V W]. destruct a; cbn [do_raction].
  - apply load_valid.
  - unfold rset_u_ref. destruct (xleb _ _); split; assumption.
  - unfold rset_c. destruct (xleb _ _); split; assumption.
  - unfold rset_re. destruct (xltb _ _); split; assumption.
  - unfold rset_n_trans. destruct (xleb _ _); split; assumption.
  - split; assumption.
  - split; assumption.
  - split; assumption.
  - split; assumption.
  - unfold set_row. destruct (nth_error _ i) as [l|]; [|split; assumption].
    destruct (aset f (get (rd_store r) l) v) as [b|] eqn:E; [|split; assumption].
    split; [|exact W]. apply upd_valid; [exact V|]. eapply aset_valid; [|exact E]. apply get_valid. exact V.
  - unfold set_row. destruct (nth_error _ i) as [l|]; [|split; assumption].
    destruct (aset f (get (rd_store r) l) v) as [b|] eqn:E; [|split; assumption].
    split; [|exact W]. apply upd_valid; [exact V|]. eapply aset_valid; [|exact E]. apply get_valid. exact V.
  - unfold set_wake_row. destruct (nth_error (rd_wake r) i) as [w|] eqn:En; [|split; assumption].
    destruct (wset f w v) as [w'|] eqn:E; [|split; assumption].
    split; [exact V|]. apply wupd_valid; [exact W|]. eapply wset_valid; [|exact E].
    rewrite Forall_forall in W. apply W. eapply nth_error_In. exact En.
Qed.

Lemma do_ractions_valid l : forall r, all_valid r -> all_valid (do_ractions floats read r l).
Proof.
  induction l as [|a t IH]; intros r H; cbn [do_ractions]; [exact H|].
  apply IH. apply do_raction_valid. exact H.
Qed.

Lemma row_invariants_hold f r0 l : new_reader floats read f = Ok r0 ->
  Forall checked_row (upper_rows (do_ractions floats read r0 l)) /\
  Forall checked_row (lower_rows (do_ractions floats read r0 l)) /\
  Forall checked_wake_row (rd_wake (do_ractions floats read r0 l)).
Proof.
  intros H.
  assert (V0 : all_valid r0).
  { unfold new_reader in H. pose proof (load_valid reader0 f) as V.
    destruct (set_filename floats read reader0 f) as [r [[]|]]; [|discriminate].
    inversion H; subst. exact V. }
  destruct (do_ractions_valid l r0 V0) as [V W]. set (r := do_ractions floats read r0 l) in *.
  split; [|split].
  - apply Forall_forall. intros a Ha. apply in_map_iff in Ha. destruct Ha as (k & <- & _).
    apply row_valid_checked, get_valid, V.
  - apply Forall_forall. intros a Ha. apply in_map_iff in Ha. destruct Ha as (k & <- & _).
    apply row_valid_checked, get_valid, V.
  - eapply Forall_impl; [|exact W]. intros a. apply wrow_valid_checked.
Qed.

Lemma filename_empty_action r a : rd_filename r = ""%string ->
  rd_filename (fst (do_raction floats read r a)) = ""%string.
Proof.
  intros H. destruct a; cbn [do_raction]; try exact H.
  - apply load_resets_holds.
  - unfold rset_u_ref. destruct (xleb _ _); exact H.
  - unfold rset_c. destruct (xleb _ _); exact H.
  - unfold rset_re. destruct (xltb _ _); exact H.
  - unfold rset_n_trans. destruct (xleb _ _); exact H.
  - unfold set_row. destruct (nth_error _ i) as [l|]; [|exact H].
    destruct (aset f (get (rd_store r) l) v); exact H.
  - unfold set_row. destruct (nth_error _ i) as [l|]; [|exact H].
    destruct (aset f (get (rd_store r) l) v); exact H.
  - unfold set_wake_row. destruct (nth_error (rd_wake r) i) as [w|]; [|exact H].
    destruct (wset f w v); exact H.
Qed.

Lemma filename_never_kept_holds f r0 l : new_reader floats read f = Ok r0 ->
  rd_filename (do_ractions floats read r0 l) = ""%string.
Proof.
  intros H.
  assert (E : rd_filename r0 = ""%string).
  { unfold new_reader in H. pose proof (load_resets_holds reader0 f) as V.
    destruct (set_filename floats read reader0 f) as [r [[]|]]; [|discriminate].
    inversion H; subst. apply V. }
  clear H. revert r0 E. induction l as [|a t IH]; intros r0 E; cbn [do_ractions]; [exact E|].
  apply IH. apply filename_empty_action. exact E.
Qed.

(* ---------------- editing one row ---------------- *)

Lemma map_get_upd_other st k a ls : ~ In k ls -> map (get (upd st k a)) ls = map (get st) ls.
Proof.
  intros H. apply map_ext_in. intros j Hj. apply get_upd_other. intros ->. contradiction.
Qed.

Lemma NoDup_app_parts {A} (l1 l2 : list A) : NoDup (l1 ++ l2) ->
  NoDup l1 /\ NoDup l2 /\ forall x, In x l1 -> ~ In x l2.
Proof.
  induction l1 as [|a t IH]; cbn [app]; intros H; [repeat split; auto; constructor|].
  inversion H as [|? ? H1 H2]; subst. destruct (IH H2) as (I1 & I2 & I3).
  split; [constructor; [intros K; apply H1; apply in_or_app; left; exact K|exact I1]|].
  split; [exact I2|]. intros x [->|Hx]; [intros K; apply H1; apply in_or_app; right; exact K|].
  apply I3. exact Hx.
Qed.

Lemma edit_own st ls i k f v b : NoDup ls -> Forall (fun k => k < List.length st)%nat ls ->
  nth_error ls i = Some k -> aset f (get st k) v = Ok b ->
  nth_error (map (get (upd st k b)) ls) i = Some b /\
  forall j, j <> i -> nth_error (map (get (upd st k b)) ls) j = nth_error (map (get st) ls) j.
Proof.
  intros ND RG E A. rewrite Forall_forall in RG.
  split.
  - rewrite (map_nth_error _ _ _ E). f_equal. apply get_upd_same. apply RG. eapply nth_error_In. exact E.
  - intros j Hj. destruct (nth_error ls j) as [m|] eqn:Ej.
    + rewrite !(map_nth_error _ _ _ Ej). f_equal. apply get_upd_other. intros ->.
      apply Hj. rewrite NoDup_nth_error in ND. symmetry. apply ND.
      * apply nth_error_Some. congruence.
      * congruence.
    + apply nth_error_None in Ej.
      transitivity (@None arow); [|symmetry]; apply nth_error_None; rewrite map_length; exact Ej.
Qed.

Lemma rows_independent_upper_holds r r' r'' f up lo wake v i fd x :
  file_holds floats read f (up ++ lo) wake -> two_sided up lo -> last_velocity up v -> v <> 0 ->
  set_filename floats read r f = (r', Ok tt) ->
  do_raction floats read r' (RRowUpper i fd x) = (r'', Ok tt) ->
  lower_rows r'' = lower_rows r' /\ rd_wake r'' = rd_wake r' /\
  (exists a b, nth_error (upper_rows r') i = Some a /\ aset fd a x = Ok b /\
     nth_error (upper_rows r'') i = Some b) /\
  forall j, j <> i -> nth_error (upper_rows r'') j = nth_error (upper_rows r') j.
Proof.
  intros F T LV N H.
  destruct (load_described _ _ r r' f _ _ wake v F T LV N H)
    as (_ & b & u & l & t & frac & p & _ & _ & _ & _ & _ & _ & _ & ND & RG & _).
  cbn [do_raction]. unfold set_row. destruct (nth_error (rd_upper r') i) as [k|] eqn:E; [|discriminate].
  destruct (aset fd (get (rd_store r') k) x) as [c|] eqn:A; [|discriminate].
  intros K. injection K as <-. apply NoDup_app_parts in ND. destruct ND as (N1 & N2 & N3).
  apply Forall_app in RG. destruct RG as [R1 R2].
  destruct (edit_own _ _ _ _ _ _ _ N1 R1 E A) as [E1 E2].
  unfold upper_rows, lower_rows. cbn [rd_store rd_upper rd_lower rd_wake rwith_store].
  split; [apply map_get_upd_other; apply N3; eapply nth_error_In; exact E|]. split; [reflexivity|].
  split; [|exact E2]. exists (get (rd_store r') k), c. split; [apply map_nth_error; exact E|]. split; assumption.
Qed.

Lemma rows_independent_lower_holds r r' r'' f up lo wake v i fd x :
  file_holds floats read f (up ++ lo) wake -> two_sided up lo -> last_velocity up v -> v <> 0 ->
  set_filename floats read r f = (r', Ok tt) ->
  do_raction floats read r' (RRowLower i fd x) = (r'', Ok tt) ->
  upper_rows r'' = upper_rows r' /\ rd_wake r'' = rd_wake r' /\
  (exists a b, nth_error (lower_rows r') i = Some a /\ aset fd a x = Ok b /\
     nth_error (lower_rows r'') i = Some b) /\
  forall j, j <> i -> nth_error (lower_rows r'') j = nth_error (lower_rows r') j.
Proof.
  intros F T LV N H.
  destruct (load_described _ _ r r' f _ _ wake v F T LV N H)
    as (_ & b & u & l & t & frac & p & _ & _ & _ & _ & _ & _ & _ & ND & RG & _).
  cbn [do_raction]. unfold set_row. destruct (nth_error (rd_lower r') i) as [k|] eqn:E; [|discriminate].
  destruct (aset fd (get (rd_store r') k) x) as [c|] eqn:A; [|discriminate].
  intros K. injection K as <-. apply NoDup_app_parts in ND. destruct ND as (N1 & N2 & N3).
  apply Forall_app in RG. destruct RG as [R1 R2].
  destruct (edit_own _ _ _ _ _ _ _ N2 R2 E A) as [E1 E2].
  unfold upper_rows, lower_rows. cbn [rd_store rd_upper rd_lower rd_wake rwith_store].
  split.
  { apply map_get_upd_other. intros K. apply (N3 _ K). eapply nth_error_In. exact E. }
  split; [reflexivity|].
  split; [|exact E2]. exists (get (rd_store r') k), c. split; [apply map_nth_error; exact E|]. split; assumption.
Qed.

(* ---------------- velocities ---------------- *)

Lemma edge_velocity_holds r r1 r2 f up lo wake v w :
  file_holds floats read f (up ++ lo) wake -> two_sided up lo -> last_velocity up v -> v <> 0 ->
  set_filename floats read r f = (r1, Ok tt) ->
  do_raction floats read r1 (RSetURef w) = (r2, Ok tt) ->
  qu_e_upper r2 = map (fun q => w * q)%xr (Fin 0 :: map a_u_e_rel (rev up)) /\
  qu_e_lower r2 = map (fun q => w * q)%xr (Fin 0 :: map (fun a => a_u_e_rel a * Fin (-1))%xr lo) /\
  qu_e_wake r2 = map (fun q => w * q)%xr (map w_u_e_rel wake) /\
  upper_rows r2 = upper_rows r1 /\ lower_rows r2 = lower_rows r1 /\ rd_wake r2 = rd_wake r1 /\
  rd_c r2 = rd_c r1 /\ rd_re r2 = rd_re r1 /\ rd_alpha r2 = rd_alpha r1 /\ rd_name r2 = rd_name r1 /\
  rd_xt_upper r2 = rd_xt_upper r1 /\ rd_xt_lower r2 = rd_xt_lower r1 /\ rd_n_trans r2 = rd_n_trans r1.
Proof.
  intros F T LV N H.
  cbn [do_raction]. unfold rset_u_ref. destruct (xleb w (Fin 0)); [discriminate|].
  intros K. injection K as <-.
  pose proof (partition_holds _ _ r r1 f up lo wake v F T LV N H)
    as (s0 & sw & stag & U & L & EU & FU & EL & FL & FW & _).
  assert (Ez : a_u_e_rel stag = Fin 0).
  { destruct LV as (b & u & Eu & Ev). rewrite Eu in F, T. destruct lo as [|l t]; [destruct T as (_ & _ & []); fail|].
    pose proof T as (_ & _ & (lv & El & Hl)).
    destruct (stagnation_holds _ _ r r1 f b u l t wake v lv F T Ev El N H)
      as (stag' & s0' & nu & nl & E1 & _ & _ & _ & E0 & _).
    rewrite EU in E1. cbn [nth_error] in E1. congruence. }
  unfold qu_e_upper, qu_e_lower, qu_e_wake.
  change (upper_rows (rwith_u_ref r1 w)) with (upper_rows r1).
  change (lower_rows (rwith_u_ref r1 w)) with (lower_rows r1).
  cbn [rd_u_ref rwith_u_ref rd_wake rd_c rd_re rd_alpha rd_name rd_xt_upper rd_xt_lower rd_n_trans].
  rewrite EU, EL. cbn [map]. rewrite Ez.
  split.
  { f_equal. f_equal. clear -FU. induction FU as [|a c rows U H F IH]; [reflexivity|].
    cbn [map]. destruct H as (_ & _ & _ & -> & _). f_equal. exact IH. }
  split.
  { f_equal. f_equal. clear -FL. induction FL as [|a c rows U H F IH]; [reflexivity|].
    cbn [map]. destruct H as (_ & _ & _ & -> & _). f_equal. exact IH. }
  split.
  { f_equal. clear -FW. induction FW as [|a c rows U H F IH]; [reflexivity|].
    cbn [map]. destruct H as (_ & _ & _ & -> & _). f_equal. exact IH. }
  repeat split.
Qed.

(** Which values the setters of the reader reject. *)
Lemma setter_rejects_holds r v :
  (snd (rset_u_ref r v) = Err ValueError <-> v = NInf \/ exists x, v = Fin x /\ x <= 0) /\
  (snd (rset_c r v) = Err ValueError <-> v = NInf \/ exists x, v = Fin x /\ x <= 0) /\
  (snd (rset_n_trans r v) = Err ValueError <-> v = NInf \/ exists x, v = Fin x /\ x <= 0) /\
  (snd (rset_re r v) = Err ValueError <-> v = NInf \/ exists x, v = Fin x /\ x < 0).
Proof.
  assert (LE : xleb v (Fin 0) = true <-> v = NInf \/ exists x, v = Fin x /\ x <= 0).
  { destruct v as [x| | |]; cbn [xleb].
    - rewrite Rleb_iff. split; [intros H; right; exists x; auto|].
      intros [E|(y & E & Hy)]; [discriminate|inversion E; assumption].
    - split; [discriminate|]. intros [E|(y & E & _)]; discriminate.
    - split; auto.
    - split; [discriminate|]. intros [E|(y & E & _)]; discriminate. }
  assert (LT : xltb v (Fin 0) = true <-> v = NInf \/ exists x, v = Fin x /\ x < 0).
  { destruct v as [x| | |]; cbn [xltb].
    - rewrite Rltb_iff. split; [intros H; right; exists x; auto|].
      intros [E|(y & E & Hy)]; [discriminate|inversion E; assumption].
    - split; [discriminate|]. intros [E|(y & E & _)]; discriminate.
    - split; auto.
    - split; [discriminate|]. intros [E|(y & E & _)]; discriminate. }
  unfold rset_u_ref, rset_c, rset_n_trans, rset_re.
  rewrite <- LE, <- LT.
  destruct (xleb v (Fin 0)), (xltb v (Fin 0)); cbn [snd];
    repeat split; intros; try reflexivity; discriminate.
Qed.
End Text.
