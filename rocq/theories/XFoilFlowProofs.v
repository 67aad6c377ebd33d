(** C165: proofs. *)
From Coq Require Import Reals List String Bool ZArith Lra Lia Sorted.
From Coquelicot Require Import Coquelicot.
From Verif Require Import PyBase PyBaseFacts FiniteDiffModel PPolyModel PchipModel PchipProofs
  CoreModel CoreSpec WorkflowModel WorkflowSpec WorkflowProofs
  XFoilModel XFoilSpec XFoilProofs XFoilLoadProofs XFoilHistoryProofs XFoilQueryProofs XFoilFlowSpec.
Import ListNotations.
Open Scope R_scope.

Lemma sorted_adjacent l : Sorted Rlt l ->
  forall i a b, nth_error l i = Some a -> nth_error l (S i) = Some b -> a < b.
Proof.
  induction 1 as [|x l S IH Hd]; intros i a b H1 H2.
  - destruct i; discriminate.
  - destruct i as [|i].
    + injection H1 as <-. destruct l as [|y l]; [discriminate|]. injection H2 as <-.
      inversion Hd; assumption.
    + exact (IH i a b H1 H2).
Qed.

Lemma ssorted_app_inv l1 l2 : StronglySorted Rlt (l1 ++ l2) ->
  StronglySorted Rlt l1 /\ StronglySorted Rlt l2 /\ forall a b, In a l1 -> In b l2 -> a < b.
Proof.
  induction l1 as [|x l1 IH]; intros H; cbn in *.
  - split; [constructor|]. split; [exact H|]. intros a b [].
  - inversion_clear H as [|? ? H1 H2]. destruct (IH H1) as (A & B & C).
    rewrite List.Forall_forall in H2. split.
    + constructor; [exact A|]. apply List.Forall_forall. intros y Hy. apply H2, in_or_app. left. exact Hy.
    + split; [exact B|]. intros a b [<-|Ha] Hb; [apply H2, in_or_app; right; exact Hb|exact (C a b Ha Hb)].
Qed.
Lemma ssorted_app l1 l2 : StronglySorted Rlt l1 -> StronglySorted Rlt l2 ->
  (forall a b, In a l1 -> In b l2 -> a < b) -> StronglySorted Rlt (l1 ++ l2).
Proof.
  induction 1 as [|x l1 S IH F]; intros H2 H; cbn; [exact H2|].
  constructor.
  - apply IH; [exact H2|]. intros a b Ha Hb. apply H; [right; exact Ha|exact Hb].
  - apply List.Forall_forall. intros y Hy. apply in_app_or in Hy. destruct Hy as [Hy|Hy].
    + rewrite List.Forall_forall in F. exact (F y Hy).
    + apply H; [left; reflexivity|exact Hy].
Qed.
Lemma ssorted_mirror s0 l : StronglySorted Rlt l -> StronglySorted Rlt (map (fun s => s0 - s) (rev l)).
Proof.
  induction 1 as [|x l S IH F]; cbn; [constructor|].
  rewrite map_app. cbn. apply ssorted_app; [exact IH|repeat constructor|].
  intros a b Ha [<-|[]]. apply in_map_iff in Ha. destruct Ha as (y & <- & Hy).
  apply in_rev in Hy. rewrite List.Forall_forall in F. specialize (F y Hy). lra.
Qed.
Lemma ssorted_shift s0 l : StronglySorted Rlt l -> StronglySorted Rlt (map (fun s => s - s0) l).
Proof.
  induction 1 as [|x l S IH F]; cbn; [constructor|]. constructor; [exact IH|].
  apply List.Forall_forall. intros y Hy. apply in_map_iff in Hy. destruct Hy as (z & <- & Hz).
  rewrite List.Forall_forall in F. specialize (F z Hz). lra.
Qed.

(** A set of points starting at the origin, with increasing positive abscissas, is accepted. *)
Lemma points_accepted m du d2u ps : ps <> [] ->
  StronglySorted Rlt (map fst ps) -> (forall p, In p ps -> 0 < fst p) ->
  exists m', set_velocity pchip_scipy m
    (PTup [PArr (vec (map fst ((0, 0) :: ps))); PArr (vec (map snd ((0, 0) :: ps)))]) du d2u = (m', Ok tt) /\
  flows_through m' ((0, 0) :: ps).
Proof.
  intros N S P.
  assert (UP : usable_points (map fst ((0, 0) :: ps)) (map snd ((0, 0) :: ps))).
  { split; [rewrite !map_length; reflexivity|]. split.
    - destruct ps; [contradiction|]. cbn. lia.
    - apply sorted_adjacent, StronglySorted_Sorted. cbn. constructor; [exact S|].
      apply List.Forall_forall. intros x Hx. apply in_map_iff in Hx. destruct Hx as (p & <- & Hp). exact (P p Hp). }
  destruct (proj2 (points_velocity_lemma m (PArr (vec (map fst ((0, 0) :: ps)))) (PArr (vec (map snd ((0, 0) :: ps))))
    (map fst ((0, 0) :: ps)) (map snd ((0, 0) :: ps)) du d2u eq_refl eq_refl) UP)
    as (m' & U & dU & d2U & E & A & F & _ & _ & B).
  exists m'. split; [exact E|]. split.
  - intros x u Hin. apply In_nth_error in Hin. destruct Hin as [i Hi].
    rewrite (proj1 (A x)). f_equal. apply (proj1 F i); apply map_nth_error with (d := (x, u)); exact Hi.
  - intros lo hi x Hb Hx. exists (U x). split; [apply A|]. apply B; [|exact Hx].
    intros u Hu. apply in_map_iff in Hu. destruct Hu as ([y v] & <- & Hy). exact (Hb y v Hy).
Qed.

Lemma at_zero_between v s1 lv s2 : 0 < v -> lv < 0 -> s1 < s2 -> s1 < at_zero v s1 lv s2 < s2.
Proof.
  intros Hv Hl Hs. unfold at_zero.
  assert (0 < v / (v - lv) < 1).
  { split; [apply Rdiv_lt_0_compat; lra|]. apply Rmult_lt_reg_r with (v - lv); [lra|]. field_simplify; lra. }
  replace ((0 - v) / (lv - v)) with (v / (v - lv)) by (field; lra). nra.
Qed.

Lemma stations_s rows ps : stations rows ps -> map a_s rows = map Fin (map fst ps).
Proof. induction 1 as [|a p rows ps [E _] _ IH]; cbn; [reflexivity|]. rewrite E, IH. reflexivity. Qed.
Lemma stations_u rows ps : stations rows ps -> map a_u_e_rel rows = map Fin (map snd ps).
Proof. induction 1 as [|a p rows ps [_ E] _ IH]; cbn; [reflexivity|]. rewrite E, IH. reflexivity. Qed.
Lemma stations_rev rows ps : stations rows ps -> stations (rev rows) (rev ps).
Proof.
  induction 1 as [|a p rows ps E _ IH]; cbn; [constructor|]. apply Forall2_app; [exact IH|repeat constructor; apply E].
Qed.

Lemma surface_velocity_lemma floats read r r1 r2 f up lo wake pu s1 v s2 lv pl w :
  file_holds floats read f (up ++ lo) wake ->
  stations up (pu ++ [(s1, v)]) -> stations lo ((s2, lv) :: pl) ->
  (forall p, In p pu -> 0 <= snd p) -> 0 < v -> lv < 0 ->
  Sorted Rlt (map fst ((pu ++ [(s1, v)]) ++ (s2, lv) :: pl)) ->
  set_filename floats read r f = (r1, Ok tt) ->
  do_raction floats read r1 (RSetURef (Fin w)) = (r2, Ok tt) ->
  let s0 := at_zero v s1 lv s2 in
  let upper := upper_points s0 w (pu ++ [(s1, v)]) in
  let lower := lower_points s0 w ((s2, lv) :: pl) in
  column (qs_upper r2) (map fst upper) /\ column (qu_e_upper r2) (map snd upper) /\
  column (qs_lower r2) (map fst lower) /\ column (qu_e_lower r2) (map snd lower) /\
  forall m du d2u,
    (exists m', set_velocity pchip_scipy m
       (PTup [PArr (vec (map fst upper)); PArr (vec (map snd upper))]) du d2u = (m', Ok tt) /\
       flows_through m' upper) /\
    (exists m', set_velocity pchip_scipy m
       (PTup [PArr (vec (map fst lower)); PArr (vec (map snd lower))]) du d2u = (m', Ok tt) /\
       flows_through m' lower).
Proof.
  intros FH SU SL PU Hv Hl SS HL HW s0 upper lower.
  assert (Up : exists b u, up = b ++ [u] /\ stations b pu /\ a_s u = Fin s1 /\ a_u_e_rel u = Fin v).
  { apply Forall2_app_inv_r in SU. destruct SU as (b & u' & H1 & H2 & ->).
    inversion H2 as [|u ? ? ? [E1 E2] H3]; subst. inversion H3; subst. exists b, u. repeat split; assumption. }
  destruct Up as (b & u & -> & SB & Eus & Euv).
  inversion SL as [|l ? t ? [Els Elv] SL']; subst. cbn [fst snd] in Els, Elv.
  assert (TS : two_sided (b ++ [u]) (l :: t)).
  { split; [destruct b; discriminate|]. split; [|exists lv; split; assumption].
    apply List.Forall_app. split; [|repeat constructor; exists v; split; [exact Euv|lra]].
    clear -SB PU. induction SB as [|a p b pu [_ E] _ IH]; constructor.
    - exists (snd p). split; [exact E|]. apply PU. left. reflexivity.
    - apply IH. intros q Hq. apply PU. right. exact Hq. }
  assert (LV : last_velocity (b ++ [u]) v) by (exists b, u; split; [reflexivity|exact Euv]).
  assert (V0 : v <> 0) by lra.
  destruct (partition_holds _ _ _ _ _ _ _ _ _ FH TS LV V0 HL)
    as (s0x & sw & stag & U & L & EU & FU & EL & FL & _).
  destruct (stagnation_holds _ _ _ _ _ _ _ _ _ _ _ _ FH TS Euv Elv V0 HL)
    as (stag' & s0' & nu & nl & E1 & _ & E2 & _ & _ & _ & _ & _ & HS).
  destruct (HS s1 s2 Eus Els) as (-> & ES & EN & _).
  rewrite EU in E1, E2. injection E1 as <-.
  fold s0 in EN.
  assert (X0 : s0x = Fin s0).
  { rewrite rev_unit in FU. inversion FU as [|? nu' ? ? IM _]; subst. injection E2 as ->.
    destruct IM as (IM & _). rewrite Eus, EN in IM. destruct s0x; cbn in IM; try discriminate.
    injection IM as IM. f_equal. lra. }
  subst s0x.
  destruct (edge_velocity_holds _ _ _ _ _ _ _ _ _ _ _ FH TS LV V0 HL HW)
    as (QU & QL & _ & RU & RL & _).
  split; [|split; [|split; [|split]]].
  - unfold column, qs_upper, upper, upper_points. rewrite RU, EU. cbn [map fst]. rewrite ES. f_equal.
    assert (ST : stations (rev (b ++ [u])) (rev (pu ++ [(s1, v)]))) by (apply stations_rev; exact SU).
    clear -FU ST. revert FU ST. generalize (rev (b ++ [u])) (rev (pu ++ [(s1, v)])). intros rows ps FU.
    revert ps. induction FU as [|a c rows U (IM & _) _ IH]; intros ps ST; inversion ST as [|? p ? ? [E _] ST']; subst; cbn; [reflexivity|].
    rewrite IM, E, xsub_fin. f_equal. apply IH. exact ST'.
  - unfold column. rewrite QU. unfold upper, upper_points. cbn [map snd].
    rewrite xmul_fin, Rmult_0_r. f_equal.
    rewrite (stations_u (rev (b ++ [u])) (rev (pu ++ [(s1, v)]))) by (apply stations_rev; exact SU).
    rewrite !map_map. apply map_ext. intros p. apply xmul_fin.
  - unfold column, qs_lower, lower, lower_points. rewrite RL, EL. cbn [map fst]. rewrite ES. f_equal.
    change (s2 - s0 :: map fst (map (fun p => (fst p - s0, - (w * snd p))) pl))
      with (map fst (map (fun p => (fst p - s0, - (w * snd p))) ((s2, lv) :: pl))).
    change (Fin (s2 - s0) :: map Fin (map fst (map (fun p => (fst p - s0, - (w * snd p))) pl)))
      with (map Fin (map fst (map (fun p => (fst p - s0, - (w * snd p))) ((s2, lv) :: pl)))).
    clear -FL SL. revert FL SL. generalize (l :: t) ((s2, lv) :: pl). intros rows ps FL.
    revert ps. induction FL as [|a c rows U (IM & _) _ IH]; intros ps ST; inversion ST as [|? p ? ? [E _] ST']; subst; cbn; [reflexivity|].
    rewrite IM, E, xsub_fin. f_equal. apply IH. exact ST'.
  - unfold column. rewrite QL. unfold lower, lower_points.
    change (map (fun a => (a_u_e_rel a * Fin (-1))%xr) (l :: t))
      with (map (fun a => (fun q => q * Fin (-1))%xr (a_u_e_rel a)) (l :: t)).
    rewrite <- (map_map a_u_e_rel (fun q => q * Fin (-1))%xr).
    rewrite (stations_u _ _ SL). cbn [map snd].
    rewrite !xmul_fin, Rmult_0_r. f_equal. f_equal; [f_equal; ring|].
    rewrite !map_map. apply map_ext. intros p. cbn [snd]. rewrite !xmul_fin. f_equal. ring.
  - apply Sorted_StronglySorted in SS; [|exact Rlt_trans].
    rewrite map_app in SS. destruct (ssorted_app_inv _ _ SS) as (S1 & S2 & S3).
    assert (S12 : s1 < s2).
    { apply S3; [|left; reflexivity]. rewrite map_app. apply in_or_app. right. left. reflexivity. }
    pose proof (at_zero_between v s1 lv s2 Hv Hl S12) as B. fold s0 in B.
    assert (BU : forall p, In p (pu ++ [(s1, v)]) -> fst p <= s1).
    { intros p Hp. apply in_app_or in Hp. destruct Hp as [Hp|[<-|[]]]; [|cbn; lra].
      rewrite map_app in S1. destruct (ssorted_app_inv _ _ S1) as (_ & _ & S4).
      apply Rlt_le, S4; [apply in_map; exact Hp|left; reflexivity]. }
    assert (BL : forall p, In p ((s2, lv) :: pl) -> s2 <= fst p).
    { intros p [<-|Hp]; [cbn; lra|]. cbn [map] in S2. inversion_clear S2 as [|? ? _ S4].
      rewrite List.Forall_forall in S4. apply Rlt_le, S4, in_map. exact Hp. }
    intros m du d2u. split.
    + apply points_accepted.
      * intros E. apply map_eq_nil in E. rewrite rev_unit in E. discriminate.
      * rewrite map_map. cbn [fst].
        rewrite <- (map_map fst (fun s => s0 - s)), map_rev. apply ssorted_mirror. exact S1.
      * intros p Hp. apply in_map_iff in Hp. destruct Hp as (q & <- & Hq). apply in_rev in Hq.
        specialize (BU q Hq). cbn [fst]. lra.
    + apply points_accepted.
      * discriminate.
      * rewrite map_map. cbn [fst].
        change (StronglySorted Rlt (map (fun p => fst p - s0) ((s2, lv) :: pl))).
        rewrite <- (map_map fst (fun s => s - s0)). apply ssorted_shift. exact S2.
      * intros p Hp. apply in_map_iff in Hp. destruct Hp as (q & <- & Hq).
        specialize (BL q Hq). cbn [fst]. lra.
Qed.
