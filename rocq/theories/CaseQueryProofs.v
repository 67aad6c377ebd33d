(** C166: proofs. *)
From Coq Require Import Reals List String ZArith Lia.
From Verif Require Import PyBase StanfordModel StanfordSpec StanfordLoadProofs StanfordCaseProofs
  CaseQueryModel CaseQuerySpec.
Import ListNotations.
Open Scope R_scope.

Lemma list_item_denotes {A} (l : list A) k i : denotes k (List.length l) i -> list_item l k = item l i.
Proof.
  intros [H [->| ->]]; unfold list_item.
  - rewrite (proj2 (Z.ltb_ge (Z.of_nat i) 0)) by lia. rewrite (proj2 (Z.ltb_ge (Z.of_nat i) 0)) by lia.
    rewrite Nat2Z.id. reflexivity.
  - rewrite (proj2 (Z.ltb_lt (Z.of_nat i - Z.of_nat (List.length l)) 0)) by lia.
    replace (Z.of_nat i - Z.of_nat (List.length l) + Z.of_nat (List.length l))%Z with (Z.of_nat i) by lia.
    rewrite (proj2 (Z.ltb_ge (Z.of_nat i) 0)) by lia. rewrite Nat2Z.id. reflexivity.
Qed.
Lemma list_item_outside {A} (l : list A) k : (forall i, ~ denotes k (List.length l) i) -> list_item l k = Err IndexError.
Proof.
  intros H. unfold list_item. set (n := Z.of_nat (List.length l)).
  destruct (Z.ltb_spec k 0).
  - destruct (Z.ltb_spec (k + n) 0); [reflexivity|].
    exfalso. apply (H (Z.to_nat (k + n))). split; [lia|]. right. subst n. lia.
  - destruct (Z.ltb_spec k 0); [lia|]. unfold item.
    destruct (nth_error l (Z.to_nat k)) eqn:E; [|reflexivity].
    exfalso. apply (H (Z.to_nat k)). split; [apply nth_error_Some; congruence|]. left. lia.
Qed.

(** What a station shows of its entry. *)
Definition shows (s : station) (e : entry) : Prop :=
  st_x s = either d_x f_x e /\ st_u_e s = either d_u_e f_u_e e /\ st_du_e s = table f_du_e e /\
  st_delta_d s = either d_dels (fun f => f_h f * f_theta f) e /\ st_delta_m s = either d_theta f_theta e /\
  st_delta_k s = either d_enth (fun f => f_hs f * f_theta f) e /\ st_delta_c s = line d_clth e /\
  st_shape_d s = either d_h f_h e /\ st_shape_k s = either d_hs f_hs e /\ st_shape_eq s = either d_g f_g e /\
  st_c_f s = table f_cf e /\ st_c_f_lt s = table f_cf_lt e /\ st_c_f_exp s = table f_cf_exp e /\
  st_beta_eq s = table f_beta e /\
  st_u_star s = either d_us (fun f => f_u_e f * sqrt (f_cf f / 2)) e /\ st_nu s = line d_nu e /\
  st_re_delta_d s = line d_re_dels e /\ st_re_delta_m s = line d_re_theta e /\
  sa_y s = samples p_y e /\ sa_y_plus s = samples p_yplus e /\ sa_y_c s = samples p_yc e /\
  sa_u s = velocities e /\ sa_u_plus s = samples p_uplus e /\
  sa_u_defect s = samples p_defect e.

Lemma station_shows floats junk u a b r e s : entry_printed floats u a b r e ->
  new_station floats junk (is_si u) a b r = Ok s -> shows s e.
Proof.
  intros (Pa & Hc & H). destruct e as [f [d|] ps]; cbn [e_flow e_detail e_profile] in *.
  - destruct H as (Hb & Pb & Pr). intros E.
    destruct (proj2 (detail_station floats junk u f d a b r ps Pa Hc Pb Hb Pr) s E)
      as [((? & ? & ? & ? & ?) & ? & ? & ? & ? & ? & ? & ? & ? & ? & ? & ? & ? & ?) (? & ? & ? & ? & ? & ?)].
    repeat (split; [assumption|]). assumption.
  - destruct H as (-> & -> & ->). intros E.
    destruct (proj2 (flow_station floats junk u f a Pa Hc) s E)
      as [((? & ? & ? & ? & ?) & ? & ? & ? & ? & ? & ? & ? & ? & ? & ? & ? & ? & ?) (? & ? & ? & ? & ? & ?)].
    repeat (split; [assumption|]). assumption.
Qed.

Lemma forall2_length {A B} (P : A -> B -> Prop) l1 l2 : Forall2 P l1 l2 -> List.length l1 = List.length l2.
Proof. induction 1 as [|a b l1 l2 _ _ IH]; cbn; congruence. Qed.
Lemma forall2_nth {A B} (P : A -> B -> Prop) l1 : forall l2,
  (forall i a, nth_error l1 i = Some a -> exists b, nth_error l2 i = Some b /\ P a b) ->
  (forall i, nth_error l1 i = None -> nth_error l2 i = None) -> Forall2 P l1 l2.
Proof.
  induction l1 as [|a l1 IH]; intros l2 H N.
  - destruct l2 as [|b l2]; [constructor|]. specialize (N 0%nat eq_refl). discriminate.
  - destruct (H 0%nat a eq_refl) as (b & E & Hb). destruct l2 as [|b' l2]; [discriminate|].
    injection E as ->. constructor; [exact Hb|]. apply IH.
    + intros i. exact (H (S i)).
    + intros i. exact (N (S i)).
Qed.

Lemma entries_shown floats float1 read_case junk o c o' first summ smoo rest es : c <> ""%string ->
  case_holds read_case c first (summ :: smoo :: rest) ->
  file_entries floats (units_of c) summ rest es ->
  set_case floats float1 read_case junk o c = (o', Ok tt) -> Forall2 shows (cd_station o') es.
Proof.
  intros Hc Hh He H. pose proof (case_pairing _ _ _ _ o c o' first summ smoo rest Hc Hh H) as P.
  apply forall2_nth.
  - intros i s Hs. apply P in Hs. destruct Hs as (a & b & r & Hsrc & Hb).
    specialize (He i). destruct (nth_error es i) as [e|].
    + destruct He as (a' & b' & r' & Hsrc' & Pr). exists e. split; [reflexivity|].
      assert (EQ : a = a' /\ b = b' /\ r = r').
      { destruct Hsrc as [H1 H2], Hsrc' as [H1' H2']. split; [congruence|].
        destruct rest as [|st [|p ps]]; destruct H2, H2'; split; congruence. }
      destruct EQ as (<- & <- & <-). exact (station_shows floats junk _ a b r e s Pr Hb).
    + exfalso. exact (He a b r Hsrc).
  - intros i Hn. specialize (He i). destruct (nth_error es i) as [e|]; [|reflexivity]. exfalso.
    assert (HS : forall a b r, station_source summ rest i a b r -> exists s, nth_error (cd_station o') i = Some s).
    { intros a b r Hsrc. apply set_case_inv in H; [|exact Hc].
      destruct H as (f' & s' & m' & r' & m & E & _ & _ & _ & _ & _ & HF).
      rewrite (case_sections _ _ _ _ Hh) in E. injection E as <- <- <- <-.
      apply (inputs_spec floats float1 read_case junk first summ smoo rest) in Hsrc.
      destruct (Forall2_nth _ _ _ HF i) as [_ H2]. destruct (H2 _ Hsrc) as (st & Hst & _). exists st. exact Hst. }
    destruct He as (a & b & r & Hsrc & _). destruct (HS a b r Hsrc) as [s Hs]. congruence.
Qed.

Lemma shown_map (q : station -> xr) (w : entry -> xr) sts es : Forall2 shows sts es ->
  (forall s e, shows s e -> q s = w e) -> map q sts = map w es.
Proof. intros F H. induction F as [|s e sts es Hs _ IH]; cbn; [reflexivity|]. rewrite (H s e Hs), IH. reflexivity. Qed.

Lemma shown_profile (q : station -> list xr) (w : entry -> list xr) o es k : Forall2 shows (cd_station o) es ->
  (forall s e, shows s e -> q s = w e) ->
  (forall i e, nth_error es i = Some e -> denotes k (List.length es) i ->
     bind (case_station o k) (fun s => Ok (q s)) = Ok (w e)).
Proof.
  intros F H i e He Hk. unfold case_station.
  rewrite <- (forall2_length _ _ _ F) in Hk. rewrite (list_item_denotes _ _ _ Hk). unfold item.
  destruct (Forall2_nth _ _ _ F i) as [H2 _]. destruct (H2 _ He) as (s & Hs & S). rewrite Hs. cbn [bind].
  rewrite (H s e S). reflexivity.
Qed.

Ltac sh := let s := fresh in let e := fresh in let H := fresh in
  intros s e H; unfold shows in H; decompose [and] H; assumption.

Lemma arrays_lemma floats float1 read_case junk o c o' first summ smoo rest es vs : c <> ""%string ->
  case_holds read_case c first (summ :: smoo :: rest) ->
  file_entries floats (units_of c) summ rest es ->
  Forall2 (fun t v => prints floats t (velocity_columns (units_of c) v)) smoo vs ->
  set_case floats float1 read_case junk o c = (o', Ok tt) ->
  (station_count o' = List.length es /\
   case_x o' = map (either d_x f_x) es /\ case_u_e o' = map (either d_u_e f_u_e) es /\
   case_du_e o' = map (table f_du_e) es /\
   case_delta_d o' = map (either d_dels (fun f => f_h f * f_theta f)) es /\
   case_delta_m o' = map (either d_theta f_theta) es /\
   case_delta_k o' = map (either d_enth (fun f => f_hs f * f_theta f)) es /\
   case_delta_c o' = map (line d_clth) es /\
   case_shape_d o' = map (either d_h f_h) es /\ case_shape_k o' = map (either d_hs f_hs) es /\
   case_shape_eq o' = map (either d_g f_g) es /\ case_c_f o' = map (table f_cf) es /\
   case_c_f_lt o' = map (table f_cf_lt) es /\ case_c_f_exp o' = map (table f_cf_exp) es /\
   case_beta_eq o' = map (table f_beta) es /\
   case_u_star o' = map (either d_us (fun f => f_u_e f * sqrt (f_cf f / 2))) es /\
   case_nu o' = map (line d_nu) es /\ case_re_delta_d o' = map (line d_re_dels) es /\
   case_re_delta_m o' = map (line d_re_theta) es) /\
  (case_x_smooth o' = map (fun v => Fin (v_x v)) vs /\
   case_u_e_smooth o' = map (fun v => Fin (v_u_e v)) vs /\
   case_du_e_smooth o' = map (fun v => Fin (v_du_e v)) vs) /\
  (forall k i e, nth_error es i = Some e -> denotes k (List.length es) i ->
     case_y o' k = Ok (samples p_y e) /\ case_y_plus o' k = Ok (samples p_yplus e) /\
     case_y_c o' k = Ok (samples p_yc e) /\
     case_u o' k = Ok (velocities e) /\
     case_u_plus o' k = Ok (samples p_uplus e) /\ case_u_defect o' k = Ok (samples p_defect e)) /\
  (forall k, (forall i, ~ denotes k (List.length es) i) ->
     case_station o' k = Err IndexError /\ case_y o' k = Err IndexError /\ case_y_plus o' k = Err IndexError /\
     case_y_c o' k = Err IndexError /\ case_u o' k = Err IndexError /\ case_u_plus o' k = Err IndexError /\
     case_u_defect o' k = Err IndexError).
Proof.
  intros Hc Hh He Hv H. pose proof (entries_shown _ _ _ _ _ _ _ _ _ _ _ _ Hc Hh He H) as F.
  split; [|split; [|split]].
  - split; [exact (forall2_length _ _ _ F)|]. repeat split; (apply shown_map; [exact F|sh]).
  - apply set_case_inv in H; [|exact Hc].
    destruct H as (f' & s' & m' & r' & m & E & _ & _ & Em & Es & _).
    rewrite (case_sections _ _ _ _ Hh) in E. injection E as <- <- <- <-.
    rewrite si_units in Em. destruct (smooth_ok _ _ _ _ Hv) as (m2 & Em2 & Hm2).
    rewrite Em2 in Em. injection Em as <-. destruct Hm2 as (H1 & H2 & H3).
    unfold case_x_smooth, case_u_e_smooth, case_du_e_smooth. rewrite Es. repeat split; assumption.
  - intros k i e Hi Hk. repeat split; (eapply shown_profile; [exact F|sh|exact Hi|exact Hk]).
  - intros k Hk. rewrite <- (forall2_length _ _ _ F) in Hk.
    unfold case_y, case_y_plus, case_y_c, case_u, case_u_plus, case_u_defect, case_station.
    rewrite (list_item_outside _ _ Hk). repeat split.
Qed.

Lemma nothing_loaded_lemma : forall read_case floats float1 junk o o',
  set_case floats float1 read_case junk o "" = (o', Ok tt) \/ o' = casedata0 ->
  station_count o' = 0%nat /\ case_x o' = [] /\ case_x_smooth o' = [] /\ case_u_e_smooth o' = [] /\
  case_du_e_smooth o' = [] /\ forall k, case_station o' k = Err IndexError.
Proof.
  intros read_case floats float1 junk o o' H.
  assert (E : cd_station o' = [] /\ cd_smooth o' = None).
  { destruct H as [H| ->]; [|split; reflexivity]. unfold set_case in H. cbn in H. injection H as <-. split; reflexivity. }
  destruct E as [E1 E2]. unfold station_count, case_x, case_x_smooth, case_u_e_smooth, case_du_e_smooth, case_station.
  rewrite E1, E2. do 5 (split; [reflexivity|]). intros k. apply list_item_outside. intros i [Hi _]. cbn in Hi. lia.
Qed.
