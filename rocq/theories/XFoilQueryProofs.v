(** What the column queries return after a load. *)
From Coq Require Import Reals List Bool String.
From Verif Require Import PyBase PyBaseFacts PyText XFoilModel XFoilSpec XFoilProofs XFoilLoadProofs
  XFoilHistoryProofs.
Import ListNotations.
Open Scope R_scope.

Lemma map_image {A B C} (R : A -> B -> Prop) (f : A -> C) (g : B -> C) l l' :
  (forall a b, R a b -> g b = f a) -> Forall2 R l l' -> map g l' = map f l.
Proof. intros H F. induction F; cbn; [reflexivity|]. rewrite IHF, (H _ _ H0). reflexivity. Qed.

Lemma columns_hold floats read r r' f up lo wake v :
  file_holds floats read f (up ++ lo) wake -> two_sided up lo -> last_velocity up v -> v <> 0 ->
  set_filename floats read r f = (r', Ok tt) ->
  exists stag s0 sw,
    nth_error (upper_rows r') 0 = Some stag /\ nth_error (lower_rows r') 0 = Some stag /\
    qs_upper r' = a_s stag :: map (fun a => s0 - a_s a)%xr (rev up) /\
    qs_lower r' = a_s stag :: map (fun a => a_s a - s0)%xr lo /\
    qx_upper r' = a_x stag :: map a_x (rev up) /\
    qx_lower r' = a_x stag :: map a_x lo /\
    qy_upper r' = a_y stag :: map a_y (rev up) /\
    qy_lower r' = a_y stag :: map a_y lo /\
    qdelta_d_upper r' = a_delta_d stag :: map a_delta_d (rev up) /\
    qdelta_d_lower r' = a_delta_d stag :: map a_delta_d lo /\
    qdelta_m_upper r' = a_delta_m stag :: map a_delta_m (rev up) /\
    qdelta_m_lower r' = a_delta_m stag :: map a_delta_m lo /\
    qshape_d_upper r' = a_shape_d stag :: map a_shape_d (rev up) /\
    qshape_d_lower r' = a_shape_d stag :: map a_shape_d lo /\
    qshape_k_upper r' = a_shape_k stag :: map a_shape_k (rev up) /\
    qshape_k_lower r' = a_shape_k stag :: map a_shape_k lo /\
    qc_f_upper r' = a_c_f stag :: map a_c_f (rev up) /\
    qc_f_lower r' = a_c_f stag :: map a_c_f lo /\
    qmom_defect_upper r' = a_mom_defect stag :: map a_mom_defect (rev up) /\
    qmom_defect_lower r' = a_mom_defect stag :: map a_mom_defect lo /\
    qmass_defect_upper r' = a_mass_defect stag :: map a_mass_defect (rev up) /\
    qmass_defect_lower r' = a_mass_defect stag :: map (fun a => a_mass_defect a * Fin (-1))%xr lo /\
    qke_defect_upper r' = a_ke_defect stag :: map a_ke_defect (rev up) /\
    qke_defect_lower r' = a_ke_defect stag :: map (fun a => a_ke_defect a * Fin (-1))%xr lo /\
    qdelta_k_upper r' = (a_shape_k stag * a_delta_m stag)%xr
      :: map (fun a => a_shape_k a * a_delta_m a)%xr (rev up) /\
    qdelta_k_lower r' = (a_shape_k stag * a_delta_m stag)%xr
      :: map (fun a => a_shape_k a * a_delta_m a)%xr lo /\
    qs_wake r' = map (fun w => w_s w - sw)%xr wake /\
    qx_wake r' = map w_x wake /\ qy_wake r' = map w_y wake /\
    qdelta_d_wake r' = map w_delta_d wake /\ qdelta_m_wake r' = map w_delta_m wake /\
    qshape_d_wake r' = map w_shape_d wake.
Proof.
  intros FH TS LV V H.
  destruct (partition_holds floats read r r' f up lo wake v FH TS LV V H)
    as (s0 & sw & stag & U & L & EU & FU & EL & FL & FW & _).
  exists stag, s0, sw. rewrite EU, EL. cbn [nth_error]. split; [reflexivity|]. split; [reflexivity|].
  assert (MU : forall (g : arow -> xr) f, (forall a b, upper_image s0 a b -> g b = f a) ->
    map g (upper_rows r') = g stag :: map f (rev up)).
  { intros g h K. rewrite EU. cbn [map]. apply f_equal. exact (map_image _ _ _ _ _ K FU). }
  assert (ML : forall (g : arow -> xr) f, (forall a b, lower_image s0 a b -> g b = f a) ->
    map g (lower_rows r') = g stag :: map f lo).
  { intros g h K. rewrite EL. cbn [map]. apply f_equal. exact (map_image _ _ _ _ _ K FL). }
  assert (MW : forall (g f : wrow -> xr), (forall a b, wake_image sw a b -> g b = f a) ->
    map g (rd_wake r') = map f wake).
  { intros g h K. exact (map_image _ _ _ _ _ K FW). }
  unfold upper_image in MU. unfold lower_image in ML. unfold wake_image in MW.
  Ltac cols M := apply M; intros a b K; decompose [and] K; congruence.
  repeat match goal with |- _ /\ _ => split end;
    first [cols MU|cols ML|cols MW].
Qed.
