(** What a load of an XFoil dump leaves behind. *)
From Coq Require Import Reals List Bool String Ascii Lia Lra Sorted.
From Verif Require Import PyBase PyBaseFacts XFoilModel XFoilSpec XFoilProofs.
Import ListNotations.
Open Scope R_scope.

(* ---------------- numbers ---------------- *)

Lemma xltb_false_not_negative v : xltb v (Fin 0) = false <-> not_negative v.
Proof.
  unfold not_negative, nonneg. destruct v as [x| | |]; cbn [xltb].
  - split.
    + intros H. right. right. exists x. split; [reflexivity|]. destruct (Rle_or_lt 0 x) as [L|L]; [exact L|]. rewrite (Rltb_true _ _ L) in H. discriminate.
    + intros [H|[H|[y [E H]]]]; try discriminate. inversion E; subst. apply Rltb_false. lra.
  - split; auto.
  - split; [discriminate|]. intros [H|[H|[y [E H]]]]; discriminate.
  - split; auto.
Qed.

Lemma xleb_false_not_nonpositive v : xleb v (Fin 0) = false <-> not_nonpositive v.
Proof.
  unfold not_nonpositive, posit. destruct v as [x| | |]; cbn [xleb].
  - split.
    + intros H. right. right. exists x. split; [reflexivity|]. destruct (Rlt_or_le 0 x) as [L|L]; [exact L|]. rewrite (Rleb_true _ _ L) in H. discriminate.
    + intros [H|[H|[y [E H]]]]; try discriminate. inversion E; subst. apply Rleb_false. lra.
  - split; auto.
  - split; [discriminate|]. intros [H|[H|[y [E H]]]]; discriminate.
  - split; auto.
Qed.

Lemma row_valid_checked r : row_valid r <-> checked_row r.
Proof.
  unfold row_valid, checked_row.
  rewrite !xltb_false_not_negative, !xleb_false_not_nonpositive. reflexivity.
Qed.

(* ---------------- parsing ---------------- *)

Definition wrow_valid (r : wrow) : Prop :=
  xltb (w_s r) (Fin 0) = false /\ xltb (w_delta_d r) (Fin 0) = false /\
  xltb (w_delta_m r) (Fin 0) = false /\ xleb (w_shape_d r) (Fin 0) = false.

Lemma wrow_valid_checked r : wrow_valid r <-> checked_wake_row r.
Proof.
  unfold wrow_valid, checked_wake_row.
  rewrite !xltb_false_not_negative, !xleb_false_not_nonpositive. reflexivity.
Qed.

Lemma fill_wrow_ok r0 cs r : fill_wrow r0 cs = Ok r ->
  (exists d, cs = [w_s r; w_x r; w_y r; w_u_e_rel r; w_delta_d r; w_delta_m r; d; w_shape_d r]) /\
  wrow_valid r.
Proof.
  unfold fill_wrow.
  destruct cs as [|s [|x [|y [|u [|dd [|dm [|d [|hd [|z t]]]]]]]]]; try discriminate.
  unfold wset_s, wset_x, wset_y, wset_u_e_rel, wset_delta_d, wset_delta_m, wset_shape_d.
  destruct (xltb s (Fin 0)) eqn:E1; [discriminate|]. cbn [bind].
  destruct (xltb dd (Fin 0)) eqn:E2; [discriminate|]. cbn [bind].
  destruct (xltb dm (Fin 0)) eqn:E3; [discriminate|]. cbn [bind].
  destruct (xleb hd (Fin 0)) eqn:E4; [discriminate|]. cbn [bind].
  intros H. inversion H; subst r. split; [exists d; reflexivity|]. repeat split; assumption.
Qed.

Lemma wset_valid f r v r' : wrow_valid r -> wset f r v = Ok r' -> wrow_valid r'.
Proof.
  intros (E1 & E2 & E3 & E4).
  destruct f; cbn [wset]; unfold wset_s, wset_x, wset_y, wset_u_e_rel, wset_delta_d, wset_delta_m,
    wset_shape_d;
  try (destruct (xltb v (Fin 0)) eqn:V; [discriminate|]);
  try (destruct (xleb v (Fin 0)) eqn:V; [discriminate|]);
  intros H; inversion H; repeat split; assumption.
Qed.

Lemma wrow_inf_valid : wrow_valid wrow_inf.
Proof. repeat split. Qed.

Section Text.
Variable floats : string -> option (list xr).
Variable read : string -> res (list string).

Lemma new_wrow_row_valid l r : new_wrow floats l = Ok r -> wrow_valid r.
Proof.
  unfold new_wrow. destruct (String.eqb l "").
  - intros H. inversion H. apply wrow_inf_valid.
  - destruct (floats l) as [cs|]; [|discriminate]. intros H. apply fill_wrow_ok in H. apply H.
Qed.

Lemma new_wrow_holds l w w' : l <> ""%string -> wake_line_holds floats l w ->
  new_wrow floats l = Ok w' -> w' = w /\ wrow_valid w.
Proof.
  intros Hl [d H]. unfold new_wrow.
  destruct (String.eqb l "") eqn:E; [apply String.eqb_eq in E; contradiction|].
  rewrite H. intros N. apply fill_wrow_ok in N. destruct N as [[d' N] V].
  destruct w, w'. cbn in *. inversion N; subst. split; [reflexivity|exact V].
Qed.

Lemma new_wrow_valid l w : l <> ""%string -> wake_line_holds floats l w -> wrow_valid w ->
  new_wrow floats l = Ok w.
Proof.
  intros Hl [d H] (E1 & E2 & E3 & E4). unfold new_wrow.
  destruct (String.eqb l "") eqn:E; [apply String.eqb_eq in E; contradiction|].
  rewrite H. unfold fill_wrow.
  unfold wset_s, wset_x, wset_y, wset_u_e_rel, wset_delta_d, wset_delta_m, wset_shape_d.
  rewrite E1. cbn [bind]. rewrite E2. cbn [bind]. rewrite E3. cbn [bind]. rewrite E4. cbn [bind].
  destruct w; reflexivity.
Qed.

Lemma fill_arow_err r0 cs e : fill_arow r0 cs = Err e -> e = ValueError.
Proof.
  unfold fill_arow.
  destruct cs as [|s [|x [|y [|u [|dd [|dm [|cf [|hd [|hk [|mo [|ma [|ke [|z t]]]]]]]]]]]]];
    try (intros H; congruence).
  unfold aset_s, aset_x, aset_y, aset_u_e_rel, aset_delta_d, aset_delta_m, aset_c_f, aset_shape_d,
    aset_shape_k, aset_mom_defect, aset_mass_defect, aset_ke_defect.
  destruct (xltb s (Fin 0)); [cbn [bind]; congruence|]. cbn [bind].
  destruct (xltb dd (Fin 0)); [cbn [bind]; congruence|]. cbn [bind].
  destruct (xltb dm (Fin 0)); [cbn [bind]; congruence|]. cbn [bind].
  destruct (xltb cf (Fin 0)); [cbn [bind]; congruence|]. cbn [bind].
  destruct (xleb hd (Fin 0)); [cbn [bind]; congruence|]. cbn [bind].
  destruct (xleb hk (Fin 0)); [cbn [bind]; congruence|]. cbn [bind].
  discriminate.
Qed.

Lemma new_arow_err l e : new_arow floats l = Err e -> e = ValueError.
Proof.
  unfold new_arow. destruct (String.eqb l ""); [discriminate|].
  destruct (floats l) as [cs|]; [apply fill_arow_err|congruence].
Qed.

Lemma map_r_bad {A B} (f : A -> res B) l a :
  (forall a e, f a = Err e -> e = ValueError) -> In a l -> f a = Err ValueError ->
  map_r f l = Err ValueError.
Proof.
  intros HE. induction l as [|b t IH]; intros HI Ha; [contradiction|]. cbn [map_r].
  destruct HI as [->|HI]; [rewrite Ha; reflexivity|].
  destruct (f b) as [c|e] eqn:Eb; cbn [bind]; [|apply HE in Eb; subst; reflexivity].
  rewrite IH by assumption. reflexivity.
Qed.

Lemma upper_loop_bad l lines : forall idx st up, In l lines -> new_arow floats l = Err ValueError ->
  (exists st' up', upper_loop floats lines idx st up = (st', up', Err ValueError)) \/
  (exists st' up' k, upper_loop floats lines idx st up = (st', up', Ok (Some (idx + k)%nat)) /\
     In l (skipn k lines)).
Proof.
  induction lines as [|a t IH]; intros idx st up HI Hl; [contradiction|]. cbn [upper_loop].
  destruct (new_arow floats a) as [p|e] eqn:Ea.
  - destruct (xltb (a_u_e_rel p) (Fin 0)).
    + right. exists st, up, 0%nat. rewrite Nat.add_0_r. split; [reflexivity|]. exact HI.
    + destruct HI as [->|HI]; [rewrite Hl in Ea; discriminate|].
      destruct (IH (S idx) (st ++ [p]) (List.length st :: up) HI Hl)
        as [(st' & up' & E)|(st' & up' & k & E & HK)].
      * left. exists st', up'. exact E.
      * right. exists st', up', (S k). rewrite E, Nat.add_succ_comm. split; [reflexivity|exact HK].
  - left. exists st, up. apply new_arow_err in Ea. subst. reflexivity.
Qed.

Lemma load_bad r f A W l : f <> ""%string -> get_dump_data read f = Ok (A, W) ->
  In l A -> new_arow floats l = Err ValueError ->
  snd (set_filename floats read r f) = Err ValueError.
Proof.
  intros Hf G HI Hl. unfold set_filename.
  destruct (String.eqb f "") eqn:Ef; [apply String.eqb_eq in Ef; contradiction|].
  rewrite G. destruct (upper_loop_bad l A 0 [] [] HI Hl) as [(st & up & E)|(st & up & k & E & HK)];
    rewrite E; [reflexivity|]. cbn [Nat.add lower_lines].
  rewrite (map_r_bad _ _ l new_arow_err HK Hl). reflexivity.
Qed.

Lemma load_parses r r' f A W : f <> ""%string -> get_dump_data read f = Ok (A, W) ->
  set_filename floats read r f = (r', Ok tt) ->
  Forall (fun l => exists a, new_arow floats l = Ok a) A.
Proof.
  intros Hf G H. apply Forall_forall. intros l HI.
  destruct (new_arow floats l) as [a|e] eqn:E; [eexists; reflexivity|].
  pose proof (new_arow_err _ _ E); subst e.
  pose proof (load_bad r f A W l Hf G HI E) as K. rewrite H in K. discriminate.
Qed.

Lemma parsed_rows A rows : Forall (fun l => l <> ""%string) A ->
  Forall2 (line_holds floats) A rows -> Forall (fun l => exists a, new_arow floats l = Ok a) A ->
  Forall2 (fun l r => new_arow floats l = Ok r) A rows /\ Forall row_valid rows.
Proof.
  intros HA F. induction F as [|l r A rows H F IH]; intros P; [split; constructor|].
  inversion HA; subst. inversion P as [|? ? [a Ea] P']; subst.
  destruct (IH ltac:(assumption) P') as [I1 I2].
  destruct (new_arow_holds floats l r a ltac:(assumption) H Ea) as [-> V].
  split; constructor; assumption.
Qed.

Lemma parsed_rows_valid A rows : Forall (fun l => l <> ""%string) A ->
  Forall2 (line_holds floats) A rows -> Forall row_valid rows ->
  Forall2 (fun l r => new_arow floats l = Ok r) A rows.
Proof.
  intros HA F. induction F as [|l r A rows H F IH]; intros P; [constructor|].
  inversion HA; subst. inversion P; subst. constructor; [|apply IH; assumption].
  apply new_arow_valid; assumption.
Qed.

Lemma wake_rows_parsed W wake ws : ~ In ""%string W -> Forall2 (wake_line_holds floats) W wake ->
  Forall2 (fun s w => new_wrow floats s = Ok w) W ws -> ws = wake.
Proof.
  intros HN F. revert ws. induction F as [|l w W wake H F IH]; intros ws G; inversion G; subst; [reflexivity|].
  f_equal.
  - eapply new_wrow_holds; [|exact H|eassumption]. intros ->. apply HN. left. reflexivity.
  - apply IH; [|assumption]. intros K. apply HN. right. exact K.
Qed.

Lemma lines_nonempty lines A W : dump_file lines A W -> Forall (fun l => l <> ""%string) A.
Proof.
  intros (hd & _ & _ & _ & _ & HL & _). apply Forall_app in HL. destruct HL as [_ HL].
  eapply Forall_impl; [|exact HL]. intros l H ->. cbn in H. lia.
Qed.

Lemma nonneg_not_lt v : nonneg v -> xltb v (Fin 0) = false.
Proof. intros H. apply xltb_false_not_negative. right. right. exact H. Qed.

(** Everything a successful load of a two-sided dump leaves. *)
Lemma load_described r r' f up lo wake v :
  file_holds floats read f (up ++ lo) wake -> two_sided up lo -> last_velocity up v -> v <> 0 ->
  set_filename floats read r f = (r', Ok tt) ->
  Forall row_valid (up ++ lo) /\
  exists b u l t frac p,
    up = b ++ [u] /\ lo = l :: t /\ a_u_e_rel u = Fin v /\
    py_div (a_u_e_rel u) (a_u_e_rel u + a_u_e_rel l * Fin (-1))%xr = Ok frac /\
    interpolate u (neg_row l) frac = Ok p /\
    Forall2 (fun a c => upper_arc (a_s p) a = Ok c) (p :: rev up) (upper_rows r') /\
    Forall2 (fun a c => lower_arc (a_s p) a = Ok c) (p :: map neg_row lo) (lower_rows r') /\
    NoDup (rd_upper r' ++ rd_lower r') /\
    Forall (fun k => k < List.length (rd_store r'))%nat (rd_upper r' ++ rd_lower r') /\
    Forall2 (fun a c => wset_s a (w_s a - match wake with w :: _ => w_s w | [] => PInf end)%xr = Ok c)
        wake (rd_wake r').
Proof.
  intros (Hf & lines & A & W & R & D & FA & NW & FW) (NU & HU & HL) (b & u & Eu & Ev) Hv H.
  pose proof (dump_file_split read lines A W f R D) as G.
  pose proof (load_parses r r' f A W Hf G H) as HP.
  destruct (parsed_rows A (up ++ lo) (lines_nonempty _ _ _ D) FA HP) as [F2 V].
  split; [exact V|].
  apply Forall2_app_inv_r in F2. destruct F2 as (P & Q & FP & FQ & EA).
  destruct lo as [|l t]; [contradiction|]. destruct HL as (lv & El & Hl).
  inversion FQ as [|n ? N ? Hn HN]; subst.
  assert (HPne : P <> []).
  { intros ->. inversion FP as [|]. destruct b; discriminate. }
  assert (LT : xltb (a_u_e_rel l) (Fin 0) = true).
  { rewrite El. cbn [xltb]. apply Rltb_true. exact Hl. }
  assert (HU' : Forall (fun r => xltb (a_u_e_rel r) (Fin 0) = false) (b ++ [u])).
  { eapply Forall_impl; [|exact HU]. intros a Ha. apply nonneg_not_lt. exact Ha. }
  assert (HZ : match rev (b ++ [u]) with u :: _ => xeqb (a_u_e_rel u) (Fin 0) = false | [] => False end).
  { rewrite rev_app_distr. cbn [rev app]. rewrite Ev. cbn [xeqb]. apply Reqb_false. exact Hv. }
  pose proof (load_shape floats read r r' f _ W P n N (b ++ [u]) (l :: t) Hf G eq_refl HPne FP HU'
    FQ LT HZ H)
    as (b' & u' & l' & t' & frac & p & E1 & E2 & E3 & E4 & F4 & F5 & ND & RG & ws & Fw & Fs).
  apply app_inj_tail in E1. destruct E1 as [-> ->]. inversion E2; subst l' t'.
  assert (ws = wake) as -> by (eapply wake_rows_parsed; eassumption).
  exists b', u', l, t, frac, p. do 9 (split; [first [assumption | reflexivity]|]). exact Fs.
Qed.

(* ---------------- C58 ---------------- *)

Lemma upper_arc_image s0 a c : upper_arc s0 a = Ok c -> upper_image s0 a c.
Proof.
  unfold upper_arc, aset_s. destruct (xltb _ _); [discriminate|]. intros H. inversion H; subst.
  repeat split.
Qed.
Lemma lower_arc_image s0 a c : lower_arc s0 (neg_row a) = Ok c -> lower_image s0 a c.
Proof.
  unfold lower_arc, aset_s. destruct (xltb _ _); [discriminate|]. intros H. inversion H; subst.
  repeat split.
Qed.
Lemma wset_s_image s0 a c : wset_s a (w_s a - s0)%xr = Ok c -> wake_image s0 a c.
Proof.
  unfold wset_s. destruct (xltb _ _); [discriminate|]. intros H. inversion H; subst. repeat split.
Qed.

Lemma Forall2_map_l {A B C} (P : B -> C -> Prop) (f : A -> B) l r :
  Forall2 P (map f l) r -> Forall2 (fun a c => P (f a) c) l r.
Proof.
  revert r. induction l as [|a t IH]; intros r H; inversion H; subst; constructor; auto.
Qed.
Lemma Forall2_impl {A B} (P Q : A -> B -> Prop) l r :
  (forall a b, P a b -> Q a b) -> Forall2 P l r -> Forall2 Q l r.
Proof. intros H F. induction F; constructor; auto. Qed.

Lemma Forall2_len {A B} (P : A -> B -> Prop) l r :
  Forall2 P l r -> List.length l = List.length r.
Proof. induction 1; cbn; congruence. Qed.

Lemma partition_holds r r' f up lo wake v :
  file_holds floats read f (up ++ lo) wake -> two_sided up lo -> last_velocity up v -> v <> 0 ->
  set_filename floats read r f = (r', Ok tt) ->
  exists s0 sw stag U L,
    upper_rows r' = stag :: U /\ Forall2 (upper_image s0) (rev up) U /\
    lower_rows r' = stag :: L /\ Forall2 (lower_image s0) lo L /\
    Forall2 (wake_image sw) wake (rd_wake r') /\
    upper_count r' = S (List.length up) /\ lower_count r' = S (List.length lo) /\
    wake_count r' = List.length wake.
Proof.
  intros F T L N H.
  destruct (load_described r r' f up lo wake v F T L N H)
    as (_ & b & u & l & t & frac & p & Eu & El & Ev & Ed & Ei & F4 & F5 & ND & RG & Fw).
  inversion F4 as [|? cu ? U Cu FU EU EU']; subst. inversion F5 as [|? cl ? Lo Cl FL EL EL']; subst.
  assert (cl = cu) as ->.
  { revert Cu Cl. unfold upper_arc, lower_arc, aset_s. destruct (xltb _ _); [discriminate|].
    intros C1 C2. inversion C1; inversion C2; reflexivity. }
  exists (a_s p), (match wake with w :: _ => w_s w | [] => PInf end), cu, U, Lo.
  split; [congruence|].
  split; [eapply Forall2_impl; [|exact FU]; intros; apply upper_arc_image; assumption|].
  split; [congruence|].
  split.
  { apply (Forall2_map_l _ neg_row (l :: t) Lo) in FL.
    eapply Forall2_impl; [|exact FL]. intros; apply lower_arc_image; assumption. }
  split; [eapply Forall2_impl; [|exact Fw]; intros; apply wset_s_image; assumption|].
  unfold upper_count, lower_count, wake_count.
  apply Forall2_len in F4. apply Forall2_len in F5. apply Forall2_len in Fw.
  unfold upper_rows in F4. unfold lower_rows in F5. rewrite map_length in F4, F5.
  cbn [List.length] in F4, F5. rewrite rev_length in F4. rewrite map_length in F5.
  split; [congruence|]. split; [congruence|]. congruence.
Qed.

(* ---------------- C60 ---------------- *)

Lemma frac_real v lv (a b : xr) frac : a = Fin v -> b = Fin lv -> 0 < v -> lv < 0 ->
  py_div a (a + b * Fin (-1))%xr = Ok frac -> frac = Fin (v / (v - lv)).
Proof.
  intros -> -> Hv Hl. rewrite xmul_fin, xadd_fin, py_div_fin by lra.
  intros H. inversion H. f_equal. field. lra.
Qed.

Lemma mix_real v lv x1 x2 : 0 < v -> lv < 0 ->
  mix (Fin (v / (v - lv))) (Fin x2) (Fin x1) = Fin (at_zero v x1 lv x2).
Proof.
  intros Hv Hl. unfold mix, at_zero. rewrite xmul_fin, xsub_fin, xmul_fin, xadd_fin. f_equal. field. lra.
Qed.

Definition interp_fields : list (arow -> xr) :=
  [a_y; a_delta_d; a_delta_m; a_c_f; a_shape_d; a_shape_k; a_mom_defect].
Definition turned_fields : list (arow -> xr) := [a_mass_defect; a_ke_defect].

Lemma interpolate_fields u l frac p : interpolate u l frac = Ok p ->
  a_s p = mix frac (a_s l) (a_s u) /\ a_x p = mix_signed frac (a_x l) (a_x u) /\
  a_u_e_rel p = mix_signed frac (a_u_e_rel l) (a_u_e_rel u) /\
  Forall (fun q => q p = mix frac (q l) (q u)) (interp_fields ++ turned_fields) /\ row_valid p.
Proof.
  unfold interpolate.
  unfold aset_s, aset_x, aset_y, aset_u_e_rel, aset_delta_d, aset_delta_m, aset_c_f, aset_shape_d,
    aset_shape_k, aset_mom_defect, aset_mass_defect, aset_ke_defect. cbn [bind].
  destruct (xltb (mix frac (a_s l) (a_s u)) (Fin 0)) eqn:E1; [discriminate|]. cbn [bind].
  destruct (xltb (mix frac (a_delta_d l) _) (Fin 0)) eqn:E2; [discriminate|]. cbn [bind].
  destruct (xltb (mix frac (a_delta_m l) _) (Fin 0)) eqn:E3; [discriminate|]. cbn [bind].
  destruct (xltb (mix frac (a_c_f l) _) (Fin 0)) eqn:E4; [discriminate|]. cbn [bind].
  destruct (xleb (mix frac (a_shape_d l) _) (Fin 0)) eqn:E5; [discriminate|]. cbn [bind].
  destruct (xleb (mix frac (a_shape_k l) _) (Fin 0)) eqn:E6; [discriminate|]. cbn [bind].
  intros H. inversion H; subst p. clear H.
  split; [reflexivity|]. split; [reflexivity|]. split; [reflexivity|].
  split; [repeat constructor|]. repeat split; assumption.
Qed.

Lemma stag_velocity v lv : 0 < v -> lv < 0 ->
  mix_signed (Fin (v / (v - lv))) (Fin lv * Fin (-1))%xr (Fin v) = Fin 0.
Proof.
  intros Hv Hl. unfold mix_signed.
  rewrite xneg_fin, xmul_fin, xmul_fin, xsub_fin, xmul_fin, xadd_fin. cbn [xabs]. f_equal.
  replace (- (v / (v - lv)) * (lv * -1) + (1 - v / (v - lv)) * v) with 0 by (field; lra). apply Rabs_R0.
Qed.

Lemma last_velocity_pos up lo v : two_sided up lo -> last_velocity up v -> v <> 0 -> 0 < v.
Proof.
  intros (_ & HU & _) (b & u & E & Ev) N. rewrite Forall_forall in HU.
  destruct (HU u) as (x & Ex & Hx).
  { rewrite E. apply in_or_app. right. left. reflexivity. }
  rewrite Ev in Ex. inversion Ex; subst. lra.
Qed.

Lemma stagnation_holds r r' f b u l t wake v lv :
  file_holds floats read f ((b ++ [u]) ++ l :: t) wake -> two_sided (b ++ [u]) (l :: t) ->
  a_u_e_rel u = Fin v -> a_u_e_rel l = Fin lv -> v <> 0 ->
  set_filename floats read r f = (r', Ok tt) ->
  exists stag s0 nu nl,
    nth_error (upper_rows r') 0 = Some stag /\ nth_error (lower_rows r') 0 = Some stag /\
    nth_error (upper_rows r') 1 = Some nu /\ nth_error (lower_rows r') 1 = Some nl /\
    a_u_e_rel stag = Fin 0 /\
    Forall (fun q => forall x1 x2, q u = Fin x1 -> q l = Fin x2 -> q stag = Fin (at_zero v x1 lv x2))
      interp_fields /\
    Forall (fun q => forall x1 x2, q u = Fin x1 -> q l = Fin x2 -> q stag = Fin (at_zero v x1 lv (- x2)))
      turned_fields /\
    (forall x1 x2, a_x u = Fin x1 -> a_x l = Fin x2 ->
       a_x stag = Fin (Rabs (at_zero v x1 lv (- x2)))) /\
    (forall s1 s2, a_s u = Fin s1 -> a_s l = Fin s2 ->
       s0 = at_zero v s1 lv s2 /\ a_s stag = Fin 0 /\
       a_s nu = Fin (s0 - s1) /\ a_s nl = Fin (s2 - s0)).
Proof.
  intros F T Ev El N H.
  assert (LV : last_velocity (b ++ [u]) v) by (exists b, u; auto).
  pose proof (last_velocity_pos _ _ _ T LV N) as Hv.
  assert (Hl : lv < 0).
  { destruct T as (_ & _ & (x & Ex & Hx)). rewrite El in Ex. inversion Ex; subst. exact Hx. }
  destruct (load_described r r' f _ _ wake v F T LV N H)
    as (_ & b' & u' & l' & t' & frac & p & Eu & Elo & _ & Ed & Ei & F4 & F5 & _ & _ & _).
  apply app_inj_tail in Eu. destruct Eu as [<- <-]. inversion Elo; subst l' t'. clear Elo LV.
  rewrite rev_app_distr in F4. cbn [rev app] in F4.
  inversion F4 as [|? cu ? U Cu FU EU EU']; subst. inversion FU as [|? nu ? U2 Cnu _]; subst.
  inversion F5 as [|? cl ? Lo Cl FL EL EL']; subst. inversion FL as [|? nl ? L2 Cnl _]; subst.
  assert (cl = cu) as ->.
  { revert Cu Cl. unfold upper_arc, lower_arc, aset_s. destruct (xltb _ _); [discriminate|].
    intros C1 C2. inversion C1; inversion C2; reflexivity. }
  apply (frac_real v lv) in Ed; [|assumption..]. subst frac.
  apply interpolate_fields in Ei. destruct Ei as (Is & Ix & Iu & If & _).
  exists cu, (at_zero v (match a_s u with Fin x => x | _ => 0 end) lv
                        (match a_s l with Fin x => x | _ => 0 end)), nu, nl.
  do 4 (split; [reflexivity|]).
  assert (Eq : forall q, In q (a_u_e_rel :: a_x :: interp_fields ++ turned_fields) -> q cu = q p).
  { revert Cu. unfold upper_arc, aset_s. destruct (xltb _ _); [discriminate|]. intros C.
    inversion C; subst cu. intros q Hq. cbn in Hq.
    repeat (destruct Hq as [<-|Hq]; [reflexivity|]). contradiction. }
  split.
  { rewrite Eq by (left; reflexivity). rewrite Iu.
    change (a_u_e_rel (neg_row l)) with (a_u_e_rel l * Fin (-1))%xr. rewrite Ev, El.
    apply stag_velocity; assumption. }
  split.
  { rewrite Forall_forall in *. intros q Hq x1 x2 E1 E2.
    assert (Hq' := in_or_app _ turned_fields q (or_introl Hq)).
    rewrite Eq by (right; right; exact Hq'). rewrite (If q Hq').
    assert (En : q (neg_row l) = q l).
    { cbn in Hq. repeat (destruct Hq as [<-|Hq]; [reflexivity|]). contradiction. }
    rewrite En, E1, E2. apply mix_real; assumption. }
  split.
  { rewrite Forall_forall in *. intros q Hq x1 x2 E1 E2.
    assert (Hq' := in_or_app interp_fields _ q (or_intror Hq)).
    rewrite Eq by (right; right; exact Hq'). rewrite (If q Hq').
    assert (En : q (neg_row l) = (q l * Fin (-1))%xr).
    { cbn in Hq. repeat (destruct Hq as [<-|Hq]; [reflexivity|]). contradiction. }
    rewrite En, E1, E2, xmul_fin. replace (x2 * -1) with (- x2) by ring. apply mix_real; assumption. }
  split.
  { intros x1 x2 E1 E2. rewrite Eq by (right; left; reflexivity). rewrite Ix.
    change (a_x (neg_row l)) with (a_x l). rewrite E1, E2. unfold mix_signed, at_zero.
    rewrite xneg_fin, xmul_fin, xsub_fin, xmul_fin, xadd_fin. cbn [xabs].
    apply f_equal, f_equal. field. lra. }
  intros s1 s2 E1 E2. change (a_s (neg_row l)) with (a_s l) in Is.
  rewrite E1, E2, mix_real in Is by assumption. rewrite E1, E2.
  split; [reflexivity|].
  apply upper_arc_image in Cu. apply upper_arc_image in Cnu. apply lower_arc_image in Cnl.
  destruct Cu as [Su _]. destruct Cnu as [Snu _]. destruct Cnl as [Snl _].
  rewrite Su, Snu, Snl, Is, E1, E2, !xsub_fin.
  split; [f_equal; ring|]. split; reflexivity.
Qed.

(* ---------------- C59 ---------------- *)

Lemma at_zero_between v s1 lv s2 : 0 < v -> lv < 0 -> s1 <= s2 ->
  s1 <= at_zero v s1 lv s2 <= s2.
Proof.
  intros Hv Hl Hs. unfold at_zero.
  assert (E : (0 - v) / (lv - v) = v / (v - lv)) by (field; lra). rewrite E.
  assert (0 <= v / (v - lv) <= 1).
  { split; [apply Rmult_le_pos; [lra|left; apply Rinv_0_lt_compat; lra]|].
    apply Rmult_le_reg_r with (v - lv); [lra|]. unfold Rdiv. rewrite Rmult_assoc, Rinv_l; lra. }
  split; nra.
Qed.

Lemma Sorted_strong l : Sorted Rle l -> StronglySorted Rle l.
Proof. apply Sorted_StronglySorted. intros x y z. lra. Qed.

Lemma strong_app l1 : forall l2, StronglySorted Rle (l1 ++ l2) ->
  StronglySorted Rle l1 /\ StronglySorted Rle l2 /\ Forall (fun x => Forall (Rle x) l2) l1.
Proof.
  induction l1 as [|a t IH]; intros l2 H; cbn [app] in H; [repeat split; auto; constructor|].
  inversion H as [|? ? H1 H2]; subst. destruct (IH _ H1) as (I1 & I2 & I3).
  apply Forall_app in H2. destruct H2 as [H2 H3].
  split; [constructor; assumption|]. split; [exact I2|]. constructor; assumption.
Qed.

Lemma strong_snoc_app l1 l2 : StronglySorted Rle l1 -> StronglySorted Rle l2 ->
  Forall (fun x => Forall (Rle x) l2) l1 -> StronglySorted Rle (l1 ++ l2).
Proof.
  induction l1 as [|a t IH]; intros H1 H2 H3; [exact H2|]. inversion H1; subst. inversion H3; subst.
  cbn [app]. constructor; [apply IH; assumption|]. apply Forall_app. split; assumption.
Qed.

Lemma rev_sorted s0 l : StronglySorted Rle l ->
  StronglySorted Rle (map (fun s => s0 - s) (rev l)).
Proof.
  induction 1 as [|a t H IH F]; [constructor|]. cbn [rev]. rewrite map_app. cbn [map].
  apply strong_snoc_app; [exact IH|repeat constructor|].
  apply Forall_forall. intros x Hx. apply in_map_iff in Hx. destruct Hx as (y & <- & Hy).
  apply in_rev in Hy. rewrite Forall_forall in F. specialize (F y Hy). constructor; [lra|constructor].
Qed.

Lemma shift_sorted s0 l : StronglySorted Rle l -> StronglySorted Rle (map (fun s => s - s0) l).
Proof.
  induction 1 as [|a t H IH F]; [constructor|]. cbn [map]. constructor; [exact IH|].
  apply Forall_forall. intros x Hx. apply in_map_iff in Hx. destruct Hx as (y & <- & Hy).
  rewrite Forall_forall in F. specialize (F y Hy). lra.
Qed.

Lemma upper_image_s s0 rows U ss : Forall2 (upper_image (Fin s0)) rows U ->
  map a_s rows = map Fin ss -> map a_s U = map Fin (map (fun s => s0 - s) ss).
Proof.
  intros F. revert ss. induction F as [|a c rows U (E & _) F IH]; intros ss Hs; destruct ss; try discriminate.
  - reflexivity.
  - cbn [map] in *. inversion Hs. rewrite E. rewrite H0, xsub_fin. f_equal. apply IH. assumption.
Qed.
Lemma lower_image_s s0 rows U ss : Forall2 (lower_image (Fin s0)) rows U ->
  map a_s rows = map Fin ss -> map a_s U = map Fin (map (fun s => s - s0) ss).
Proof.
  intros F. revert ss. induction F as [|a c rows U (E & _) F IH]; intros ss Hs; destruct ss; try discriminate.
  - reflexivity.
  - cbn [map] in *. inversion Hs. rewrite E. rewrite H0, xsub_fin. f_equal. apply IH. assumption.
Qed.
Lemma wake_image_s s0 rows U ss : Forall2 (wake_image (Fin s0)) rows U ->
  map w_s rows = map Fin ss -> map w_s U = map Fin (map (fun s => s - s0) ss).
Proof.
  intros F. revert ss. induction F as [|a c rows U (E & _) F IH]; intros ss Hs; destruct ss; try discriminate.
  - reflexivity.
  - cbn [map] in *. inversion Hs. rewrite E. rewrite H0, xsub_fin. f_equal. apply IH. assumption.
Qed.

Lemma map_Fin_inj l : forall r, map Fin l = map Fin r -> l = r.
Proof.
  induction l as [|a t IH]; intros [|b r] H; try discriminate; [reflexivity|].
  cbn [map] in H. inversion H. f_equal. apply IH. assumption.
Qed.

Lemma map_Fin_app (l1 l2 : list xr) ss : l1 ++ l2 = map Fin ss ->
  exists s1 s2, ss = s1 ++ s2 /\ l1 = map Fin s1 /\ l2 = map Fin s2.
Proof.
  revert ss. induction l1 as [|a t IH]; intros ss H.
  - exists [], ss. repeat split. exact H.
  - destruct ss as [|x ss]; [discriminate|]. cbn [app map] in H. inversion H; subst.
    destruct (IH ss ltac:(assumption)) as (s1 & s2 & -> & -> & ->).
    exists (x :: s1), s2. repeat split.
Qed.

Lemma StronglySorted_Sorted' l : StronglySorted Rle l -> Sorted Rle l.
Proof. apply StronglySorted_Sorted. Qed.

Lemma arc_lengths_hold r r' f up lo wake v ss ws :
  file_holds floats read f (up ++ lo) wake -> two_sided up lo -> last_velocity up v -> v <> 0 ->
  column (map a_s (up ++ lo)) ss -> Sorted Rle ss ->
  column (map w_s wake) ws -> Sorted Rle ws ->
  set_filename floats read r f = (r', Ok tt) ->
  exists su sl sw,
    column (qs_upper r') (0 :: su) /\ Sorted Rle (0 :: su) /\
    column (qs_lower r') (0 :: sl) /\ Sorted Rle (0 :: sl) /\
    column (qs_wake r') sw /\ Sorted Rle sw /\ (wake <> [] -> nth_error sw 0 = Some 0).
Proof.
  intros F T LV N CS SS CW SW H.
  pose proof (last_velocity_pos _ _ _ T LV N) as Hv.
  destruct (load_described r r' f _ _ wake v F T LV N H)
    as (_ & b & u & l & t & frac & p & Eu & Elo & Ev & Ed & Ei & F4 & F5 & _ & _ & Fw).
  assert (exists lv, a_u_e_rel l = Fin lv /\ lv < 0) as (lv & El & Hl).
  { destruct T as (_ & _ & T). rewrite Elo in T. exact T. }
  apply (frac_real v lv) in Ed; [|assumption..]. subst frac.
  apply interpolate_fields in Ei. destruct Ei as (Is & _).
  unfold column in CS. rewrite map_app in CS. apply map_Fin_app in CS.
  destruct CS as (s1 & s2 & -> & C1 & C2). apply Sorted_strong in SS.
  apply strong_app in SS. destruct SS as (S1 & S2 & S12).
  rewrite Eu, map_app in C1. cbn [map] in C1. apply eq_sym in C1. symmetry in C1.
  pose proof C1 as C1'. apply map_Fin_app in C1'. destruct C1' as (sb & su & -> & Cb & Cu).
  destruct su as [|su [|]]; try discriminate. cbn [map] in Cu. inversion Cu as [Eus]. clear Cu.
  rewrite Elo in C2. destruct s2 as [|sl s2]; [discriminate|]. cbn [map] in C2. inversion C2 as [[Els C2']].
  change (a_s (neg_row l)) with (a_s l) in Is. rewrite Eus, Els, mix_real in Is by assumption.
  set (s0 := at_zero v su lv sl) in *.
  assert (B : su <= s0 <= sl).
  { apply at_zero_between; [assumption..|]. rewrite Forall_forall in S12.
    assert (K : Forall (Rle su) (sl :: s2)) by (apply S12; apply in_or_app; right; left; reflexivity).
    inversion K; assumption. }
  rewrite Is in F4, F5.
  inversion F4 as [|? cu ? U Cu FU EU EU']; subst. inversion F5 as [|? cl ? Lo Cl FL EL EL']; subst.
  assert (Ecu : a_s cu = Fin 0).
  { apply upper_arc_image in Cu. destruct Cu as [-> _]. rewrite Is, xsub_fin. f_equal. ring. }
  assert (Ecl : a_s cl = Fin 0).
  { revert Cl. unfold lower_arc, aset_s. destruct (xltb _ _); [discriminate|]. intros C.
    inversion C. cbn [a_s awith_s]. rewrite Is, xsub_fin. f_equal. ring. }
  assert (FU' : Forall2 (upper_image (Fin s0)) (rev (b ++ [u])) U).
  { eapply Forall2_impl; [|exact FU]. intros; apply upper_arc_image; assumption. }
  assert (FL' : Forall2 (lower_image (Fin s0)) (l :: t) Lo).
  { apply (Forall2_map_l _ neg_row (l :: t) Lo) in FL.
    eapply Forall2_impl; [|exact FL]. intros; apply lower_arc_image; assumption. }
  assert (QU : map a_s U = map Fin (map (fun s => s0 - s) (rev (sb ++ [su])))).
  { eapply upper_image_s; [exact FU'|]. rewrite !map_rev. f_equal. rewrite map_app. exact C1. }
  assert (QL : map a_s Lo = map Fin (map (fun s => s - s0) (sl :: s2))).
  { eapply lower_image_s; [exact FL'|]. cbn [map]. rewrite Els. f_equal. exact C2'. }
  exists (map (fun s => s0 - s) (rev (sb ++ [su]))), (map (fun s => s - s0) (sl :: s2)),
    (map (fun s => s - match ws with w :: _ => w | [] => 0 end) ws).
  unfold column, qs_upper, qs_lower, qs_wake.
  split; [rewrite <- EU'; cbn [map]; rewrite Ecu; f_equal; exact QU|].
  split.
  { apply StronglySorted_Sorted. constructor; [apply rev_sorted; exact S1|].
    apply Forall_forall. intros x Hx. apply in_map_iff in Hx. destruct Hx as (y & <- & Hy).
    apply in_rev in Hy. apply strong_app in S1. destruct S1 as (_ & _ & S1).
    apply in_app_or in Hy. destruct Hy as [Hy|[<-|[]]]; [|lra].
    rewrite Forall_forall in S1. specialize (S1 y Hy). inversion S1; subst. lra. }
  split; [rewrite <- EL'; cbn [map]; rewrite Ecl; f_equal; exact QL|].
  split.
  { apply StronglySorted_Sorted. constructor; [apply shift_sorted; exact S2|].
    apply Forall_forall. intros x Hx. apply in_map_iff in Hx. destruct Hx as (y & <- & Hy).
    inversion S2 as [|? ? _ K]; subst. destruct Hy as [<-|Hy]; [lra|].
    rewrite Forall_forall in K. specialize (K y Hy). lra. }
  unfold column in CW. destruct wake as [|w wt]; destruct ws as [|ww wst]; try discriminate.
  - inversion Fw. split; [reflexivity|]. split; [constructor|]. intros K. contradiction.
  - cbn [map] in CW. inversion CW as [[E1 E2]]. rewrite E1 in Fw.
    assert (Fw' : Forall2 (wake_image (Fin ww)) (w :: wt) (rd_wake r')).
    { eapply Forall2_impl; [|exact Fw]. intros; apply wset_s_image; assumption. }
    split; [eapply wake_image_s; [exact Fw'|]; cbn [map]; rewrite E1; f_equal; exact E2|].
    split; [apply StronglySorted_Sorted, shift_sorted, Sorted_strong; exact SW|].
    intros _. cbn [map nth_error]. f_equal. ring.
Qed.

End Text.
