(* Statement-shaped lemmas for the properties of pyowc/utilities.py *)
From Coq Require Import ZArith List Bool Reals Lra Lia Ascii Permutation.
From Verif Require Import Num Np NumFacts NpFacts Utilities Spec_Utilities
  Proofs_Utilities Proofs_Utilities2 Proofs_Utilities3.
Import ListNotations.
Local Open Scope R_scope.

Lemma spatial_correlation_formula lo1 lo2 el la1 la2 ea d1 d2 eg phi p1 p2 :
  el <> 0 -> ea <> 0 -> eg <> 0 -> (p1 <> 0 -> p2 <> 0 -> phi <> 0) ->
  spatial_correlation (Fin lo1) (Fin lo2) (Fin el) (Fin la1) (Fin la2) (Fin ea)
         (Fin d1) (Fin d2) (Fin eg) (Fin phi) (Fin p1) (Fin p2)
  = Ok (Fin (scaled_distance2 lo1 lo2 el la1 la2 ea d1 d2 eg + vorticity_distance2 phi p1 p2)).
Proof.
  intros He Ha Hg Hp. rewrite spatial_correlation_eval by auto. do 2 f_equal. f_equal.
  - unfold sepR, scaled_distance2. field. auto.
  - unfold vorticity_distance2. destruct (Req_EM_T p1 0) as [|N1]; auto. destruct (Req_EM_T p2 0) as [|N2]; auto.
    unfold pvR. specialize (Hp N1 N2).
    assert (P : 0 < p2 * p2 + p1 * p1) by nra.
    assert (S : sqrt (p2 * p2 + p1 * p1) <> 0) by (apply Rgt_not_eq, sqrt_lt_R0; auto).
    assert (E : sqrt (p2 * p2 + p1 * p1) * sqrt (p2 * p2 + p1 * p1) = p2 * p2 + p1 * p1)
      by (apply sqrt_sqrt; lra).
    transitivity ((p2 - p1) * (p2 - p1) / (sqrt (p2 * p2 + p1 * p1) * sqrt (p2 * p2 + p1 * p1)) / (phi * phi)).
    + field. auto.
    + rewrite E. field. split; auto. nra.
Qed.

Lemma wrap_meridian l : exists l', wrap_longitude (map Fin l) = map Fin l' /\ length l' = length l
  /\ Forall2 same_meridian l l'
  /\ ((forall x, In x l -> -360 <= x <= 360) -> forall y, In y l' -> 0 <= y <= 400).
Proof.
  exists (wrapR l). split; [apply wrap_R|]. split; [apply wrapR_length|].
  split; [apply wrapR_meridian|apply wrapR_range].
Qed.

Lemma wrap_idem_nosplit l : (forall x, In x l -> -360 <= x <= 360) ->
  wrap_longitude (wrap_longitude (map Fin l)) = wrap_longitude (map Fin l)
  /\ (forall y z, In (Fin y) (wrap_longitude (map Fin l)) -> In (Fin z) (wrap_longitude (map Fin l)) ->
        ~ (320 <= y /\ z <= 40)).
Proof.
  intros Hl. rewrite !wrap_R. split.
  - now rewrite wrapR_idem.
  - intros y z Hy Hz. apply in_map_iff in Hy as (y' & Ey & Hy). apply in_map_iff in Hz as (z' & Ez & Hz).
    injection Ey as <-. injection Ez as <-. eapply wrapR_no_split; eauto.
Qed.

Lemma wrap_subset l idx :
  (forall x, In x l -> -360 <= x <= 360) -> (forall i, In i idx -> (i < length l)%nat) ->
  (take (Fin 0) (wrap_longitude (map Fin l)) idx = wrap_longitude (take (Fin 0) (map Fin l) idx) <->
   (forall i, In i idx -> ~ east_of_seam (nth i l 0))
   \/ (exists i, In i idx /\ west_of_seam (nth i l 0))
   \/ (forall x, In x l -> ~ west_of_seam x)).
Proof.
  intros Hl Hi.
  assert (E : take (Fin 0) (map Fin l) idx = map Fin (take 0 l idx)).
  { unfold take. rewrite map_map. apply map_ext. intros i. apply map_nth. }
  rewrite E, !wrap_R.
  assert (E2 : take (Fin 0) (map Fin (wrapR l)) idx = map Fin (take 0 (wrapR l) idx)).
  { unfold take. rewrite map_map. apply map_ext. intros i. apply map_nth. }
  rewrite E2. rewrite <- (wrapR_take l idx Hl Hi). split.
  - apply map_inj_Fin.
  - now intros ->.
Qed.

Lemma wrap_cast l k x : (forall x, In x l -> -360 <= x <= 360) -> nth_error l k = Some x ->
  east_of_seam x ->
  let base := if Rlt_dec x 0 then x + 360 else x in
  (forall y, In y l -> ~ west_of_seam y) /\ nth_error (wrap_longitude (map Fin l)) k = Some (Fin base)
  \/ (exists y, In y l /\ west_of_seam y) /\ nth_error (wrap_longitude (map Fin l)) k = Some (Fin (base + 360)).
Proof.
  intros Hl Hk He base.
  assert (Hx : -360 <= x <= 360) by (apply Hl; eapply nth_error_In; eauto).
  assert (Hb : norm1 x = base).
  { unfold base, norm1. destruct (Rlt_dec x 0); rcase; rb; lra. }
  apply (east_norm x Hx) in He.
  rewrite wrap_R. unfold wrapR. destruct (seam l) eqn:E.
  - right. split.
    + apply seam_true in E as (y & Hy & E). exists y. split; auto. apply west_norm; auto.
    + rewrite !nth_error_map, Hk. cbn [option_map]. rcase; rb; [|lra]. do 2 f_equal. lra.
  - left. split.
    + intros y Hy W. apply west_norm in W; [|auto].
      assert (seam l = true) by (apply seam_true; eauto). congruence.
    + rewrite !nth_error_map, Hk. cbn [option_map]. now rewrite Hb.
Qed.

Lemma change_dates_pointwise {T} `{Num T} (l : list (list ascii)) :
  length (change_dates l : list T) = length l
  /\ forall k s, nth_error l k = Some s -> nth_error (change_dates l : list T) k = Some (change_date s).
Proof.
  unfold change_dates. split; [apply map_length|]. intros k s Hk. now rewrite nth_error_map, Hk.
Qed.

(* one date alone *)
Definition date_value (s : list ascii) (v : R) : Prop := change_dates [s] = [Fin v].

Lemma date_value_iff s v : date_value s v <-> change_date s = Fin v.
Proof. unfold date_value, change_dates. cbn [map]. split; [now intros [= ->]|now intros ->]. Qed.

Lemma change_dates_total (l : list (list ascii)) :
  length (change_dates l : list XR) = length l
  /\ (forall k s, nth_error l k = Some s ->
        exists v, nth_error (change_dates l) k = Some (Fin v) /\ change_dates [s] = [Fin v]
          /\ ((length s < 7)%nat -> v = 0)
          /\ ((exists c, In c (firstn 8 s) /\ ~ int_char c) -> v = 0)
          /\ (forall ds, Forall is_dig ds -> (8 <= length ds)%nat -> s = map dig ds ->
                v = decimal_year (fields ds))).
Proof.
  split; [apply change_dates_pointwise|]. intros k s Hk.
  assert (Hv : exists v, change_date s = Fin v).
  { unfold change_date. destruct (py_int (slice 0 4 s)) as [y|]; [|now eexists].
    destruct (py_int (slice 4 6 s)) as [mo|]; [|now eexists].
    destruct (py_int (slice 6 8 s)) as [d|]; [|now eexists].
    destruct (if (9 <? length s)%nat then py_int (slice 8 10 s) else Some 0%Z) as [h|]; [|now eexists].
    destruct (if (11 <? length s)%nat then py_int (slice 10 12 s) else Some 0%Z) as [mi|]; [|now eexists].
    destruct ((mo <? 13) && (0 <? mo) && (d <? 32) && (0 <? d))%Z eqn:E; [|now eexists].
    repeat (apply andb_prop in E as [E ?]).
    rewrite cal2dec_eval by (unfold month_ok; lia). cbv zeta.
    destruct (Z.leb _ _); [|now eexists]. cbn [nofZ XR_Num]. rewrite ndiv_fin by lra. now eexists. }
  destruct Hv as [v Hv]. exists v.
  split; [rewrite <- Hv; now apply change_dates_pointwise|].
  split; [now apply date_value_iff|].
  split; [|split].
  - intros Hs. rewrite change_date_short in Hv by auto. congruence.
  - intros (c & Hc & Hb). rewrite (change_date_bad_char s c) in Hv by auto. congruence.
  - intros ds Hd Hl ->. rewrite change_date_digs in Hv by auto. congruence.
Qed.

Lemma is_stamp_value y mo d h mi s : year_ok y -> (0 <= mo <= 99)%Z -> (0 <= d <= 99)%Z ->
  (0 <= h <= 99)%Z -> (0 <= mi <= 99)%Z ->
  is_stamp y mo d h mi s -> date_value s (decimal_year (y, mo, d, h, mi)).
Proof.
  intros Hy Hm Hd Hh Hi [->|(sec & Hs & ->)]; apply date_value_iff.
  - unfold text12. rewrite <- str_stamp12 by auto. now apply change_stamp12.
  - unfold text14. rewrite <- str_stamp14 by auto. now apply change_stamp14.
Qed.

Lemma change_dates_order y mo d h mi s y' mo' d' h' mi' s' :
  (1000 <= y <= 9999)%Z -> (1000 <= y' <= 9999)%Z ->
  real_date (mo - 1) d h mi -> real_date (mo' - 1) d' h' mi' ->
  is_stamp y mo d h mi s -> is_stamp y' mo' d' h' mi' s' ->
  exists v v', change_dates [s; s'] = [Fin v; Fin v']
    /\ IZR y <= v < IZR y + 1 /\ IZR y' <= v' < IZR y' + 1
    /\ ((y < y')%Z \/ y = y' /\ earlier (mo, d, h, mi) (mo', d', h', mi') -> v < v').
Proof.
  intros Hy Hy' R1 R2 S1 S2.
  destruct (real_date_fields _ _ _ _ R1) as (A1 & A2 & A3 & A4).
  destruct (real_date_fields _ _ _ _ R2) as (B1 & B2 & B3 & B4).
  apply is_stamp_value, date_value_iff in S1; auto. apply is_stamp_value, date_value_iff in S2; auto.
  exists (decimal_year (y, mo, d, h, mi)), (decimal_year (y', mo', d', h', mi')).
  split. { unfold change_dates. cbn [map]. now rewrite S1, S2. }
  split; [now apply decimal_year_in_year|]. split; [now apply decimal_year_in_year|].
  now apply decimal_year_order.
Qed.

Lemma change_dates_feb29 y h mi s s' :
  (1000 <= y <= 9999)%Z -> (0 <= h <= 23)%Z -> (0 <= mi <= 59)%Z ->
  is_stamp y 2 29 h mi s -> is_stamp y 3 1 h mi s' ->
  exists v, change_dates [s; s'] = [Fin v; Fin v].
Proof.
  intros Hy Hh Hi S1 S2.
  apply is_stamp_value, date_value_iff in S1; unfold year_ok; try lia.
  apply is_stamp_value, date_value_iff in S2; unfold year_ok; try lia.
  exists (decimal_year (y, 3, 1, h, mi)%Z). unfold change_dates. cbn [map].
  rewrite S1, S2, decimal_year_feb29; auto.
Qed.

Lemma change_dates_float y mo d h mi sec :
  (1000 <= y <= 9999)%Z -> real_date (mo - 1) d h mi -> (0 <= sec <= 99)%Z ->
  (exists v, IZR y <= v /\ change_dates [text8 y mo d; text8 y mo d ++ dot_zero] = [Fin v; Fin 0])
  /\ (exists v, IZR y <= v /\ change_dates [text10 y mo d h; text10 y mo d h ++ dot_zero] = [Fin v; Fin 0])
  /\ (exists v, IZR y <= v /\ change_dates [text12 y mo d h mi; text12 y mo d h mi ++ dot_zero] = [Fin v; Fin v])
  /\ (exists v, IZR y <= v /\ change_dates [text14 y mo d h mi sec; text14 y mo d h mi sec ++ dot_zero] = [Fin v; Fin v]).
Proof.
  intros Hy R1 Hs.
  destruct (real_date_fields _ _ _ _ R1) as (A1 & A2 & A3 & A4).
  assert (R8 : real_date (mo - 1) d 0 0) by (unfold real_date in *; lia).
  assert (R10 : real_date (mo - 1) d h 0) by (unfold real_date in *; lia).
  assert (G : forall n v w, IZR y <= v -> change_date n = Fin v -> change_date (n ++ dot_zero) = Fin w ->
     exists v, IZR y <= v /\ change_dates [n; n ++ dot_zero] = [Fin v; Fin w]).
  { intros n v w Hv E1 E2. exists v. split; auto. unfold change_dates. cbn [map]. now rewrite E1, E2. }
  assert (G' : forall n v, IZR y <= v -> change_date n = Fin v -> (12 <= length n)%nat ->
     exists v, IZR y <= v /\ change_dates [n; n ++ dot_zero] = [Fin v; Fin v]).
  { intros n v Hv E1 Hl. exists v. split; auto. unfold change_dates. cbn [map].
    rewrite change_date_suffix by auto. now rewrite E1. }
  unfold text8, text10, text12, text14.
  rewrite <- str_stamp8, <- str_stamp10, <- str_stamp12, <- str_stamp14 by auto.
  split; [|split; [|split]].
  - eapply G; [|now apply change_stamp8|].
    + apply (decimal_year_in_year y mo d 0 0 R8).
    + apply change_date_dot_zero_8. rewrite str_stamp8 by auto. reflexivity.
  - eapply G; [|now apply change_stamp10|].
    + apply (decimal_year_in_year y mo d h 0 R10).
    + apply change_date_dot_zero_10. rewrite str_stamp10 by auto. reflexivity.
  - eapply G'; [|now apply change_stamp12|].
    + apply (decimal_year_in_year y mo d h mi R1).
    + rewrite str_stamp12 by auto. simpl. lia.
  - eapply G'; [|now apply change_stamp14|].
    + apply (decimal_year_in_year y mo d h mi R1).
    + rewrite str_stamp14 by auto. simpl. lia.
Qed.

Lemma str_stamps y mo d h mi s : (1000 <= y <= 9999)%Z -> (0 <= mo <= 99)%Z -> (0 <= d <= 99)%Z ->
  (0 <= h <= 99)%Z -> (0 <= mi <= 99)%Z -> (0 <= s <= 99)%Z ->
  str_Z (stamp8 y mo d) = text8 y mo d /\ str_Z (stamp10 y mo d h) = text10 y mo d h
  /\ str_Z (stamp12 y mo d h mi) = text12 y mo d h mi /\ str_Z (stamp14 y mo d h mi s) = text14 y mo d h mi s.
Proof.
  intros. split; [|split; [|split]];
    [now apply str_stamp8|now apply str_stamp10|now apply str_stamp12|now apply str_stamp14].
Qed.
