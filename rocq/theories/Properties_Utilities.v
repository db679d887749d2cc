(* Properties C01-C12: pyowc/utilities.py *)
From Coq Require Import ZArith List Bool Reals Lra Lia Ascii Permutation.
From Verif Require Import Num Np NumFacts Utilities Spec_Utilities
  Proofs_Utilities Proofs_Utilities2 Proofs_Utilities3 Proofs_Utilities4.
Import ListNotations.
Local Open Scope R_scope.

(* ---- C01 ---- *)
Theorem C01_spatial_correlation : forall lo1 lo2 el la1 la2 ea d1 d2 eg phi p1 p2 : R,
  el <> 0 -> ea <> 0 -> eg <> 0 -> phi <> 0 ->
  exists v,
    spatial_correlation (Fin lo1) (Fin lo2) (Fin el) (Fin la1) (Fin la2) (Fin ea)
      (Fin d1) (Fin d2) (Fin eg) (Fin phi) (Fin p1) (Fin p2) = Ok (Fin v)
    /\ spatial_correlation (Fin lo2) (Fin lo1) (Fin el) (Fin la2) (Fin la1) (Fin ea)
      (Fin d2) (Fin d1) (Fin eg) (Fin phi) (Fin p2) (Fin p1) = Ok (Fin v)
    /\ 0 <= v
    /\ (p1 = 0 \/ p2 = 0 -> (v = 0 <-> lo1 = lo2 /\ la1 = la2 /\ d1 = d2))
    /\ (p1 <> 0 -> p2 <> 0 -> (v = 0 <-> lo1 = lo2 /\ la1 = la2 /\ d1 = d2 /\ p1 = p2)).
Proof. exact spatial_correlation_props. Qed.
Print Assumptions C01_spatial_correlation.

Theorem C01_spatial_correlation_formula : forall lo1 lo2 el la1 la2 ea d1 d2 eg phi p1 p2 : R,
  el <> 0 -> ea <> 0 -> eg <> 0 -> (p1 <> 0 -> p2 <> 0 -> phi <> 0) ->
  spatial_correlation (Fin lo1) (Fin lo2) (Fin el) (Fin la1) (Fin la2) (Fin ea)
    (Fin d1) (Fin d2) (Fin eg) (Fin phi) (Fin p1) (Fin p2)
  = Ok (Fin (scaled_distance2 lo1 lo2 el la1 la2 ea d1 d2 eg + vorticity_distance2 phi p1 p2)).
Proof. exact spatial_correlation_formula. Qed.
Print Assumptions C01_spatial_correlation_formula.

Theorem C01_zero_scale : forall lo1 lo2 el la1 la2 ea d1 d2 eg phi p1 p2 : R,
  el = 0 \/ ea = 0 \/ eg = 0 ->
  spatial_correlation (Fin lo1) (Fin lo2) (Fin el) (Fin la1) (Fin la2) (Fin ea)
    (Fin d1) (Fin d2) (Fin eg) (Fin phi) (Fin p1) (Fin p2) = Raise ZeroDivisionError.
Proof. exact spatial_correlation_zero_scale. Qed.
Print Assumptions C01_zero_scale.

Example C01_witness :
  spatial_correlation (Fin 54) (Fin 55) (Fin 4) (Fin (-58)) (Fin (-59)) (Fin 2)
    (Fin 2000) (Fin 2010) (Fin 10) (Fin (1/10)) (Fin 0) (Fin 0) = Ok (Fin (21/16)).
Proof.
  rewrite C01_spatial_correlation_formula by lra. unfold scaled_distance2, vorticity_distance2.
  destruct (Req_EM_T 0 0); [do 2 f_equal; lra|lra].
Qed.
Example C01_zero_scale_witness :
  spatial_correlation (Fin 54) (Fin 55) (Fin 0) (Fin (-58)) (Fin (-59)) (Fin 2)
    (Fin 2000) (Fin 2010) (Fin 10) (Fin (1/10)) (Fin 0) (Fin 0) = Raise ZeroDivisionError.
Proof. apply C01_zero_scale. now left. Qed.

(* ---- C02 ---- *)
Theorem C02_sorter_counts : forall bs ss : list R, ascending ss ->
  sorter (map Fin bs) (map Fin ss) = map (fun s => Z.of_nat (count_le s bs) - 1)%Z ss.
Proof. exact sorter_ascending. Qed.
Print Assumptions C02_sorter_counts.

Lemma asc3 : ascending [1; 2; 5/2].
Proof.
  intros i j [Hi Hj]. simpl in Hj.
  destruct i as [|[|[|i]]]; destruct j as [|[|[|j]]]; simpl; try lra; lia.
Qed.
Example C02_witness : sorter (map Fin [2; 1; 2]) (map Fin [1; 2; 5/2]) = [0; 2; 2]%Z.
Proof.
  rewrite C02_sorter_counts by exact asc3. cbn [map count_le].
  repeat (match goal with |- context [Rle_dec ?a ?b] => destruct (Rle_dec a b); try lra end). reflexivity.
Qed.

(* ---- C03 ---- *)
Theorem C03_sorter_unsorted : forall bs ss : list R,
  let r := sorter (map Fin bs) (map Fin ss) in
  length r = length ss
  /\ (forall i j, (i <= j < length r)%nat -> (nth i r 0 <= nth j r 0)%Z)
  /\ (forall z, In z r -> (-1 <= z <= Z.of_nat (length bs) - 1)%Z)
  /\ (forall ss', Permutation ss ss' -> sorter (map Fin bs) (map Fin ss') = r).
Proof. exact sorter_general. Qed.
Print Assumptions C03_sorter_unsorted.

Theorem C03_sorter_sorted_copy : forall bs ss : list R, exists ss',
  Permutation ss' ss /\ ascending ss'
  /\ sorter (map Fin bs) (map Fin ss) = map (fun s => Z.of_nat (count_le s bs) - 1)%Z ss'.
Proof. exact sorter_R. Qed.
Print Assumptions C03_sorter_sorted_copy.

(* the k-th entry is not the interval of sites[k] *)
Theorem C03_pointwise_refuted : exists bs ss : list R,
  sorter (map Fin bs) (map Fin ss) <> map (fun s => Z.of_nat (count_le s bs) - 1)%Z ss.
Proof.
  exists [2], [3; 1]. intros E.
  pose proof (C03_sorter_unsorted [2] [3; 1]) as (_ & Hm & _). rewrite E in Hm.
  specialize (Hm 0%nat 1%nat ltac:(simpl; lia)). cbn [map nth count_le] in Hm.
  destruct (Rle_dec 2 3), (Rle_dec 2 1); try lra. simpl in Hm. lia.
Qed.
Print Assumptions C03_pointwise_refuted.
Example C03_witness : sorter (map Fin [2; 1; 2]) (map Fin [5/2; 1; 2]) = [0; 2; 2]%Z.
Proof.
  transitivity (sorter (map Fin [2; 1; 2]) (map Fin [1; 2; 5/2])); [|exact C02_witness].
  apply C03_sorter_unsorted. change [5/2; 1; 2] with ([5/2] ++ [1; 2]).
  change [1; 2; 5/2] with ([1; 2] ++ [5/2]). apply Permutation_app_comm.
Qed.

(* ---- C04 ---- *)
Theorem C04_wrap_meridian : forall l : list R, exists l',
  wrap_longitude (map Fin l) = map Fin l' /\ length l' = length l
  /\ Forall2 same_meridian l l'
  /\ ((forall x, In x l -> -360 <= x <= 360) -> forall y, In y l' -> 0 <= y <= 400).
Proof. exact wrap_meridian. Qed.
Print Assumptions C04_wrap_meridian.

Ltac in_cases := repeat match goal with H : In _ (_ :: _) |- _ => destruct H as [<-|H] | H : In _ [] |- _ => destruct H end.
Example C04_witness : wrap_longitude (map Fin [-10; 20; 35; 350; 100]) = map Fin [350; 380; 395; 350; 100].
Proof.
  rewrite wrap_R. f_equal. unfold wrapR, seam, norm1. cbn [map existsb].
  reval. cbn [orb map]. reval. repeat f_equal; lra.
Qed.

(* ---- C05 ---- *)
Theorem C05_wrap_idempotent_no_split : forall l : list R, (forall x, In x l -> -360 <= x <= 360) ->
  wrap_longitude (wrap_longitude (map Fin l)) = wrap_longitude (map Fin l)
  /\ (forall y z, In (Fin y) (wrap_longitude (map Fin l)) -> In (Fin z) (wrap_longitude (map Fin l)) ->
        ~ (320 <= y /\ z <= 40)).
Proof. exact wrap_idem_nosplit. Qed.
Print Assumptions C05_wrap_idempotent_no_split.
Example C05_witness : wrap_longitude (map Fin [350; 380; 395; 350; 100]) = map Fin [350; 380; 395; 350; 100].
Proof.
  rewrite <- C04_witness. apply C05_wrap_idempotent_no_split. intros x Hx. in_cases; lra.
Qed.

(* ---- C06 ---- *)
Theorem C06_wrap_subset : forall (l : list R) (idx : list nat),
  (forall x, In x l -> -360 <= x <= 360) -> (forall i, In i idx -> (i < length l)%nat) ->
  (take (Fin 0) (wrap_longitude (map Fin l)) idx = wrap_longitude (take (Fin 0) (map Fin l) idx) <->
   (forall i, In i idx -> ~ east_of_seam (nth i l 0))
   \/ (exists i, In i idx /\ west_of_seam (nth i l 0))
   \/ (forall x, In x l -> ~ west_of_seam x)).
Proof. exact wrap_subset. Qed.
Print Assumptions C06_wrap_subset.

Theorem C06_wrap_cast : forall (l : list R) (k : nat) (x : R),
  (forall x, In x l -> -360 <= x <= 360) -> nth_error l k = Some x -> east_of_seam x ->
  let base := if Rlt_dec x 0 then x + 360 else x in
  (forall y, In y l -> ~ west_of_seam y) /\ nth_error (wrap_longitude (map Fin l)) k = Some (Fin base)
  \/ (exists y, In y l /\ west_of_seam y) /\ nth_error (wrap_longitude (map Fin l)) k = Some (Fin (base + 360)).
Proof. exact wrap_cast. Qed.
Print Assumptions C06_wrap_cast.

(* the region-wide value of cast 0 and its value in the sub-selection [0] differ *)
Example C06_witness : take (Fin 0) (wrap_longitude (map Fin [20; 350])) [0%nat]
  <> wrap_longitude (take (Fin 0) (map Fin [20; 350]) [0%nat]).
Proof.
  intros E. apply C06_wrap_subset in E.
  - unfold east_of_seam, west_of_seam in E. destruct E as [E|[(i & Hi & E)|E]].
    + apply (E 0%nat); simpl; auto. left. lra.
    + in_cases. simpl in E. lra.
    + apply (E 350); simpl; auto. right. lra.
  - intros x Hx. in_cases; lra.
  - intros i Hi. in_cases. simpl. lia.
Qed.

(* ---- C07 ---- *)
Theorem C07_potential_vorticity : forall lat z : R, z <> 0 ->
  exists v, potential_vorticity (Fin lat) (Fin z) = Ok (Fin v) /\ v <> 0
    /\ (sin (lat * PI / 180) <> 0 ->
          v = 2 * (7292 / 1000) / 100000 * sin (lat * PI / 180) / z
          /\ potential_vorticity (Fin (- lat)) (Fin z) = Ok (Fin (- v)))
    /\ (lat = 0 -> v = 1 / 100000)
    /\ (0 < z -> 0 < lat < 180 -> 0 < v)
    /\ (0 < z -> -180 < lat < 0 -> v < 0).
Proof. exact pv_props. Qed.
Print Assumptions C07_potential_vorticity.

Theorem C07_zero_depth : forall lat : R, potential_vorticity (Fin lat) (Fin 0) = Raise ZeroDivisionError.
Proof. exact pv_zero_depth. Qed.
Print Assumptions C07_zero_depth.

Example C07_witness : exists v, potential_vorticity (Fin 45) (Fin 3000) = Ok (Fin v) /\ 0 < v.
Proof.
  destruct (C07_potential_vorticity 45 3000 ltac:(lra)) as (v & E & _ & _ & _ & Hp & _).
  exists v. split; auto. apply Hp; lra.
Qed.

(* ---- C08 ---- *)
Theorem C08_cal2dec_errors : forall m d h mi : Z,
  let mm := (if (m <? 0)%Z then m + 13 else m)%Z in
  cal2dec m d h mi = Ok (Fin (IZR (minute_of_year mm d h mi) / 1440))
    /\ ((-13 <= m <= 12) /\ minute_of_year mm d h mi <= 366 * 1440)%Z
  \/ cal2dec m d h mi = Raise ValueError
    /\ ~ ((-13 <= m <= 12) /\ minute_of_year mm d h mi <= 366 * 1440)%Z.
Proof. exact cal2dec_discipline. Qed.
Print Assumptions C08_cal2dec_errors.

Example C08_witness_accepts : cal2dec (-2) 1 0 0 = Ok (Fin 334).
Proof.
  destruct (C08_cal2dec_errors (-2) 1 0 0) as [[E _]|[_ N]].
  - rewrite E. change (minute_of_year _ 1 0 0) with (334 * 1440)%Z. do 2 f_equal. rewrite mult_IZR. lra.
  - exfalso. apply N. split; [lia|]. vm_compute. discriminate.
Qed.
Example C08_witness_raises : cal2dec 13 1 0 0 = Raise ValueError (A := XR) /\ cal2dec 11 34 0 0 = Raise ValueError (A := XR).
Proof.
  split.
  - destruct (C08_cal2dec_errors 13 1 0 0) as [[_ N]|[E _]]; [lia|exact E].
  - destruct (C08_cal2dec_errors 11 34 0 0) as [[_ [_ N]]|[E _]]; [vm_compute in N; now elim N|exact E].
Qed.

(* ---- C09 ---- *)
Theorem C09_cal2dec_order : forall m d h i m' d' h' i' : Z,
  real_date m d h i -> real_date m' d' h' i' -> earlier (m, d, h, i) (m', d', h', i') ->
  exists a b, cal2dec m d h i = Ok (Fin a) /\ cal2dec m' d' h' i' = Ok (Fin b)
    /\ (0 <= a /\ a < b /\ b < 365)
    /\ a = IZR (minute_of_year m d h i) / 1440.
Proof. exact cal2dec_order. Qed.
Print Assumptions C09_cal2dec_order.
Example C09_witness : exists a b, cal2dec 1 28 23 59 = Ok (Fin a) /\ cal2dec 2 1 0 0 = Ok (Fin b) /\ a < b.
Proof.
  destruct (C09_cal2dec_order 1 28 23 59 2 1 0 0) as (a & b & A & B & C & _).
  - unfold real_date; simpl; lia.
  - unfold real_date; simpl; lia.
  - unfold earlier; lia.
  - exists a, b. tauto.
Qed.

(* ---- C10 ---- *)
Theorem C10_change_dates_pointwise : forall l : list (list ascii),
  length (change_dates l : list XR) = length l
  /\ (forall k s, nth_error l k = Some s ->
        exists v, nth_error (change_dates l) k = Some (Fin v) /\ change_dates [s] = [Fin v]
          /\ ((length s < 7)%nat -> v = 0)
          /\ ((exists c, In c (firstn 8 s) /\ ~ int_char c) -> v = 0)
          /\ (forall ds, Forall is_dig ds -> (8 <= length ds)%nat -> s = map dig ds ->
                v = decimal_year (fields ds))).
Proof. exact change_dates_total. Qed.
Print Assumptions C10_change_dates_pointwise.

(* month 13 gives 0; its neighbour is converted *)
Example C10_witness :
  change_dates [text8 2019 13 1; text8 2019 1 1] = [Fin 0; Fin 2019].
Proof.
  unfold change_dates, text8. cbn [map].
  rewrite !change_date_digs by (try (simpl; lia); repeat (apply Forall_app; split); try apply d2_dig; try apply d4_dig; lia).
  change (fields (d4 2019 ++ d2 13 ++ d2 1)) with (2019, 13, 1, 0, 0)%Z.
  change (fields (d4 2019 ++ d2 1 ++ d2 1)) with (2019, 1, 1, 0, 0)%Z.
  unfold decimal_year. cbn -[IZR]. repeat f_equal. change (minute_of_year 0 1 0 0) with 0%Z. lra.
Qed.

(* ---- C11 ---- *)
Theorem C11_change_dates_order : forall y mo d h mi s y' mo' d' h' mi' s',
  (1000 <= y <= 9999)%Z -> (1000 <= y' <= 9999)%Z ->
  real_date (mo - 1) d h mi -> real_date (mo' - 1) d' h' mi' ->
  is_stamp y mo d h mi s -> is_stamp y' mo' d' h' mi' s' ->
  exists v v', change_dates [s; s'] = [Fin v; Fin v']
    /\ IZR y <= v < IZR y + 1 /\ IZR y' <= v' < IZR y' + 1
    /\ ((y < y')%Z \/ y = y' /\ earlier (mo, d, h, mi) (mo', d', h', mi') -> v < v').
Proof. exact change_dates_order. Qed.
Print Assumptions C11_change_dates_order.

Theorem C11_feb29_collides : forall y h mi s s',
  (1000 <= y <= 9999)%Z -> (0 <= h <= 23)%Z -> (0 <= mi <= 59)%Z ->
  is_stamp y 2 29 h mi s -> is_stamp y 3 1 h mi s' ->
  exists v, change_dates [s; s'] = [Fin v; Fin v].
Proof. exact change_dates_feb29. Qed.
Print Assumptions C11_feb29_collides.

(* the text used above is str() of the integer timestamp *)
Theorem C11_str_of_timestamp : forall y mo d h mi s : Z,
  (1000 <= y <= 9999)%Z -> (0 <= mo <= 99)%Z -> (0 <= d <= 99)%Z ->
  (0 <= h <= 99)%Z -> (0 <= mi <= 99)%Z -> (0 <= s <= 99)%Z ->
  str_Z (stamp8 y mo d) = text8 y mo d /\ str_Z (stamp10 y mo d h) = text10 y mo d h
  /\ str_Z (stamp12 y mo d h mi) = text12 y mo d h mi /\ str_Z (stamp14 y mo d h mi s) = text14 y mo d h mi s.
Proof. exact str_stamps. Qed.
Print Assumptions C11_str_of_timestamp.

Example C11_witness : exists v v',
  change_dates [str_Z 19740201223748; str_Z 19740202171947] = [Fin v; Fin v'] /\ 1974 <= v < v' /\ v' < 1975.
Proof.
  destruct (C11_change_dates_order 1974 2 1 22 37 (str_Z 19740201223748) 1974 2 2 17 19 (str_Z 19740202171947))
    as (v & v' & E & A & B & C); try lia; try (unfold real_date; simpl; lia).
  - right. exists 48%Z. split; [lia|]. reflexivity.
  - right. exists 47%Z. split; [lia|]. reflexivity.
  - exists v, v'. split; auto. assert (v < v') by (apply C; right; split; auto; unfold earlier; lia). lra.
Qed.

(* ---- C12 ---- *)
Theorem C12_float_dates : forall y mo d h mi sec : Z,
  (1000 <= y <= 9999)%Z -> real_date (mo - 1) d h mi -> (0 <= sec <= 99)%Z ->
  (exists v, IZR y <= v /\ change_dates [text8 y mo d; text8 y mo d ++ dot_zero] = [Fin v; Fin 0])
  /\ (exists v, IZR y <= v /\ change_dates [text10 y mo d h; text10 y mo d h ++ dot_zero] = [Fin v; Fin 0])
  /\ (exists v, IZR y <= v /\ change_dates [text12 y mo d h mi; text12 y mo d h mi ++ dot_zero] = [Fin v; Fin v])
  /\ (exists v, IZR y <= v /\ change_dates [text14 y mo d h mi sec; text14 y mo d h mi sec ++ dot_zero] = [Fin v; Fin v]).
Proof. exact change_dates_float. Qed.
Print Assumptions C12_float_dates.
Example C12_witness : exists v, 1974 <= v /\
  change_dates [str_Z 19740201; str_Z 19740201 ++ dot_zero] = [Fin v; Fin 0].
Proof.
  destruct (C12_float_dates 1974 2 1 22 37 0) as [E _]; try lia; [unfold real_date; simpl; lia|].
  exact E.
Qed.
