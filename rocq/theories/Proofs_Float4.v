(* cal2dec and change_dates in double precision *)
From Coq Require Import ZArith List Bool Reals Lra Lia Ascii.
From Flocq Require Import Core.Core IEEE754.BinarySingleNaN.
From Verif Require Import Num Np NumFacts Float Spec_Float Utilities Spec_Utilities
  Proofs_Utilities2 Proofs_Utilities3 Proofs_Utilities4 Proofs_Float1 Proofs_Float2 Proofs_Float3.
Import ListNotations.
Local Open Scope R_scope.

(* the text handling does not depend on the arithmetic *)
Definition of_fields {T} `{Num T} (f : Z * Z * Z * Z * Z) : T :=
  let '(y, mo, d, h, mi) := f in
  if ((mo <? 13) && (0 <? mo) && (d <? 32) && (0 <? d))%Z then
    match cal2dec (mo - 1) d h mi with Ok x => nadd (nofZ y) (ndiv x (nofZ 365)) | Raise _ => nofZ 0 end
  else nofZ 0.

Lemma change_date_fields {T} `{Num T} ds : Forall is_dig ds -> (8 <= length ds)%nat ->
  change_date (map dig ds) = of_fields (fields ds) :> T.
Proof.
  intros Hd Hl. unfold change_date. rewrite !slice_map, map_length.
  rewrite !py_int_digs by (try (now apply slice_digs); apply slice_nonempty; lia).
  assert (Hh : (if (9 <? length ds)%nat then py_int (map dig (slice 8 10 ds)) else Some 0%Z)
               = Some (if (10 <=? length ds)%nat then dval (firstn 2 (skipn 8 ds)) else 0%Z)).
  { destruct (Nat.ltb_spec 9 (length ds)), (Nat.leb_spec 10 (length ds)); try lia; auto.
    apply (py_int_digs (slice 8 10 ds)); [now apply slice_digs|apply slice_nonempty; lia]. }
  assert (Hm : (if (11 <? length ds)%nat then py_int (map dig (slice 10 12 ds)) else Some 0%Z)
               = Some (if (12 <=? length ds)%nat then dval (firstn 2 (skipn 10 ds)) else 0%Z)).
  { destruct (Nat.ltb_spec 11 (length ds)), (Nat.leb_spec 12 (length ds)); try lia; auto.
    apply (py_int_digs (slice 10 12 ds)); [now apply slice_digs|apply slice_nonempty; lia]. }
  rewrite Hh, Hm. reflexivity.
Qed.

Lemma stamp_fields {T} `{Num T} y mo d h mi s : (1000 <= y <= 9999)%Z ->
  (0 <= mo <= 99)%Z -> (0 <= d <= 99)%Z -> (0 <= h <= 99)%Z -> (0 <= mi <= 99)%Z ->
  is_stamp y mo d h mi s -> change_date s = of_fields (y, mo, d, h, mi) :> T.
Proof.
  intros Hy Hm Hd Hh Hi [->|(sec & Hs & ->)]; unfold text12, text14.
  - rewrite change_date_fields.
    + unfold fields. cbn [length app d4 d2 Nat.leb firstn skipn].
      fold (d2 mo). fold (d2 d). fold (d2 h). fold (d2 mi). fold (d4 y).
      rewrite (proj2 (d2_dig mo Hm)), (proj2 (d2_dig d Hd)), (proj2 (d2_dig h Hh)), (proj2 (d2_dig mi Hi)).
      now rewrite (proj1 (proj2 (d4_dig y Hy))).
    + repeat (apply Forall_app; split); try apply d2_dig; try apply d4_dig; auto.
    + simpl. lia.
  - rewrite change_date_fields.
    + unfold fields. cbn [length app d4 d2 Nat.leb firstn skipn].
      fold (d2 mo). fold (d2 d). fold (d2 h). fold (d2 mi). fold (d4 y).
      rewrite (proj2 (d2_dig mo Hm)), (proj2 (d2_dig d Hd)), (proj2 (d2_dig h Hh)), (proj2 (d2_dig mi Hi)).
      now rewrite (proj1 (proj2 (d4_dig y Hy))).
    + repeat (apply Forall_app; split); try apply d2_dig; try apply d4_dig; auto.
    + simpl. lia.
Qed.

(* ---- errors ---- *)
Lemma p54 : bpow radix2 (-54) = / 18014398509481984. Proof. reflexivity. Qed.
Lemma p45 : bpow radix2 (-45) = / 35184372088832. Proof. reflexivity. Qed.
Lemma p40 : bpow radix2 (-40) = / 1099511627776. Proof. reflexivity. Qed.
Lemma rnd_1 r : Rabs r <= 1 -> Rabs (rnd r - r) <= / 18014398509481984.
Proof. intros L. rewrite <- p54. apply (rnd_err r 0); [lia|exact L]. Qed.
Lemma rnd_512' r : Rabs r <= 512 -> Rabs (rnd r - r) <= / 35184372088832.
Proof. intros L. rewrite <- p45. now apply rnd_512. Qed.
Lemma rnd_16384 r : Rabs r <= 16384 -> Rabs (rnd r - r) <= / 1099511627776.
Proof. intros L. rewrite <- p40. apply (rnd_err r 14); [lia|exact L]. Qed.

Lemma abs_split a b : Rabs a <= b -> - b <= a <= b.
Proof. intros H. apply Rabs_le_inv in H. lra. Qed.

(* the day of the year, up to 1/8 of 1e-12 *)
Lemma cal2dec_f64 m d h i : real_date m d h i -> exists x : f64, cal2dec m d h i = Ok x /\ finite x
  /\ 0 <= val x < 365
  /\ Rabs (val x - IZR (minute_of_year m d h i) / 1440) <= / 8000000000000.
Proof.
  intros R. pose proof (real_date_range _ _ _ _ R) as (Lo & Hi). destruct R as (Hm & Hd & Hh & Hmi).
  pose proof (days_before_range _ Hm) as (Db & Db'). unfold cal2dec.
  rewrite py_index_cum by (unfold month_ok; lia). destruct (Z.ltb_spec m 0); [lia|].
  set (D := (days_before m + d - 1)%Z). pose proof big_1000 as BIG.
  assert (HD : (0 <= D <= 364)%Z) by (unfold D; lia).
  destruct (ofZ_fin D ltac:(lia)) as (FD & ED). destruct (ofZ_fin h ltac:(lia)) as (Fh & Eh).
  destruct (ofZ_fin i ltac:(lia)) as (Fi & Ei). destruct (ofZ_fin 24 ltac:(lia)) as (F24 & E24).
  destruct (ofZ_fin 60 ltac:(lia)) as (F60 & E60). destruct (ofZ_fin 366 ltac:(lia)) as (F366 & E366).
  destruct HD as (D0 & D1). apply IZR_le in D0, D1.
  destruct Hh as (h0 & h1). apply IZR_le in h0, h1.
  destruct Hmi as (i0 & i1). apply IZR_le in i0, i1.
  assert (M : IZR (minute_of_year m d h i) / 1440 = IZR D + IZR h / 24 + IZR i / 60 / 24).
  { unfold minute_of_year. fold D. rewrite !plus_IZR, !mult_IZR, !plus_IZR, !mult_IZR. lra. }
  (* h / 24 *)
  destruct (div_fin (nofZ h) (nofZ 24) Fh ltac:(rewrite E24; lra)
              ltac:(rewrite Eh, E24; apply abs_le; lra)) as (F1 & E1).
  rewrite Eh, E24 in E1. set (t1 := ndiv (nofZ h) (nofZ 24)) in *.
  assert (B1 : 0 <= val t1) by (rewrite E1; apply (rnd_ge_Z _ 0); [lia|lra]).
  pose proof (abs_split _ _ (rnd_1 (IZR h / 24) ltac:(apply abs_le; lra))) as K1. rewrite <- E1 in K1.
  (* D + *)
  destruct (add_fin (nofZ D) t1 FD F1 ltac:(rewrite ED; apply abs_le; lra)) as (F2 & E2).
  rewrite ED in E2. set (t2 := nadd (nofZ D) t1) in *.
  assert (B2 : 0 <= val t2) by (rewrite E2; apply (rnd_ge_Z _ 0); [lia|lra]).
  pose proof (abs_split _ _ (rnd_512' (IZR D + val t1) ltac:(apply abs_le; lra))) as K2. rewrite <- E2 in K2.
  (* i / 60 / 24 *)
  destruct (div_fin (nofZ i) (nofZ 60) Fi ltac:(rewrite E60; lra)
              ltac:(rewrite Ei, E60; apply abs_le; lra)) as (F3 & E3).
  rewrite Ei, E60 in E3. set (t3 := ndiv (nofZ i) (nofZ 60)) in *.
  assert (B3 : 0 <= val t3) by (rewrite E3; apply (rnd_ge_Z _ 0); [lia|lra]).
  pose proof (abs_split _ _ (rnd_1 (IZR i / 60) ltac:(apply abs_le; lra))) as K3. rewrite <- E3 in K3.
  destruct (div_fin t3 (nofZ 24) F3 ltac:(rewrite E24; lra)
              ltac:(rewrite E24; apply abs_le; lra)) as (F4 & E4).
  rewrite E24 in E4. set (t4 := ndiv t3 (nofZ 24)) in *.
  assert (B4 : 0 <= val t4) by (rewrite E4; apply (rnd_ge_Z _ 0); [lia|lra]).
  pose proof (abs_split _ _ (rnd_1 (val t3 / 24) ltac:(apply abs_le; lra))) as K4. rewrite <- E4 in K4.
  (* sum *)
  destruct (add_fin t2 t4 F2 F4 ltac:(apply abs_le; lra)) as (F5 & E5).
  set (t5 := nadd t2 t4) in *.
  assert (B5 : 0 <= val t5) by (rewrite E5; apply (rnd_ge_Z _ 0); [lia|lra]).
  pose proof (abs_split _ _ (rnd_512' (val t2 + val t4) ltac:(apply abs_le; lra))) as K5. rewrite <- E5 in K5.
  assert (G : - / 8000000000000 <= val t5 - IZR (minute_of_year m d h i) / 1440 <= / 8000000000000)
    by (rewrite M; lra).
  assert (HH : IZR (minute_of_year m d h i) / 1440 <= 365 - / 1440).
  { assert (Q : (minute_of_year m d h i <= 525599)%Z) by lia. apply IZR_le in Q. lra. }
  assert (L5 : val t5 < 365) by lra.
  exists t5. rewrite (lt_finite _ _ F366 F5), E366.
  replace (Rltb 366 (val t5)) with false by (symmetry; apply Rltb_false; lra).
  split; [reflexivity|]. split; [exact F5|]. split; [lra|]. apply abs_le. exact G.
Qed.

(* order within the year *)
Lemma cal2dec_order_f64 m d h i m' d' h' i' :
  real_date m d h i -> real_date m' d' h' i' -> earlier (m, d, h, i) (m', d', h', i') ->
  exists a b : f64, cal2dec m d h i = Ok a /\ cal2dec m' d' h' i' = Ok b
    /\ finite a /\ finite b /\ 0 <= val a < val b /\ val b < 365
    /\ Rabs (val a - IZR (minute_of_year m d h i) / 1440) <= / 8000000000000.
Proof.
  intros R1 R2 E. pose proof (earlier_lt _ _ _ _ _ _ _ _ R1 R2 E) as C.
  destruct (cal2dec_f64 _ _ _ _ R1) as (a & A1 & A2 & A3 & A4).
  destruct (cal2dec_f64 _ _ _ _ R2) as (b & B1 & B2 & B3 & B4).
  exists a, b. repeat (split; [assumption|]). split; [|split; [lra|exact A4]].
  apply abs_split in A4. apply abs_split in B4.
  assert (Q : (minute_of_year m d h i + 1 <= minute_of_year m' d' h' i')%Z) by lia.
  apply IZR_le in Q. rewrite plus_IZR in Q. lra.
Qed.

(* the decimal year, up to 1e-12 *)
Lemma date_f64 y mo d h mi s : (1000 <= y <= 9999)%Z -> real_date (mo - 1) d h mi ->
  is_stamp y mo d h mi s -> exists v : f64, change_date s = v /\ finite v
  /\ IZR y <= val v < IZR y + 1
  /\ Rabs (val v - decimal_year (y, mo, d, h, mi)) <= / 1000000000000.
Proof.
  intros Hy R Hs. pose proof R as (Hm & Hd & _).
  destruct (real_date_fields _ _ _ _ R) as (A1 & A2 & A3 & A4).
  pose proof (mlen31 _ Hm).
  assert (W : change_date s = of_fields (y, mo, d, h, mi) :> f64) by (apply stamp_fields; assumption).
  unfold of_fields in W. destruct (Z.ltb_spec mo 13), (Z.ltb_spec 0 mo), (Z.ltb_spec d 32), (Z.ltb_spec 0 d); try lia.
  cbn [andb] in W. destruct (cal2dec_f64 _ _ _ _ R) as (x & E & F & B & C).
  rewrite E in W. pose proof big_1000 as BIG.
  destruct (ofZ_fin y ltac:(lia)) as (Fy & Ey). destruct (ofZ_fin 365 ltac:(lia)) as (F3 & E3).
  destruct Hy as (y0 & y1). apply IZR_le in y0, y1.
  destruct (div_fin x (nofZ 365) F ltac:(rewrite E3; lra)
              ltac:(rewrite E3; apply abs_le; lra)) as (F1 & E1).
  rewrite E3 in E1. set (q := ndiv x (nofZ 365)) in *.
  assert (B1 : 0 <= val q) by (rewrite E1; apply (rnd_ge_Z _ 0); [lia|lra]).
  pose proof (abs_split _ _ (rnd_1 (val x / 365) ltac:(apply abs_le; lra))) as K1. rewrite <- E1 in K1.
  destruct (add_fin (nofZ y) q Fy F1 ltac:(rewrite Ey; apply abs_le; lra)) as (F2 & E2).
  rewrite Ey in E2. set (v := nadd (nofZ y) q) in *.
  assert (B2 : IZR y <= val v).
  { rewrite E2. apply rnd_ge_Z; [|lra].
    apply le_IZR in y0, y1. lia. }
  pose proof (abs_split _ _ (rnd_16384 (IZR y + val q) ltac:(apply abs_le; lra))) as K2. rewrite <- E2 in K2.
  pose proof (decimal_year_real y mo d h mi R) as DY.
  pose proof (real_date_range _ _ _ _ R) as (Lo & Hi).
  assert (HH : IZR (minute_of_year (mo - 1) d h mi) / 1440 <= 365 - / 1440).
  { assert (Q : (minute_of_year (mo - 1) d h mi <= 525599)%Z) by lia. apply IZR_le in Q. lra. }
  apply abs_split in C.
  assert (G : - / 1000000000000 <= val v - decimal_year (y, mo, d, h, mi) <= / 1000000000000)
    by (rewrite DY; lra).
  exists v. split; [exact W|]. split; [exact F2|]. split; [rewrite DY in G; lra|]. now apply abs_le.
Qed.

Lemma change_dates_order_f64 y mo d h mi s y' mo' d' h' mi' s' :
  (1000 <= y <= 9999)%Z -> (1000 <= y' <= 9999)%Z ->
  real_date (mo - 1) d h mi -> real_date (mo' - 1) d' h' mi' ->
  is_stamp y mo d h mi s -> is_stamp y' mo' d' h' mi' s' ->
  exists v v' : f64, change_dates [s; s'] = [v; v'] /\ finite v /\ finite v'
    /\ IZR y <= val v < IZR y + 1 /\ IZR y' <= val v' < IZR y' + 1
    /\ Rabs (val v - decimal_year (y, mo, d, h, mi)) <= / 1000000000000
    /\ ((y < y')%Z \/ y = y' /\ earlier (mo, d, h, mi) (mo', d', h', mi') -> val v < val v').
Proof.
  intros Hy Hy' R1 R2 S1 S2.
  destruct (date_f64 _ _ _ _ _ _ Hy R1 S1) as (v & A1 & A2 & A3 & A4).
  destruct (date_f64 _ _ _ _ _ _ Hy' R2 S2) as (v' & B1 & B2 & B3 & B4).
  exists v, v'. split; [unfold change_dates; cbn [map]; now rewrite A1, B1|].
  repeat (split; [assumption|]). intros [L|(-> & E)].
  - assert (Q : (y + 1 <= y')%Z) by lia. apply IZR_le in Q. rewrite plus_IZR in Q. lra.
  - apply abs_split in A4. apply abs_split in B4. rewrite (decimal_year_real _ _ _ _ _ R1) in A4.
    rewrite (decimal_year_real _ _ _ _ _ R2) in B4.
    assert (Q : (minute_of_year (mo - 1) d h mi < minute_of_year (mo' - 1) d' h' mi')%Z).
    { apply earlier_lt; auto. unfold earlier in *. lia. }
    assert (Q' : (minute_of_year (mo - 1) d h mi + 1 <= minute_of_year (mo' - 1) d' h' mi')%Z) by lia.
    apply IZR_le in Q'. rewrite plus_IZR in Q'. lra.
Qed.

Lemma change_dates_feb29_f64 y h mi s s' :
  (1000 <= y <= 9999)%Z -> (0 <= h <= 23)%Z -> (0 <= mi <= 59)%Z ->
  is_stamp y 2 29 h mi s -> is_stamp y 3 1 h mi s' ->
  change_dates [s] = (change_dates [s'] : list f64).
Proof.
  intros Hy Hh Hi S1 S2. unfold change_dates. cbn [map].
  rewrite (stamp_fields y 2 29 h mi s) by (assumption || lia).
  rewrite (stamp_fields y 3 1 h mi s') by (assumption || lia). reflexivity.
Qed.
