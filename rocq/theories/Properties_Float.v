(* Properties in double precision: the model functions at the instance F64_Num of Float.v *)
From Coq Require Import ZArith List Bool Reals Lra Lia Permutation Ascii.
From Flocq Require Import Core.Core IEEE754.BinarySingleNaN.
From Verif Require Import Num Np NumFacts Float Spec_Float Utilities Spec_Utilities Finders Spec_Finders Stats
  Proofs_Utilities3 Proofs_Float1 Proofs_Float2 Proofs_Float3 Proofs_Float4 Proofs_Float5 Proofs_Float6 Proofs_Float7 Proofs_Float8 Proofs_Float9 Proofs_Float12.
Import ListNotations.
Local Open Scope R_scope.

(* ---- C125 ---- *)
Theorem C125_sorter_counts : forall bs ss : list f64, Forall finite bs -> Forall finite ss ->
  ascending (map val ss) ->
  sorter bs ss = map (fun s => Z.of_nat (count_le (val s) (map val bs)) - 1)%Z ss.
Proof. exact sorter_ascending_f64. Qed.
Print Assumptions C125_sorter_counts.

Theorem C125_sorter_general : forall bs ss : list f64, Forall finite bs -> Forall finite ss ->
  let r := sorter bs ss in
  length r = length ss
  /\ (forall i j, (i <= j < length r)%nat -> (nth i r 0 <= nth j r 0)%Z)
  /\ (forall z, In z r -> (-1 <= z <= Z.of_nat (length bs) - 1)%Z)
  /\ (forall ss', Permutation ss ss' -> sorter bs ss' = r).
Proof. exact sorter_general_f64. Qed.
Print Assumptions C125_sorter_general.

(* 0.1 + 0.2 is above the boundary 0.3 *)
Example C125_witness :
  sorter [nofZ 1; nq 3 10; nofZ 2] [nq 1 10; nadd (nq 1 10) (nq 2 10); nofZ 2 : f64] = [-1; 0; 2]%Z
  /\ Forall finite [nofZ 1; nq 3 10; nofZ 2] /\ Forall finite [nq 1 10; nadd (nq 1 10) (nq 2 10); nofZ 2].
Proof. split; [vm_compute; reflexivity|]. split; repeat constructor. Qed.

(* ---- C126 ---- *)
Theorem C126_wrap_range : forall l : list f64, Forall in360 l ->
  Forall (fun y => finite y /\ 0 <= val y <= 400) (wrap_longitude l).
Proof. exact wrap_range_f64. Qed.
Print Assumptions C126_wrap_range.

Theorem C126_wrap_near : forall l : list f64, Forall in360 l ->
  Forall2 (fun x y => near_meridian (val x) (val y)) l (wrap_longitude l).
Proof. exact wrap_near_f64. Qed.
Print Assumptions C126_wrap_near.

Theorem C126_wrap_seam : forall l : list f64, Forall in360 l ->
  forall y z, In y (wrap_longitude l) -> In z (wrap_longitude l) -> ~ (320 <= val y /\ val z <= 40).
Proof. exact wrap_seam_f64. Qed.
Print Assumptions C126_wrap_seam.

Theorem C126_wrap_idempotent : forall l : list f64, Forall in360 l ->
  wrap_longitude (wrap_longitude l) = wrap_longitude l.
Proof. exact wrap_idem_f64. Qed.
Print Assumptions C126_wrap_idempotent.

Theorem C126_wrap_exact_refuted : exists x y : f64, in360 x /\ wrap_longitude [x] = [y] /\ ~ same_meridian (val x) (val y).
Proof. exact wrap_inexact. Qed.
Print Assumptions C126_wrap_exact_refuted.

(* -0.1 and 0.1 end up next to each other above 359 *)
Example C126_witness : Forall in360 [nq (-1) 10; nq 1 10]
  /\ Forall (fun y => 359 <= val y) (wrap_longitude [nq (-1) 10; nq 1 10]).
Proof.
  assert (V : val (nq 1 10) = 3602879701896397/36028797018963968) by (erewrite val_of by (vm_compute; reflexivity); cbn; lra).
  assert (W : val (nq (-1) 10) = - 3602879701896397/36028797018963968) by (erewrite val_of by (vm_compute; reflexivity); cbn; lra).
  split; [repeat constructor; rewrite ?V, ?W; lra|].
  change (Forall (fun y => 359 <= val y) [nadd (nq (-1) 10) (nofZ 360); nadd (nofZ 360) (nq 1 10)]).
  repeat constructor; erewrite val_of by (vm_compute; reflexivity); cbn; lra.
Qed.

(* ---- C127 ---- *)
Theorem C127_cal2dec_order : forall m d h i m' d' h' i' : Z,
  real_date m d h i -> real_date m' d' h' i' -> earlier (m, d, h, i) (m', d', h', i') ->
  exists a b : f64, cal2dec m d h i = Ok a /\ cal2dec m' d' h' i' = Ok b
    /\ finite a /\ finite b /\ 0 <= val a < val b /\ val b < 365
    /\ Rabs (val a - IZR (minute_of_year m d h i) / 1440) <= / 8000000000000.
Proof. exact cal2dec_order_f64. Qed.
Print Assumptions C127_cal2dec_order.

Theorem C127_change_dates_order : forall y mo d h mi s y' mo' d' h' mi' s',
  (1000 <= y <= 9999)%Z -> (1000 <= y' <= 9999)%Z ->
  real_date (mo - 1) d h mi -> real_date (mo' - 1) d' h' mi' ->
  is_stamp y mo d h mi s -> is_stamp y' mo' d' h' mi' s' ->
  exists v v' : f64, change_dates [s; s'] = [v; v'] /\ finite v /\ finite v'
    /\ IZR y <= val v < IZR y + 1 /\ IZR y' <= val v' < IZR y' + 1
    /\ Rabs (val v - decimal_year (y, mo, d, h, mi)) <= / 1000000000000
    /\ ((y < y')%Z \/ y = y' /\ earlier (mo, d, h, mi) (mo', d', h', mi') -> val v < val v').
Proof. exact change_dates_order_f64. Qed.
Print Assumptions C127_change_dates_order.

Theorem C127_feb29_collides : forall y h mi s s',
  (1000 <= y <= 9999)%Z -> (0 <= h <= 23)%Z -> (0 <= mi <= 59)%Z ->
  is_stamp y 2 29 h mi s -> is_stamp y 3 1 h mi s' ->
  change_dates [s] = (change_dates [s'] : list f64).
Proof. exact change_dates_feb29_f64. Qed.
Print Assumptions C127_feb29_collides.

(* one minute apart in the year 9999, where doubles are farthest apart *)
Example C127_witness : exists v v' : f64,
  change_dates [text12 9999 12 31 23 58; text12 9999 12 31 23 59] = [v; v'] /\ val v < val v' < 10000.
Proof.
  destruct (C127_change_dates_order 9999 12 31 23 58 (text12 9999 12 31 23 58) 9999 12 31 23 59 (text12 9999 12 31 23 59))
    as (v & v' & E & _ & _ & _ & B & _ & O); try lia.
  - unfold real_date; simpl; lia.
  - unfold real_date; simpl; lia.
  - left; reflexivity.
  - left; reflexivity.
  - exists v, v'. split; [exact E|]. split; [|lra]. apply O. right. split; [reflexivity|]. unfold earlier. lia.
Qed.

(* ---- C128 ---- *)
Theorem C128_boxes : forall (x y : f64) (tbl : list (list f64)), finite x -> finite y ->
  0 <= val x < 360 -> -7001/100 <= val y <= 6999/100 ->
  away (val x + 1 / 100) -> away (val y + 1 / 100) -> length tbl = 648%nat ->
  exists ns, length ns = 25%nat /\ NoDup ns
   /\ find_25boxes x y tbl = Ok (map (fun n => nth (n - 1) tbl []) ns)
   /\ (forall i j, (i < 5)%nat -> (j < 5)%nat ->
        box_covers (nth (5 * i + j) ns 0%nat) (val x + nth j offsets 0) (val y + nth i offsets 0))
   /\ (forall i j, (i < 5)%nat -> (j < 5)%nat ->
        let n := nth (5 * i + j) ns 0%nat in let n0 := nth 0 ns 0%nat in
        (exists k, box_lon n = box_lon n0 + 10 * nth j shifts 0 + 360 * k)%Z
        /\ box_latN n = (box_latN n0 + 10 * nth i shifts 0)%Z).
Proof. exact boxes_f64. Qed.
Print Assumptions C128_boxes.

Theorem C128_boxes_refuted : exists x y : f64, finite x /\ finite y
  /\ 0 <= val x < 360 /\ -7001/100 <= val y <= 6999/100
  /\ forall tbl : list (list f64), length tbl = 648%nat ->
     exists ns, find_25boxes x y tbl = Ok (map (fun n => nth (n - 1) tbl []) ns)
       /\ length ns = 25%nat /\ (length (nodup Nat.eq_dec ns) = 20)%nat
       /\ forall n, box_covers n (val x - 20) (val y) -> ~ In n ns.
Proof. exact boxes_column_f64. Qed.
Print Assumptions C128_boxes_refuted.

(* longitude 33.5, latitude -45 *)
Example C128_witness :
  let x := nq 335 10 in let y := nofZ (-45) in
  away (val x + 1 / 100) /\ away (val y + 1 / 100)
  /\ box_numbers x y = [68; 86; 50; 104; 32; 67; 85; 49; 103; 31; 69; 87; 51; 105; 33; 66; 84; 48; 102; 30; 70; 88; 52; 106; 34]%nat.
Proof.
  cbv zeta. assert (V : val (nq 335 10) = 67 / 2) by (erewrite val_of by (vm_compute; reflexivity); cbn; lra).
  assert (W : val (nofZ (-45)) = -45) by (apply k_ok; lia). rewrite V, W.
  assert (A : forall (k : Z) r a, (10 * a + 1 / 10 <= r <= 10 * a + 99 / 10)%R -> (exists z, a = IZR z) -> tiny < Rabs (r - 10 * IZR k)).
  { intros k r a B (z & ->). unfold tiny. destruct (Z_le_gt_dec k z) as [L|L].
    - apply IZR_le in L. rewrite Rabs_pos_eq; lra.
    - assert (z + 1 <= k)%Z as L' by lia. apply IZR_le in L'. rewrite plus_IZR in L'. rewrite Rabs_left1; lra. }
  split; [|split; [|vm_compute; reflexivity]].
  - intros k. apply (A k _ 3); [lra|now exists 3%Z].
  - intros k. apply (A k _ (-5)); [lra|now exists (-5)%Z].
Qed.

(* ---- C129 ---- *)
Theorem C129_covariance_transposed : forall (E : NumT f64) (p1 p2 : list (point f64)) la lo age phi use m,
  covar_xyt_pv p1 p2 la lo age phi use = Ok m ->
  exists m', covar_xyt_pv p2 p1 la lo age phi use = Ok m' /\ forall i j, m' j i = m i j.
Proof. exact @covar_transposed. Qed.
Print Assumptions C129_covariance_transposed.

Theorem C129_covariance_bounds : forall (E : NumT f64) (p1 p2 : list (point f64)) la lo age phi m, exp_ok E ->
  good_scale la -> good_scale lo -> good_scale age -> Forall good_point p1 -> Forall good_point p2 ->
  covar_xyt_pv p1 p2 la lo age phi 0 = Ok m ->
  forall i j, (i < length p1)%nat -> (j < length p2)%nat ->
  finite (m i j) /\ 0 <= val (m i j) <= 1 /\ (nth i p1 dpoint = nth j p2 dpoint -> val (m i j) = 1).
Proof. exact covar_bounds. Qed.
Print Assumptions C129_covariance_bounds.

Example C129_witness : exp_ok demo_exp /\ good_scale (nq 1 10) /\ good_point (mkPoint (nq (-4567) 100) (nq 3999 100) (nq 20105 10) (nofZ 3000))
  /\ exists m, @covar_xyt_pv _ _ demo_exp [mkPoint (nq (-4567) 100) (nq 3999 100) (nq 20105 10) (nofZ 3000)]
       [mkPoint (nq (-4567) 100) (nq 4009 100) (nq 20105 10) (nofZ 3000)] (nq 1 10) (nq 1 10) (nq 1 10) (nq 1 10) 0 = Ok m
     /\ 0 < val (m 0%nat 0%nat) < 1.
Proof.
  split; [exact demo_exp_ok|]. split.
  { split; [reflexivity|]. erewrite val_of by (vm_compute; reflexivity). cbn. lra. }
  split; [repeat split|]. eexists. split; [reflexivity|]. cbv beta.
  erewrite val_of by (vm_compute; reflexivity). cbn. lra.
Qed.

(* ---- C130 ---- *)
Theorem C130_spatial_symmetric : forall lo1 lo2 el la1 la2 ea d1 d2 eg phi p1 p2 : f64,
  spatial_correlation lo2 lo1 el la2 la1 ea d2 d1 eg phi p2 p1
  = spatial_correlation lo1 lo2 el la1 la2 ea d1 d2 eg phi p1 p2.
Proof. exact spatial_sym. Qed.
Print Assumptions C130_spatial_symmetric.

Theorem C130_ellipse_symmetric : forall lo1 lo2 sl la1 la2 sa phi p1 p2 : f64,
  find_ellipse lo2 lo1 sl la2 la1 sa phi p2 p1 = find_ellipse lo1 lo2 sl la1 la2 sa phi p1 p2.
Proof. exact ellipse_sym. Qed.
Print Assumptions C130_ellipse_symmetric.

Example C130_witness : exists v : f64, spatial_correlation (nq 541 10) (nq 553 10) (nofZ 4) (nofZ (-58)) (nofZ (-59)) (nofZ 2)
    (nofZ 2000) (nofZ 2010) (nofZ 10) (nq 1 10) (nq 1 7) (nq 1 9) = Ok v /\ finite v /\ 0 < val v.
Proof.
  eexists. split; [reflexivity|]. split; [vm_compute; reflexivity|]. erewrite val_of by (vm_compute; reflexivity). cbn. lra.
Qed.

(* ---- C131 ---- *)
Theorem C131_signal_variance : forall l : list f64, Forall (fun x => finite x \/ nisnan x = true) l -> countable l ->
  forall v, signal_variance l = Ok v -> nonneg v.
Proof. exact signal_variance_f64. Qed.
Print Assumptions C131_signal_variance.

Theorem C131_noise_variance : forall (casts : list (obs f64)) (s : f64), finite s -> countable casts ->
  Forall (fun c => o_sal c = s) casts ->
  forall v, noise_variance casts = Ok v -> v = B754_zero false.
Proof. exact noise_variance_f64. Qed.
Print Assumptions C131_noise_variance.

Theorem C131_constant_refuted : exists s : f64, finite s
  /\ exists v, signal_variance (repeat s 7) = Ok v /\ 0 < val v.
Proof. exact variance_inexact. Qed.
Print Assumptions C131_constant_refuted.

Example C131_witness : exists v, noise_variance [mkObs (nq 3405 100) (nofZ 1) (nofZ 2); mkObs (nq 3405 100) (nofZ 3) (nofZ 5);
  mkObs (nq 3405 100) (nofZ 1) (nq 1 10) : obs f64] = Ok v.
Proof. eexists. vm_compute. reflexivity. Qed.

(* ---- C132 ---- *)
Theorem C132_nearest : forall A (xs ys : list f64) (table : nat -> nat -> A) (x y : f64), xs <> [] -> ys <> [] ->
  finite x -> finite y ->
  Forall (fun a => finite a /\ Rabs (val a - val x) <= 512) xs ->
  Forall (fun a => finite a /\ Rabs (val a - val y) <= 512) ys ->
  exists i j, nearest_neighbour xs ys table x y = table j i
    /\ (i < length xs)%nat /\ (j < length ys)%nat
    /\ (forall k, (k < length xs)%nat ->
          Rabs (val (nth i xs nnan) - val x) <= Rabs (val (nth k xs nnan) - val x) + 2 * half_ulp)
    /\ (forall k, (k < length ys)%nat ->
          Rabs (val (nth j ys nnan) - val y) <= Rabs (val (nth k ys nnan) - val y) + 2 * half_ulp).
Proof. exact @nearest_f64. Qed.
Print Assumptions C132_nearest.
Example C132_witness : nearest_neighbour [nofZ 1; nofZ 3] [nofZ 0; nofZ 5] (fun j i => (j, i)) (nq 21 10 : f64) (nofZ 4) = (1, 1)%nat.
Proof. vm_compute. reflexivity. Qed.

(* ---- C133 ---- *)
Theorem C133_search_valid : forall (E : NumT f64) rng (seed : Z -> rng) rand qs, rand_ok64 rand -> argsort_ok64 qs ->
  forall p grid m g0 l, countable grid -> fst (search_run seed rand qs p grid m g0) = Ok l ->
  exists ie, inside64 p grid ie /\ NoDup l /\ incl l ie
    /\ ((Z.of_nat (length ie) <= m)%Z -> l = ie)
    /\ ((m < Z.of_nat (length ie))%Z -> Z.of_nat (length l) = m \/ m = 1%Z /\ length l = (length ie - 1)%nat).
Proof. exact @search_ok. Qed.
Print Assumptions C133_search_valid.

Theorem C133_search_shares : forall (E : NumT f64) rng (seed : Z -> rng) rand qs, rand_ok64 rand -> argsort_ok64 qs ->
  forall p grid m g0 l, countable grid -> fst (search_run seed rand qs p grid m g0) = Ok l ->
  forall ie, inside64 p grid ie -> (m < Z.of_nat (length ie))%Z ->
  exists r lg s, l = (r ++ lg ++ s)%list
    /\ (1 <= length r <= Z.to_nat (third m))%nat /\ (length r + length lg = 2 * Z.to_nat (third m))%nat
    /\ (forall i j, In i lg -> In j ie -> ~ In j (r ++ lg) ->
          ranked (s_large p (nth i grid no_cast)) (s_large p (nth j grid no_cast)))
    /\ (forall i j, In i s -> In j ie -> ~ In j (r ++ lg ++ s) ->
          ranked (s_small p (nth i grid no_cast)) (s_small p (nth j grid no_cast))).
Proof. exact @search_shares. Qed.
Print Assumptions C133_search_shares.

Theorem C133_search_completes : forall (E : NumT f64) rng (seed : Z -> rng) rand qs, rand_ok64 rand -> argsort_ok64 qs ->
  forall p grid m g0, countable grid -> grid <> [] -> safe_search p -> Forall safe_cast grid ->
  s_use p <> 1%Z -> m = 3%Z \/ (5 <= m)%Z -> exists l, fst (search_run seed rand qs p grid m g0) = Ok l.
Proof. exact @search_total. Qed.
Print Assumptions C133_search_completes.

(* seven casts inside, five wanted, every random number 0.3: the hypotheses are met *)
Example C133_witness : rand_ok64 demo_rand /\ argsort_ok64 argsort /\ countable demo_grid /\ safe_search demo_search
  /\ Forall safe_cast demo_grid
  /\ fst (search_run (E := demo_exp) (fun _ => tt) demo_rand argsort demo_search demo_grid 5 tt) = Ok [1; 2; 3; 0; 5]%nat.
Proof.
  split; [exact demo_rand_ok|]. split; [exact argsort_ok_f64|]. split; [reflexivity|]. split; [exact demo_safe|].
  split; [exact demo_casts|]. exact demo_run.
Qed.
