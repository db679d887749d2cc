(* Properties C13-C27 and C72-C74: pyowc/core/finders.py *)
From Coq Require Import ZArith List Bool Reals Lra Lia Permutation Sorted.
From Verif Require Import Num Np NumFacts Finders Spec_Utilities Spec_Finders Proofs_Finders
  Proofs_Besthist Proofs_Besthist2 Proofs_Boxes Proofs_Thetas Proofs_Thetas2 Proofs_Thetas3 Proofs_FindersEx.
Import ListNotations.
Local Open Scope R_scope.

(* ---- C13 ---- *)
Theorem C13_find_ellipse : forall dl cl sl da ca sa phi dp cp : R, sl <> 0 -> sa <> 0 -> phi <> 0 ->
  exists e,
    find_ellipse (Fin dl) (Fin cl) (Fin sl) (Fin da) (Fin ca) (Fin sa) (Fin phi) (Fin dp) (Fin cp) = Ok (Fin e)
    /\ e ^ 2 = ellipse2 dl cl sl da ca sa phi dp cp
    /\ 0 <= e
    /\ find_ellipse (Fin cl) (Fin dl) (Fin sl) (Fin ca) (Fin da) (Fin sa) (Fin phi) (Fin cp) (Fin dp) = Ok (Fin e)
    /\ (dl = cl -> da = ca -> dp = cp -> e = 0)
    /\ (e < 1 <-> ellipse2 dl cl sl da ca sa phi dp cp < 1).
Proof. exact ellipse_main. Qed.
Print Assumptions C13_find_ellipse.

Theorem C13_larger_sizes : forall dl cl sl da ca sa phi dp cp sl' sa' phi' e : R,
  0 < sl -> 0 < sa -> 0 < phi -> sl <= sl' -> sa <= sa' -> phi <= phi' ->
  find_ellipse (Fin dl) (Fin cl) (Fin sl) (Fin da) (Fin ca) (Fin sa) (Fin phi) (Fin dp) (Fin cp) = Ok (Fin e) ->
  exists e',
    find_ellipse (Fin dl) (Fin cl) (Fin sl') (Fin da) (Fin ca) (Fin sa') (Fin phi') (Fin dp) (Fin cp) = Ok (Fin e')
    /\ e' <= e.
Proof. exact ellipse_larger. Qed.
Print Assumptions C13_larger_sizes.

Example C13_witness :
  find_ellipse (Fin 53) (Fin 50) (Fin 1) (Fin 10) (Fin 10) (Fin 1) (Fin 1) (Fin 0) (Fin 0) = Ok (Fin 1).
Proof.
  rewrite find_ellipse_eval by lra. unfold ellipse2, vorticity_distance2.
  destruct (Req_EM_T 0 0); [|lra].
  replace (((53 - 50) / (3 * 1)) ^ 2 + ((10 - 10) / (3 * 1)) ^ 2 + 0) with 1 by field. now rewrite sqrt_1.
Qed.

(* ---- C14 ---- *)
Theorem C14_besthist_valid : forall rng (seed : Z -> rng) rand qs, rand_ok rand -> argsort_ok qs ->
  forall p grid, scales_ok p -> depths_ok p grid ->
  forall m g0 l, fst (besthist seed rand qs p grid m g0) = Ok l ->
  NoDup l /\ (forall i, In i l -> (i < length grid)%nat /\ inside p (nth i grid dcastR)).
Proof. exact @besthist_valid. Qed.
Print Assumptions C14_besthist_valid.

(* ---- C15 ---- *)
Theorem C15_besthist_count : forall rng (seed : Z -> rng) rand qs, rand_ok rand -> argsort_ok qs ->
  forall p grid, scales_ok p -> depths_ok p grid ->
  forall m g0 ie, grid <> [] -> inside_list p grid ie ->
  ((Z.of_nat (length ie) <= m)%Z -> fst (besthist seed rand qs p grid m g0) = Ok ie)
  /\ ((m < Z.of_nat (length ie))%Z -> m = 3%Z \/ (5 <= m)%Z ->
        exists l, fst (besthist seed rand qs p grid m g0) = Ok l /\ Z.of_nat (length l) = m).
Proof. exact @besthist_count. Qed.
Print Assumptions C15_besthist_count.

(* ---- C16 ---- *)
Theorem C16_besthist_small_quota : forall rng (seed : Z -> rng) rand qs, rand_ok rand -> argsort_ok qs ->
  forall p grid, scales_ok p -> depths_ok p grid ->
  forall m g0 ie, grid <> [] -> inside_list p grid ie -> (m < Z.of_nat (length ie))%Z ->
  ((m <= 0)%Z \/ m = 2%Z \/ m = 4%Z -> fst (besthist seed rand qs p grid m g0) = Raise ValueError)
  /\ (m = 1%Z -> (length ie <= 3)%nat -> fst (besthist seed rand qs p grid m g0) = Raise ValueError)
  /\ (m = 1%Z -> (4 <= length ie)%nat ->
        exists l, fst (besthist seed rand qs p grid m g0) = Ok l /\ length l = (length ie - 1)%nat).
Proof. exact @besthist_small. Qed.
Print Assumptions C16_besthist_small_quota.

Theorem C16_besthist_no_casts : forall rng (seed : Z -> rng) rand qs p grid, scales_ok p -> depths_ok p grid ->
  forall m g0, grid = [] -> fst (besthist seed rand qs p grid m g0) = Raise ValueError.
Proof. exact @run_empty. Qed.
Print Assumptions C16_besthist_no_casts.

(* four casts inside, random numbers all 1/4, the stable sort: hypotheses of C14-C16 are met *)
Notation isort := (@argsort XR _).
Example C14_witness : exists l, fst (besthist (fun _ => tt) quarter_rand isort pv_problem pv_grid 3 tt) = Ok l /\ length l = 3%nat
  /\ NoDup l.
Proof.
  destruct (C15_besthist_count unit (fun _ => tt) quarter_rand isort quarter_rand_ok argsort_is_ok pv_problem pv_grid pv_scales pv_depths
    3%Z tt _ ltac:(discriminate) pv_inside) as [_ H].
  destruct (H ltac:(reflexivity) ltac:(now left)) as (l & E & Hl). exists l. split; auto. split; [lia|].
  apply (C14_besthist_valid _ _ _ _ quarter_rand_ok argsort_is_ok _ _ pv_scales pv_depths _ _ _ E).
Qed.
Example C15_witness : fst (besthist (fun _ => tt) quarter_rand isort pv_problem pv_grid 300 tt) = Ok [0;1;2;3]%nat.
Proof.
  apply (C15_besthist_count unit (fun _ => tt) quarter_rand isort quarter_rand_ok argsort_is_ok pv_problem pv_grid pv_scales pv_depths
    300%Z tt _ ltac:(discriminate) pv_inside). simpl. lia.
Qed.
Example C16_witness :
  fst (besthist (fun _ => tt) quarter_rand isort pv_problem pv_grid 2 tt) = Raise ValueError
  /\ exists l, fst (besthist (fun _ => tt) quarter_rand isort pv_problem pv_grid 1 tt) = Ok l /\ length l = 3%nat.
Proof.
  split.
  - refine (proj1 (C16_besthist_small_quota unit (fun _ => tt) quarter_rand isort quarter_rand_ok argsort_is_ok pv_problem pv_grid pv_scales pv_depths
      2%Z tt _ _ pv_inside _) _); [discriminate|reflexivity|auto].
  - refine (proj2 (proj2 (C16_besthist_small_quota unit (fun _ => tt) quarter_rand isort quarter_rand_ok argsort_is_ok pv_problem pv_grid pv_scales pv_depths
      1%Z tt _ _ pv_inside _)) _ _); [discriminate|reflexivity|reflexivity|simpl; lia].
Qed.

(* ---- C17 ---- *)
Theorem C17_besthist_closest : forall rng (seed : Z -> rng) rand qs p grid m g0 ie,
  rand_ok rand -> argsort_ok qs -> scales_ok p -> b_pv p = false -> inside_list p grid ie ->
  (m < Z.of_nat (length ie))%Z -> m = 3%Z \/ (5 <= m)%Z ->
  let n := length ie in
  let c := Z.to_nat (third m) in
  exists r l s : list nat,
    fst (besthist seed rand qs p grid m g0) = Ok (r ++ l ++ s)%list
    /\ (1 <= length r <= c)%nat
    /\ (length r + length l = 2 * c)%nat
    /\ (Z.of_nat (length s) = m - 2 * third m)%Z
    (* the random share: exactly the positions drawn by the generator seeded with n *)
    /\ (forall i, In i r -> exists u k, In (Fin u) (fst (rand (seed (Z.of_nat n)) c)) /\ drawn n u k /\ i = nth k ie 0%nat)
    /\ (forall u, In (Fin u) (fst (rand (seed (Z.of_nat n)) c)) -> exists k, drawn n u k /\ In (nth k ie 0%nat) r)
    (* the large-scale and small-scale shares are optimal *)
    /\ (forall i j, In i l -> In j ie -> ~ In j (r ++ l) -> sep_large p (nth i grid dcastR) <= sep_large p (nth j grid dcastR))
    /\ (forall i j, In i s -> In j ie -> ~ In j (r ++ l ++ s) -> sep_small p (nth i grid dcastR) <= sep_small p (nth j grid dcastR)).
Proof. exact @besthist_closest. Qed.
Print Assumptions C17_besthist_closest.

Example C17_witness : exists r l s,
  fst (besthist (fun _ => tt) quarter_rand isort plain_problem pv_grid 3 tt) = Ok (r ++ l ++ s)%list
  /\ length r = 1%nat /\ length l = 1%nat /\ length s = 1%nat.
Proof.
  destruct (C17_besthist_closest unit (fun _ => tt) quarter_rand isort plain_problem pv_grid 3%Z tt _ quarter_rand_ok argsort_is_ok
    plain_scales eq_refl plain_in ltac:(reflexivity) ltac:(now left)) as (r & l & s & E & A & B & C & _).
  exists r, l, s. split; auto. change (Z.to_nat (third 3)) with 1%nat in *. change (third 3) with 1%Z in C. lia.
Qed.

(* ---- C18 ---- *)
Theorem C18_besthist_state : forall T (H : Num T) (H0 : NumT T) rng (seed : Z -> rng) (rand : rng -> nat -> list T * rng) qs
    lat long date z latL latS longL longS phiL phiS ageL ageS use grid m g g',
  let run := find_besthist seed rand qs lat long date z latL latS longL longS phiL phiS ageL ageS use grid m in
  fst (run g) = fst (run g') /\ (snd (run g) = snd (run g') \/ snd (run g) = g /\ snd (run g') = g').
Proof. exact @besthist_state. Qed.
Print Assumptions C18_besthist_state.

(* ---- C19 ---- *)
Theorem C19_besthist_ranks : forall rng (seed : Z -> rng) rand qs, rand_ok rand -> argsort_ok qs ->
  forall p grid, scales_ok p -> depths_ok p grid ->
  forall m g0 ie, grid <> [] -> inside_list p grid ie ->
  (m < Z.of_nat (length ie))%Z -> m = 3%Z \/ (5 <= m)%Z ->
  let n := length ie in
  let c := Z.to_nat (third m) in
  exists r l s : list nat,
    fst (besthist seed rand qs p grid m g0) = Ok (r ++ l ++ s)%list
    /\ (1 <= length r <= c)%nat
    /\ (length r + length l = 2 * c)%nat
    /\ (Z.of_nat (length s) = m - 2 * third m)%Z
    /\ (forall i, In i r -> exists u k, In (Fin u) (fst (rand (seed (Z.of_nat n)) c)) /\ drawn n u k /\ i = nth k ie 0%nat)
    /\ (forall u, In (Fin u) (fst (rand (seed (Z.of_nat n)) c)) -> exists k, drawn n u k /\ In (nth k ie 0%nat) r)
    /\ (forall i j, In i l -> In j ie -> ~ In j (r ++ l) -> rank_large p (nth i grid dcastR) <= rank_large p (nth j grid dcastR))
    /\ (forall i j, In i s -> In j ie -> ~ In j (r ++ l ++ s) -> rank_small p (nth i grid dcastR) <= rank_small p (nth j grid dcastR)).
Proof. exact @besthist_optimal. Qed.
Print Assumptions C19_besthist_ranks.

(* the cast that coincides with the float in position, date and depth is left out, whatever the
   sort and seed, although it is strictly the closest under the intended separation *)
Theorem C19_pv_separation_refuted : exists p grid (rand : unit -> nat -> list XR * unit),
  scales_ok p /\ depths_ok p grid /\ rand_ok rand
  /\ nth 1 grid dcastR = mkCast (b_lat p) (b_long p) (b_date p) (b_z p)
  /\ (forall i, (i < length grid)%nat -> i <> 1%nat ->
        sep_large_pv p (nth 1 grid dcastR) < sep_large_pv p (nth i grid dcastR)
        /\ sep_small_pv p (nth 1 grid dcastR) < sep_small_pv p (nth i grid dcastR))
  /\ (forall (seed : Z -> unit) qs g0, argsort_ok qs ->
        exists l, fst (besthist seed rand qs p grid 3 g0) = Ok l /\ length l = 3%nat /\ ~ In 1%nat l).
Proof. exact besthist_pv_wrong. Qed.
Print Assumptions C19_pv_separation_refuted.

Theorem C19_without_pv : forall p c, b_pv p = false -> rank_large p c = sep_large p c /\ rank_small p c = sep_small p c.
Proof. exact rank_no_pv. Qed.
Print Assumptions C19_without_pv.
Example C19_witness : rank_large plain_problem dcastR = sep_large plain_problem dcastR.
Proof. now apply C19_without_pv. Qed.

(* ---- C20 ---- *)
Theorem C20_nearest_neighbour : forall A (xs ys : list R) (table : nat -> nat -> A) (x y : R), xs <> [] -> ys <> [] ->
  exists i j,
    nearest_neighbour (map Fin xs) (map Fin ys) table (Fin x) (Fin y) = table j i
    /\ (i < length xs)%nat /\ (j < length ys)%nat
    /\ (forall k, (k < length xs)%nat -> Rabs (nth i xs 0 - x) <= Rabs (nth k xs 0 - x))
    /\ (forall k, (k < i)%nat -> Rabs (nth i xs 0 - x) < Rabs (nth k xs 0 - x))
    /\ (forall k, (k < length ys)%nat -> Rabs (nth j ys 0 - y) <= Rabs (nth k ys 0 - y))
    /\ (forall k, (k < j)%nat -> Rabs (nth j ys 0 - y) < Rabs (nth k ys 0 - y)).
Proof. exact @nearest_main. Qed.
Print Assumptions C20_nearest_neighbour.
Example C20_witness : exists i j, nearest_neighbour (map Fin [1; 3]) (map Fin [0; 5]) (fun j i => (j, i)) (Fin 2) (Fin 4) = (j, i)
  /\ i = 0%nat /\ j = 1%nat.
Proof.
  destruct (C20_nearest_neighbour _ [1; 3] [0; 5] (fun j i => (j, i)) 2 4 ltac:(discriminate) ltac:(discriminate))
    as (i & j & E & Hi & Hj & _ & Ti & Mj & _).
  exists i, j. split; auto. split.
  - destruct i as [|[|]]; auto; simpl in Hi; try lia. specialize (Ti 0%nat ltac:(lia)). cbn in Ti.
    unfold Rabs in Ti. destruct (Rcase_abs (3 - 2)) in Ti; destruct (Rcase_abs (1 - 2)) in Ti; lra.
  - destruct j as [|[|]]; auto; simpl in Hj; try lia. specialize (Mj 1%nat ltac:(simpl; lia)). cbn in Mj.
    unfold Rabs in Mj. destruct (Rcase_abs (0 - 4)) in Mj; destruct (Rcase_abs (5 - 4)) in Mj; lra.
Qed.

(* ---- C21 ---- *)
Theorem C21_boxes_neighbourhood : forall (lon lat : R) (tbl : list (list XR)),
  0 <= lon < 360 -> -7001/100 <= lat <= 6999/100 -> length tbl = 648%nat ->
  exists ns, length ns = 25%nat
    /\ find_25boxes (Fin lon) (Fin lat) tbl = Ok (map (fun n => nth (n - 1) tbl []) ns)
    /\ (forall i j, (i < 5)%nat -> (j < 5)%nat ->
          box_covers (nth (5 * i + j) ns 0%nat) (lon + nth j offsets 0) (lat + nth i offsets 0))
    /\ (forall i j, (i < 5)%nat -> (j < 5)%nat ->
          let n := nth (5 * i + j) ns 0%nat in
          let n0 := nth 0 ns 0%nat in
          (exists k : Z, box_lon n = (box_lon n0 + 10 * nth j shifts 0 + 360 * k)%Z)
          /\ (lat < 6999/100 -> box_latN n = (box_latN n0 + 10 * nth i shifts 0)%Z)).
Proof. exact boxes_cover. Qed.
Print Assumptions C21_boxes_neighbourhood.

(* ---- C22 ---- *)
Theorem C22_boxes_distinct : forall (lon lat : R) (tbl : list (list XR)),
  0 <= lon < 360 -> length tbl = 648%nat -> NoDup tbl ->
  exists rows, find_25boxes (Fin lon) (Fin lat) tbl = Ok rows /\ (NoDup rows <-> -7001/100 <= lat < 6999/100).
Proof. exact boxes_rows_distinct. Qed.
Print Assumptions C22_boxes_distinct.

Definition box_table : list (list XR) := map (fun k => [Fin (INR k)]) (seq 0 648).
Lemma box_table_length : length box_table = 648%nat.
Proof. unfold box_table. now rewrite map_length, seq_length. Qed.
Lemma box_table_nodup : NoDup box_table.
Proof.
  apply NoDup_map_in; [|apply seq_NoDup]. intros a b _ _ E. injection E as E. now apply INR_eq.
Qed.
Example C21_witness : exists ns, length ns = 25%nat
  /\ find_25boxes (Fin 57) (Fin (-59)) box_table = Ok (map (fun n => nth (n - 1) box_table []) ns).
Proof.
  destruct (C21_boxes_neighbourhood 57 (-59) box_table ltac:(lra) ltac:(lra) box_table_length) as (ns & L & E & _). eauto.
Qed.
Example C22_witness : exists rows, find_25boxes (Fin 57) (Fin 75) box_table = Ok rows /\ ~ NoDup rows.
Proof.
  destruct (C22_boxes_distinct 57 75 box_table ltac:(lra) box_table_length box_table_nodup) as (rows & E & H).
  exists rows. split; auto. intros N. apply H in N. lra.
Qed.

(* ---- C23 ---- *)
Theorem C23_boxes_missing : forall T (H : Num T) (lon lat : T) (tbl : list (list T)),
  (nisnan lon = true \/ nisnan lat = true -> find_25boxes lon lat tbl = Ok (repeat (repeat nnan 4) 25))
  /\ (nisnan lon = false -> nisnan lat = false -> length tbl = 648%nat ->
        exists rows, find_25boxes lon lat tbl = Ok rows /\ length rows = 25%nat /\ (forall r, In r rows -> In r tbl)).
Proof. exact @boxes_nan. Qed.
Print Assumptions C23_boxes_missing.
Example C23_witness : find_25boxes (Fin 57) NaN box_table = Ok (repeat (repeat NaN 4) 25).
Proof. apply C23_boxes_missing. now right. Qed.

(* ---- C24 ---- *)
Theorem C24_minimum_variance : forall interp1d d nr nc pct r mats,
  thetas_run interp1d d nr nc pct = Ok (r, mats) ->
  exists idx, let var := var_sal_theta r in
    length idx = Nat.min 10 (length (present var))
    /\ t_levels r = (map (fun i => nth i (theta_levels r) NaN) idx ++ repeat NaN (10 - length idx))%list
    /\ length var = length (theta_levels r)
    /\ NoDup idx
    /\ (forall i, In i idx -> (i < length var)%nat /\ nisnan (nth i var NaN) = false)
    /\ (forall a b, (a < b < length idx)%nat -> nleb (nth (nth a idx 0%nat) var NaN) (nth (nth b idx 0%nat) var NaN) = true)
    /\ (forall i j, In i idx -> (j < length var)%nat -> ~ In j idx -> nisnan (nth j var NaN) = false ->
          nleb (nth i var NaN) (nth j var NaN) = true).
Proof. exact thetas_select. Qed.
Print Assumptions C24_minimum_variance.

(* ---- C25 ---- *)
Theorem C25_nearest_rows : forall interp1d d nr nc pct r mats,
  thetas_run interp1d d nr nc pct = Ok (r, mats) ->
  length (t_levels r) = 10%nat /\ length (th_index r) = 10%nat /\
  forall i j, (i < 10)%nat -> (j < nc)%nat ->
    let theta := nth i (t_levels r) NaN in
    match nth j (nth i (th_index r) []) None with
    | Some k => exists th x, theta = Fin th /\ straddles d nr th j /\ nearest_row d nr th j k x
    | None => forall th, theta = Fin th -> ~ straddles d nr th j
    end.
Proof. exact thetas_index. Qed.
Print Assumptions C25_nearest_rows.

(* ---- C26 ---- *)
Theorem C26_windows : forall interp1d d nr nc pct r pres sal ptmp,
  thetas_run interp1d d nr nc pct = Ok (r, (pres, sal, ptmp)) ->
  forall i j,
    (kept d i j -> pres i j = oX (d_pres d i j) /\ sal i j = oX (d_sal d i j) /\ ptmp i j = oX (d_ptmp d i j))
    /\ (~ kept d i j -> pres i j = NaN /\ sal i j = NaN /\ ptmp i j = NaN).
Proof. exact thetas_mask. Qed.
Print Assumptions C26_windows.

(* ---- C27 ---- *)
Theorem C27_narrow_range : forall interp1d d nr nc pct, (0 < nr)%nat -> (0 < nc)%nat -> ~ wide_range d nr nc ->
  thetas_run interp1d d nr nc pct = Raise UnboundLocalError.
Proof. exact thetas_narrow. Qed.
Print Assumptions C27_narrow_range.
Theorem C27_success_is_wide : forall interp1d d nr nc pct r mats,
  thetas_run interp1d d nr nc pct = Ok (r, mats) -> wide_range d nr nc.
Proof. exact wide_of_ok. Qed.
Print Assumptions C27_success_is_wide.

Definition one_level : series :=
  mkSeries (fun _ _ => Some 35) (fun _ _ => Some 4) (fun i _ => Some (INR i)) (fun _ _ => Some 0) None None None None.
Example C27_witness : thetas_run line one_level 3 2 (1/2) = Raise UnboundLocalError.
Proof.
  apply C27_narrow_range; try lia.
  intros (i & j & i' & j' & x & y & a & b & _ & _ & _ & _ & [_ Ex] & [_ Ey] & Hab & Hx & Hy).
  cbn in Ex, Ey. injection Ex as <-. injection Ey as <-. apply IZR_lt in Hab. lra.
Qed.

(* ---- C72 ---- *)
Theorem C72_level_variance : forall interp1d d nr nc pct r mats, linear2 interp1d ->
  thetas_run interp1d d nr nc pct = Ok (r, mats) ->
  exists S, length S = length (theta_levels r)
    /\ (forall l, (l < length S)%nat -> length (nth l S []) = nc)
    /\ (forall l j, (l < length S)%nat -> (j < nc)%nat ->
          level_salinity d nr (nth l (theta_levels r) NaN) j (nth j (nth l S []) NaN))
    /\ length (var_sal_theta r) = length S
    /\ forall l, (l < length S)%nat -> let v := nth l (var_sal_theta r) NaN in
         ((rare S pct l \/ (l = 0%nat /\ exists l', rare S pct l')) -> v = NaN)
         /\ (~ rare S pct l -> ~ (l = 0%nat /\ exists l', rare S pct l') ->
              ((length (present (nth l S [])) <= 1)%nat -> v = NaN)
              /\ forall vs, present (nth l S []) = map Fin vs -> (2 <= length vs)%nat -> v = Fin (sample_var vs)).
Proof. exact thetas_variance. Qed.
Print Assumptions C72_level_variance.

(* ---- C73 ---- *)
Theorem C73_tie_never_returns : forall interp1d d nr nc pct r mats l j th k x k1 k2 y,
  thetas_run interp1d d nr nc pct = Ok (r, mats) ->
  (l < length (theta_levels r))%nat -> (j < nc)%nat -> nth l (theta_levels r) NaN = Fin th ->
  straddles d nr th j -> nearest_row d nr th j k x ->
  far_side d nr th j k x k1 y -> far_side d nr th j k x k2 y -> k1 = k2.
Proof. exact thetas_tie. Qed.
Print Assumptions C73_tie_never_returns.
Theorem C73_success : forall interp1d d nr nc pct lo hi,
  (forall xs ys x, exists v, interp1d xs ys x = Ok v) ->
  wide_range d nr nc -> pressure_range d nr nc lo hi -> 10 <= hi - lo -> no_ties d nr nc ->
  exists r mats, thetas_run interp1d d nr nc pct = Ok (r, mats).
Proof. exact thetas_succeed. Qed.
Print Assumptions C73_success.
(* the hypotheses of C24-C26 and of C72-C74 are met; linear2 line holds below *)
Example C73_witness : exists r mats, thetas_run line two_levels 2 3 (1/2) = Ok (r, mats).
Proof. apply (C73_success line two_levels 2 3 _ 0 100 line_total two_wide two_range); [lra|exact two_ties]. Qed.
Example C72_witness : linear2 line.
Proof. intros x0 x1 y0 y1 x _ _. reflexivity. Qed.

(* ---- C74 ---- *)
Theorem C74_candidate_levels : forall interp1d d nr nc pct r mats,
  thetas_run interp1d d nr nc pct = Ok (r, mats) ->
  exists lo hi, pressure_range d nr nc lo hi /\ 10 <= hi - lo /\
    let L := length (theta_levels r) in
    (10 <= L)%nat
    /\ (forall k, (k < L)%nat <-> lo + INR k * spacing (hi - lo) < hi)
    /\ (forall k, (k < L)%nat -> exists row, length row = nc
          /\ (forall j rows, (j < nc)%nat -> usable_rows d nr j rows ->
               let pl := lo + INR k * spacing (hi - lo) in
               (brackets d j rows pl ->
                  interp1d (map (fun i => oX (d_pres d i j)) rows) (map (fun i => oX (d_ptmp d i j)) rows) (Fin pl)
                  = Ok (nth j row NaN))
               /\ (~ brackets d j rows pl -> nth j row NaN = NaN))
          /\ (present row = [] -> nth k (theta_levels r) NaN = NaN)
          /\ (forall vs, vs <> [] -> present row = map Fin vs -> nth k (theta_levels r) NaN = Fin (mean_of vs)))
    /\ (forall i, (i < 10)%nat -> exists o,
          nth i (p_levels r) NaN = (match o with Some k => Fin (lo + INR k * spacing (hi - lo)) | None => NaN end)
          /\ nth i (t_levels r) NaN = (match o with Some k => nth k (theta_levels r) NaN | None => NaN end)
          /\ forall k, o = Some k -> (k < L)%nat).
Proof. exact thetas_levels. Qed.
Print Assumptions C74_candidate_levels.
Theorem C74_shallow : forall interp1d d nr nc pct, wide_range d nr nc ->
  (forall lo hi, pressure_range d nr nc lo hi -> hi - lo < 10) ->
  thetas_run interp1d d nr nc pct = Raise ValueError.
Proof. exact thetas_shallow. Qed.
Print Assumptions C74_shallow.

Definition shallow : series :=
  mkSeries (fun i _ => Some (34 + INR i)) (fun i _ => Some (10 * INR i)) (fun i _ => Some (5 * INR i))
    (fun i _ => Some 0) None None None None.
Example C74_witness : thetas_run line shallow 2 3 (1/2) = Raise ValueError.
Proof.
  assert (K : forall i j, kept shallow i j) by (intros; split; [discriminate|split; intros; exact I]).
  apply C74_shallow.
  - exists 0%nat, 0%nat, 1%nat, 0%nat, 0, 10, 0%Z, 100%Z.
    repeat split; try lia; try lra; try apply K; cbn; f_equal; lra.
  - intros lo hi ((i & j & Hi & _ & _ & E) & (i' & j' & Hi' & _ & _ & E') & _). cbn in E, E'.
    injection E as <-. injection E' as <-. destruct i as [|[|]]; destruct i' as [|[|]]; cbn; lra || lia.
Qed.
