(* One profile mapped from six casts, over the reals *)
From Coq Require Import String Ascii.
From Coq Require Import ZArith List Bool Reals Lra Lia Permutation.
From Flocq Require Import Core.Raux.
From Verif Require Proofs_Depth4.
From Verif Require Import Num NumFacts Np NpFacts Utilities Finders Stats Wrangling Topo Fetchers Saf Helper MapProfile Mapping
  Spec_Stats Spec_FitCond Spec_Helper Spec_MapLevel Spec_Map Spec_Mapping Spec_Bias Proofs_Boxes Proofs_Topo Proofs_Depth Proofs_Depth2 Proofs_Utilities2
  Proofs_Besthist Proofs_MapLevel Proofs_Mapping Proofs_Mapping3 Proofs_Mapping4 Proofs_MappingEx Proofs_FC11 Proofs_Drift5 Proofs_Bias2 Proofs_Bias3.
Import Helper Mapping ListNotations.
Local Open Scope nat_scope.

(* the box of the float has a CTD file, no other box has any *)
Definition six_row (box k : nat) : list XR := [Fin (IZR (Z.of_nat k)); Fin (if Nat.eqb k box then 1 else 0); Fin 0; Fin 0].
Definition six_table (box : nat) : list (list XR) := map (six_row box) (seq 1 648).
Definition six_lats : list XR := map (fun i => Fin (INR i)) (seq 0 6).
Definition six_sal (i : nat) : R := if Nat.even i then 35%R else 36%R.
Definition six_file : ref_data XR :=
  mkRef (Vec six_lats) (Vec (repeat (Fin 10) 6)) (Vec (repeat (Fin 20100101) 6))
    (Mat (repeat [Fin 800; Fin 1200] 6)) (Mat (map (fun i => [Fin (six_sal i); Fin (six_sal i)]) (seq 0 6))) (Mat (repeat [Fin 8; Fin 4] 6)) (repeat "ctd"%string 6).
Definition six_read (_ : string) : res (ref_data XR) := Ok six_file.
Definition six_date (_ : XR) : list ascii := list_ascii_of_string "20100101000000".
Definition six_sea (x y : list XR) (e : list (list Z)) (a b : XR) : res XR := Ok (Fin (-4000)).
Definition six_cfg (box : nat) : map_config XR :=
  mkMapConfig (six_table box) 300 0 0 (Fin 8) (Fin 4) (Fin 4) (Fin 2) (Fin 1) (Fin 1) (Fin 10) (Fin 5) (Fin 250) (Fin 500)
    no_saf (mkDbConfig XR "db" "ctd_" "bot_" "argo_" (Fin 250)).
Definition six_source : source XR :=
  mkSource [Fin 1] [Fin 2] [Fin 10] [Fin 2010] [[Fin 35; Fin 35]] [[Fin 6; Fin 6]] [[Fin 6; Fin 6]] [[Fin 100; Fin 1000]] 2.
Definition six_levels (box : nat) := profile_levels (fun _ => tt) (fun _ n => (repeat (Fin 0) n, tt)) tt argsort exact_inv (fun x _ _ => x) (fun x _ _ _ => x) (fun x _ => x) (fun x _ _ => x)
  six_sea flat_sea six_read six_date (six_cfg box) "3901960".

(* ---- the files ---- *)
Lemma six_boxes : exists box ns, find_25boxes (Fin 10) (Fin 2) (six_table box) = Ok (six_row box box :: map (six_row box) ns) /\ ~ In box ns.
Proof.
  assert (ND : NoDup (box_numbers (Fin 10) (Fin 2))) by (apply boxes_distinct; lra).
  pose proof (boxes_ok (Fin 10) (Fin 2)) as B. pose proof (box_numbers_range (Fin 10) (Fin 2)) as HR. pose proof (box_numbers_length (Fin 10) (Fin 2)) as L.
  destruct (box_numbers (Fin 10) (Fin 2)) as [|box ns]; [discriminate|]. exists box, ns. split; [|inversion ND; auto].
  rewrite B; [|reflexivity|reflexivity|intros n Hn; apply HR in Hn; unfold six_table; rewrite map_length, seq_length; lia].
  f_equal. change (six_row box box :: map (six_row box) ns) with (map (six_row box) (box :: ns)).
  apply map_ext_in. intros n Hn. apply HR in Hn. unfold six_table. rewrite (nth_map (six_row box) (seq 1 648) (n - 1) [] 0) by (rewrite seq_length; lia).
  rewrite seq_nth by lia. f_equal. lia.
Qed.
Section Box.
Variable box : nat.
Lemma six_none dbc fn k t : In t [1; 2; 3] -> (k <> box \/ t <> 1) -> get_data six_read dbc fn (six_row box k) t = Ok None.
Proof.
  intros Ht Hk. unfold get_data, six_row. cbn [nth_error]. rewrite int_of_float_Z. cbn [bind].
  assert (Z0 : forall x, x = 0%R -> neqb (Fin x) (nofZ 1) = false).
  { intros x ->. cbn. unfold Reqb. destruct (Req_EM_T 0 1); [lra|reflexivity]. }
  destruct Ht as [<-|[<-|[<-|[]]]]; cbn [nth_error]; rewrite Z0; auto.
  destruct (Nat.eqb_spec k box); [tauto|reflexivity].
Qed.
Lemma six_some dbc fn : get_data six_read dbc fn (six_row box box) 1 = Ok (Some six_file).
Proof.
  unfold get_data, six_row. cbn [nth_error]. rewrite int_of_float_Z. cbn [bind]. rewrite Nat.eqb_refl.
  cbn. unfold Reqb. destruct (Req_EM_T 1 1); [reflexivity|lra].
Qed.
(* whatever is done with the files: the empty answers change nothing *)
Lemma six_requests {A} (step : A -> res (option (ref_data XR)) -> A) dbc fn a ns : (forall x, step x (Ok None) = x) -> ~ In box ns ->
  fold_left (fun x r => step x (get_data six_read dbc fn (fst r) (snd r))) (requests (six_row box box :: map (six_row box) ns)) a = step a (Ok (Some six_file)).
Proof.
  intros HS NI. unfold requests. cbn [flat_map map app fold_left fst snd]. rewrite six_some, !six_none by (cbn; auto; right; lia). rewrite !HS.
  generalize (step a (Ok (Some six_file))) as b. induction ns as [|n ns IH]; intros b; [reflexivity|]. cbn [map flat_map app fold_left fst snd].
  assert (n <> box) by (intros ->; apply NI; now left). rewrite !six_none by (cbn; auto). rewrite !HS. apply IH. intros C. apply NI. now right.
Qed.

Lemma six_locations fn ns : ~ In box ns ->
  get_region_hist_locations six_read six_date (six_row box box :: map (six_row box) ns) fn (mc_db (six_cfg box))
  = Ok (six_lats, wrap_longitude (repeat (Fin 10) 6), change_dates (map six_date (repeat (Fin 20100101) 6))).
Proof.
  intros NI. unfold get_region_hist_locations.
  rewrite (six_requests (fun acc f => let '(grid_lat, grid_long, grid_dates) := acc in
        match f with
        | Ok (Some data) =>
            match d_lat data with Scal _ => acc | Vec la =>
            match d_long data with Scal _ => (grid_lat ++ la, grid_long, grid_dates) | Vec lo =>
            match d_dates data with Scal _ => (grid_lat ++ la, grid_long ++ lo, grid_dates) | Vec da =>
              (grid_lat ++ la, grid_long ++ lo, grid_dates ++ da)
            end end end%list
        | _ => acc
        end) (mc_db (six_cfg box)) fn ([], [], []) ns) by (try exact NI; intros [[? ?] ?]; reflexivity).
  reflexivity.
Qed.
Lemma six_wrap : wrap_longitude (repeat (Fin 10) 6) = repeat (Fin 10) 6.
Proof.
  change (repeat (Fin 10) 6) with (map Fin (repeat 10%R 6)). rewrite wrap_R. f_equal. unfold wrapR, seam.
  assert (N : norm1 10 = 10%R) by (unfold norm1, Rltb; destruct (Rlt_dec 10 0); [lra|reflexivity]). cbn [repeat map existsb]. rewrite N.
  unfold Rleb. destruct (Rle_dec 320 10); [lra|reflexivity].
Qed.
End Box.
Lemma six_year : change_dates (map six_date (repeat (Fin 20100101) 6)) = repeat (Fin 2010) 6.
Proof.
  assert (E : change_date (T := XR) (six_date (Fin 20100101)) = Fin 2010).
  { unfold change_date. set (d := six_date (Fin 20100101)).
    assert (E1 : py_int (slice 0 4 d) = Some 2010%Z) by reflexivity. assert (E2 : py_int (slice 4 6 d) = Some 1%Z) by reflexivity.
    assert (E3 : py_int (slice 6 8 d) = Some 1%Z) by reflexivity. assert (E4 : py_int (slice 8 10 d) = Some 0%Z) by reflexivity.
    assert (E5 : py_int (slice 10 12 d) = Some 0%Z) by reflexivity. rewrite E1, E2, E3, E4, E5. change (length d) with 14. cbn [Nat.ltb Nat.leb Z.ltb Z.compare Pos.compare Pos.compare_cont andb].
    unfold cal2dec. change (py_index cumulative_months (1 - 1)) with (Some 0%Z). cbv iota zeta.
    change (@nofZ XR _ 24) with (Fin 24). change (@nofZ XR _ 60) with (Fin 60). change (@nofZ XR _ 365) with (Fin 365). change (@nofZ XR _ 366) with (Fin 366).
    change (@nofZ XR _ (0 + 1 - 1)) with (Fin 0). change (@nofZ XR _ 0) with (Fin 0). rewrite !ndiv_fin by lra. cbn [nadd XR_Num xadd].
    replace (0 + 0 / 24 + 0 / 60 / 24)%R with 0%R by field. change (nltb (Fin 366) (Fin 0)) with (Rltb 366 0). unfold Rltb. destruct (Rlt_dec 366 0); [lra|].
    rewrite ndiv_fin by lra. change (nofZ 2010) with (Fin 2010). cbn [nadd XR_Num xadd]. f_equal. field. }
  unfold change_dates. cbn [repeat map]. unfold six_date in *. now rewrite E.
Qed.
Lemma six_levels_of i : i < 6 -> cast_levels (Fin 1250) six_file i = Some ([Fin 800; Fin 1200], [Fin (six_sal i); Fin (six_sal i)], [Fin 8; Fin 4]).
Proof.
  intros Hi. assert (G : forall s : R, match gather [Fin 800; Fin 1200] (argwhere (fun x => negb (nisnan x)) [Fin 800; Fin 1200]),
      gather [Fin s; Fin s] (argwhere (fun x => negb (nisnan x)) [Fin 800; Fin 1200]), gather [Fin 8; Fin 4] (argwhere (fun x => negb (nisnan x)) [Fin 800; Fin 1200]) with
      | Some pres, Some sal, Some ptmp =>
            let too_deep := argwhere (fun x => nltb (Fin 1250) x) pres in
            Some (np_delete pres too_deep, np_delete sal too_deep, np_delete ptmp too_deep)
        | _, _, _ => None
        end = Some ([Fin 800; Fin 1200], [Fin s; Fin s], [Fin 8; Fin 4])).
  { intros s. change (argwhere (fun x => negb (nisnan x)) [Fin 800; Fin 1200]) with [0; 1]. cbn [gather forallb length Nat.ltb Nat.leb andb take map nth]. cbv zeta.
    assert (E : argwhere (fun x => nltb (Fin 1250) x) [Fin 800; Fin 1200] = []).
    { unfold argwhere. cbn [argwhere_from]. change (nltb (Fin 1250) (Fin 800)) with (Rltb 1250 800). change (nltb (Fin 1250) (Fin 1200)) with (Rltb 1250 1200).
      unfold Rltb. destruct (Rlt_dec 1250 800); [lra|]. destruct (Rlt_dec 1250 1200); [lra|]. reflexivity. }
    rewrite E. reflexivity. }
  unfold cast_levels. do 6 (destruct i as [|i]; [exact (G _)|]). lia.
Qed.
Lemma fold_map {A B C} (f : A -> C -> A) (g : B -> C) l a : fold_left f (map g l) a = fold_left (fun x y => f x (g y)) l a.
Proof. revert a. induction l as [|x l IH]; intros a; [reflexivity|]. cbn. apply IH. Qed.
Definition six_out : Fetchers.out (T := XR) :=
  mkOut (map (fun i => [Fin (six_sal i); Fin (six_sal i)]) (seq 0 6)) (repeat [Fin 8; Fin 4] 6) (repeat [Fin 800; Fin 1200] 6)
    six_lats (repeat (Fin 10) 6) (repeat (Fin 2010) 6).
Definition six_state (k : nat) : Fetchers.region (T := XR) :=
  mkRegion (map (fun i => [Fin (six_sal i); Fin (six_sal i)]) (seq 0 k)) (repeat [Fin 8; Fin 4] k) (repeat [Fin 800; Fin 1200] k)
    (map (fun i => Fin (INR i)) (seq 0 k)) (repeat (Fin 10) k) (repeat (Fin 20100101) k) (if Nat.eqb k 0 then 0 else 2) k.
Lemma six_step k : k < 6 -> add_cast (Fin 1250) six_file k (six_state k) = (six_state (S k), true).
Proof. intros Hk. unfold add_cast. rewrite six_levels_of by exact Hk. do 6 (destruct k as [|k]; [reflexivity|]). lia. Qed.
Lemma six_added : add_casts (seq 0 6) (Fin 1250) six_file 0 0 6 region0 = six_state 6.
Proof.
  change (region0 (T := XR)) with (six_state 0). cbn [add_casts existsb seq Nat.add Nat.eqb orb].
  do 6 (rewrite six_step by lia; cbv beta iota). reflexivity.
Qed.
Lemma six_region box fn ns : ~ In box ns ->
  get_region_data six_read six_date (six_row box box :: map (six_row box) ns) fn (mc_db (six_cfg box)) (seq 0 6) [Fin 100; Fin 1000] = Ok six_out.
Proof.
  intros NI. unfold get_region_data.
  assert (EM : nadd (nanmax [Fin 100; Fin 1000]) (map_p_delta (mc_db (six_cfg box))) = Fin 1250).
  { unfold nanmax, drop_nan. cbn [filter nisnan XR_Num negb]. unfold max_from. cbn [fold_left]. change (nltb (Fin 100) (Fin 1000)) with (Rltb 100 1000).
    unfold Rltb. destruct (Rlt_dec 100 1000); [|lra]. cbn. f_equal. lra. }
  rewrite EM, fold_map, (six_requests box (add_file (seq 0 6) (Fin 1250)) (mc_db (six_cfg box)) fn (region0, 0) ns) by (try exact NI; intros [? ?]; reflexivity).
  unfold add_file. change (mat_len (d_pres six_file)) with (Some 2). change (d_lat six_file) with (Vec six_lats). cbv iota beta. change (length six_lats) with 6.
  rewrite six_added. cbv beta iota. change (g_long (six_state 6)) with (repeat (Fin 10) 6). change (g_dates (six_state 6)) with (repeat (Fin 20100101) 6).
  rewrite six_wrap, six_year. reflexivity.
Qed.
(* ---- the sea floor ---- *)
Lemma six_topo (lo1 lo2 la1 la2 : Z) : (0 <= lo1 /\ lo1 <= lo2 /\ lo2 <= 300)%Z -> (-80 <= la1 /\ la1 <= la2 /\ la2 <= 80)%Z -> exists t,
  get_topo_grid (T := XR) flat_sea (Fin (IZR lo1)) (Fin (IZR lo2)) (Fin (IZR la1)) (Fin (IZR la2)) = Ok t.
Proof.
  intros H1 H2. destruct (window_depth flat_sea Proofs_Depth4.demo_interp2d (IZR lo1) (IZR lo2) (IZR la1) (IZR la2) flat_file Proofs_Depth4.demo_linear) as (e & x & y & E & _); [|eauto].
  rewrite Rmin_left by (apply IZR_le; lia). change 12%R with (IZR 12). rewrite <- !mult_IZR, !Core.Raux.Zfloor_IZR, !Core.Raux.Zceil_IZR. unfold readable. lia.
Qed.
Lemma six_elevation (lo1 lo2 la1 la2 : Z) places : (0 <= lo1 /\ lo1 <= lo2 /\ lo2 <= 300)%Z -> (-80 <= la1 /\ la1 <= la2 /\ la2 <= 80)%Z ->
  elevation six_sea flat_sea (Fin (IZR lo1)) (Fin (IZR lo2)) (Fin (IZR la1)) (Fin (IZR la2)) places = Ok (repeat (Fin (-4000)) (length places)).
Proof.
  intros H1 H2. destruct (six_topo lo1 lo2 la1 la2 H1 H2) as ([[e x] y] & E). unfold elevation. rewrite E. cbn [bind].
  induction places as [|p l IH]; [reflexivity|]. cbn [mapM length repeat]. rewrite IH. reflexivity.
Qed.
Lemma six_tbase : map tbase_long (repeat (Fin 10) 6) = repeat (Fin 10) 6.
Proof. cbn [repeat map]. unfold tbase_long. change (nltb (nofZ 180) (Fin 10)) with (Rltb 180 10). unfold Rltb. destruct (Rlt_dec 180 10); [lra|reflexivity]. Qed.
Lemma fin_min (l : list R) m : fold_left (fun m x : XR => if nltb x m then x else m) (map Fin l) (Fin m) = Fin (fold_left (fun m x => if Rltb x m then x else m) l m).
Proof. revert m. induction l as [|x l IH]; intros m; [reflexivity|]. cbn [map fold_left]. change (nltb (Fin x) (Fin m)) with (Rltb x m). destruct (Rltb x m); apply IH. Qed.
Lemma fin_max (l : list R) m : fold_left (fun m x : XR => if nltb m x then x else m) (map Fin l) (Fin m) = Fin (fold_left (fun m x => if Rltb m x then x else m) l m).
Proof. revert m. induction l as [|x l IH]; intros m; [reflexivity|]. cbn [map fold_left]. change (nltb (Fin m) (Fin x)) with (Rltb m x). destruct (Rltb m x); apply IH. Qed.
Lemma low_min l m : (forall x, In x l -> m <= x)%R -> fold_left (fun m x => if Rltb x m then x else m) l m = m.
Proof.
  induction l as [|x l IH]; intros H; [reflexivity|]. cbn [fold_left]. pose proof (H x (or_introl eq_refl)). unfold Rltb at 2. destruct (Rlt_dec x m); [lra|].
  apply IH. intros y Hy. apply H. now right.
Qed.
Lemma six_bounds : amin (repeat (Fin 10) 6) = Fin 10 /\ amax (repeat (Fin 10) 6) = Fin 10 /\ amin six_lats = Fin 0 /\ amax six_lats = Fin 5.
Proof.
  change (repeat (Fin 10) 6) with (Fin 10 :: map Fin (repeat 10%R 5)). change six_lats with (Fin 0 :: map Fin (map INR (seq 1 5))).
  unfold amin, amax. cbn [existsb nisnan XR_Num orb map repeat seq]. unfold np_min, np_max, min_from, max_from.
  change [Fin 10; Fin 10; Fin 10; Fin 10; Fin 10] with (map Fin (repeat 10%R 5)). change [Fin (INR 1); Fin (INR 2); Fin (INR 3); Fin (INR 4); Fin (INR 5)] with (map Fin (map INR (seq 1 5))).
  rewrite !fin_min, !fin_max. rewrite low_min by (intros x Hx; apply repeat_spec in Hx; lra).
  rewrite low_min by (intros x Hx; apply in_map_iff in Hx as (k & <- & _); apply pos_INR).
  split; [reflexivity|]. split; [|split; [reflexivity|]].
  - assert (N : Rltb 10 10 = false) by (unfold Rltb; destruct (Rlt_dec 10 10); [lra|reflexivity]). cbn [repeat fold_left]. now rewrite !N.
  - cbn [map seq fold_left]. assert (L : forall a b, a < b -> Rltb (INR a) (INR b) = true) by (intros a b H; apply Rltb_true; now apply lt_INR).
    change 0%R with (INR 0). rewrite !L by lia. f_equal. cbn [INR]. lra.
Qed.
Lemma six_depths : grid_depths six_sea flat_sea (repeat (Fin 10) 6) six_lats = Ok (repeat (Fin 4000) 6).
Proof.
  unfold grid_depths. rewrite six_tbase. destruct six_bounds as (-> & -> & -> & ->).
  assert (E : forall a b, nsub (Fin (IZR a)) (nofZ 1) = Fin (IZR (a - 1)) /\ nadd (Fin (IZR b)) (nofZ 1) = Fin (IZR (b + 1))).
  { intros a b. rewrite minus_IZR, plus_IZR. split; reflexivity. }
  rewrite !(proj1 (E 10%Z 0%Z)), !(proj2 (E 0%Z 10%Z)), !(proj1 (E 0%Z 0%Z)), !(proj2 (E 0%Z 5%Z)). rewrite six_elevation by lia. cbn [bind].
  f_equal. change (length (combine (repeat (Fin 10) 6) six_lats)) with 6. cbn [repeat map]. change (nmul (nofZ (-1)) (Fin (-4000))) with (Fin (-1 * -4000)).
  replace (-1 * -4000)%R with 4000%R by lra. reflexivity.
Qed.
(* ---- the selection ---- *)
Definition six_grid : list (Finders.cast XR) := map (fun i => mkCast (Fin (INR i)) (Fin 10) (Fin 2010) (Fin 4000)) (seq 0 6).
Lemma six_ellipse la : (-1 <= la <= 5)%R -> exists e, find_ellipse (Fin 10) (Fin 10) (Fin 8) (Fin la) (Fin 2) (Fin 4) (Fin 1) (Fin 0) (Fin 0) = Ok (Fin e) /\ (e < 1)%R.
Proof.
  intros Hla. unfold find_ellipse. change (neqb (Fin 0) (nofZ 0)) with (Reqb 0 0). unfold Reqb. destruct (Req_EM_T 0 0); [|lra]. cbn [negb andb bind].
  change (nsq (nmul (Fin 8) (nofZ 3))) with (Fin (8 * 3 * (8 * 3))). change (nsq (nmul (Fin 4) (nofZ 3))) with (Fin (4 * 3 * (4 * 3))).
  change (nsq (nsub (Fin 10) (Fin 10))) with (Fin ((10 - 10) * (10 - 10))). change (nsq (nsub (Fin la) (Fin 2))) with (Fin ((la - 2) * (la - 2))).
  rewrite !pydiv_fin by lra. cbn [bind]. change (nsq (nofZ 0)) with (Fin (0 * 0)). cbn [nadd XR_Num xadd nsqrt xsqrt].
  set (v := (_ + _ + _)%R). assert (V0 : v = ((la - 2) * (la - 2) / 144)%R) by (unfold v; field).
  assert (V1 : (0 <= (la - 2) * (la - 2) <= 9)%R) by (split; [|replace ((la - 2) * (la - 2))%R with (9 - (5 - la) * (la - -1))%R by ring; assert (0 <= (5 - la) * (la - -1))%R by (apply Rmult_le_pos; lra); lra]; apply Rle_0_sqr).
  assert (V : (0 <= v < 1)%R) by lra. destruct (Rlt_dec v 0); [lra|].
  exists (sqrt v). split; [|rewrite <- sqrt_1; apply sqrt_lt_1; lra].
  reflexivity.
Qed.
Lemma six_best g : fst (find_besthist (fun _ => tt) (fun _ n => (repeat (Fin 0) n, tt)) argsort (Fin 2) (Fin 10) (Fin 2010) (Fin 4000)
    (Fin 4) (Fin 2) (Fin 8) (Fin 4) (Fin 1) (Fin 1) (Fin 10) (Fin 5) 0 six_grid 300 g) = Ok (seq 0 6).
Proof.
  assert (EI : ellipse_index (Fin 2) (Fin 10) (Fin 4000) (Fin 4) (Fin 8) (Fin 1) 0 six_grid = Ok (Fin 0, seq 0 6)).
  { unfold ellipse_index, pv_float, pv_casts, use_pv. cbn [Z.eqb bind]. unfold six_grid. cbn [seq map combine vectorize mapM fst snd c_long c_lat].
    assert (E : forall i, i < 6 -> exists e, find_ellipse (Fin 10) (Fin 10) (Fin 8) (Fin (INR i)) (Fin 2) (Fin 4) (Fin 1) (nofZ 0) (nofZ 0) = Ok (Fin e) /\ (e < 1)%R).
    { intros i Hi. apply six_ellipse. split; [pose proof (pos_INR i); lra|]. assert (INR i <= INR 5)%R by (apply le_INR; lia). cbn [INR] in *. lra. }
    destruct (E 0 ltac:(lia)) as (e0 & -> & L0). destruct (E 1 ltac:(lia)) as (e1 & -> & L1). destruct (E 2 ltac:(lia)) as (e2 & -> & L2).
    destruct (E 3 ltac:(lia)) as (e3 & -> & L3). destruct (E 4 ltac:(lia)) as (e4 & -> & L4). destruct (E 5 ltac:(lia)) as (e5 & -> & L5). cbn [bind].
    assert (L : forall e, (e < 1)%R -> nltb (Fin e) (nofZ 1) = true) by (intros e H; change (Rltb e 1 = true); now apply Rltb_true).
    unfold argwhere. cbn [argwhere_from]. rewrite !L by assumption. reflexivity. }
  unfold find_besthist. rewrite EI. reflexivity.
Qed.
Definition six_history : grid XR :=
  mkGrid (map (fun i => [Fin (six_sal i); Fin (six_sal i)]) (seq 0 6)) (repeat [Fin 8; Fin 4] 6) (repeat [Fin 800; Fin 1200] 6)
    six_lats (repeat (Fin 10) 6) (repeat (Fin 2010) 6) (repeat (Fin 4000) 6).
Definition six_float : float_data XR := mkFloatData (Fin 2) (Fin 10) (Fin 2010) [Fin 35; Fin 35] [Fin 6; Fin 6] [Fin 6; Fin 6] [Fin 100; Fin 1000].
Lemma six_wrap_float : wrap_float (repeat (Fin 10) 6) (Fin 10) = Fin 10.
Proof.
  unfold wrap_float. cbn [repeat existsb]. change (nltb (nofZ 360) (Fin 10)) with (Rltb 360 10). unfold Rltb. destruct (Rlt_dec 360 10); [lra|reflexivity].
Qed.
Lemma six_found : exists box, best_history (fun _ => tt) (fun _ n => (repeat (Fin 0) n, tt)) tt argsort (fun x _ _ => x) (fun x _ _ _ => x) (fun x _ => x) (fun x _ _ => x)
  six_sea flat_sea six_read six_date (six_cfg box) "3901960" six_float (Fin 4000) = Ok six_history.
Proof.
  destruct six_boxes as (box & ns & EB & NI). exists box. unfold best_history. change (fd_long six_float) with (Fin 10). change (fd_lat six_float) with (Fin 2).
  change (mc_boxes (six_cfg box)) with (six_table box). rewrite EB. cbn [bind]. rewrite six_locations by exact NI. cbn [bind]. rewrite six_wrap, six_year, six_depths. cbn [bind].
  rewrite six_wrap_float.
  match goal with |- context [find_besthist _ _ _ _ _ _ _ _ _ _ _ _ _ _ _ _ ?l _ _] => change l with six_grid end.
  cbn [fd_date six_float mc_lat_large mc_lat_small mc_long_large mc_long_small mc_phi_large mc_phi_small mc_age_large mc_age_small mc_use_pv mc_max_casts six_cfg fd_pres mc_use_saf].
  rewrite six_best. cbn [bind]. change (mkDbConfig XR "db" "ctd_" "bot_" "argo_" (Fin 250)) with (mc_db (six_cfg box)).
  rewrite six_region by exact NI. reflexivity.
Qed.
(* ---- the level at 1000 dbar ---- *)
Definition six_cols (i : nat) : list (XR * XR * XR) := [(Fin (six_sal i), Fin 8, Fin 800); (Fin (six_sal i), Fin 4, Fin 1200)].
Lemma six_station s p : interp_station (Fin 6) (Fin p) [(Fin s, Fin 8, Fin 800); (Fin s, Fin 4, Fin 1200)] = Ok (Fin s, Fin 1000).
Proof.
  unfold interp_station. cbn [map steps combine tl fst snd]. unfold sign_change, steps. cbn [map combine tl fst snd].
  change (nleb (nmul (nsub (Fin 4) (Fin 6)) (nsub (Fin 8) (Fin 6))) (nofZ 0)) with (Rleb ((4 - 6) * (8 - 6)) 0).
  unfold Rleb. destruct (Rle_dec _ 0); [|lra]. cbn [existsb orb]. unfold interpolation_weight, interpolate. cbn [fst snd].
  change (nsub (Fin 6) (Fin 8)) with (Fin (6 - 8)). change (nsub (Fin 4) (Fin 8)) with (Fin (4 - 8)). rewrite ndiv_fin by lra.
  unfold nanargmin. cbn [nanargmin_from nisnan nabs nsub nadd nmul XR_Num xabs xsub xadd xmul xopp bind nth]. f_equal. f_equal; f_equal; field.
Qed.
Lemma six_interp : interp_climatology (to_array2 (gr_sal six_history)) (to_array2 (gr_ptmp six_history)) (to_array2 (gr_pres six_history))
  (combine (combine (fd_sal six_float) (fd_ptmp six_float)) (fd_pres six_float)) = Ok (repeat (map (fun i => (Fin (six_sal i), Fin 1000)) (seq 0 6)) 2).
Proof.
  unfold interp_climatology. cbv zeta.
  change (a_cols (to_array2 (gr_sal six_history))) with 6. change (a_rows (to_array2 (gr_sal six_history))) with 2. change (a_cols (to_array2 (gr_ptmp six_history))) with 6.
  change (a_rows (to_array2 (gr_ptmp six_history))) with 2. change (a_cols (to_array2 (gr_pres six_history))) with 6. change (a_rows (to_array2 (gr_pres six_history))) with 2.
  cbn [Nat.eqb andb negb]. assert (EC : cleaned_grid_data (to_array2 (gr_sal six_history)) (to_array2 (gr_ptmp six_history)) (to_array2 (gr_pres six_history)) = Ok (Some (map six_cols (seq 0 6)))) by reflexivity.
  rewrite EC. cbn [bind]. change (combine _ _) with [(Fin 35, Fin 6, Fin 100); (Fin 35, Fin 6, Fin 1000)]. cbn [mapM interp_level]. cbn [finite3 nisfin XR_Num andb].
  assert (ES : forall p, mapM (interp_station (Fin 6) (Fin p)) (map six_cols (seq 0 6)) = Ok (map (fun i => (Fin (six_sal i), Fin 1000)) (seq 0 6))).
  { intros p. generalize (seq 0 6) as l. induction l as [|i l IH]; [reflexivity|]. cbn [map mapM]. unfold six_cols at 1. rewrite six_station. cbn [bind]. rewrite IH. reflexivity. }
  rewrite !ES. reflexivity.
Qed.
Lemma six_window : process_profile_hist_variables (gr_long six_history) (gr_lat six_history) (gr_dates six_history) (gr_z six_history) (Fin 1000)
  (map (fun i => (Fin (six_sal i), Fin 1000)) (seq 0 6)) (Fin 250) = Ok (hist_of (map known six)).
Proof.
  unfold process_profile_hist_variables. cbv zeta.
  change (argwhere (fun q : XR * XR => negb (nisnan (fst q))) (map (fun i => (Fin (six_sal i), Fin 1000)) (seq 0 6))) with (seq 0 6).
  assert (ET : map snd (take (nnan, nnan) (map (fun i => (Fin (six_sal i), Fin 1000)) (seq 0 6)) (seq 0 6)) = repeat (Fin 1000) 6) by reflexivity. rewrite ET.
  assert (EA : argwhere (fun p => nltb (nabs (nsub p (Fin 1000))) (Fin 250)) (repeat (Fin 1000) 6) = seq 0 6).
  { unfold argwhere. cbn [repeat argwhere_from]. change (nltb (nabs (nsub (Fin 1000) (Fin 1000))) (Fin 250)) with (Rltb (Rabs (1000 - 1000)) 250).
    replace (1000 - 1000)%R with 0%R by lra. rewrite Rabs_R0. unfold Rltb. destruct (Rlt_dec 0 250); [reflexivity|lra]. }
  rewrite EA. reflexivity.
Qed.
Definition six_large := mkScales 4 8 10 1 false.
Definition six_small := mkScales 2 4 5 1 false.
Lemma six_scales box : config_scales (six_cfg box) six_large six_small /\ scales_nonzero six_large /\ scales_nonzero six_small.
Proof.
  split; [unfold config_scales; cbn; auto 12|]. split; unfold scales_nonzero; cbn; repeat split; (discriminate || lra).
Qed.
Lemma six_profile : exists box lev o, six_levels box six_source 0 = Ok lev /\ lev 0 = Ok None /\ lev 1 = Ok (Some o) /\ lo_noise o = Fin (1 / 2) /\ lo_points o <> [].
Proof.
  destruct six_found as (box & EF). exists box. destruct (six_scales box) as (HC & NL & NS).
  destruct (level_mapped exact_inv (six_cfg box) six_large six_small (mkPoint 2 10 2010 4000)%R (Fin 6) six (1 / 2)%R exact_inv_ok HC NL NS) as (v & e & _ & EM).
  { intros P. discriminate. }
  { cbn. lia. }
  { rewrite six_kept. exact six_noise. }
  { lra. }
  unfold six_levels, profile_levels. change (get_float_data six_source 0) with (Ok six_float). cbn [bind].
  change (MapProfile.usable six_float) with true. cbv iota. change (fd_long six_float) with (Fin 10). change (fd_lat six_float) with (Fin 2).
  assert (ET : tbase_long (Fin 10) = Fin 10) by exact (f_equal (hd NaN) six_tbase). rewrite ET.
  assert (EE : forall a b, nsub (Fin (IZR a)) (nofZ 1) = Fin (IZR (a - 1)) /\ nadd (Fin (IZR b)) (nofZ 1) = Fin (IZR (b + 1))).
  { intros a b. rewrite minus_IZR, plus_IZR. split; reflexivity. }
  rewrite !(proj1 (EE 10%Z 0%Z)), !(proj2 (EE 0%Z 10%Z)), !(proj1 (EE 2%Z 0%Z)), !(proj2 (EE 0%Z 2%Z)). rewrite six_elevation by lia. cbn [bind length repeat hd].
  change (nopp (Fin (-4000))) with (Fin (- -4000)). replace (- -4000)%R with 4000%R by lra. rewrite EF. cbn [bind]. rewrite six_interp. cbn [bind].
  eexists _, _. split; [reflexivity|]. cbv beta. cbn [nth_error fd_sal fd_pres six_float nisnan XR_Num negb andb mc_p_exclude six_cfg].
  change (nleb (Fin 500) (Fin 100)) with (Rleb 500 100). change (nleb (Fin 500) (Fin 1000)) with (Rleb 500 1000). unfold Rleb.
  destruct (Rle_dec 500 100); [lra|]. destruct (Rle_dec 500 1000); [|lra]. split; [reflexivity|].
  change (nth 1 (repeat ?x 2) []) with x. change (nth 1 (repeat (map (fun i : nat => (Fin (six_sal i), Fin 1000)) (seq 0 6)) 2) []) with (map (fun i : nat => (Fin (six_sal i), Fin 1000)) (seq 0 6)).
  change (mc_p_delta (six_cfg box)) with (Fin 250). rewrite six_window. cbn [bind]. change (gr_long six_history) with (repeat (Fin 10) 6). rewrite six_wrap_float.
  change (fd_date six_float) with (Fin 2010). change (nth 1 (fd_ptmp six_float) nnan) with (Fin 6).
  change (mkPoint (Fin 2) (Fin 10) (Fin 2010) (Fin 4000)) with (fpoint (mkPoint 2 10 2010 4000)%R). split; [exact EM|]. split; [reflexivity|].
  cbn [lo_points]. rewrite six_kept. discriminate.
Qed.

(* ---- the file ---- *)
Lemma six_known : positions_known six_read /\ soundings six_sea (s_pv six_large) /\ float_known six_source.
Proof.
  split; [|split].
  - intros path d E. injection E as <-. split; cbn [entries d_lat d_long six_file].
    + apply Forall_forall. intros x Hx. apply in_map_iff in Hx as (i & <- & _). now exists (INR i).
    + apply Forall_forall. intros x Hx. apply repeat_spec in Hx as ->. now exists 10%R.
  - intros x y e a b v E. injection E as <-. exists (-4000)%R. split; [reflexivity|discriminate].
  - intros i fd E. destruct i as [|i]; [|destruct i; discriminate E]. injection E as <-. split; [now exists 2%R|]. split; [now exists 10%R|now exists 2010%R].
Qed.
Definition six_mapping box read := update_salinity_mapping argsort
  (profile_levels (fun _ => tt) (fun _ n => (repeat (Fin 0) n, tt)) tt argsort exact_inv (fun x _ _ => x) (fun x _ _ _ => x) (fun x _ => x) (fun x _ _ => x)
     six_sea flat_sea read six_date (six_cfg box) "3901960") [] demo_paths (six_cfg box) six_source "/" "3901960".
(* a database with which the level at 1000 dbar is mapped to 35, noise 1/2 *)
Theorem six_mapped : exists box read st' d, positions_known read /\ six_mapping box read (fun _ => None) = (Ok tt, st') /\
  st' (save_path [] demo_paths "3901960") = Some d /\ positive_noise d /\ nth 1 (nth 0 (m_cols (la_mapped_sal d)) []) NaN = Fin 35.
Proof.
  destruct six_profile as (box & lev & o & EL & E0 & E1 & EN & EP). destruct (six_scales box) as (HC & NL & NS). destruct six_known as (K1 & K2 & K3).
  assert (EV : exists v, lo_sal o = Fin v).
  { destruct (proj2 (profile_raised _ _ _ _ _ _ _ _ _ _ _ _ _ _ _ exact_inv_ok six_large six_small HC NL NS ltac:(discriminate) K1 K2 0 six_source 0 K3) lev EL) as (lev' & _ & HSL).
    destruct (HSL 1) as (_ & _ & B). exact (proj2 (B o _ E1 EN ltac:(lra))). }
  destruct EV as (v & EV). set (c := (35 - v)%R).
  destruct (proj2 (profile_raised _ _ _ _ _ _ _ _ _ _ _ _ _ _ _ exact_inv_ok six_large six_small HC NL NS ltac:(discriminate) K1 K2 c six_source 0 K3) lev EL) as (lev' & EL' & HSL).
  destruct (HSL 0) as (N0 & _). apply N0 in E0. destruct (HSL 1) as (_ & _ & B). destruct (B o _ E1 EN ltac:(lra)) as [E1' _]. clear HSL B N0.
  exists box, (biased_database c six_read).
  set (calc := profile_levels (fun _ => tt) (fun _ n => (repeat (Fin 0) n, tt)) tt argsort exact_inv (fun x _ _ => x) (fun x _ _ _ => x) (fun x _ => x) (fun x _ _ => x)
     six_sea flat_sea (biased_database c six_read) six_date (six_cfg box) "3901960" six_source) in *.
  assert (O0 : outcome calc 0 0 = None) by (unfold outcome; now rewrite EL', E0).
  assert (O1 : outcome calc 0 1 = Some (raised_level c o)) by (unfold outcome; now rewrite EL', E1').
  assert (EQ : argsort [Fin 1] = [0]) by reflexivity.
  assert (CO : forall f, columns 2 calc [Fin 1] f = [[NaN; f (raised_level c o)]]).
  { intros f. unfold columns, profile_column. cbn [length seq map]. now rewrite O0, O1. }
  assert (PU : points_used 2 calc [Fin 1] = [(Fin 1, lo_points o)]).
  { unfold points_used. cbn [length seq flat_map nth]. now rewrite O0, O1. }
  assert (RE : exists sel, recorded [(Fin 1, lo_points o)] [] = Ok sel /\ sel <> []).
  { unfold recorded, selected_historical_points. destruct (lo_points o) as [|q l] eqn:Eq; [congruence|]. cbn [bind]. eexists. split; [reflexivity|].
    assert (NE : forall l s, s <> [] -> fold_left (add_point (Fin 1)) l s <> []).
    { clear. induction l as [|p l IH]; intros s Hs; [exact Hs|]. cbn [fold_left]. apply IH. unfold add_point. destruct (existsb _ s); [exact Hs|]. destruct s; discriminate. }
    apply NE. discriminate. }
  destruct RE as (sel & ES & NE).
  set (one := fun f : level_out XR -> XR => mkMatrix 2 [[NaN; f (raised_level c o)]]).
  set (d := mkMapped (one lo_ptmp) (one (fun o => in_range (lo_sal o))) (one lo_err) (one lo_noise) (one lo_signal) [Fin 1]
              (combine setting_names (map (fun v => rearranged nnan [0] (setting_column 2 calc [Fin 1] v)) (map_values (six_cfg box)))) (sort_by (fun a b => nltb (snd a) (snd b)) sel)).
  assert (ER : run (map_values (six_cfg box)) 2 calc argsort None [Fin 1] = Ok d).
  { apply (fresh_iff (map_values (six_cfg box)) 2 calc [Fin 1] eq_refl argsort d argsort_sorting). split.
    - intros p Hp. cbn in Hp. assert (p = 0) as -> by lia. exists lev'. split; [exact EL'|]. intros [|[|n]] Hn; [eauto|eauto|lia].
    - exists sel. rewrite PU. split; [exact ES|]. split; [exact NE|]. unfold saved_file. cbv zeta. rewrite EQ, !CO. repeat split. }
  exists (fun p => if path_eqb p (save_path [] demo_paths "3901960") then Some d else None), d. split; [|split; [|split; [|split]]].
  - intros path r E. injection E as <-. exact (K1 path six_file eq_refl).
  - unfold six_mapping, update_salinity_mapping, update. change (src_levels six_source) with 2. change (src_no six_source) with [Fin 1]. fold calc. now rewrite ER.
  - cbv beta. now rewrite path_eqb_refl.
  - intros j l. unfold d. cbn [la_noise_sal one m_cols raised_level lo_noise]. rewrite EN. destruct j as [|[|j]]; destruct l as [|[|[|l]]]; cbn; auto; lra.
  - unfold d. cbn [la_mapped_sal one m_cols raised_level lo_sal nth]. rewrite EV. change (raised c (Fin v)) with (Fin (v + c)). replace (v + c)%R with 35%R by (unfold c; ring).
    apply range_kept. lra.
Qed.
