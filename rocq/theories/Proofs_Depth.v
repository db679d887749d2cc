(* The depths of the sea floor used in the mapping and in the calibration *)
From Coq Require Import ZArith List Bool Reals Lra Lia Arith.
From Flocq Require Import Core.Raux.
From Verif Require Import Num Np NumFacts NpFacts Topo Spec_Topo Spec_Depth Proofs_Besthist Proofs_Interp Proofs_Topo.
Import ListNotations.

Lemma grid_value f lo1 lo2 la1 la2 :
  let left := Zfloor (lo1 * 12) in let right := Zceil (lo2 * 12) in
  let top := Zceil (Rmin la2 90 * 12) in let bottom := Z.max (Zfloor (la1 * 12)) (-1079) in
  let lgs := map (fun k => Fin (IZR k / 12)) (arangeZ left right) in
  let lts := rev (map (fun k => Fin (IZR k / 12)) (arangeZ bottom top)) in
  get_topo_grid (T := XR) f (Fin lo1) (Fin lo2) (Fin la1) (Fin la2) =
  let* topo := read_topo f (fst (fold_long left right)) (snd (fold_long left right)) (90 * 12 - bottom) (90 * 12 - top) in
  Ok (topo, map (fun _ => lgs) lts, map (fun y => map (fun _ => y) lgs) lts).
Proof.
  intros left right top bottom lgs lts. unfold get_topo_grid.
  match goal with |- (let '(a, b) := ?e in _) = _ =>
    assert (E : exists la1', e = (Fin la1', Fin (Rmin la2 90)) /\
                   Z.max (Zfloor (la1' * 12)) (-1079) = bottom) end.
  { destruct (Rle_lt_dec la2 90) as [Hle|Hgt].
    - rewrite (Rmin_left la2 90 Hle).
      replace (nltb (T := XR) (nofZ 90) (Fin la2)) with false by (cbn; symmetry; rb; auto; lra).
      destruct (nltb (T := XR) (Fin la1) (nofZ (-90))) eqn:E1.
      + exists (-90)%R. split; [reflexivity|]. cbn in E1. rb; try discriminate.
        unfold bottom. replace (-90 * 12)%R with (IZR (-1080)) by lra. rewrite Zfloor_IZR.
        assert (Zfloor (la1 * 12) < -1079)%Z; [|lia].
        apply lt_IZR. apply Rle_lt_trans with (la1 * 12)%R; [apply Zfloor_lb|lra].
      + exists la1. split; reflexivity.
    - rewrite (Rmin_right la2 90 ltac:(lra)).
      replace (nltb (T := XR) (nofZ 90) (Fin la2)) with true by (cbn; symmetry; rb; auto; lra).
      exists la1. split; reflexivity. }
  destruct E as (la1' & -> & HB').
  assert (E1 : int_of_float (np_max2 (T := XR) (nfloor (nmul (Fin la1') (nofZ 12))) (nofZ (-90 * 12 + 1))) = Ok bottom).
  { cbn [nmul nofZ nfloor]. cbn -[int_of_float Zfloor IZR Rltb].
    unfold np_max2. cbn -[int_of_float Zfloor IZR Rltb]. rewrite <- HB'.
    unfold Rltb. destruct (Rlt_dec (IZR (Zfloor (la1' * 12))) (IZR (-1079))) as [H|H].
    - apply lt_IZR in H. rewrite int_of_float_Z. f_equal. lia.
    - apply Rnot_lt_le in H. apply le_IZR in H. rewrite int_of_float_Z. f_equal. lia. }
  rewrite E1. cbn [bind].
  assert (E2 : int_of_float (T := XR) (nceil (nmul (Fin (Rmin la2 90)) (nofZ 12))) = Ok top)
    by (cbn -[int_of_float Zceil IZR]; apply int_of_float_Z).
  rewrite E2. cbn [bind].
  assert (E3 : int_of_float (T := XR) (nfloor (nmul (Fin lo1) (nofZ 12))) = Ok left)
    by (cbn -[int_of_float Zfloor IZR]; apply int_of_float_Z).
  rewrite E3. cbn [bind].
  assert (E4 : int_of_float (T := XR) (nceil (nmul (Fin lo2) (nofZ 12))) = Ok right)
    by (cbn -[int_of_float Zceil IZR]; apply int_of_float_Z).
  rewrite E4. cbn [bind]. destruct (fold_long left right) as [d0 d1]. cbn [fst snd].
  destruct (read_topo _ _ _ _ _) as [topo|]; [|reflexivity]. cbn [bind].
  assert (EA : forall l, map (fun k => ndiv (T := XR) (nofZ k) (nofZ 12)) l = map (fun k => Fin (IZR k / 12)) l)
    by (intros l; apply map_ext; intros k; apply div12).
  rewrite !EA. reflexivity.
Qed.

(* windows the code reads without failure; the cells that are right in them *)
Definition readable (left right bottom top : Z) : Prop :=
  (-1079 <= bottom <= top)%Z /\ (top <= 1080)%Z /\ (left <= right)%Z /\
  ((-4320 <= left /\ right <= 8639 /\ (0 <= left \/ right <= 4319))%Z \/
   (-4332 <= left < -4320 /\ -4320 <= right <= 12 /\ top < 1080)%Z).

Definition place_in_file (left top : Z) (i k : nat) : Z :=
  (4320 * (Z.of_nat i + (1080 - top)) +
   (if (left + Z.of_nat k <? -4320)%Z then left + Z.of_nat k + 4320 else (left + Z.of_nat k) mod 4320))%Z.

Lemma read_readable f left right bottom top : tbase_file f -> readable left right bottom top ->
  read_topo f (fst (fold_long left right)) (snd (fold_long left right)) (90 * 12 - bottom) (90 * 12 - top) =
  Ok (map (fun i => map (fun k => word f (2 * place_in_file left top i k)) (seq 0 (Z.to_nat (right + 1 - left))))
          (seq 0 (Z.to_nat (top - bottom + 1)))).
Proof.
  intros Hf (HB & HT & HLR & [(H1 & H2 & H3)|(H1 & H2 & H3)]).
  - destruct (fold_long left right) as [d0 d1] eqn:ED. cbn [fst snd].
    rewrite (read_topo_ok f left right bottom top d0 d1 Hf (conj H1 HLR) H2 H3 HB HT ED). f_equal.
    apply map_ext. intros i. apply map_ext. intros k. unfold place_in_file.
    replace (left + Z.of_nat k <? -4320)%Z with false by (symmetry; apply Z.ltb_ge; lia). reflexivity.
  - assert (EF : fold_long left right = (left + 4320, right + 4320)%Z).
    { unfold fold_long. replace (360 * 12 - 1 <? right)%Z with false by (symmetry; apply Z.ltb_ge; lia).
      replace (left <? 0)%Z with true by (symmetry; apply Z.ltb_lt; lia). reflexivity. }
    rewrite EF. cbn [fst snd]. unfold read_topo. change (90 * 12)%Z with 1080%Z.
    replace (1080 - bottom - (1080 - top) + 1)%Z with (top - bottom + 1)%Z by lia.
    destruct (4319 <? right + 4320)%Z eqn:E.
    + apply Z.ltb_lt in E.
      rewrite read_block_gen by (auto; lia). cbn [bind].
      rewrite read_block_gen by (auto; lia). cbn [bind]. f_equal.
      rewrite combine_maps, map_map. apply map_ext. intros i. cbn [fst snd].
      rewrite map_seq_app.
      replace (Z.to_nat (4320 - (left + 4320)) + Z.to_nat (right + 4320 - 4320 + 1))%nat with (Z.to_nat (right + 1 - left)) by lia.
      apply map_ext_in. intros k Hk. apply in_seq in Hk. unfold place_in_file.
      destruct (k <? Z.to_nat (4320 - (left + 4320)))%nat eqn:E2.
      * apply Nat.ltb_lt in E2. destruct (left + Z.of_nat k <? -4320)%Z eqn:E3.
        -- apply Z.ltb_lt in E3. f_equal. lia.
        -- apply Z.ltb_ge in E3. replace ((left + Z.of_nat k) mod 4320)%Z with (left + 4320 + Z.of_nat k)%Z; [f_equal; lia|].
           apply Z.mod_unique with (q := (-1)%Z); lia.
      * apply Nat.ltb_ge in E2. replace (left + Z.of_nat k <? -4320)%Z with false by (symmetry; apply Z.ltb_ge; lia).
        rewrite (Z.mod_small (left + Z.of_nat k)) by lia. f_equal. lia.
    + apply Z.ltb_ge in E. rewrite read_block_gen by (auto; lia). f_equal.
      apply map_ext. intros i. replace (right + 4320 - (left + 4320) + 1)%Z with (right + 1 - left)%Z by lia.
      apply map_ext_in. intros k Hk. apply in_seq in Hk. unfold place_in_file.
      destruct (left + Z.of_nat k <? -4320)%Z eqn:E3.
      * apply Z.ltb_lt in E3. f_equal. lia.
      * apply Z.ltb_ge in E3. replace ((left + Z.of_nat k) mod 4320)%Z with (left + 4320 + Z.of_nat k)%Z; [f_equal; lia|].
        apply Z.mod_unique with (q := (-1)%Z); lia.
Qed.

Lemma cell_in_window f left top i k : tbase_file f -> (0 <= Z.of_nat i + (1080 - top) < 2160)%Z -> (-4320 <= left + Z.of_nat k)%Z ->
  stored_cell f (Z.of_nat i + (1080 - top)) ((left + Z.of_nat k) mod 4320) (word f (2 * place_in_file left top i k)).
Proof.
  intros Hf Hr Hk. unfold place_in_file. replace (left + Z.of_nat k <? -4320)%Z with false by (symmetry; apply Z.ltb_ge; lia).
  apply word_stored; auto. apply Z.mod_pos_bound. lia.
Qed.

Lemma arange_nth a b k : (Z.of_nat k <= b - a)%Z -> nth k (map (fun z => IZR z / 12)%R (arangeZ a b)) 0%R = (IZR (a + Z.of_nat k) / 12)%R.
Proof.
  intros Hk. unfold arangeZ. rewrite map_map. rewrite (nth_map _ (seq 0 _) k 0%R 0%nat) by (rewrite seq_length; lia).
  rewrite seq_nth by lia. reflexivity.
Qed.
Lemma arange_rev_nth a b k : (Z.of_nat k <= b - a)%Z -> nth k (rev (map (fun z => IZR z / 12)%R (arangeZ a b))) 0%R = (IZR (b - Z.of_nat k) / 12)%R.
Proof.
  intros Hk. unfold arangeZ. rewrite map_map, rev_map_seq. rewrite (nth_map _ (seq 0 _) k 0%R 0%nat) by (rewrite seq_length; lia).
  rewrite seq_nth by lia. cbv beta. do 2 f_equal. lia.
Qed.
Lemma arange_length a b : length (arangeZ a b) = Z.to_nat (b + 1 - a).
Proof. unfold arangeZ. now rewrite map_length, seq_length. Qed.

(* interpolation in a window *)
Lemma window_depth f interp2d lo1 lo2 la1 la2 : tbase_file f -> linear_interp2d interp2d ->
  readable (Zfloor (lo1 * 12)) (Zceil (lo2 * 12)) (Z.max (Zfloor (la1 * 12)) (-1079)) (Zceil (Rmin la2 90 * 12)) ->
  exists elev x y,
    get_topo_grid (T := XR) f (Fin lo1) (Fin lo2) (Fin la1) (Fin la2) = Ok (elev, x, y) /\
    forall a b, (lo1 <= a)%R -> (a + / 12 <= lo2)%R -> (-360 <= a)%R -> (la1 + / 12 <= b)%R -> (b + / 12 <= la2)%R -> (- (1079 / 12) <= b <= 90)%R ->
      exists d, interp2d (hd [] x) (map (hd NaN) y) elev (Fin a) (Fin b) = Ok (Fin (- d)) /\ sea_floor f a b d.
Proof.
  intros Hf HI HR. rewrite grid_value. cbv zeta. set (left := Zfloor _) in *. set (right := Zceil (lo2 * 12)) in *.
  set (bottom := Z.max _ _) in *. set (top := Zceil (Rmin la2 90 * 12)) in *.
  rewrite (read_readable f left right bottom top Hf HR). cbn [bind]. eexists _, _, _. split; [reflexivity|].
  intros a b Ha1 Ha2 Ha3 Hb1 Hb2 Hb3. destruct HR as (HB & HT & HLR & _).
  set (ncol := Z.to_nat (right + 1 - left)). set (nrow := Z.to_nat (top - bottom + 1)).
  set (xs := map (fun k => IZR k / 12)%R (arangeZ left right)). set (ys := rev (map (fun k => IZR k / 12)%R (arangeZ bottom top))).
  assert (EX : map (fun k => Fin (IZR k / 12)) (arangeZ left right) = map Fin xs) by (unfold xs; now rewrite map_map).
  assert (EY : rev (map (fun k => Fin (IZR k / 12)) (arangeZ bottom top)) = map Fin ys) by (unfold ys; now rewrite map_rev, map_map).
  rewrite EX, EY.
  assert (LX : length xs = ncol) by (unfold xs; rewrite map_length, arange_length; reflexivity).
  assert (LY : length ys = nrow) by (unfold ys; rewrite rev_length, map_length, arange_length; unfold nrow; lia).
  assert (NX : forall k, (k < ncol)%nat -> nth k xs 0%R = (IZR (left + Z.of_nat k) / 12)%R) by (intros k Hk; apply arange_nth; unfold ncol in Hk; lia).
  assert (NY : forall k, (k < nrow)%nat -> nth k ys 0%R = (IZR (top - Z.of_nat k) / 12)%R) by (intros k Hk; apply arange_rev_nth; unfold nrow in Hk; lia).
  (* the column *)
  assert (C1 : (left <= Zfloor (a * 12))%Z) by (apply Zfloor_le; lra).
  assert (C2 : (Zfloor (a * 12) + 1 <= right)%Z).
  { apply le_IZR. rewrite plus_IZR. apply Rle_trans with (lo2 * 12)%R; [|apply Zceil_ub]. pose proof (Zfloor_lb (a * 12)). lra. }
  set (col := Zfloor (a * 12)) in *. assert (C3 : (-4320 <= col)%Z) by (apply Zfloor_lub; lra).
  assert (CF : (IZR col <= a * 12 < IZR col + 1)%R) by (split; [apply Zfloor_lb|apply Zfloor_ub]).
  (* the row *)
  assert (ER : exists k : Z, (bottom <= k - 1)%Z /\ (k <= top)%Z /\ (IZR k - 1 <= b * 12 <= IZR k)%R).
  { assert (BT : (Zfloor (la1 * 12) <= Zfloor (b * 12))%Z) by (apply Zfloor_le; lra).
    pose proof (Zfloor_lb (b * 12)) as F1. pose proof (Zfloor_ub (b * 12)) as F2.
    destruct (Rlt_le_dec b 90) as [L|L].
    - exists (Zfloor (b * 12) + 1)%Z. split; [|split].
      + apply Z.max_lub; [lia|]. assert (-1079 <= Zfloor (b * 12))%Z by (apply Zfloor_lub; lra). lia.
      + assert (Zfloor (b * 12) < top)%Z; [|lia]. apply lt_IZR. apply Rle_lt_trans with (b * 12)%R; [exact F1|].
        apply Rlt_le_trans with (Rmin la2 90 * 12)%R; [|apply Zceil_ub]. apply Rmin_case; lra.
      + rewrite plus_IZR. lra.
    - assert (b = 90)%R by lra. subst b. exists 1080%Z. split; [|split; [|lra]].
      + change (1080 - 1)%Z with 1079%Z. apply Z.max_lub; [|lia]. apply le_IZR. apply Rle_trans with (la1 * 12)%R; [apply Zfloor_lb|lra].
      + unfold top. rewrite Rmin_right by lra. replace (90 * 12)%R with (IZR 1080) by lra. now rewrite Zceil_IZR. }
  destruct ER as (kk & K1 & K2 & K3).
  set (i := Z.to_nat (top - kk)). set (j := Z.to_nat (col - left)).
  assert (Hi : (S i < nrow)%nat) by (unfold i, nrow; lia). assert (Hj : (S j < ncol)%nat) by (unfold j, ncol; lia).
  assert (X0 : nth j xs 0%R = (IZR col / 12)%R) by (rewrite NX by lia; apply (f_equal (fun q => IZR q / 12)%R); unfold j; lia).
  assert (X1 : nth (S j) xs 0%R = ((IZR col + 1) / 12)%R) by (rewrite NX by lia; rewrite <- (plus_IZR col 1); apply (f_equal (fun q => IZR q / 12)%R); unfold j; lia).
  assert (Y0 : nth i ys 0%R = (IZR kk / 12)%R) by (rewrite NY by lia; apply (f_equal (fun q => IZR q / 12)%R); unfold i; lia).
  assert (Y1 : nth (S i) ys 0%R = ((IZR kk - 1) / 12)%R) by (rewrite NY by lia; rewrite <- (minus_IZR kk 1); apply (f_equal (fun q => IZR q / 12)%R); unfold i; lia).
  set (z := map _ (seq 0 nrow)).
  assert (NZ : forall k l, (k < nrow)%nat -> (l < ncol)%nat -> nth l (nth k z []) 0%Z = word f (2 * place_in_file left top k l)).
  { intros k l Hk Hl. unfold z. rewrite (nth_map _ (seq 0 nrow) k [] 0%nat) by (rewrite seq_length; lia).
    rewrite seq_nth by lia. cbn [plus]. rewrite (nth_map _ (seq 0 _) l 0%Z 0%nat) by (rewrite seq_length; exact Hl).
    rewrite seq_nth by exact Hl. reflexivity. }
  assert (HH : hd [] (map (fun _ : XR => map Fin xs) (map Fin ys)) = map Fin xs).
  { destruct ys as [|y0 yr]; [cbn in LY; lia|reflexivity]. }
  assert (HH2 : map (hd NaN) (map (fun y : XR => map (fun _ : XR => y) (map Fin xs)) (map Fin ys)) = map Fin ys).
  { rewrite map_map. rewrite <- (map_id (map Fin ys)) at 2. apply map_ext. intros y. destruct xs as [|x0 xr]; [cbn in LX; lia|reflexivity]. }
  rewrite HH, HH2.
  set (u := (a * 12 - IZR col)%R). set (v := (IZR kk - b * 12)%R).
  set (cw := fun k l => word f (2 * place_in_file left top k l)).
  exists (- bilinear u v (IZR (cw i j)) (IZR (cw i (S j))) (IZR (cw (S i) j)) (IZR (cw (S i) (S j))))%R.
  split.
  - rewrite Ropp_involutive. rewrite (HI xs ys z a b i j).
    + cbv zeta. rewrite !NZ by lia. rewrite X0, X1, Y0, Y1. replace ((IZR col + 1) / 12 - IZR col / 12)%R with (/ 12)%R by field. replace (IZR kk / 12 - (IZR kk - 1) / 12)%R with (/ 12)%R by field. replace ((a - IZR col / 12) / / 12)%R with u by (unfold u; field). replace ((IZR kk / 12 - b) / / 12)%R with v by (unfold v; field). reflexivity.
    + intros k Hk. rewrite !NX by lia. replace (Z.of_nat (S k)) with (Z.of_nat k + 1)%Z by lia. rewrite Z.add_assoc, (plus_IZR _ 1). lra.
    + intros k Hk. rewrite !NY by lia. replace (Z.of_nat (S k)) with (Z.of_nat k + 1)%Z by lia. rewrite Z.sub_add_distr, (minus_IZR _ 1). lra.
    + unfold z. rewrite map_length, seq_length. now symmetry.
    + intros r Hr. unfold z in Hr. apply in_map_iff in Hr as (q & <- & _). rewrite map_length, seq_length. now symmetry.
    + lia.
    + lia.
    + rewrite X0, X1. lra.
    + rewrite Y0, Y1. lra.
  - exists (1080 - kk)%Z, col, u, v, (cw i j), (cw i (S j)), (cw (S i) j), (cw (S i) (S j)).
    assert (R0 : (Z.of_nat i + (1080 - top) = 1080 - kk)%Z) by (unfold i; lia).
    assert (R1 : (Z.of_nat (S i) + (1080 - top) = 1080 - kk + 1)%Z) by (unfold i; lia).
    assert (L0 : (left + Z.of_nat j = col)%Z) by (unfold j; lia).
    assert (L1 : (left + Z.of_nat (S j) = col + 1)%Z) by (unfold j; lia).
    assert (BB : (-1079 <= bottom)%Z) by lia.
    split; [lia|]. split; [lia|]. split; [unfold u; lra|]. split; [unfold v; lra|].
    split; [unfold u; lra|]. split; [rewrite minus_IZR; unfold v; lra|].
    split; [rewrite <- R0, <- L0; apply cell_in_window; auto; lia|].
    split; [rewrite <- R0, <- L1; apply cell_in_window; auto; lia|].
    split; [rewrite <- R1, <- L0; apply cell_in_window; auto; lia|].
    split; [rewrite <- R1, <- L1; apply cell_in_window; auto; lia|]. reflexivity.
Qed.
