(* Proofs about get_topo_grid *)
From Coq Require Import ZArith List Bool Reals Lra Lia Arith.
From Flocq Require Import Core.Raux.
From Verif Require Import Num Np NumFacts NpFacts Topo Spec_Topo Proofs_Besthist Proofs_Interp.
Import ListNotations.

Definition word (f : binfile) (p : Z) : Z :=
  match f p, f (p + 1)%Z with Some lo, Some hi => unpack_h lo hi | _, _ => 0%Z end.

Definition has (f : binfile) (p : Z) : Prop := exists b, f p = Some b.

Lemma read_words_ok f n pos :
  (forall k, (k < n)%nat -> has f (pos + 2 * Z.of_nat k) /\ has f (pos + 2 * Z.of_nat k + 1)) ->
  read_words f pos n = Ok (map (fun k => word f (pos + 2 * Z.of_nat k)%Z) (seq 0 n)).
Proof.
  revert pos; induction n as [|n IH]; intros pos Hh; [reflexivity|].
  cbn [read_words].
  destruct (Hh 0%nat ltac:(lia)) as [[lo Hlo] [hi Hhi]].
  replace (pos + 2 * Z.of_nat 0)%Z with pos in * by lia.
  rewrite Hlo, Hhi. rewrite IH.
  - cbn [bind]. f_equal. cbn [seq map]. f_equal.
    + unfold word. replace (pos + 2 * Z.of_nat 0)%Z with pos by lia. now rewrite Hlo, Hhi.
    + rewrite <- seq_shift, map_map. apply map_ext. intros k. f_equal. lia.
  - intros k Hk. specialize (Hh (S k) ltac:(lia)).
    replace (pos + 2 + 2 * Z.of_nat k)%Z with (pos + 2 * Z.of_nat (S k))%Z by lia. exact Hh.
Qed.

Lemma read_block_ok f nlat n top start :
  (0 <= nlat)%Z -> (0 <= n)%Z -> (0 <= start)%Z -> (0 <= top)%Z ->
  (top + nlat <= 2160)%Z -> (start + n <= 4320)%Z -> tbase_file f ->
  read_block f nlat n top start =
  Ok (map (fun i => map (fun k => word f (2 * (4320 * (Z.of_nat i + top) + (start + Z.of_nat k)))%Z)
                        (seq 0 (Z.to_nat n))) (seq 0 (Z.to_nat nlat))).
Proof.
  intros H1 H2 H3 H4 H5 H6 Hf. unfold read_block, np_zeros_ok.
  rewrite (proj2 (Z.leb_le _ _) H1), (proj2 (Z.leb_le _ _) H2). cbn [andb].
  assert (G : forall l, (forall i, In i l -> (i < Z.to_nat nlat)%nat) ->
    mapM (fun i => seek_read f ((Z.of_nat i + top) * 360 * 12 * 2 + start * 2) (Z.to_nat n)) l =
    Ok (map (fun i => map (fun k => word f (2 * (4320 * (Z.of_nat i + top) + (start + Z.of_nat k)))%Z)
                        (seq 0 (Z.to_nat n))) l)).
  { induction l as [|i l IH]; intros Hl; [reflexivity|].
    cbn [mapM map].
    assert (Hi : (i < Z.to_nat nlat)%nat) by (apply Hl; now left).
    unfold seek_read at 1.
    replace ((Z.of_nat i + top) * 360 * 12 * 2 + start * 2 <? 0)%Z with false
      by (symmetry; apply Z.ltb_ge; lia).
    rewrite read_words_ok.
    - cbn [bind]. rewrite IH by (intros; apply Hl; now right). cbn [bind]. do 2 f_equal.
      apply map_ext. intros k. f_equal. lia.
    - intros k Hk.
      split; [destruct (Hf ((Z.of_nat i + top) * 360 * 12 * 2 + start * 2 + 2 * Z.of_nat k)%Z ltac:(lia)) as [b [Hb _]]
             |destruct (Hf ((Z.of_nat i + top) * 360 * 12 * 2 + start * 2 + 2 * Z.of_nat k + 1)%Z ltac:(lia)) as [b [Hb _]]];
        exists b; exact Hb. }
  apply G. intros i Hi. apply in_seq in Hi. lia.
Qed.

Lemma map_seq_app {A} (g h : nat -> A) a b :
  map g (seq 0 a) ++ map h (seq 0 b) =
  map (fun k => if (k <? a)%nat then g k else h (k - a)%nat) (seq 0 (a + b)).
Proof.
  rewrite seq_app, map_app. f_equal.
  - apply map_ext_in. intros k Hk. apply in_seq in Hk.
    replace (k <? a)%nat with true by (symmetry; apply Nat.ltb_lt; lia). reflexivity.
  - cbn [plus]. replace (seq a b) with (map (fun k => (a + k)%nat) (seq 0 b)).
    + rewrite map_map. apply map_ext. intros k.
      replace (a + k <? a)%nat with false by (symmetry; apply Nat.ltb_ge; lia).
      f_equal. lia.
    + clear. revert a; induction b as [|b IH]; intros a; [reflexivity|].
      cbn [seq map]. f_equal; [lia|]. rewrite <- seq_shift, map_map, <- (IH (S a)).
      apply map_ext. intros. lia.
Qed.

(* the integer part of the function *)
Lemma read_topo_ok f llong rlong blat tlat d0 d1 :
  tbase_file f ->
  (-4320 <= llong <= rlong)%Z -> (rlong <= 8639)%Z -> (0 <= llong \/ rlong <= 4319)%Z ->
  (-1079 <= blat <= tlat)%Z -> (tlat <= 1080)%Z ->
  fold_long llong rlong = (d0, d1) ->
  read_topo f d0 d1 (90 * 12 - blat) (90 * 12 - tlat) =
  Ok (map (fun i => map (fun k => word f (2 * (4320 * (Z.of_nat i + (1080 - tlat)) + ((llong + Z.of_nat k) mod 4320)))%Z)
                        (seq 0 (Z.to_nat (rlong + 1 - llong)))) (seq 0 (Z.to_nat (tlat - blat + 1)))).
Proof.
  intros Hf H1 H2 H3 H4 H5 HD.
  assert (HE : exists q, (d0 = llong + 4320 * q)%Z /\ (d1 = rlong + 4320 * q)%Z /\ (0 <= d0 < 4320)%Z /\ (d1 <= 8639)%Z).
  { unfold fold_long in HD.
    destruct (360 * 12 - 1 <? rlong)%Z eqn:E1.
    - apply Z.ltb_lt in E1.
      destruct (llong - 360 * 12 <? 0)%Z eqn:E2; injection HD as <- <-.
      + apply Z.ltb_lt in E2. exists 0%Z. lia.
      + apply Z.ltb_ge in E2. exists (-1)%Z. lia.
    - apply Z.ltb_ge in E1.
      destruct (llong <? 0)%Z eqn:E2; injection HD as <- <-.
      + apply Z.ltb_lt in E2. exists 1%Z. lia.
      + apply Z.ltb_ge in E2. exists 0%Z. lia. }
  destruct HE as (q & Hd0 & Hd1 & Hr0 & Hr1).
  unfold read_topo. change (90 * 12)%Z with 1080%Z.
  replace (1080 - blat - (1080 - tlat) + 1)%Z with (tlat - blat + 1)%Z by lia.
  destruct (4319 <? d1)%Z eqn:E.
  - apply Z.ltb_lt in E.
    rewrite read_block_ok by (auto; lia). cbn [bind].
    rewrite read_block_ok by (auto; lia). cbn [bind]. f_equal.
    rewrite combine_maps, map_map. apply map_ext. intros i. cbn [fst snd].
    rewrite map_seq_app.
    replace (Z.to_nat (4320 - d0) + Z.to_nat (d1 - 4320 + 1))%nat with (Z.to_nat (rlong + 1 - llong)) by lia.
    apply map_ext_in. intros k Hk. apply in_seq in Hk.
    replace ((llong + Z.of_nat k) mod 4320)%Z with ((d0 + Z.of_nat k) mod 4320)%Z
      by (rewrite Hd0; replace (llong + 4320 * q + Z.of_nat k)%Z with (llong + Z.of_nat k + q * 4320)%Z by lia; apply Z.mod_add; lia).
    destruct (k <? Z.to_nat (4320 - d0))%nat eqn:E2.
    + apply Nat.ltb_lt in E2. rewrite (Z.mod_small (d0 + Z.of_nat k)) by lia. reflexivity.
    + apply Nat.ltb_ge in E2.
      replace ((d0 + Z.of_nat k) mod 4320)%Z with (0 + Z.of_nat (k - Z.to_nat (4320 - d0)))%Z; [reflexivity|].
      apply Z.mod_unique with (q := 1%Z); lia.
  - apply Z.ltb_ge in E.
    rewrite read_block_ok by (auto; lia). f_equal.
    apply map_ext. intros i. 
    replace (d1 - d0 + 1)%Z with (rlong + 1 - llong)%Z by lia.
    apply map_ext_in. intros k Hk. apply in_seq in Hk.
    replace ((llong + Z.of_nat k) mod 4320)%Z with (d0 + Z.of_nat k)%Z; [reflexivity|].
    apply Z.mod_unique with (q := (-q)%Z); lia.
Qed.

Lemma int_of_float_Z z : int_of_float (T := XR) (Fin (IZR z)) = Ok z.
Proof. unfold int_of_float. cbn. now rewrite Ztrunc_IZR. Qed.

Lemma word_stored f row col :
  tbase_file f -> (0 <= row < 2160)%Z -> (0 <= col < 4320)%Z ->
  stored_cell f row col (word f (2 * (4320 * row + col))).
Proof.
  intros Hf Hr Hc.
  destruct (Hf (2 * (4320 * row + col))%Z ltac:(lia)) as [lo [Hlo Blo]].
  destruct (Hf (2 * (4320 * row + col) + 1)%Z ltac:(lia)) as [hi [Hhi Bhi]].
  exists lo, hi. repeat split; auto; unfold word; rewrite Hlo, Hhi; unfold unpack_h;
    destruct (lo + 256 * hi <? 32768)%Z eqn:E;
    (apply Z.ltb_lt in E || apply Z.ltb_ge in E); try lia.
  - now rewrite Z.sub_diag.
  - replace (lo + 256 * hi - 65536 - (lo + 256 * hi))%Z with (-1 * 65536)%Z by lia.
    apply Z.mod_mul. lia.
Qed.

Lemma Zfloor_le x y : (x <= y)%R -> (Zfloor x <= Zfloor y)%Z.
Proof. apply Zfloor_le. Qed.

Lemma rev_map_seq {A} (g : nat -> A) n : rev (map g (seq 0 n)) = map (fun i => g (n - 1 - i)%nat) (seq 0 n).
Proof.
  apply nth_ext with (d := g 0%nat) (d' := g 0%nat).
  - now rewrite rev_length, !map_length.
  - intros i Hi. rewrite rev_length, map_length, seq_length in Hi.
    rewrite rev_nth by (rewrite map_length, seq_length; lia).
    rewrite map_length, seq_length.
    rewrite (nth_map g (seq 0 n) (n - S i) (g 0%nat) 0%nat) by (rewrite seq_length; lia).
    rewrite (nth_map (fun i => g (n - 1 - i)%nat) (seq 0 n) i (g 0%nat) 0%nat) by (rewrite seq_length; lia).
    rewrite !seq_nth by lia. f_equal. lia.
Qed.

Lemma div12 k : ndiv (T := XR) (nofZ k) (nofZ 12) = Fin (IZR k / 12).
Proof. change (ndiv (T := XR) (Fin (IZR k)) (Fin 12) = Fin (IZR k / 12)). apply ndiv_fin. lra. Qed.

Theorem get_topo_grid_addressed f lo1 lo2 la1 la2 :
  tbase_file f -> good_window lo1 lo2 la1 la2 ->
  let left := Zfloor (lo1 * 12) in let right := Zceil (lo2 * 12) in
  let top := Zceil (Rmin la2 90 * 12) in let bottom := Z.max (Zfloor (la1 * 12)) (-1079) in
  exists topo longs lats,
    get_topo_grid (T := XR) f (Fin lo1) (Fin lo2) (Fin la1) (Fin la2) = Ok (topo, longs, lats) /\
    addressed f left top (Z.to_nat (right - left + 1)) (Z.to_nat (top - bottom + 1)) topo longs lats.
Proof.
  intros Hf (HL & HR & HW & HA & HB & HC). cbv zeta.
  set (left := Zfloor (lo1 * 12)). set (right := Zceil (lo2 * 12)).
  set (top := Zceil (Rmin la2 90 * 12)). set (bottom := Z.max (Zfloor (la1 * 12)) (-1079)).
  assert (Hleft : (-4320 <= left)%Z).
  { unfold left. apply Zfloor_lub. lra. }
  assert (Hlr : (left <= right)%Z).
  { apply le_IZR. apply Rle_trans with (lo1 * 12)%R; [apply Zfloor_lb|].
    apply Rle_trans with (lo2 * 12)%R; [lra|apply Zceil_ub]. }
  assert (Hright : (right <= 8639)%Z).
  { unfold right. apply Zceil_glb. lra. }
  assert (Hw : (0 <= left \/ right <= 4319)%Z).
  { destruct HW as [HW|HW]; [left|right]; [apply Zfloor_lub; lra|apply Zceil_glb; lra]. }
  assert (Htop : (top <= 1080)%Z).
  { unfold top. apply Zceil_glb. pose proof (Rmin_r la2 90). lra. }
  assert (Hmin : (-90 < Rmin la2 90)%R) by (apply Rmin_glb_lt; lra).
  assert (Hbt : (bottom <= top)%Z).
  { apply Z.max_lub.
    - apply le_IZR. apply Rle_trans with (la1 * 12)%R; [apply Zfloor_lb|].
      apply Rle_trans with (Rmin la2 90 * 12)%R; [|apply Zceil_ub].
      assert (la1 <= Rmin la2 90)%R by (apply Rmin_glb; lra). lra.
    - assert (-1080 < top)%Z; [|lia].
      apply lt_IZR. apply Rlt_le_trans with (Rmin la2 90 * 12)%R; [lra|apply Zceil_ub]. }
  destruct (fold_long left right) as [d0 d1] eqn:ED.
  pose proof (read_topo_ok f left right bottom top d0 d1 Hf (conj Hleft Hlr) Hright Hw
                (conj (Z.le_max_r _ _) Hbt) Htop ED) as HT.
  set (lgs := map (fun k => ndiv (T := XR) (nofZ k) (nofZ 12)) (arangeZ left right)).
  set (lts := rev (map (fun k => ndiv (T := XR) (nofZ k) (nofZ 12)) (arangeZ bottom top))).
  eexists _, (map (fun _ => lgs) lts), (map (fun y => map (fun _ => y) lgs) lts).
  split.
  - unfold get_topo_grid.
    (* the clamp *)
    match goal with |- (let '(a, b) := ?e in _) = _ =>
      assert (E : exists la1', e = (Fin la1', Fin (Rmin la2 90)) /\
                     Z.max (Zfloor (la1' * 12)) (-1079) = bottom) end.
    {      destruct (Rle_lt_dec la2 90) as [Hle|Hgt].
      - rewrite (Rmin_left la2 90 Hle).
        replace (nltb (T := XR) (nofZ 90) (Fin la2)) with false by (cbn; symmetry; rb; auto; lra).
        destruct (nltb (T := XR) (Fin la1) (nofZ (-90))) eqn:E1.
        + exists (-90)%R. split; [reflexivity|]. cbn in E1. rb; try discriminate.
          unfold bottom. replace (-90 * 12)%R with (IZR (-1080)) by lra. rewrite Zfloor_IZR.
          assert (Zfloor (la1 * 12) < -1079)%Z; [|lia].
          apply lt_IZR. apply Rle_lt_trans with (la1 * 12)%R; [apply Zfloor_lb|lra].
        + exists la1. split; reflexivity.
      - rewrite (Rmin_right la2 90 ltac:(lra)).
        replace (nltb (T := XR) (nofZ 90) (Fin la2)) with true by (cbn; symmetry; rb; auto; lra).
        exists la1. split; reflexivity. }
    destruct E as (la1' & -> & HB').
    assert (E1 : int_of_float (np_max2 (T := XR) (nfloor (nmul (Fin la1') (nofZ 12))) (nofZ (-90 * 12 + 1))) = Ok bottom).
    { cbn [nmul nofZ nfloor]. cbn -[int_of_float Zfloor IZR Rltb].
      unfold np_max2. cbn -[int_of_float Zfloor IZR Rltb]. rewrite <- HB'.
      unfold Rltb. destruct (Rlt_dec (IZR (Zfloor (la1' * 12))) (IZR (-1079))) as [H|H].
      - apply lt_IZR in H. rewrite int_of_float_Z. f_equal. lia.
      - apply Rnot_lt_le in H. apply le_IZR in H. rewrite int_of_float_Z. f_equal. lia. }
    rewrite E1. cbn [bind].
    assert (E2 : int_of_float (T := XR) (nceil (nmul (Fin (Rmin la2 90)) (nofZ 12))) = Ok top)
      by (cbn -[int_of_float Zceil IZR]; apply int_of_float_Z).
    rewrite E2. cbn [bind].
    assert (E3 : int_of_float (T := XR) (nfloor (nmul (Fin lo1) (nofZ 12))) = Ok left)
      by (cbn -[int_of_float Zfloor IZR]; apply int_of_float_Z).
    rewrite E3. cbn [bind].
    assert (E4 : int_of_float (T := XR) (nceil (nmul (Fin lo2) (nofZ 12))) = Ok right)
      by (cbn -[int_of_float Zceil IZR]; apply int_of_float_Z).
    rewrite E4. cbn [bind]. rewrite ED. rewrite HT. cbn [bind]. reflexivity.
  - replace (right - left + 1)%Z with (right + 1 - left)%Z by lia.
    assert (Llts : length lts = Z.to_nat (top - bottom + 1)).
    { unfold lts, arangeZ. rewrite rev_length, !map_length, seq_length. lia. }
    assert (Llgs : length lgs = Z.to_nat (right + 1 - left)).
    { unfold lgs, arangeZ. now rewrite !map_length, seq_length. }
    assert (Hlts : forall i, (i < Z.to_nat (top - bottom + 1))%nat -> nth i lts NaN = Fin (IZR (top - Z.of_nat i) / 12)).
    { intros i Hi. unfold lts, arangeZ. rewrite map_map, rev_map_seq.
      rewrite (nth_map _ (seq 0 _) i NaN 0%nat) by (rewrite seq_length; lia).
      rewrite seq_nth by lia. cbv beta.
      rewrite div12. do 3 f_equal. lia. }
    assert (Hlgs : forall j, (j < Z.to_nat (right + 1 - left))%nat -> nth j lgs NaN = Fin (IZR (left + Z.of_nat j) / 12)).
    { intros j Hj. unfold lgs, arangeZ. rewrite map_map.
      rewrite (nth_map _ (seq 0 _) j NaN 0%nat) by (rewrite seq_length; lia).
      rewrite seq_nth by lia. cbv beta. rewrite div12. reflexivity. }
    split; [now rewrite map_length, seq_length|].
    split; [now rewrite map_length|]. split; [now rewrite map_length|].
    intros i Hi.
    rewrite (nth_map _ (seq 0 _) i [] 0%nat) by (rewrite seq_length; lia).
    rewrite (nth_map _ lts i [] NaN) by lia.
    rewrite (nth_map _ lts i [] NaN) by lia.
    rewrite seq_nth by lia.
    split; [now rewrite map_length, seq_length|]. split; [exact Llgs|]. split; [now rewrite map_length|].
    intros j Hj.
    exists (Z.of_nat i + (1080 - top))%Z, (left + Z.of_nat j)%Z.
    assert (Hrow : (0 <= Z.of_nat i + (1080 - top) < 2160)%Z).
    { assert (-1079 <= bottom)%Z by apply Z.le_max_r. lia. }
    split; [exact Hrow|].
    split; [|split; [|split; [|split]]].
    + rewrite (nth_map _ lgs j NaN NaN) by lia. rewrite Hlts by lia. f_equal.
      rewrite !plus_IZR, !minus_IZR. field.
    + rewrite plus_IZR, minus_IZR, <- INR_IZR_INZ. lra.
    + apply Hlgs. lia.
    + reflexivity.
    + rewrite (nth_map _ (seq 0 _) j 0%Z 0%nat) by (rewrite seq_length; lia).
      rewrite seq_nth by lia. cbn [plus].
      apply word_stored; auto. apply Z.mod_pos_bound. lia.
Qed.

(* ---------------------------------------------------------------- *)
(* outside those windows *)

Lemma read_block_gen f nlat n top start :
  (0 <= nlat)%Z -> (0 <= n)%Z -> (0 <= 4320 * top + start)%Z ->
  (4320 * (top + nlat - 1) + start + n <= 2160 * 4320)%Z -> tbase_file f ->
  read_block f nlat n top start =
  Ok (map (fun i => map (fun k => word f (2 * (4320 * (Z.of_nat i + top) + (start + Z.of_nat k)))%Z)
                        (seq 0 (Z.to_nat n))) (seq 0 (Z.to_nat nlat))).
Proof.
  intros H1 H2 H3 H5 Hf. unfold read_block, np_zeros_ok.
  rewrite (proj2 (Z.leb_le _ _) H1), (proj2 (Z.leb_le _ _) H2). cbn [andb].
  assert (G : forall l, (forall i, In i l -> (i < Z.to_nat nlat)%nat) ->
    mapM (fun i => seek_read f ((Z.of_nat i + top) * 360 * 12 * 2 + start * 2) (Z.to_nat n)) l =
    Ok (map (fun i => map (fun k => word f (2 * (4320 * (Z.of_nat i + top) + (start + Z.of_nat k)))%Z)
                        (seq 0 (Z.to_nat n))) l)).
  { induction l as [|i l IH]; intros Hl; [reflexivity|].
    cbn [mapM map].
    assert (Hi : (i < Z.to_nat nlat)%nat) by (apply Hl; now left).
    unfold seek_read at 1.
    replace ((Z.of_nat i + top) * 360 * 12 * 2 + start * 2 <? 0)%Z with false
      by (symmetry; apply Z.ltb_ge; lia).
    rewrite read_words_ok.
    - cbn [bind]. rewrite IH by (intros; apply Hl; now right). cbn [bind]. do 2 f_equal.
      apply map_ext. intros k. f_equal. lia.
    - intros k Hk.
      split; [destruct (Hf ((Z.of_nat i + top) * 360 * 12 * 2 + start * 2 + 2 * Z.of_nat k)%Z ltac:(lia)) as [b [Hb _]]
             |destruct (Hf ((Z.of_nat i + top) * 360 * 12 * 2 + start * 2 + 2 * Z.of_nat k + 1)%Z ltac:(lia)) as [b [Hb _]]];
        exists b; exact Hb. }
  apply G. intros i Hi. apply in_seq in Hi. lia.
Qed.

(* a window reaching from 1W to 361E, latitudes 0 to 1: the cell reported at 1N, 1W is read from
   the row of 1N + 5' *)
Lemma wide_window_row f :
  tbase_file f ->
  exists topo longs lats,
    get_topo_grid (T := XR) f (Fin (-1)) (Fin 361) (Fin 0) (Fin 1) = Ok (topo, longs, lats) /\
    nth 0 (nth 0 lats []) NaN = Fin 1 /\ nth 0 (nth 0 longs []) NaN = Fin (-1) /\
    stored_cell f 1067 4308 (nth 0 (nth 0 topo []) 0%Z).
Proof.
  intros Hf.
  assert (E : get_topo_grid (T := XR) f (Fin (-1)) (Fin 361) (Fin 0) (Fin 1) =
    let lgs := map (fun k => ndiv (T := XR) (nofZ k) (nofZ 12)) (arangeZ (-12) 4332) in
    let lts := rev (map (fun k => ndiv (T := XR) (nofZ k) (nofZ 12)) (arangeZ 0 12)) in
    let* topo := read_topo f (-12) 4332 1080 1068 in
    Ok (topo, map (fun _ => lgs) lts, map (fun y => map (fun _ => y) lgs) lts)).
  { unfold get_topo_grid.
    replace (nltb (T := XR) (nofZ 90) (Fin 1)) with false by (cbn; symmetry; rb; auto; lra).
    replace (nltb (T := XR) (Fin 0) (nofZ (-90))) with false by (cbn; symmetry; rb; auto; lra).
    assert (E1 : int_of_float (np_max2 (T := XR) (nfloor (nmul (Fin 0) (nofZ 12))) (nofZ (-90 * 12 + 1))) = Ok 0%Z).
    { cbn -[int_of_float Zfloor IZR Rltb]. replace (0 * 12)%R with (IZR 0) by lra. rewrite Zfloor_IZR.
      unfold np_max2. cbn -[int_of_float IZR Rltb].
      replace (Rltb 0 (-1079)) with false by (symmetry; rb; auto; lra). apply int_of_float_Z. }
    rewrite E1. cbn [bind].
    assert (E2 : int_of_float (T := XR) (nceil (nmul (Fin 1) (nofZ 12))) = Ok 12%Z)
      by (cbn -[int_of_float Zceil IZR]; replace (1 * 12)%R with (IZR 12) by lra; rewrite Zceil_IZR; apply int_of_float_Z).
    rewrite E2. cbn [bind].
    assert (E3 : int_of_float (T := XR) (nfloor (nmul (Fin (-1)) (nofZ 12))) = Ok (-12)%Z)
      by (cbn -[int_of_float Zfloor IZR]; replace (-1 * 12)%R with (IZR (-12)) by lra; rewrite Zfloor_IZR; apply int_of_float_Z).
    rewrite E3. cbn [bind].
    assert (E4 : int_of_float (T := XR) (nceil (nmul (Fin 361) (nofZ 12))) = Ok 4332%Z)
      by (cbn -[int_of_float Zceil IZR]; replace (361 * 12)%R with (IZR 4332) by lra; rewrite Zceil_IZR; apply int_of_float_Z).
    rewrite E4. cbn [bind]. reflexivity. }
  rewrite E. cbv zeta. clear E.
  unfold read_topo. change (4319 <? 4332)%Z with true. cbv iota.
  rewrite read_block_gen by (auto; lia). cbn [bind].
  rewrite read_block_gen by (auto; lia). cbn [bind].
  eexists _, _, _. split; [reflexivity|].
  unfold arangeZ. rewrite !map_map, rev_map_seq.
  change (Z.to_nat (12 + 1 - 0)) with 13%nat.
  change (seq 0 13) with (0%nat :: seq 1 12). rewrite !map_cons.
  assert (EQ : exists r, seq 0 (Z.to_nat (4332 + 1 - -12)) = 0%nat :: r).
  { exists (seq 1 4344). reflexivity. }
  destruct EQ as [r ->].
  assert (EQ' : exists r, seq 0 (Z.to_nat (4320 - -12)) = 0%nat :: r).
  { exists (seq 1 4331). reflexivity. }
  destruct EQ' as [r' Er'].
  split; [|split].
  - cbn [nth map]. rewrite div12. f_equal. cbn. lra.
  - cbn [nth map]. rewrite div12. f_equal. cbn. lra.
  - rewrite combine_maps, map_map.
    change (Z.to_nat (1080 - 1068 + 1)) with 13%nat.
    change (seq 0 13) with (0%nat :: seq 1 12). rewrite !map_cons. cbn [nth].
    rewrite Er', map_cons. cbn [fst snd nth app].
    replace (2 * (4320 * (Z.of_nat 0 + 1068) + (-12 + Z.of_nat 0)))%Z with (2 * (4320 * 1067 + 4308))%Z by lia.
    apply word_stored; auto; lia.
Qed.

Lemma wide_window_wrong :
  exists f topo longs lats,
    tbase_file f /\
    get_topo_grid (T := XR) f (Fin (-1)) (Fin 361) (Fin 0) (Fin 1) = Ok (topo, longs, lats) /\
    nth 0 (nth 0 lats []) NaN = Fin (90 - 1068 / 12) /\ nth 0 (nth 0 longs []) NaN = Fin (-12 / 12) /\
    ~ stored_cell f 1068 (-12 mod 4320) (nth 0 (nth 0 topo []) 0%Z).
Proof.
  set (f := fun p : Z => if (p =? 2 * (4320 * 1067 + 4308))%Z then Some 1%Z else Some 0%Z).
  assert (Hf : tbase_file f).
  { intros p Hp. unfold f. destruct (p =? _)%Z; eexists; split; try reflexivity; lia. }
  destruct (wide_window_row f Hf) as (topo & longs & lats & HE & Hla & Hlo & Hst).
  exists f, topo, longs, lats. split; [exact Hf|]. split; [exact HE|].
  split; [rewrite Hla; f_equal; lra|]. split; [rewrite Hlo; f_equal; lra|].
  intros (lo & hi & A & B & C & D). destruct Hst as (lo' & hi' & A' & B' & C' & D').
  change (-12 mod 4320)%Z with 4308%Z in *.
  unfold f in A, B, A', B'. cbn in A, B, A', B'.
  injection A as <-. injection B as <-. injection A' as <-. injection B' as <-.
  set (v := nth 0 (nth 0 topo []) 0%Z) in *. clearbody v.
  rewrite Z.mul_0_r, Z.add_0_r in *. rewrite Z.sub_0_r in D.
  apply Z.mod_divide in D; [|lia]. apply Z.mod_divide in D'; [|lia].
  destruct D as [a Ha]. destruct D' as [b Hb]. lia.
Qed.

Lemma wide_window_north f :
  tbase_file f -> get_topo_grid (T := XR) f (Fin (-1)) (Fin 361) (Fin 89) (Fin 90) = Raise OSError.
Proof.
  intros Hf.
  unfold get_topo_grid.
  replace (nltb (T := XR) (nofZ 90) (Fin 90)) with false by (cbn; symmetry; rb; auto; lra).
  replace (nltb (T := XR) (Fin 89) (nofZ (-90))) with false by (cbn; symmetry; rb; auto; lra).
  assert (E1 : int_of_float (np_max2 (T := XR) (nfloor (nmul (Fin 89) (nofZ 12))) (nofZ (-90 * 12 + 1))) = Ok 1068%Z).
  { cbn -[int_of_float Zfloor IZR Rltb]. replace (89 * 12)%R with (IZR 1068) by lra. rewrite Zfloor_IZR.
    unfold np_max2. cbn -[int_of_float IZR Rltb].
    replace (Rltb 1068 (-1079)) with false by (symmetry; rb; auto; lra). apply int_of_float_Z. }
  rewrite E1. cbn [bind].
  assert (E2 : int_of_float (T := XR) (nceil (nmul (Fin 90) (nofZ 12))) = Ok 1080%Z)
    by (cbn -[int_of_float Zceil IZR]; replace (90 * 12)%R with (IZR 1080) by lra; rewrite Zceil_IZR; apply int_of_float_Z).
  rewrite E2. cbn [bind].
  assert (E3 : int_of_float (T := XR) (nfloor (nmul (Fin (-1)) (nofZ 12))) = Ok (-12)%Z)
    by (cbn -[int_of_float Zfloor IZR]; replace (-1 * 12)%R with (IZR (-12)) by lra; rewrite Zfloor_IZR; apply int_of_float_Z).
  rewrite E3. cbn [bind].
  assert (E4 : int_of_float (T := XR) (nceil (nmul (Fin 361) (nofZ 12))) = Ok 4332%Z)
    by (cbn -[int_of_float Zceil IZR]; replace (361 * 12)%R with (IZR 4332) by lra; rewrite Zceil_IZR; apply int_of_float_Z).
  rewrite E4. cbn [bind].
  change (fold_long (-12) 4332) with (-12, 4332)%Z. cbv iota beta.
  unfold read_topo. change (4319 <? 4332)%Z with true. cbv iota.
  rewrite read_block_gen by (auto; lia). cbn [bind].
  unfold read_block at 1.
  change (Z.to_nat (90 * 12 - 1068 - (90 * 12 - 1080) + 1)) with 13%nat.
  change (seq 0 13) with (0%nat :: seq 1 12). cbn [mapM].
  unfold seek_read at 1. reflexivity.
Qed.
