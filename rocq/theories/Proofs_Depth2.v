(* The depth of a position is determined; the depths of the calibration *)
From Coq Require Import ZArith List Bool Reals Lra Lia Arith.
From Flocq Require Import Core.Raux.
From Verif Require Import Num Np NumFacts NpFacts Topo Spec_Topo Spec_Depth Proofs_Besthist Proofs_Interp Proofs_Topo Proofs_Depth
  Stats Calib Proofs_Thetas.
Import ListNotations.
Local Open Scope R_scope.

(* ---- the depth is determined by the position ---- *)
Lemma linear_determined (g : Z -> R) c u c' u' : 0 <= u <= 1 -> 0 <= u' <= 1 -> IZR c + u = IZR c' + u' ->
  (1 - u) * g c + u * g (c + 1)%Z = (1 - u') * g c' + u' * g (c' + 1)%Z.
Proof.
  intros Hu Hu' E.
  assert (D : (c' = c \/ c' = c + 1 \/ c = c' + 1)%Z).
  { assert (-1 <= IZR c' - IZR c <= 1) by lra. assert (-1 <= c' - c <= 1)%Z; [|lia].
    split; apply le_IZR; rewrite minus_IZR; lra. }
  destruct D as [-> | [-> | ->]].
  - assert (u = u') by lra. now subst.
  - rewrite plus_IZR in E. assert (u = 1) by lra. assert (u' = 0) by lra. subst. lra.
  - rewrite plus_IZR in E. assert (u = 0) by lra. assert (u' = 1) by lra. subst. lra.
Qed.

Lemma cell_determined f row col v v' : stored_cell f row col v -> stored_cell f row col v' -> v = v'.
Proof.
  intros (lo & hi & A & B & C & D) (lo' & hi' & A' & B' & C' & D'). rewrite A in A'. rewrite B in B'. injection A' as <-. injection B' as <-.
  apply Z.mod_divide in D; [|lia]. apply Z.mod_divide in D'; [|lia]. destruct D as [a Ha]. destruct D' as [b Hb]. lia.
Qed.

Theorem depth_determined f long lat d d' : tbase_file f -> sea_floor f long lat d -> sea_floor f long lat d' -> d = d'.
Proof.
  intros Hf (row & col & u & v & nw & ne & sw & se & R0 & R1 & Hu & Hv & EL & EA & A1 & A2 & A3 & A4 & ->)
    (row' & col' & u' & v' & nw' & ne' & sw' & se' & R0' & R1' & Hu' & Hv' & EL' & EA' & B1 & B2 & B3 & B4 & ->).
  set (g := fun r c => IZR (word f (2 * (4320 * r + c mod 4320)))).
  assert (W : forall r c z, (0 <= r < 2160)%Z -> stored_cell f r (c mod 4320) z -> IZR z = g r c).
  { intros r c z Hr Hz. unfold g. f_equal. apply (cell_determined f r (c mod 4320)); [exact Hz|].
    apply word_stored; auto. apply Z.mod_pos_bound. lia. }
  rewrite (W row col nw), (W row (col + 1)%Z ne), (W (row + 1)%Z col sw), (W (row + 1)%Z (col + 1)%Z se) by (auto; lia).
  rewrite (W row' col' nw'), (W row' (col' + 1)%Z ne'), (W (row' + 1)%Z col' sw'), (W (row' + 1)%Z (col' + 1)%Z se') by (auto; lia).
  clear - Hu Hv EL EA Hu' Hv' EL' EA'. f_equal. unfold bilinear.
  assert (EC : IZR col + u = IZR col' + u') by lra. assert (ER : IZR row + v = IZR row' + v') by lra.
  rewrite (linear_determined (g row) col u col' u' Hu Hu' EC). rewrite (linear_determined (g (row + 1)%Z) col u col' u' Hu Hu' EC).
  exact (linear_determined (fun r => (1 - u') * g r col' + u' * g r (col' + 1)%Z) row v row' v' Hv Hv' ER).
Qed.

Lemma depth_period f long lat d (k : Z) : sea_floor f long lat d -> sea_floor f (long + 360 * IZR k) lat d.
Proof.
  intros (row & col & u & v & nw & ne & sw & se & R0 & R1 & Hu & Hv & EL & EA & A1 & A2 & A3 & A4 & ED).
  exists row, (col + k * 4320)%Z, u, v, nw, ne, sw, se.
  assert (M : forall c, ((c + k * 4320) mod 4320 = c mod 4320)%Z) by (intros c; apply Z.mod_add; lia).
  replace (col + k * 4320 + 1)%Z with (col + 1 + k * 4320)%Z by lia. rewrite !M.
  do 4 (split; [assumption|]). split; [rewrite EL, plus_IZR, mult_IZR; lra|]. do 5 (split; [assumption|]). exact ED.
Qed.

(* ---- the window of the calibration ---- *)
Lemma nanmin_fin l : l <> [] -> exists m, nanmin (map Fin l) = Fin m /\ In m l /\ forall x, In x l -> m <= x.
Proof.
  intros NE. unfold nanmin. rewrite drop_nan_fin. destruct l as [|x r]; [congruence|]. cbn [map].
  destruct (min_from_fin x r) as (m & E & I & L). eauto.
Qed.
Lemma nanmax_fin l : l <> [] -> exists m, nanmax (map Fin l) = Fin m /\ In m l /\ forall x, In x l -> x <= m.
Proof.
  intros NE. unfold nanmax. rewrite drop_nan_fin. destruct l as [|x r]; [congruence|]. cbn [map].
  destruct (max_from_fin x r) as (m & E & I & L). eauto.
Qed.

Definition east (l : list R) : bool := existsb (fun x => Rltb 180 x) l.
Definition moved (l : list R) : list R := if east l then map (fun x => x - 360) l else l.
Lemma east_xr l : existsb (fun x => nltb (nofZ (T := XR) 180) x) (map Fin l) = east l.
Proof. unfold east. induction l as [|a l IH]; [reflexivity|]. cbn [map existsb]. rewrite IH. reflexivity. Qed.
Lemma moved_xr l : (if existsb (fun x => nltb (nofZ (T := XR) 180) x) (map Fin l) then map (fun x => nsub x (nofZ 360)) (map Fin l) else map Fin l) = map Fin (moved l).
Proof. rewrite east_xr. unfold moved. destruct (east l); [|reflexivity]. now rewrite !map_map. Qed.
Lemma east_iff l : east l = true <-> exists x, In x l /\ 180 < x.
Proof.
  unfold east. rewrite existsb_exists. split; intros (x & I & E); exists x; split; auto; [now apply Rltb_true|]. now apply Rltb_true.
Qed.
Lemma moved_in l a : In a (moved l) -> exists x, In x l /\ (east l = true /\ a = x - 360 \/ east l = false /\ a = x).
Proof.
  unfold moved. destruct (east l); intros I.
  - apply in_map_iff in I as (x & <- & I). eauto.
  - eauto.
Qed.

Section Window.
  Variables longs lats : list R.
  Hypothesis NE1 : longs <> [].
  Hypothesis NE2 : lats <> [].
  Hypothesis HL : forall x, In x longs -> 0 <= x <= 360.
  Hypothesis HA : forall y, In y lats -> - (1079 / 12) <= y <= 90.
  Variables m1 m2 n1 n2 : R.
  Hypothesis M1 : In m1 (moved longs) /\ forall x, In x (moved longs) -> m1 <= x.
  Hypothesis M2 : In m2 (moved longs) /\ forall x, In x (moved longs) -> x <= m2.
  Hypothesis N1 : In n1 lats /\ forall y, In y lats -> n1 <= y.
  Hypothesis N2 : In n2 lats /\ forall y, In y lats -> y <= n2.
  Let left := Zfloor ((m1 - 1) * 12).
  Let right := Zceil ((m2 + 1) * 12).
  Let bottom := Z.max (Zfloor ((n1 - 1) * 12)) (-1079).
  Let top := Zceil (Rmin (n2 + 1) 90 * 12).

  Lemma window_rows : (-1079 <= bottom <= top)%Z /\ (top <= 1080)%Z /\ (left <= right)%Z.
  Proof.
    destruct N1 as [I1 L1]. destruct N2 as [I2 L2]. destruct M1 as [J1 K1]. destruct M2 as [J2 K2].
    pose proof (HA _ I1). pose proof (HA _ I2). pose proof (L1 _ I2). pose proof (K1 _ J2).
    assert (BT : n2 <= Rmin (n2 + 1) 90) by (apply Rmin_case; lra).
    split; [split|split].
    - apply Z.le_max_r.
    - apply Z.max_lub; apply le_IZR; (apply Rle_trans with (Rmin (n2 + 1) 90 * 12); [|apply Zceil_ub]).
      + pose proof (Zfloor_lb ((n1 - 1) * 12)). lra.
      + lra.
    - apply Zceil_glb. pose proof (Rmin_r (n2 + 1) 90). lra.
    - apply le_IZR. pose proof (Zfloor_lb ((m1 - 1) * 12)). pose proof (Zceil_ub ((m2 + 1) * 12)). fold left in H3. fold right in H4. lra.
  Qed.
  Lemma top_pole : top = 1080%Z <-> exists y, In y lats /\ 88 + 11 / 12 < y.
  Proof.
    destruct N2 as [I2 L2]. split.
    - intros E. exists n2. split; [exact I2|]. destruct (Rle_lt_dec n2 (88 + 11 / 12)) as [L|L]; [|exact L].
      assert (top <= 1079)%Z; [|lia]. apply Zceil_glb. pose proof (Rmin_l (n2 + 1) 90). lra.
    - intros (y & I & L). pose proof (L2 y I). destruct window_rows as (_ & T & _).
      assert (1079 < top)%Z; [|lia]. apply lt_IZR. apply Rlt_le_trans with (Rmin (n2 + 1) 90 * 12); [|apply Zceil_ub]. apply Rmin_case; lra.
  Qed.
  Lemma window_columns : (east longs = false /\ -12 <= left /\ right <= 4319)%Z \/ (east longs = true /\ -4332 <= left /\ -4320 <= right <= 12)%Z.
  Proof.
    destruct M1 as [J1 K1]. destruct M2 as [J2 K2]. destruct (moved_in _ _ J1) as (x1 & X1 & E1). destruct (moved_in _ _ J2) as (x2 & X2 & E2).
    pose proof (HL _ X1). pose proof (HL _ X2).
    destruct (east longs) eqn:E; [right|left]; (split; [reflexivity|]).
    - destruct E1 as [[_ E1]|[? _]]; [|discriminate]. destruct E2 as [[_ E2]|[? _]]; [|discriminate].
      apply east_iff in E as (x & I & L). assert (x - 360 <= m2).
      { apply K2. unfold moved. replace (east longs) with true by (symmetry; apply east_iff; eauto). apply in_map_iff. eauto. }
      split; [|split].
      + apply Zfloor_lub. lra.
      + apply le_IZR. apply Rle_trans with ((m2 + 1) * 12); [lra|apply Zceil_ub].
      + apply Zceil_glb. lra.
    - destruct E1 as [[? _]|[_ E1]]; [discriminate|]. destruct E2 as [[? _]|[_ E2]]; [discriminate|].
      assert (x2 <= 180). { destruct (Rle_lt_dec x2 180) as [L|L]; [exact L|]. assert (east longs = true) by (apply east_iff; eauto). congruence. }
      split; [apply Zfloor_lub; lra|]. apply Zceil_glb. lra.
  Qed.
  Lemma left_west : (left < -4320)%Z <-> (exists x, In x longs /\ 180 < x) /\ (exists x, In x longs /\ x < 1).
  Proof.
    destruct M1 as [J1 K1]. split.
    - intros H. destruct window_columns as [(E & L & _)|(E & _)]; [lia|]. split; [now apply east_iff|].
      destruct (moved_in _ _ J1) as (x1 & X1 & [[_ E1]|[C _]]); [|congruence]. exists x1. split; [exact X1|].
      destruct (Rlt_le_dec x1 1) as [L|L]; [exact L|]. assert (-4320 <= left)%Z; [|lia]. apply Zfloor_lub. lra.
    - intros [HE (x & I & L)]. apply east_iff in HE. assert (m1 <= x - 360).
      { apply K1. unfold moved. rewrite HE. apply in_map_iff. eauto. }
      apply lt_IZR. apply Rle_lt_trans with ((m1 - 1) * 12); [apply Zfloor_lb|lra].
  Qed.
  Lemma window_readable : ~ past_the_pole longs lats -> readable left right bottom top.
  Proof.
    intros HN. destruct window_rows as (B & T & LR). split; [exact B|]. split; [exact T|]. split; [exact LR|].
    destruct window_columns as [(E & L & R)|(E & L & R)]; [left; lia|].
    destruct (Z_lt_le_dec left (-4320)) as [C|C]; [right|left; lia]. split; [lia|]. split; [lia|].
    destruct (Z.eq_dec top 1080) as [C2|C2]; [|lia]. exfalso. apply HN. apply left_west in C as [C C']. apply top_pole in C2. split; [exact C|]. split; assumption.
  Qed.
  Lemma window_fails f : tbase_file f -> past_the_pole longs lats ->
    get_topo_grid (T := XR) f (Fin (m1 - 1)) (Fin (m2 + 1)) (Fin (n1 - 1)) (Fin (n2 + 1)) = Raise OSError.
  Proof.
    intros Hf (P1 & P2 & P3). assert (LW := proj2 left_west (conj P1 P2)). assert (TP := proj2 top_pole P3).
    destruct window_rows as (B & T & LR). destruct window_columns as [(E & L & R)|(E & L & R)]; [lia|].
    rewrite grid_value. cbv zeta. fold left right bottom top. rewrite TP in *.
    assert (EF : fold_long left right = (left + 4320, right + 4320)%Z).
    { unfold fold_long. replace (360 * 12 - 1 <? right)%Z with false by (symmetry; apply Z.ltb_ge; lia).
      replace (left <? 0)%Z with true by (symmetry; apply Z.ltb_lt; lia). reflexivity. }
    rewrite EF. cbn [fst snd]. unfold read_topo. change (90 * 12)%Z with 1080%Z.
    assert (F0 : forall n, (0 <= n)%Z -> read_block f (1080 - bottom - (1080 - 1080) + 1) n (1080 - 1080) (left + 4320) = Raise OSError).
    { intros n Hn. unfold read_block, np_zeros_ok. rewrite (proj2 (Z.leb_le _ _)) by lia. rewrite (proj2 (Z.leb_le _ _)) by lia. cbn [andb].
      replace (Z.to_nat (1080 - bottom - (1080 - 1080) + 1)) with (S (Z.to_nat (1080 - bottom))) by lia.
      cbn [seq mapM]. unfold seek_read at 1. replace ((Z.of_nat 0 + (1080 - 1080)) * 360 * 12 * 2 + (left + 4320) * 2 <? 0)%Z with true by (symmetry; apply Z.ltb_lt; lia).
      reflexivity. }
    destruct (4319 <? right + 4320)%Z eqn:E4.
    - apply Z.ltb_lt in E4. rewrite read_block_gen by (auto; lia). cbn [bind]. rewrite F0 by lia. reflexivity.
    - apply Z.ltb_ge in E4. rewrite F0 by lia. reflexivity.
  Qed.
End Window.
