(* The depths of the calibration and of the mapping are those of the positions *)
From Coq Require Import String Ascii.
From Coq Require Import ZArith List Bool Reals Lra Lia Arith.
From Flocq Require Import Core.Raux.
From Verif Require Import Num Np NumFacts NpFacts Topo Spec_Topo Spec_Depth Proofs_Besthist Proofs_Interp Proofs_Topo Proofs_Depth Proofs_Depth2
  Utilities Spec_Utilities Proofs_Utilities4 Finders Stats Wrangling Fetchers Spec_Fetchers Saf Helper MapProfile Spec_MapLevel Calib Proofs_Thetas
  Proofs_Fetchers Proofs_Region Proofs_MapProfile.
Import ListNotations.
Local Open Scope R_scope.

Lemma mapM_all {A B} (f : A -> res B) (P : A -> B -> Prop) l : (forall a, In a l -> exists b, f a = Ok b /\ P a b) ->
  exists r, mapM f l = Ok r /\ Forall2 P l r.
Proof.
  induction l as [|a l IH]; intros H; [exists []; split; [reflexivity|constructor]|].
  destruct (H a (or_introl eq_refl)) as (b & E & Pb). destruct IH as (r & Er & Fr); [intros x Hx; apply H; now right|].
  exists (b :: r). cbn [mapM]. rewrite E. cbn [bind]. rewrite Er. split; [reflexivity|]. now constructor.
Qed.
Lemma forall2_nth {A B} (P : A -> B -> Prop) l r : Forall2 P l r -> length r = length l /\ forall i a b, (i < length l)%nat -> P (nth i l a) (nth i r b).
Proof.
  induction 1 as [|a b l r Hp _ [L IH]]; [split; [reflexivity|cbn; lia]|]. split; [cbn; congruence|].
  intros i x y Hi. destruct i; [exact Hp|]. cbn [nth]. apply IH. cbn in Hi. lia.
Qed.

(* ---- the calibration ---- *)
Section Calibration.
  Variable f : binfile.
  Variable interp2d : list XR -> list XR -> list (list Z) -> XR -> XR -> res XR.
  Hypothesis Hf : tbase_file f.
  Hypothesis HI : linear_interp2d interp2d.

  Variables longs lats : list R.
  Hypothesis LE : length lats = length longs.
  Hypothesis NE : longs <> [].
  Hypothesis HP : forall i, (i < length longs)%nat -> on_map (nth i longs 0) (nth i lats 0).
  Notation pos := (mkPositions (T := XR) [map Fin longs] [map Fin lats]).

  Lemma HL x : In x longs -> 0 <= x <= 360.
  Proof. intros I. apply (In_nth _ _ 0) in I as (i & Hi & <-). now apply HP. Qed.
  Lemma HA y : In y lats -> - (1079 / 12) <= y <= 90.
  Proof. intros I. apply (In_nth _ _ 0) in I as (i & Hi & <-). rewrite LE in Hi. now apply HP. Qed.
  Lemma NE2 : lats <> [].
  Proof. intros ->. destruct longs; [congruence|discriminate]. Qed.
  Lemma moved_length : length (moved longs) = length longs.
  Proof. unfold moved. destruct (east longs); [apply map_length|reflexivity]. Qed.
  Lemma moved_ne : moved longs <> [].
  Proof. intros C. assert (L := moved_length). rewrite C in L. destruct longs; [congruence|discriminate]. Qed.

  Theorem calibration_depths : ~ past_the_pole longs lats ->
    exists ds, length ds = length longs /\
      float_coords interp2d f pos = Ok (map (fun q => mkCoord (Fin (fst (fst q))) (Fin (snd (fst q))) (Fin (snd q))) (combine (combine longs lats) ds)) /\
      forall i, (i < length longs)%nat -> sea_floor f (nth i longs 0) (nth i lats 0) (nth i ds 0).
  Proof.
    intros HN. unfold float_coords. cbn [ps_long ps_lat concat]. rewrite !app_nil_r, moved_xr. rewrite !map_length, LE, Nat.eqb_refl.
    assert (LZ : Nat.eqb (length longs) 0 = false) by (apply Nat.eqb_neq; destruct longs; [congruence|discriminate]). rewrite LZ. cbn [orb length].
    change (1 <? 1)%nat with false. cbv iota.
    destruct (nanmin_fin _ moved_ne) as (m1 & E1 & M1). destruct (nanmax_fin _ moved_ne) as (m2 & E2 & M2).
    destruct (nanmin_fin _ NE2) as (n1 & F1 & N1). destruct (nanmax_fin _ NE2) as (n2 & F2 & N2). rewrite E1, E2, F1, F2.
    pose proof (window_readable longs lats HL HA m1 m2 n1 n2 M1 M2 N1 N2 HN) as RD.
    destruct (window_depth f interp2d (m1 - 1) (m2 + 1) (n1 - 1) (n2 + 1) Hf HI RD) as (elev & x & y & EG & HD).
    change (nsub (Fin m1) (nofZ 1)) with (Fin (m1 - 1)). change (nadd (Fin m2) (nofZ 1)) with (Fin (m2 + 1)).
    change (nsub (Fin n1) (nofZ 1)) with (Fin (n1 - 1)). change (nadd (Fin n2) (nofZ 1)) with (Fin (n2 + 1)).
    rewrite EG. cbn [bind].
    destruct (mapM_all (fun i => match nth_error (map Fin lats) i with
                                 | Some la => interp2d (hd [] x) (map (hd nnan) y) elev (nth i (map Fin (moved longs)) nnan) la
                                 | None => Raise IndexError
                                 end)
                (fun i z => exists d, z = Fin (- d) /\ sea_floor f (nth i longs 0) (nth i lats 0) d) (seq 0 (length longs))) as (zs & EZ & FZ).
    { intros i Hi. apply in_seq in Hi. cbn [plus] in Hi. destruct Hi as [_ Hi].
      rewrite (nth_error_nth' (map Fin lats) (Fin 0)) by (rewrite map_length; lia).
      rewrite !(nth_map Fin _ _ _ 0) by (rewrite ?moved_length; lia).
      assert (IM : In (nth i (moved longs) 0) (moved longs)) by (apply nth_In; rewrite moved_length; lia).
      assert (IL : In (nth i lats 0) lats) by (apply nth_In; lia).
      assert (IX : In (nth i longs 0) longs) by (apply nth_In; lia).
      pose proof (proj2 M1 _ IM) as B1. pose proof (proj2 M2 _ IM) as B2. pose proof (proj2 N1 _ IL) as B3. pose proof (proj2 N2 _ IL) as B4.
      pose proof (HL _ IX) as RX.
      assert (EM : exists k : Z, nth i longs 0 = nth i (moved longs) 0 + 360 * IZR k /\ -360 <= nth i (moved longs) 0).
      { unfold moved. destruct (east longs).
        - exists 1%Z. rewrite (nth_map (fun x0 => x0 - 360) longs i 0 0) by lia. lra.
        - exists 0%Z. lra. }
      destruct EM as (k & EK & BK).
      destruct (HD (nth i (moved longs) 0) (nth i lats 0)) as (d & ED & SF); try lra; [now apply HA|].
      exists (Fin (- d)). split; [exact ED|]. exists d. split; [reflexivity|]. rewrite EK. now apply depth_period. }
    rewrite ?map_length, moved_length, EZ. cbn [bind].
    destruct (forall2_nth _ _ _ FZ) as [LZS HZ]. rewrite seq_length in LZS, HZ.
    set (ds := map (fun z : XR => match z with Fin r => - r | _ => 0 end) zs).
    exists ds. assert (LD : length ds = length longs) by (unfold ds; rewrite map_length; exact LZS). split; [exact LD|]. split.
    - f_equal. apply (nth_ext _ _ (mkCoord (Fin 0) (Fin 0) (Fin 0)) (mkCoord (Fin 0) (Fin 0) (Fin 0))).
      { rewrite !map_length, !combine_length, !map_length. lia. }
      intros i Hi. rewrite map_length, !combine_length, !map_length in Hi.
      rewrite (nth_map _ _ i _ (Fin 0, Fin 0, Fin 0)) by (rewrite !combine_length, !map_length; lia).
      rewrite (nth_map _ _ i _ (0, 0, 0)) by (rewrite !combine_length; lia).
      rewrite !combine_nth by (rewrite ?combine_length, ?map_length; lia).
      rewrite !(nth_map Fin _ _ _ 0) by lia. cbn [fst snd].
      destruct (HZ i 0%nat (Fin 0)) as (d & ED & _); [lia|]. rewrite ED. unfold ds. rewrite (nth_map _ zs i 0 (Fin 0)) by lia. rewrite ED.
      cbn. rewrite Ropp_involutive. reflexivity.
    - intros i Hi. destruct (HZ i 0%nat (Fin 0)) as (d & ED & SF); [lia|]. rewrite seq_nth in SF by lia. cbn [plus] in SF.
      unfold ds. rewrite (nth_map _ zs i 0 (Fin 0)) by lia. rewrite ED. rewrite Ropp_involutive. exact SF.
  Qed.

  Theorem calibration_pole : past_the_pole longs lats -> float_coords interp2d f pos = Raise OSError.
  Proof.
    intros HN. unfold float_coords. cbn [ps_long ps_lat concat]. rewrite !app_nil_r, moved_xr. rewrite !map_length, LE.
    assert (LZ : Nat.eqb (length longs) 0 = false) by (apply Nat.eqb_neq; destruct longs; [congruence|discriminate]). rewrite LZ. cbn [orb].
    destruct (nanmin_fin _ moved_ne) as (m1 & E1 & M1). destruct (nanmax_fin _ moved_ne) as (m2 & E2 & M2).
    destruct (nanmin_fin _ NE2) as (n1 & F1 & N1). destruct (nanmax_fin _ NE2) as (n2 & F2 & N2). rewrite E1, E2, F1, F2.
    change (nsub (Fin m1) (nofZ 1)) with (Fin (m1 - 1)). change (nadd (Fin m2) (nofZ 1)) with (Fin (m2 + 1)).
    change (nsub (Fin n1) (nofZ 1)) with (Fin (n1 - 1)). change (nadd (Fin n2) (nofZ 1)) with (Fin (n2 + 1)).
    rewrite (window_fails longs lats HL HA m1 m2 n1 n2 M1 M2 N1 N2 f Hf HN). reflexivity.
  Qed.
End Calibration.

(* ---- the mapping ---- *)
Definition tb (x : R) : R := if Rltb 180 x then x - 360 else x.
Lemma tb_xr x : tbase_long (Fin x) = Fin (tb x).
Proof. unfold tbase_long, tb. cbn. destruct (Rltb 180 x); reflexivity. Qed.
Lemma tb_range x : 0 <= x <= 540 -> -180 <= tb x <= 180.
Proof. intros H. unfold tb. destruct (Rltb 180 x) eqn:E; [apply Rltb_true in E|apply Rltb_false in E]; lra. Qed.
Lemma tb_period x : exists k : Z, x = tb x + 360 * IZR k.
Proof. unfold tb. destruct (Rltb 180 x); [exists 1%Z|exists 0%Z]; lra. Qed.

Lemma small_window lo1 lo2 la1 la2 : -180 <= lo1 <= lo2 -> lo2 <= 180 -> - (1079 / 12) <= la1 <= la2 -> la2 <= 90 ->
  readable (Zfloor ((lo1 - 1) * 12)) (Zceil ((lo2 + 1) * 12)) (Z.max (Zfloor ((la1 - 1) * 12)) (-1079)) (Zceil (Rmin (la2 + 1) 90 * 12)).
Proof.
  intros H1 H2 H3 H4.
  assert (BT : la2 <= Rmin (la2 + 1) 90) by (apply Rmin_case; lra).
  split; [split|split; [|split]].
  - apply Z.le_max_r.
  - apply Z.max_lub; apply le_IZR; (apply Rle_trans with (Rmin (la2 + 1) 90 * 12); [|apply Zceil_ub]).
    + pose proof (Zfloor_lb ((la1 - 1) * 12)). lra.
    + lra.
  - apply Zceil_glb. pose proof (Rmin_r (la2 + 1) 90). lra.
  - apply le_IZR. pose proof (Zfloor_lb ((lo1 - 1) * 12)). pose proof (Zceil_ub ((lo2 + 1) * 12)). lra.
  - left. assert (-4320 <= Zfloor ((lo1 - 1) * 12))%Z by (apply Zfloor_lub; lra).
    assert (Zceil ((lo2 + 1) * 12) <= 4319)%Z by (apply Zceil_glb; lra). lia.
Qed.

Section MappingDepth.
  Variable f : binfile.
  Variable interp2d : list XR -> list XR -> list (list Z) -> XR -> XR -> res XR.
  Hypothesis Hf : tbase_file f.
  Hypothesis HI : linear_interp2d interp2d.

  Lemma float_elevation long lat : on_map long lat ->
    exists d, elevation interp2d f (nsub (tbase_long (Fin long)) (nofZ 1)) (nadd (tbase_long (Fin long)) (nofZ 1)) (nsub (Fin lat) (nofZ 1)) (nadd (Fin lat) (nofZ 1))
                [(tbase_long (Fin long), Fin lat)] = Ok [Fin (- d)] /\ sea_floor f long lat d.
  Proof.
    intros [RX RY]. rewrite tb_xr. assert (TR := tb_range long ltac:(lra)).
    pose proof (small_window (tb long) (tb long) lat lat ltac:(lra) ltac:(lra) ltac:(lra) ltac:(lra)) as RD.
    destruct (window_depth f interp2d _ _ _ _ Hf HI RD) as (elev & x & y & EG & HD).
    destruct (HD (tb long) lat) as (d & ED & SF); try lra.
    exists d. split.
    - unfold elevation. change (nsub (Fin (tb long)) (nofZ 1)) with (Fin (tb long - 1)). change (nadd (Fin (tb long)) (nofZ 1)) with (Fin (tb long + 1)).
      change (nsub (Fin lat) (nofZ 1)) with (Fin (lat - 1)). change (nadd (Fin lat) (nofZ 1)) with (Fin (lat + 1)).
      rewrite EG. cbn [bind mapM fst snd]. change (@nnan XR XR_Num) with NaN. rewrite ED. reflexivity.
    - destruct (tb_period long) as [k Hk]. rewrite Hk. now apply depth_period.
  Qed.

  Lemma amin_fin l : l <> [] -> exists m, amin (map Fin l) = Fin m /\ In m l /\ forall x, In x l -> m <= x.
  Proof.
    intros NE. unfold amin. replace (existsb nisnan (map Fin l)) with false by (symmetry; clear; induction l; auto).
    destruct l as [|x r]; [congruence|]. cbn [map]. destruct (min_from_fin x r) as (m & E & I & L). exists m. split; [exact E|]. now split.
  Qed.
  Lemma amax_fin l : l <> [] -> exists m, amax (map Fin l) = Fin m /\ In m l /\ forall x, In x l -> x <= m.
  Proof.
    intros NE. unfold amax. replace (existsb nisnan (map Fin l)) with false by (symmetry; clear; induction l; auto).
    destruct l as [|x r]; [congruence|]. cbn [map]. destruct (max_from_fin x r) as (m & E & I & L). exists m. split; [exact E|]. now split.
  Qed.

  Theorem casts_depths longs lats : longs <> [] -> length lats = length longs ->
    (forall i, (i < length longs)%nat -> on_map (nth i longs 0) (nth i lats 0)) ->
    exists ds, grid_depths interp2d f (wrap_longitude (map Fin longs)) (map Fin lats) = Ok (map Fin ds) /\ length ds = length longs /\
      forall i, (i < length longs)%nat -> sea_floor f (nth i longs 0) (nth i lats 0) (nth i ds 0).
  Proof.
    intros NE LE HP. destruct (wrap_meridian longs) as (w & EW & LW & FM & RW).
    assert (HL : forall x, In x longs -> 0 <= x <= 360) by (intros x I; apply (In_nth _ _ 0) in I as (i & Hi & <-); now apply HP).
    assert (HA : forall y, In y lats -> - (1079 / 12) <= y <= 90) by (intros y I; apply (In_nth _ _ 0) in I as (i & Hi & <-); rewrite LE in Hi; now apply HP).
    specialize (RW ltac:(intros x I; specialize (HL x I); lra)).
    rewrite EW. unfold grid_depths. rewrite map_map.
    assert (ET : map (fun x => tbase_long (Fin x)) w = map Fin (map tb w)) by (rewrite map_map; apply map_ext; intros; apply tb_xr). rewrite ET.
    assert (N1 : map tb w <> []) by (destruct w, longs; cbn in *; congruence). assert (N2 : lats <> []) by (destruct lats, longs; cbn in *; congruence).
    destruct (amin_fin _ N1) as (m1 & E1 & I1 & M1). destruct (amax_fin _ N1) as (m2 & E2 & I2 & M2).
    destruct (amin_fin _ N2) as (n1 & F1 & J1 & P1). destruct (amax_fin _ N2) as (n2 & F2 & J2 & P2). rewrite E1, E2, F1, F2.
    assert (TR : forall a, In a (map tb w) -> -180 <= a <= 180) by (intros a I; apply in_map_iff in I as (x & <- & I); apply tb_range; specialize (RW x I); lra).
    pose proof (small_window m1 m2 n1 n2) as RD.
    specialize (RD ltac:(split; [now apply TR|now apply M1]) ltac:(now apply TR) ltac:(split; [now apply HA|now apply P1]) ltac:(now apply HA)).
    destruct (window_depth f interp2d _ _ _ _ Hf HI RD) as (elev & x & y & EG & HD).
    unfold elevation. change (nsub (Fin m1) (nofZ 1)) with (Fin (m1 - 1)). change (nadd (Fin m2) (nofZ 1)) with (Fin (m2 + 1)).
    change (nsub (Fin n1) (nofZ 1)) with (Fin (n1 - 1)). change (nadd (Fin n2) (nofZ 1)) with (Fin (n2 + 1)). rewrite EG. cbn [bind].
    set (pl := combine (map Fin (map tb w)) (map Fin lats)).
    assert (LP : length pl = length longs) by (unfold pl; rewrite combine_length, !map_length; lia).
    assert (NP : forall i, (i < length longs)%nat -> nth i pl (NaN, NaN) = (Fin (tb (nth i w 0)), Fin (nth i lats 0))).
    { intros i Hi. unfold pl. rewrite combine_nth by (rewrite !map_length; lia). rewrite map_map. rewrite (nth_map (fun q => Fin (tb q)) w i _ 0) by lia.
      rewrite (nth_map Fin lats i _ 0) by lia. reflexivity. }
    destruct (mapM_all (fun p => interp2d (hd [] x) (map (hd nnan) y) elev (fst p) (snd p))
      (fun p z => exists d, z = Fin (- d) /\ forall a b, p = (Fin a, Fin b) -> sea_floor f a b d) pl) as (zs & EZ & FZ).
    { intros p Hp. apply (In_nth _ _ (NaN, NaN)) in Hp as (i & Hi & <-). rewrite LP in Hi. rewrite (NP i Hi). cbn [fst snd].
      assert (IT : In (tb (nth i w 0)) (map tb w)) by (apply in_map, nth_In; lia). assert (IL : In (nth i lats 0) lats) by (apply nth_In; lia).
      pose proof (M1 _ IT). pose proof (M2 _ IT). pose proof (P1 _ IL). pose proof (P2 _ IL). pose proof (TR _ IT). pose proof (HA _ IL).
      destruct (HD (tb (nth i w 0)) (nth i lats 0)) as (d & ED & SF); try lra.
      exists (Fin (- d)). split; [exact ED|]. exists d. split; [reflexivity|]. intros a b E. injection E as <- <-. exact SF. }
    rewrite EZ. cbn [bind]. destruct (forall2_nth _ _ _ FZ) as [LZS HZ]. rewrite LP in LZS, HZ.
    set (ds := map (fun z : XR => match z with Fin r => - r | _ => 0 end) zs). exists ds.
    assert (LD : length ds = length longs) by (unfold ds; rewrite map_length; exact LZS). split; [|split; [exact LD|]].
    - f_equal. apply (nth_ext _ _ NaN NaN); [rewrite !map_length; lia|]. intros i Hi. rewrite map_length in Hi.
      rewrite (nth_map _ zs i NaN NaN) by lia. rewrite (nth_map Fin ds i NaN 0) by lia. unfold ds. rewrite (nth_map _ zs i 0 NaN) by lia.
      destruct (HZ i (NaN, NaN) NaN) as (d & ED & _); [lia|]. rewrite ED. cbn. f_equal. lra.
    - intros i Hi. destruct (HZ i (NaN, NaN) NaN Hi) as (d & ED & SF). specialize (SF _ _ (NP i Hi)).
      unfold ds. rewrite (nth_map _ zs i 0 NaN) by lia. rewrite ED, Ropp_involutive.
      pose proof (forall2_nth _ _ _ FM) as [_ FN]. specialize (FN i 0 0 Hi). destruct FN as [k Hk].
      destruct (tb_period (nth i w 0)) as [k' Hk']. replace (nth i longs 0) with (tb (nth i w 0) + 360 * IZR (k' - k)); [now apply depth_period|].
      rewrite minus_IZR. lra.
  Qed.
End MappingDepth.
