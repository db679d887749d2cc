From Coq Require Import ZArith List Bool Reals Lra Lia.
From Verif Require Import Num Np NumFacts NpFacts Stats Wrangling LinR Spec_Utilities Spec_Finders Spec_Stats Spec_FitCond Spec_Map
  Helper Spec_Helper MapProfile Spec_MapLevel Proofs_Besthist Proofs_Stats1 Proofs_Stats2 Proofs_Map Proofs_Map2 Proofs_Helper.
Import ListNotations.
Local Open Scope R_scope.

Lemma signal_fin (l : list R) : l <> [] -> signal_variance (map Fin l) = Ok (Fin (pop_var l)).
Proof.
  intros Hl. replace (map Fin l) with (map oX (map Some l)) by (rewrite map_map; reflexivity).
  assert (E : somes (map Some l) = l) by (clear; induction l; cbn; [reflexivity|now f_equal]).
  rewrite (proj2 (signal_variance_value (map Some l))); rewrite E; [reflexivity|exact Hl].
Qed.
Lemma combine_map2 {A B C} (f : A -> B) (g : A -> C) l : combine (map f l) (map g l) = map (fun a => (f a, g a)) l.
Proof. induction l; cbn; [reflexivity|now f_equal]. Qed.
Lemma hist_of_known k :
  h_sal (hist_of (map known k)) = map Fin (map hp_sal k) /\
  hist_obs (hist_of (map known k)) = map fstation (map observed k) /\
  hist_points (hist_of (map known k)) = map fpoint (map place k) /\
  combine (Helper.h_long (hist_of (map known k))) (Helper.h_lat (hist_of (map known k))) = map (fun q => (Fin (hp_long q), Fin (hp_lat q))) k.
Proof.
  unfold hist_of, hist_obs, hist_points. cbn [h_sal Helper.h_long Helper.h_lat h_dates h_z]. rewrite !map_map.
  rewrite !combine_map2, !map_map. repeat split.
Qed.

(* the outliers that are removed *)
Lemma removed l : l <> [] -> exists idx, outliers (map Fin (map hp_sal l)) = Ok idx /\
  remove_statical_outliers idx (hist_of (map known l)) = hist_of (map known (kept l)) /\ kept l <> [].
Proof.
  intros Hl. destruct (outliers_few (map known l) (map hp_sal l)) as (idx & keep & EO & ER & HK & HN).
  { destruct l; [congruence|discriminate]. }
  { now rewrite !map_map. }
  assert (EK : filter keep (map known l) = map known (kept l)).
  { unfold kept. cbv zeta. set (sal := map hp_sal l) in *. clearbody sal. clear EO ER HN Hl.
    induction l as [|q l IH]; [reflexivity|]. cbn [map filter].
    rewrite IH by (intros; apply HK; [now right|assumption]). specialize (HK (known q) (hp_sal q) (or_introl eq_refl) eq_refl).
    destruct (Rle_dec _ _) as [C|C].
    - rewrite (proj2 HK C). reflexivity.
    - destruct (keep (known q)); [exfalso; apply C; now apply HK|reflexivity]. }
  exists idx. rewrite EK in *. split; [rewrite <- EO; now rewrite !map_map|]. split; [exact ER|].
  intros C. rewrite C in HN. cbn [map length] in HN. rewrite Nat.sub_0_r in HN. pose proof (pos_INR (length (map known l))). lra.
Qed.

Lemma best_unique s sv nv data g w w' sal : best_weights s sv nv data g w -> best_weights s sv nv data g w' ->
  length sal = length data -> estimate w sal = estimate w' sal.
Proof.
  intros [U O] [U' O'] L. unfold estimate. apply bsum_ext. intros i Hi. rewrite L in Hi. f_equal.
  destruct (O w' U') as [A B]. destruct (O' w U) as [A' _]. symmetry. apply B; [lra|exact Hi].
Qed.

Section Level.
  Variable inv : nat -> (nat -> nat -> XR) -> res (nat -> nat -> XR).
  Hypothesis Hinv : inv_ok inv.
  Variable cfg : map_config XR.
  Variables large small : scales.
  Hypothesis HC : config_scales cfg large small.

  (* the whole output of one mapping in terms of best weights *)
  Lemma one_stage s sv nv g data : mappable s sv nv g data -> 0 < nv -> forall sal, length sal = length data ->
    exists w e vs es, mapped inv s sv nv sal g data = Ok (Fin (estimate w sal), Fin e, map Fin vs, map Fin es) /\
      best_weights s sv nv data g w /\ 0 <= e /\ e ^ 2 = mean_square_error s sv nv data g w /\ length vs = length data /\
      forall i, (i < length data)%nat -> exists wi, best_weights s sv nv data (cast data i) wi /\ nth i vs 0 = estimate wi sal.
  Proof.
    intros Hm Hn sal L. destruct Hm as (A & B & C & D & E).
    assert (Hr : regular s sv nv data) by (apply noise_regular; auto; now apply depth_tail in B).
    assert (Hm : mappable s sv nv g data) by (repeat split; auto; apply A).
    destruct (map_optimal inv Hinv s sv nv g data Hm Hr) as (w & BW & HW). destruct (HW sal L) as (e & vs & es & EM & He & Hq).
    exists w, e, vs, es. split; [exact EM|]. split; [exact BW|]. split; [exact He|]. split; [exact Hq|].
    destruct (map_solvable inv Hinv s sv nv g data sal Hm Hn L) as (v2 & e2 & vs2 & es2 & EM2 & L2 & _).
    rewrite EM in EM2. assert (VV : map Fin vs = map Fin vs2) by congruence.
    assert (II : forall a b : list R, map Fin a = map Fin b -> a = b).
    { clear. induction a as [|x a IH]; intros [|y b] E; try discriminate; [reflexivity|]. cbn in E. injection E as -> E. f_equal. now apply IH. }
    apply II in VV. subst vs2. split; [exact L2|]. intros i Hi.
    destruct (map_optimal_casts inv Hinv s sv nv g data Hm Hr i Hi) as (wi & BWi & HWi).
    destruct (HWi sal L) as (v3 & e3 & vs3 & es3 & EM3 & EV & _). rewrite EM in EM3. assert (VV : map Fin vs = map Fin vs3) by congruence.
    apply II in VV. subst vs3. eauto.
  Qed.

  Theorem level_two_stage g t l nv : scales_nonzero large -> scales_nonzero small -> has_depth large (g :: map place l) ->
    (5 < length l)%nat -> noise_variance (map fstation (map observed (kept l))) = Ok (Fin nv) -> 0 < nv ->
    exists value err, two_stage large small nv g (kept l) value err /\
      map_level inv cfg (fpoint g) t (hist_of (map known l))
      = Ok (Some (mkLevelOut t (Fin value) (Fin err) (Fin nv) (Fin (pop_var (map hp_sal (kept l))))
                    (map (fun q => (Fin (hp_long q), Fin (hp_lat q))) (kept l)))).
  Proof.
    intros NL NS HD H5 EN Hn. destruct HC as (C1 & C2 & C3 & C4 & C5 & C6 & C7 & C8 & C9 & C10).
    assert (Hl : l <> []) by (destruct l; [cbn in H5; lia|discriminate]).
    destruct (removed l Hl) as (idx & EO & ER & HK).
    unfold map_level. destruct (hist_of_known l) as (S1 & _). rewrite S1, !map_length.
    rewrite (proj2 (Nat.ltb_lt 5 (length l)) H5). cbv iota. rewrite EO. cbn [bind]. rewrite ER.
    set (k := kept l) in *. destruct (hist_of_known k) as (S2 & O2 & P2 & Q2). rewrite S2, O2, P2, Q2, EN. cbn [bind].
    assert (HKs : map hp_sal k <> []) by (destruct k; [congruence|discriminate]).
    rewrite (signal_fin _ HKs). cbn [bind].
    assert (HSub : forall q, In q k -> In q l) by (intros q Hq; unfold k, kept in Hq; cbv zeta in Hq; apply filter_In in Hq; tauto).
    assert (HDk : has_depth large (g :: map place k)).
    { intros E p [<-|Hp]; [apply HD; [exact E|now left]|]. apply in_map_iff in Hp as (q & <- & Hq). apply HD; [exact E|]. right. now apply in_map, HSub. }
    assert (HNE : map place k <> []) by (destruct k; [congruence|discriminate]).
    set (sal := map hp_sal k) in *. set (data := map place k) in *.
    assert (LS : length sal = length data) by (unfold sal, data; now rewrite !map_length).
    assert (M1 : mappable large (pop_var sal) nv g data) by (split; [exact NL|]; split; [exact HDk|]; split; [exact HNE|]; split; [apply pop_var_nonneg|lra]).
    destruct (one_stage large (pop_var sal) nv g data M1 Hn sal LS) as (w & e & vs & es & EM & BW & He & Hq & LV & HV).
    rewrite C1, C2, C3, C4, C10. unfold mapped in EM. rewrite EM. cbn [bind]. clear EM.
    assert (ERes : map (fun q : XR * XR => nsub (fst q) (snd q)) (combine (map Fin sal) (map Fin vs)) = map Fin (map (fun q => fst q - snd q) (combine sal vs))).
    { clear. revert vs. induction sal as [|x s IH]; intros [|y vs]; try reflexivity. cbn [map combine]. f_equal. apply IH. }
    rewrite ERes. clear ERes. set (res := map (fun q => fst q - snd q) (combine sal vs)).
    assert (LR : length res = length data) by (unfold res; rewrite map_length, combine_length; lia).
    assert (HRes : res <> []) by (intros C; rewrite C in LR; destruct data; [congruence|discriminate]).
    rewrite (signal_fin _ HRes). cbn [bind].
    assert (M2 : mappable small (pop_var res) nv g data).
    { split; [exact NS|]. split; [intros E; apply HDk; congruence|]. split; [exact HNE|]. split; [apply pop_var_nonneg|lra]. }
    destruct (one_stage small (pop_var res) nv g data M2 Hn res LR) as (w' & e' & vs' & es' & EM' & BW' & He' & Hq' & _).
    rewrite C5, C6, C7, C8, <- C9. unfold mapped in EM'. rewrite EM'. cbn [bind].
    exists (estimate w sal + estimate w' res), (sqrt (e ^ 2 + e' ^ 2)). split.
    - unfold two_stage. cbv zeta. fold sal data. exists w, w', res. split; [exact BW|]. split.
      + split; [congruence|]. intros i Hi. destruct (HV i Hi) as (wi & BWi & EV). exists wi. split; [exact BWi|].
        unfold res. rewrite (nth_map _ _ _ _ (0, 0)) by (rewrite combine_length; lia). rewrite combine_nth by congruence. cbn [fst snd]. now rewrite EV.
      + split; [exact BW'|]. split; [reflexivity|]. now rewrite <- Hq, <- Hq'.
    - do 3 f_equal. change (nsqrt (nadd (nmul (Fin e) (Fin e)) (nmul (Fin e') (Fin e')))) with (xsqrt (Fin (e * e + e' * e'))).
      rewrite xsqrt_fin by nra. do 2 f_equal. ring.
  Qed.

  (* at most five points: nothing *)
  Theorem level_few g t l : (length l <= 5)%nat -> map_level inv cfg (fpoint g) t (hist_of (map known l)) = Ok None.
  Proof.
    intros H5. unfold map_level. destruct (hist_of_known l) as (S1 & _). rewrite S1, !map_length.
    now rewrite (proj2 (Nat.ltb_ge 5 (length l)) H5).
  Qed.
End Level.

(* the two-stage value is determined *)
Lemma two_stage_unique large small nv g l v e v' e' : two_stage large small nv g l v e -> two_stage large small nv g l v' e' -> v = v' /\ e = e'.
Proof.
  unfold two_stage. cbv zeta. set (data := map place l). set (sal := map hp_sal l).
  assert (LS : length sal = length data) by (unfold sal, data; now rewrite !map_length).
  assert (MU : forall s sv w w', best_weights s sv nv data g w -> best_weights s sv nv data g w' ->
     mean_square_error s sv nv data g w = mean_square_error s sv nv data g w').
  { intros s sv w w' [U O] [U' O']. apply Rle_antisym; [now apply O|now apply O']. }
  intros (w & w1 & r & A & [LR B] & C & -> & ->) (w' & w1' & r' & A' & [LR' B'] & C' & -> & ->).
  assert (r = r').
  { apply (nth_ext _ _ 0 0); [congruence|]. intros i Hi. rewrite LR, LS in Hi.
    destruct (B i Hi) as (u & BU & ->). destruct (B' i Hi) as (u' & BU' & ->). f_equal.
    now apply (best_unique large (pop_var sal) nv data (cast data i)). }
  subst r'. split.
  - f_equal; eapply best_unique; eauto; congruence.
  - f_equal. f_equal; now apply MU.
Qed.

(* ---- all salinities equal ---- *)
Lemma equal_salinities_noise l c : (forall q, In q l -> hp_sal q = c) -> noise_variance (map fstation (map observed l)) = Ok (Fin 0).
Proof.
  intros HE. destruct (noise_value (map observed l)) as [A B].
  assert (D : all_same (map observed l) \/ ~ all_same (map observed l)) by apply Classical_Prop.classic.
  destruct D as [D|D]; [now apply A|]. destruct (B D) as (nn & HN & EV). rewrite EV. f_equal. rewrite map_length in *.
  set (L := map observed l) in *.
  assert (SQ : forall i, (i < length l)%nat -> sqdiff (st_sal (nth i L dstation)) (st_sal (nth (nn i) L dstation)) = Some 0).
  { intros i Hi. assert (S1 : forall j, (j < length l)%nat -> st_sal (nth j L dstation) = Some c).
    { intros j Hj. unfold L. rewrite (nth_map observed _ _ _ (mkHpoint 0 0 0 0 0 0)) by exact Hj. cbn. now rewrite HE by (now apply nth_In). }
    destruct (HN i Hi) as (Hj & _). rewrite S1 by exact Hi. unfold L in Hj. rewrite map_length in Hj. rewrite S1 by exact Hj. cbn. f_equal. ring. }
  assert (E : map (fun i => sqdiff (st_sal (nth i L dstation)) (st_sal (nth (nn i) L dstation))) (seq 0 (length l)) = repeat (Some 0) (length l)).
  { apply map_seq_repeat. intros i Hi. now apply SQ. }
  rewrite E. assert (NE : (0 < length l)%nat).
  { destruct l; [|cbn; lia]. exfalso. apply D. intros a b []. }
  assert (S2 : somes (repeat (Some 0) (length l)) = repeat 0 (length l)) by (clear; induction (length l); cbn; [reflexivity|now f_equal]).
  rewrite S2. destruct (length l) as [|n]; [lia|]. cbn [repeat]. f_equal.
  assert (Z : mean_of (repeat 0 (S n)) = 0).
  { unfold mean_of. assert (F : fold_right Rplus 0 (repeat 0 (S n)) = 0) by (clear; induction (S n); cbn; [reflexivity|rewrite IHn0; lra]).
    rewrite F. lra. }
  change (0 :: repeat 0 n) with (repeat 0 (S n)). rewrite Z. lra.
Qed.

Theorem level_equal inv cfg large small g t l c : inv_zero inv -> config_scales cfg large small ->
  scales_nonzero large -> has_depth large (g :: map place l) -> (5 < length l)%nat -> (forall q, In q l -> hp_sal q = c) ->
  map_level inv cfg (fpoint g) t (hist_of (map known l)) = Raise LinAlgError.
Proof.
  intros Hz (C1 & C2 & C3 & C4 & C5 & C6 & C7 & C8 & C9 & C10) NL HD H5 HE.
  assert (Hl : l <> []) by (destruct l; [cbn in H5; lia|discriminate]).
  destruct (removed l Hl) as (idx & EO & ER & HK).
  unfold map_level. destruct (hist_of_known l) as (S1 & _). rewrite S1, !map_length.
  rewrite (proj2 (Nat.ltb_lt 5 (length l)) H5). cbv iota. rewrite EO. cbn [bind]. rewrite ER.
  set (k := kept l) in *. destruct (hist_of_known k) as (S2 & O2 & P2 & Q2). rewrite S2, O2, P2, Q2.
  assert (HSub : forall q, In q k -> In q l) by (intros q Hq; unfold k, kept in Hq; cbv zeta in Hq; apply filter_In in Hq; tauto).
  rewrite (equal_salinities_noise k c) by auto. cbn [bind].
  assert (HKs : map hp_sal k <> []) by (destruct k; [congruence|discriminate]).
  rewrite (signal_fin _ HKs). cbn [bind].
  assert (PV : pop_var (map hp_sal k) = 0).
  { apply (pop_var_zero _ HKs). intros x y Hx Hy. apply in_map_iff in Hx as (q & <- & Hq). apply in_map_iff in Hy as (q' & <- & Hq'). rewrite !HE by auto. reflexivity. }
  rewrite PV. unfold map_data_grid. rewrite C1, C2, C3, C4, C10.
  assert (HDk : has_depth large (map place k)).
  { intros E p Hp. apply in_map_iff in Hp as (q & <- & Hq). apply HD; [exact E|]. right. now apply in_map, HSub. }
  assert (SP : some_points large (map place k)) by (intros _; destruct k; [congruence|discriminate]).
  destruct (covariance_entry large (map place k) (map place k) NL HDk HDk SP SP) as (m & EC & HM).
  unfold covariance in EC. rewrite EC. cbn [bind]. rewrite Hz; [reflexivity| |].
  - rewrite !map_length. destruct k; [congruence|cbn; lia].
  - intros i j Hi Hj. rewrite !map_length in Hi, Hj. rewrite HM by (rewrite map_length; assumption).
    destruct (Nat.eqb i j); cbn; f_equal; ring.
Qed.

(* ---- shift ---- *)
Lemma map_sal_shift c l : map hp_sal (map (shifted c) l) = map (fun x => x + c) (map hp_sal l).
Proof. now rewrite !map_map. Qed.
Lemma kept_shift c l : l <> [] -> kept (map (shifted c) l) = map (shifted c) (kept l).
Proof.
  intros Hl. unfold kept. cbv zeta. rewrite map_sal_shift. set (sal := map hp_sal l).
  assert (Hs : sal <> []) by (unfold sal; destruct l; [congruence|discriminate]).
  assert (M : rmean (map (fun x => x + c) sal) = rmean sal + c) by (exact (mean_shift sal c Hs)).
  assert (D : rsd (map (fun x => x + c) sal) = rsd sal).
  { unfold rsd. rewrite M, map_length, map_map. do 2 f_equal. f_equal. apply map_ext. intros x. ring. }
  rewrite M, D. clearbody sal. clear. induction l as [|q l IH]; [reflexivity|]. cbn [map filter].
  replace (hp_sal (shifted c q) - (rmean sal + c)) with (hp_sal q - rmean sal) by (cbn [shifted hp_sal]; ring).
  destruct (Rle_dec _ _); cbn [map]; now rewrite IH.
Qed.
Lemma estimate_shift s sv nv data g w sal c : best_weights s sv nv data g w -> length sal = length data ->
  estimate w (map (fun x => x + c) sal) = estimate w sal + c.
Proof.
  intros [U _] L. unfold estimate. rewrite map_length, L. unfold unbiased in U.
  transitivity (bsum (length data) (fun i => w i * nth i sal 0) + c * bsum (length data) w); [|rewrite U; ring].
  rewrite <- bsum_scal, <- bsum_plus. apply bsum_ext. intros i Hi.
  rewrite (nth_map (fun x => x + c) _ _ _ 0) by congruence. ring.
Qed.
Lemma two_stage_shift large small nv g l c v e : l <> [] -> two_stage large small nv g l v e ->
  two_stage large small nv g (map (shifted c) l) (v + c) e.
Proof.
  intros Hl. unfold two_stage. cbv zeta. rewrite map_sal_shift.
  assert (EP : map place (map (shifted c) l) = map place l) by now rewrite map_map. rewrite EP.
  set (data := map place l). set (sal := map hp_sal l).
  assert (Hs : sal <> []) by (unfold sal; destruct l; [congruence|discriminate]).
  assert (LS : length sal = length data) by (unfold sal, data; now rewrite !map_length).
  rewrite pop_var_shift by exact Hs.
  intros (w & w' & res & A & [LR B] & C & -> & ->). exists w, w', res. split; [exact A|]. split.
  - split; [now rewrite map_length|]. intros i Hi. destruct (B i Hi) as (u & BU & EU). exists u. split; [exact BU|].
    rewrite (estimate_shift _ _ _ _ _ _ _ c BU LS). rewrite (nth_map (fun x => x + c) _ _ _ 0) by congruence. rewrite EU. ring.
  - split; [exact C|]. split; [|reflexivity]. rewrite (estimate_shift _ _ _ _ _ _ _ c A LS). ring.
Qed.

Theorem level_shift inv cfg large small g t l nv c : inv_ok inv -> config_scales cfg large small ->
  scales_nonzero large -> scales_nonzero small -> has_depth large (g :: map place l) ->
  (5 < length l)%nat -> noise_variance (map fstation (map observed (kept l))) = Ok (Fin nv) -> 0 < nv ->
  exists value err signal points,
    map_level inv cfg (fpoint g) t (hist_of (map known l)) = Ok (Some (mkLevelOut t (Fin value) (Fin err) (Fin nv) signal points)) /\
    map_level inv cfg (fpoint g) t (hist_of (map known (map (shifted c) l)))
    = Ok (Some (mkLevelOut t (Fin (value + c)) (Fin err) (Fin nv) signal points)).
Proof.
  intros Hinv HC NL NS HD H5 EN Hn. assert (Hl : l <> []) by (destruct l; [cbn in H5; lia|discriminate]).
  assert (HK : kept l <> []) by (destruct (removed l Hl) as (_ & _ & _ & HK); exact HK).
  destruct (level_two_stage inv Hinv cfg large small HC g t l nv NL NS HD H5 EN Hn) as (v & e & TS & EM).
  assert (EP : map place (map (shifted c) l) = map place l) by now rewrite map_map.
  destruct (level_two_stage inv Hinv cfg large small HC g t (map (shifted c) l) nv NL NS) as (v' & e' & TS' & EM').
  - now rewrite EP.
  - now rewrite map_length.
  - rewrite kept_shift by exact Hl. rewrite <- EN. rewrite <- (noise_shift (map observed (kept l)) c). now rewrite !map_map.
  - exact Hn.
  - rewrite kept_shift in TS', EM' by exact Hl.
    destruct (two_stage_unique _ _ _ _ _ _ _ _ _ TS' (two_stage_shift large small nv g (kept l) c v e HK TS)) as [-> ->].
    eexists _, _, _, _. split; [exact EM|]. rewrite EM'. rewrite map_sal_shift.
    rewrite pop_var_shift by (destruct (kept l); [congruence|discriminate]). now rewrite map_map.
Qed.

(* ---- the noise by its definition ---- *)
Lemma nearest_unique l i j k : nearest l i j -> nearest l i k -> j = k.
Proof.
  intros (J & NJ & AJ & FJ) (K & NK & AK & FK). destruct (Nat.lt_trichotomy j k) as [C|[C|C]]; [|exact C|].
  - specialize (FK j C NJ). specialize (AJ k K NK). lra.
  - specialize (FJ k C NK). specialize (AK j J NJ). lra.
Qed.
Lemma noise_estimated l nv : l <> [] -> noise_estimate l nv -> noise_variance (map fstation (map observed l)) = Ok (Fin nv).
Proof.
  intros Hl (nn & HN & ->). destruct (noise_value (map observed l)) as [_ B].
  assert (NS : ~ all_same (map observed l)).
  { intros C. assert (L0 : (0 < length l)%nat) by (destruct l; [congruence|cbn; lia]). destruct (HN 0%nat L0) as (HJ & ND & _).
    apply ND. apply C; apply nth_In; [now rewrite map_length|exact HJ]. }
  destruct (B NS) as (nn' & HN' & ->). rewrite map_length in *. f_equal.
  set (D := map (fun i => (hp_sal (nth i l dhpoint) - hp_sal (nth (nn i) l dhpoint)) ^ 2) (seq 0 (length l))).
  assert (E : map (fun i => sqdiff (st_sal (nth i (map observed l) dstation)) (st_sal (nth (nn' i) (map observed l) dstation))) (seq 0 (length l)) = map Some D).
  { unfold D. rewrite map_map. apply map_ext_in. intros i Hi. apply in_seq in Hi. cbn [Nat.add] in Hi.
    rewrite (nearest_unique _ _ _ _ (HN' i (proj2 Hi)) (HN i (proj2 Hi))).
    destruct (HN i (proj2 Hi)) as (HJ & _). rewrite map_length in HJ.
    rewrite !(nth_map observed _ _ _ dhpoint) by (exact HJ || exact (proj2 Hi)). reflexivity. }
  cbv zeta. rewrite E. assert (S : somes (map Some D) = D) by (clear; induction D; cbn; [reflexivity|now f_equal]).
  rewrite S. destruct D eqn:ED; [|reflexivity]. exfalso. apply map_eq_nil in ED. destruct l; [congruence|discriminate].
Qed.

Theorem level_mapped inv cfg large small g t l nv : inv_ok inv -> config_scales cfg large small ->
  scales_nonzero large -> scales_nonzero small -> has_depth large (g :: map place l) ->
  (5 < length l)%nat -> noise_estimate (kept l) nv -> 0 < nv ->
  exists value err, two_stage large small nv g (kept l) value err /\
    map_level inv cfg (fpoint g) t (hist_of (map known l))
    = Ok (Some (mkLevelOut t (Fin value) (Fin err) (Fin nv) (Fin (pop_var (map hp_sal (kept l))))
                           (map (fun q => (Fin (hp_long q), Fin (hp_lat q))) (kept l)))).
Proof.
  intros Hinv HC NL NS HD H5 HN Hn. assert (Hl : l <> []) by (destruct l; [cbn in H5; lia|discriminate]).
  destruct (removed l Hl) as (_ & _ & _ & HK).
  exact (level_two_stage inv Hinv cfg large small HC g t l nv NL NS HD H5 (noise_estimated _ _ HK HN) Hn).
Qed.
Theorem level_shifted inv cfg large small g t l nv c : inv_ok inv -> config_scales cfg large small ->
  scales_nonzero large -> scales_nonzero small -> has_depth large (g :: map place l) ->
  (5 < length l)%nat -> noise_estimate (kept l) nv -> 0 < nv ->
  exists value err signal points,
    map_level inv cfg (fpoint g) t (hist_of (map known l)) = Ok (Some (mkLevelOut t (Fin value) (Fin err) (Fin nv) signal points)) /\
    map_level inv cfg (fpoint g) t (hist_of (map known (map (shifted c) l)))
    = Ok (Some (mkLevelOut t (Fin (value + c)) (Fin err) (Fin nv) signal points)).
Proof.
  intros Hinv HC NL NS HD H5 HN Hn. assert (Hl : l <> []) by (destruct l; [cbn in H5; lia|discriminate]).
  destruct (removed l Hl) as (_ & _ & _ & HK).
  exact (level_shift inv cfg large small g t l nv c Hinv HC NL NS HD H5 (noise_estimated _ _ HK HN) Hn).
Qed.

(* six casts on a meridian, alternately 35 and 36 *)
Definition six : list (hpoint R) :=
  map (fun i => mkHpoint (if Nat.even i then 35 else 36) 1000 10 (INR i) 2010 4000) (seq 0 6).
Lemma six_kept : kept six = six.
Proof.
  unfold kept. cbv zeta. assert (M : rmean (map hp_sal six) = 71 / 2) by (unfold rmean, six; cbn; lra).
  assert (S : rsd (map hp_sal six) = 1 / 2).
  { unfold rsd. rewrite M. unfold six. cbn [seq map Nat.even hp_sal length]. cbn [fold_right INR].
    replace (_ / _) with ((1/2) * (1/2)) by field. apply sqrt_square. lra. }
  rewrite M, S. assert (F : forall l, (forall q, In q l -> hp_sal q = 35 \/ hp_sal q = 36) ->
    filter (fun q => if Rle_dec (Rabs (hp_sal q - 71 / 2)) (3 * (1 / 2)) then true else false) l = l).
  { induction l as [|q l IH]; [reflexivity|]. intros Hq. cbn [filter]. rewrite IH by (intros; apply Hq; now right).
    destruct (Rle_dec _ _) as [_|C]; [reflexivity|]. exfalso. apply C.
    destruct (Hq q (or_introl eq_refl)) as [-> | ->]; [rewrite Rabs_left by lra|rewrite Rabs_right by lra]; lra. }
  apply F. intros q Hq. unfold six in Hq. apply in_map_iff in Hq as (i & <- & _). cbn. destruct (Nat.even i); auto.
Qed.
Lemma six_noise : noise_estimate six (1 / 2).
Proof.
  exists (fun i => match i with O => 1%nat | S k => k end). split.
  - intros i Hi. change (length six) with 6%nat in *.
    assert (P : forall k, (k < 6)%nat -> nth k (map observed six) dstation = mkStation (Some (if Nat.even k then 35 else 36)) (INR k) 10).
    { intros k Hk. do 6 (destruct k as [|k]; [reflexivity|]). lia. }
    assert (HJ : (match i with O => 1 | S k => k end < 6)%nat) by (destruct i; lia).
    split; [exact HJ|]. rewrite (P i Hi), (P _ HJ). unfold same_place, dist2. cbn [st_lat st_long].
    assert (HL : forall a b, (a < b)%nat -> INR a + 1 <= INR b) by (intros a b HH; rewrite <- S_INR; apply le_INR; lia).
    split; [intros [E _]; apply INR_eq in E; destruct i; lia|]. split.
    + intros k Hk. rewrite (P k Hk). cbn [st_lat st_long]. intros NE.
      assert (NE' : i <> k) by (intros ->; apply NE; split; reflexivity).
      assert (1 <= (INR i - INR k) ^ 2) by (destruct (Nat.lt_trichotomy i k) as [C|[C|C]]; [specialize (HL _ _ C); nra|lia|specialize (HL _ _ C); nra]).
      destruct i; [cbn [INR] in *; nra|]. rewrite S_INR in *. nra.
    + intros k Hk. assert (Hk6 : (k < 6)%nat) by lia. rewrite (P k Hk6). cbn [st_lat st_long]. intros NE.
      destruct i; [assert (k = 0)%nat by lia; subst; exfalso; apply NE; split; reflexivity|].
      specialize (HL _ _ Hk). rewrite S_INR. nra.
  - unfold mean_of, six. cbn [length seq map nth Nat.even hp_sal Nat.add]. cbn [fold_right INR length map]. field.
Qed.
