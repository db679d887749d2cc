(* A float of n profiles with two levels, whose salinity is off by a factor *)
From Coq Require Import String Ascii.
From Coq Require Import ZArith List Bool Lia Reals Lra Sorted Permutation FunctionalExtensionality.
From Flocq Require Core.Raux.
From Verif Require Import Num Np NumFacts NpFacts Utilities Finders Stats FitCond Topo Helper MapProfile Mapping Config Calib
  Spec_Utilities Spec_Finders Spec_Stats Spec_FitCond Spec_Calib Spec_Topo Spec_Depth Spec_Drift LinR
  Proofs_Besthist Proofs_Stats3 Proofs_Thetas2 Proofs_Thetas3 Proofs_Curve Proofs_FC11 Proofs_Calib4 Proofs_Depth3 Proofs_Depth4
  Proofs_Drift3 Proofs_Drift4.
Import ListNotations.
Local Open Scope R_scope.

Definition rd (m : list (list XR)) (l j : nat) : option R := match entry2 m j l with Fin x => Some x | _ => None end.
Definition many_nos (n : nat) : list R := map INR (seq 1 n).
Definition many_lats (n : nat) : list R := map INR (seq 0 n).
Definition many_longs (n : nat) : list R := repeat 10 n.
Definition many_sal (n : nat) : list (list XR) := repeat [Fin 34; Fin 35] n.
Definition many_tmp (n : nat) : list (list XR) := repeat [Fin 0; Fin 10] n.
Definition many_pre (n : nat) : list (list XR) := repeat [Fin 0; Fin 100] n.
Definition many_src (n : nat) : source XR := mkSource (map Fin (many_nos n)) (map Fin (many_lats n)) (map Fin (many_longs n)) (map Fin (many_nos n)) (many_sal n) (many_tmp n) (many_tmp n) (many_pre n) 2.
(* the mapped salinities are a + b x times the salinities of the profile with the number x; the first k
   profiles have none *)
Definition many_mapped (k : nat) (a b : R) (n : nat) : list (list XR) :=
  map (fun j => if Nat.ltb j k then [NaN; NaN] else [Fin ((a + b * INR (S j)) * 34); Fin ((a + b * INR (S j)) * 35)]) (seq 0 n).
Definition many_map (k : nat) (a b : R) (n : nat) : mapped XR := mkMapped (mkMatrix 2 (many_tmp n)) (mkMatrix 2 (many_mapped k a b n)) (mkMatrix 2 (repeat [Fin 1; Fin 1] n)) (mkMatrix 0 []) (mkMatrix 0 [])
  (map Fin (many_nos n)) [] [(Fin 10, Fin 60, Fin 1)].
Definition many_set (n : nat) (mx : Z) : calfile XR := mkCal [] [[Fin (IZR mx)]] (map Fin (repeat 1 n)) (map Fin (many_nos n)) [] [] [] [] (Some [[Fin (1 / 2)]]).
Definition flat_sea (p : Z) : option Z := Some 1%Z.
Definition many_run (n k : nat) (a b : R) (mx : Z) := piecewisefit exact_det exact_solve exact_inv no_optimum unit no_noise line demo_interp2d flat_sea (fun s _ _ => s) (fun c _ _ => c)
  (mkCovConfig (Fin (1 / 20)) (Fin (1 / 20)) (Fin 1) true) (many_src n) (mkPositions [map Fin (many_longs n)] [map Fin (many_lats n)]) (many_map k a b n) (Ok (many_set n mx)) tt.

Lemma rd_value (m : list (list XR)) : (forall c x, In c m -> In x c -> exists y, x = Fin y) -> forall j l, entry2 m j l = oX (rd m l j).
Proof.
  intros H j l. unfold rd. assert (E : entry2 m j l = NaN \/ exists y, entry2 m j l = Fin y).
  { unfold entry2. destruct (Nat.lt_ge_cases j (length m)) as [Hj|Hj]; [|left; rewrite (nth_overflow m) by exact Hj; destruct l; reflexivity].
    destruct (Nat.lt_ge_cases l (length (nth j m []))) as [Hl|Hl]; [|left; now rewrite nth_overflow by exact Hl]. right. eapply H; [apply nth_In, Hj|apply nth_In, Hl]. }
  destruct E as [E|(y & E)]; rewrite E; reflexivity.
Qed.
Lemma nth_rep {A} (x d : A) n i : (i < n)%nat -> nth i (repeat x n) d = x.
Proof. revert i. induction n as [|n IH]; intros i Hi; [lia|]. destruct i; cbn; [reflexivity|]. apply IH. lia. Qed.
Lemma rep_of {A} (l : list A) x d : (forall i, (i < length l)%nat -> nth i l d = x) -> l = repeat x (length l).
Proof. intros H. apply nth_ext with d d; [now rewrite repeat_length|]. intros i Hi. rewrite nth_rep by exact Hi. apply H, Hi. Qed.
Lemma map_rep {A B} (f : A -> B) x n : map f (repeat x n) = repeat (f x) n.
Proof. induction n; cbn; [reflexivity|]. now rewrite IHn. Qed.
Lemma sum_rep x n : fold_right Rplus 0 (repeat x n) = INR n * x.
Proof. induction n as [|n IH]; [cbn; lra|]. rewrite S_INR. cbn [repeat fold_right]. rewrite IH. ring. Qed.
Lemma rep_entry (c : list XR) n j l : entry2 (repeat c n) j l = if Nat.ltb j n then nth l c NaN else NaN.
Proof. unfold entry2. destruct (Nat.ltb_spec j n); [now rewrite nth_rep|]. rewrite (nth_overflow (repeat c n)) by (rewrite repeat_length; lia). destruct l; reflexivity. Qed.
Lemma seq_error n p : (p < n)%nat -> nth_error (seq 0 n) p = Some p.
Proof. intros H. rewrite (nth_error_nth' _ 0%nat) by (rewrite seq_length; exact H). now rewrite seq_nth. Qed.
Lemma present_le q : (length (present q) <= length q)%nat.
Proof. unfold present. induction q as [|a q IH]; cbn [filter length]; [lia|]. destruct (negb (nisnan a)); cbn [length]; lia. Qed.
Lemma present_fin vs : present (map Fin vs) = map Fin vs.
Proof. induction vs as [|v vs IH]; [reflexivity|]. unfold present in *. change (Fin v :: filter (fun x => negb (nisnan x)) (map Fin vs) = Fin v :: map Fin vs). now rewrite IH. Qed.
Lemma present_nan n : present (repeat (NaN : XR) n) = [].
Proof. induction n; cbn; auto. Qed.
Lemma all_fin (q : list XR) : (forall j, (j < length q)%nat -> exists x, nth j q NaN = Fin x) -> exists vs, q = map Fin vs /\ length vs = length q.
Proof.
  induction q as [|a q IH]; intros H; [exists []; auto|]. destruct (H 0%nat ltac:(cbn; lia)) as (x & X). cbn [nth] in X. subst a.
  destruct IH as (vs & -> & L). { intros j Hj. exact (H (S j) ltac:(cbn; lia)). } exists (x :: vs). cbn [length map]. rewrite map_length. auto.
Qed.

(* ---- the sea floor ---- *)
Lemma flat_file : tbase_file flat_sea.
Proof. intros p _. exists 1%Z. split; [reflexivity|lia]. Qed.
Lemma flat_cell row col v : stored_cell flat_sea row col v -> v = 257%Z.
Proof. intros (lo & hi & E1 & E2 & B & M). injection E1 as <-. injection E2 as <-. apply Z.mod_divide in M as (q & Q); [|lia]. lia. Qed.
Lemma flat_depth long lat z : sea_floor flat_sea long lat z -> z = - 257.
Proof.
  intros (row & col & u & v & nw & ne & sw & se & _ & _ & _ & _ & _ & _ & C1 & C2 & C3 & C4 & ->). apply flat_cell in C1, C2, C3, C4. subst. unfold bilinear. ring.
Qed.

Section Many.
  Variable n : nat.
  Variable gap : nat.
  Hypothesis Hn : (gap + 2 <= n <= 90)%nat.
  Notation data := (series_of (rd (many_sal n)) (rd (many_tmp n)) (rd (many_pre n)) (rd (many_tmp n)) None None None None (seq 0 n)).

  Lemma picked_rep (c : list XR) l j : (j < n)%nat -> picked (rd (repeat c n)) (seq 0 n) l j = match nth l c NaN with Fin x => Some x | _ => None end.
  Proof. intros Hj. unfold picked. rewrite seq_error by exact Hj. unfold rd. rewrite rep_entry. apply Nat.ltb_lt in Hj. now rewrite Hj. Qed.
  Lemma many_tmps i j : (j < n)%nat -> d_ptmp data i j = match i with 0%nat => Some 0 | 1%nat => Some 10 | _ => None end.
  Proof. intros Hj. cbn [d_ptmp series_of]. unfold many_tmp. rewrite picked_rep by exact Hj. destruct i as [|[|[|i]]]; reflexivity. Qed.
  Lemma many_pres i j : (j < n)%nat -> d_pres data i j = match i with 0%nat => Some 0 | 1%nat => Some 100 | _ => None end.
  Proof. intros Hj. cbn [d_pres series_of]. unfold many_pre. rewrite picked_rep by exact Hj. destruct i as [|[|[|i]]]; reflexivity. Qed.
  Lemma many_sals i j : (i < 2)%nat -> (j < n)%nat -> exists s, d_sal data i j = Some s.
  Proof. intros Hi Hj. cbn [d_sal series_of]. unfold many_sal. rewrite picked_rep by exact Hj. destruct i as [|[|]]; [| |lia]; eexists; reflexivity. Qed.
  Lemma many_las i j : (j < n)%nat -> d_la data i j = match i with 0%nat => Some 0 | 1%nat => Some 10 | _ => None end.
  Proof. intros Hj. cbn [d_la series_of]. unfold many_tmp. rewrite picked_rep by exact Hj. destruct i as [|[|[|i]]]; reflexivity. Qed.
  Lemma many_kept i j : (i < 2)%nat -> (j < n)%nat -> kept data i j.
  Proof. intros Hi Hj. split; [|split; intros; exact I]. rewrite many_las by exact Hj. destruct i as [|[|]]; [discriminate|discriminate|lia]. Qed.
  Lemma many_wide : wide_range data 2 n.
  Proof.
    exists 0%nat, 0%nat, 1%nat, 0%nat, 0, 10, 0%Z, 100%Z. repeat (split; [lia|]). split; [split; [apply many_kept; lia|rewrite many_tmps by lia; reflexivity]|]. split; [split; [apply many_kept; lia|rewrite many_tmps by lia; reflexivity]|].
    split; [lia|]. split; lra.
  Qed.
  Lemma many_range : pressure_range data 2 n 0 100.
  Proof.
    split; [exists 0%nat, 0%nat; split; [lia|]; split; [lia|]; split; [apply many_kept; lia|rewrite many_pres by lia; reflexivity]|].
    split; [exists 1%nat, 0%nat; split; [lia|]; split; [lia|]; split; [apply many_kept; lia|rewrite many_pres by lia; reflexivity]|].
    intros i j x Hi Hj (_ & E). rewrite many_pres in E by exact Hj. destruct i as [|[|i]]; [| |lia]; injection E as <-; lra.
  Qed.
  Lemma many_ties : no_ties data 2 n.
  Proof. intros j k x y _ Hk. lia. Qed.
  Lemma many_straddles th j : (j < n)%nat -> 0 < th < 10 -> straddles data 2 th j.
  Proof.
    intros Hj H. exists 0%nat, 1%nat, 0, 10. split; [lia|]. split; [lia|]. split; [split; [apply many_kept; lia|now rewrite many_tmps]|]. split; [split; [apply many_kept; lia|now rewrite many_tmps]|exact H].
  Qed.
  Lemma many_spacing : spacing (100 - 0) = 10.
  Proof.
    unfold spacing. destruct (Rlt_dec 450 (100 - 0)); [lra|]. replace ((100 - 0) / 10) with (IZR 10) by lra. rewrite Int_part_Zfloor. now rewrite Flocq.Core.Raux.Zfloor_IZR.
  Qed.
  Lemma many_usable j : (j < n)%nat -> usable_rows data 2 j [0%nat; 1%nat].
  Proof.
    intros Hj. split; [repeat constructor|]. intros i. split.
    - intros Hi. assert (i < 2)%nat by (destruct Hi as [<-|[<-|[]]]; lia). split; [assumption|]. split; [apply many_kept; assumption|].
      rewrite many_pres, many_tmps by exact Hj. destruct i as [|[|]]; [| |lia]; split; discriminate.
    - intros (Hi & _). destruct i as [|[|]]; [left|right; left|lia]; reflexivity.
  Qed.
  Lemma many_theta r mats : thetas_run line data 2 n (1 / 2) = Ok (r, mats) ->
    length (theta_levels r) = 10%nat /\ nth 0 (theta_levels r) NaN = NaN /\ forall k, (1 <= k < 10)%nat -> nth k (theta_levels r) NaN = Fin (INR k).
  Proof.
    intros E. destruct (thetas_levels _ _ _ _ _ _ _ E) as (lo & hi & PR & _ & TL). cbv zeta in TL. destruct TL as (_ & TL & TV & _).
    assert (lo = 0 /\ hi = 100) as (-> & ->).
    { destruct many_range as ((i0 & j0 & I0 & J0 & S0) & (i1 & j1 & I1 & J1 & S1) & A). destruct PR as ((i2 & j2 & I2 & J2 & S2) & (i3 & j3 & I3 & J3 & S3) & B).
      pose proof (A _ _ _ I2 J2 S2). pose proof (A _ _ _ I3 J3 S3). pose proof (B _ _ _ I0 J0 S0). pose proof (B _ _ _ I1 J1 S1). lra. }
    rewrite many_spacing in TL.
    assert (L : length (theta_levels r) = 10%nat).
    { destruct (TL 9%nat) as (_ & T1). destruct (TL 10%nat) as (T2 & _). cbn [INR] in T1, T2. assert (9 < length (theta_levels r))%nat by (apply T1; lra).
      destruct (Nat.lt_ge_cases 10 (length (theta_levels r))) as [Q|Q]; [apply T2 in Q; lra|lia]. }
    split; [exact L|]. split.
    { destruct (TV 0%nat) as (row & LR & RV & M & _); [lia|]. rewrite many_spacing in RV. cbn [INR] in RV.
      apply M. rewrite (rep_of row NaN NaN); [apply present_nan|]. intros j Hj. rewrite LR in Hj.
      destruct (RV j [0%nat; 1%nat] Hj (many_usable j Hj)) as (_ & R2). apply R2. intros (a & b & x & y & Ha & _ & Ea & _ & H).
      rewrite many_pres in Ea by exact Hj. destruct Ha as [<-|[<-|[]]]; injection Ea as <-; lra. }
    intros k Hk. destruct (TV k) as (row & LR & RV & _ & M); [lia|]. rewrite many_spacing in RV.
    assert (K1 : 1 <= INR k) by (change 1 with (INR 1); apply le_INR; lia). assert (K9 : INR k <= 9) by (replace 9 with (INR 9) by (cbn; lra); apply le_INR; lia).
    rewrite (M (repeat (INR k) n)).
    - f_equal. unfold mean_of. rewrite sum_rep, repeat_length. field. apply not_0_INR. lia.
    - destruct n; [lia|discriminate].
    - rewrite (rep_of row (Fin (INR k)) NaN), LR, <- map_rep; [apply present_fin|]. intros j Hj. rewrite LR in Hj.
      destruct (RV j [0%nat; 1%nat] Hj (many_usable j Hj)) as (R1 & _). cbv zeta in R1. cbn [map] in R1. rewrite !many_pres, !many_tmps in R1 by exact Hj. cbn [oX line] in R1.
      assert (Q : Ok (Fin (0 + (10 - 0) * (0 + INR k * 10 - 0) / (100 - 0))) = Ok (nth j row NaN)).
      { apply R1. exists 0%nat, 1%nat, 0, 100. split; [left; reflexivity|]. split; [right; left; reflexivity|]. split; [now rewrite many_pres|]. split; [now rewrite many_pres|]. lra. }
      injection Q as Q. rewrite <- Q. f_equal. field.
  Qed.
  Lemma many_chosen r mats : thetas_run line data 2 n (1 / 2) = Ok (r, mats) -> forall p, (p < n)%nat -> exists l, (l < 2)%nat /\ In l (levels_of r p).
  Proof.
    intros E p Hp. destruct (many_theta r mats E) as (L & T0 & TH). destruct (thetas_variance _ _ _ _ _ _ _ line_linear2 E) as (S & LS & LSj & SV & LV & VV).
    rewrite L in LS.
    assert (PS : forall k, (1 <= k < 10)%nat -> exists vs, present (nth k S []) = map Fin vs /\ length vs = n).
    { intros k Hk. pose proof (LSj k ltac:(lia)) as LK. destruct (all_fin (nth k S [])) as (vs & EV & LV').
      { intros j Hj. rewrite LK in Hj. specialize (SV k j ltac:(lia) Hj). rewrite TH in SV by exact Hk.
        assert (K1 : 1 <= INR k) by (change 1 with (INR 1); apply le_INR; lia). assert (K9 : INR k <= 9) by (replace 9 with (INR 9) by (cbn; lra); apply le_INR; lia).
        inversion SV as [N| th i x Eth St NR _ EQ | th i x i' x' s s' Eth St NR PA BW E1 E2 EQ].
        - exfalso. apply (N (INR k) eq_refl). apply many_straddles; [exact Hj|lra].
        - destruct NR as (Hi & _). destruct (many_sals i j Hi Hj) as (s & Es). exists s. transitivity (oX (d_sal data i j)); [first [reflexivity|assumption|symmetry; assumption]|rewrite Es; reflexivity].
        - eexists. reflexivity. }
      exists vs. rewrite EV. split; [apply present_fin|lia]. }
    assert (P0 : nth 0 (var_sal_theta r) NaN = NaN).
    { assert (Q : (length (present (nth 0 S [])) <= 1)%nat).
      { rewrite (rep_of (nth 0 S []) NaN NaN); [rewrite present_nan; cbn; lia|]. intros j Hj. rewrite (LSj 0%nat ltac:(lia)) in Hj. specialize (SV 0%nat j ltac:(lia) Hj). rewrite T0 in SV. inversion SV; [reflexivity|discriminate|discriminate]. }
      destruct (VV 0%nat ltac:(lia)) as (V1 & V2). cbv zeta in V1, V2.
      destruct (Classical_Prop.classic (rare S (1 / 2) 0 \/ (0%nat = 0%nat /\ exists l', rare S (1 / 2) l'))) as [R|R]; [apply V1, R|]. apply V2; [tauto|tauto|exact Q]. }
    assert (P1 : nisnan (nth 1 (var_sal_theta r) NaN) = false).
    { destruct (PS 1%nat ltac:(lia)) as (vs & EV & L2). destruct (VV 1%nat ltac:(lia)) as (_ & V2). cbv zeta in V2. destruct V2 as (_ & V2).
      - intros (_ & l' & Hl' & _ & _ & LT). rewrite EV, map_length, L2 in LT. assert (Q : (length (present (nth l' S [])) <= n)%nat).
        { rewrite <- (LSj l' Hl'). apply present_le. }
        apply le_INR in Q. pose proof (pos_INR n). assert (0 < INR n) by (apply lt_0_INR; lia). lra.
      - intros (Q & _). discriminate.
      - rewrite (V2 vs EV) by lia. reflexivity. }
    destruct (thetas_select _ _ _ _ _ _ _ E) as (idx & LI & TL & LVar & _ & IV & _). cbv zeta in *.
    assert (NE : idx <> []).
    { intros ->. cbn [length] in LI. destruct (present (var_sal_theta r)) as [|a q] eqn:EP; [|cbn [length Nat.min] in LI; discriminate].
      assert (I : In (nth 1 (var_sal_theta r) NaN) (present (var_sal_theta r))) by (apply filter_In; split; [apply nth_In; lia|rewrite P1; reflexivity]). rewrite EP in I. destruct I. }
    destruct idx as [|i0 idx]; [congruence|]. destruct (IV i0 (or_introl eq_refl)) as (B0 & N0).
    assert (K0 : (1 <= i0 < 10)%nat). { rewrite LVar, L in B0. destruct i0; [rewrite P0 in N0; discriminate|lia]. }
    destruct (thetas_index _ _ _ _ _ _ _ E) as (_ & L10 & TI). specialize (TI 0%nat p ltac:(lia) Hp). cbv zeta in TI. rewrite TL in TI. cbn [map app nth] in TI. rewrite (TH i0 K0) in TI.
    assert (K1 : 1 <= INR i0) by (change 1 with (INR 1); apply le_INR; lia). assert (K9 : INR i0 <= 9) by (replace 9 with (INR 9) by (cbn; lra); apply le_INR; lia).
    destruct (th_index r) as [|row0 rest] eqn:EI; [discriminate L10|]. cbn [nth] in TI. destruct (nth p row0 None) as [k|] eqn:EK.
    - destruct TI as (th & x & _ & _ & (Hk & _)). exists k. split; [exact Hk|]. rewrite Proofs_Drift2.levels_valid. unfold valid_levels. rewrite EI. cbn [flat_map]. rewrite EK. left. reflexivity.
    - exfalso. apply (TI (INR i0) eq_refl). apply many_straddles; [exact Hp|lra].
  Qed.

  Lemma nos_nth j : (j < n)%nat -> nth j (many_nos n) 0 = INR (S j).
  Proof. intros Hj. unfold many_nos. rewrite (nth_map _ _ _ _ 0%nat) by (rewrite seq_length; exact Hj). now rewrite seq_nth. Qed.
  Lemma nos_length : length (many_nos n) = n.
  Proof. unfold many_nos. now rewrite map_length, seq_length. Qed.
  Lemma longs_length : length (many_longs n) = n. Proof. apply repeat_length. Qed.
  Lemma lats_length : length (many_lats n) = n. Proof. unfold many_lats. now rewrite map_length, seq_length. Qed.
  Lemma lats_nth j : (j < n)%nat -> nth j (many_lats n) 0 = INR j.
  Proof. intros Hj. unfold many_lats. rewrite (nth_map _ _ _ _ 0%nat) by (rewrite seq_length; exact Hj). now rewrite seq_nth. Qed.
  Lemma longs_nth j : (j < n)%nat -> nth j (many_longs n) 0 = 10.
  Proof. intros Hj. now apply nth_rep. Qed.

  Lemma many_coords : exists l, float_coords demo_interp2d flat_sea (mkPositions [map Fin (many_longs n)] [map Fin (many_lats n)]) = Ok l /\ depths_given demo_interp2d flat_sea (many_longs n) (many_lats n).
  Proof.
    destruct (calibration_depths flat_sea demo_interp2d flat_file demo_linear (many_longs n) (many_lats n)) as (ds & LD & E & SF).
    - now rewrite longs_length, lats_length.
    - unfold many_longs. destruct n; [lia|discriminate].
    - intros i Hi. rewrite longs_length in Hi. rewrite longs_nth, lats_nth by exact Hi. pose proof (pos_INR i). assert (INR i <= INR 90) by (apply le_INR; lia). replace (INR 90) with 90 in * by (rewrite INR_IZR_INZ; reflexivity). unfold on_map. lra.
    - intros ((x & Hx & L) & _). apply repeat_spec in Hx. lra.
    - eexists. split; [exact E|]. intros l' E' j Hj. rewrite E in E'. injection E' as <-.
      exists (-257). split; [|lra]. pose proof (flat_depth _ _ _ (SF j Hj)) as D.
      rewrite (nth_map _ _ _ _ (0, 0, 0)).
      + rewrite combine_nth; [cbn [snd c_2]; now rewrite D|]. rewrite combine_length, LD, longs_length, lats_length. lia.
      + rewrite !combine_length, LD, lats_length, longs_length. rewrite longs_length in Hj. lia.
  Qed.

  Lemma mapped_entry a b j l : (j < n)%nat -> entry2 (many_mapped gap a b n) j l = if Nat.ltb j gap then NaN else nth l [Fin ((a + b * INR (S j)) * 34); Fin ((a + b * INR (S j)) * 35)] NaN.
  Proof. intros Hj. unfold entry2, many_mapped. rewrite nth_map_seq by exact Hj. destruct (Nat.ltb j gap); [|reflexivity]. destruct l as [|[|[|l]]]; reflexivity. Qed.
  Lemma sal_entry j l : (j < n)%nat -> entry2 (many_sal n) j l = nth l [Fin 34; Fin 35] NaN.
  Proof. intros Hj. unfold many_sal. rewrite rep_entry. apply Nat.ltb_lt in Hj. now rewrite Hj. Qed.
  Lemma many_ratio a b j l : (gap <= j < n)%nat -> (l < 2)%nat -> ratio (fun s _ _ => s) (many_src n) (many_map gap a b n) j l = Fin (a + b * nth j (many_nos n) 0).
  Proof.
    intros (Hk & Hj) Hl. unfold ratio. cbn [m_cols la_mapped_sal many_map src_sal many_src]. rewrite mapped_entry, sal_entry, nos_nth by exact Hj. apply Nat.ltb_ge in Hk. rewrite Hk.
    destruct l as [|[|]]; [| |lia]; cbn [nth]; rewrite ndiv_fin by lra; f_equal; field.
  Qed.
  Lemma many_outside a b j l : ~ ((gap <= j < n)%nat /\ (l < 2)%nat) -> ratio (fun s _ _ => s) (many_src n) (many_map gap a b n) j l = NaN.
  Proof.
    intros H. unfold ratio. cbn [m_cols la_mapped_sal many_map src_sal many_src]. unfold many_sal. rewrite rep_entry. destruct (Nat.ltb_spec j n).
    - rewrite mapped_entry by assumption. destruct (Nat.ltb_spec j gap); [destruct l as [|[|[|l]]]; reflexivity|]. destruct l as [|[|l]]; try lia. cbn. destruct l; reflexivity.
    - unfold entry2. rewrite (nth_overflow (many_mapped gap a b n)) by (unfold many_mapped; rewrite map_length, seq_length; lia). destruct l; reflexivity.
  Qed.
  Lemma many_error a b j l : (gap <= j < n)%nat -> (l < 2)%nat -> exists e, ratio_error (fun s _ _ => s) (many_src n) (many_map gap a b n) j l = Fin e /\ e <> 0.
  Proof.
    intros (Hk & Hj) Hl. unfold ratio_error. cbn [m_cols la_mapped_sal la_map_sal_errors many_map src_sal many_src]. rewrite mapped_entry, sal_entry by exact Hj. rewrite rep_entry. apply Nat.ltb_lt in Hj. rewrite Hj. apply Nat.ltb_ge in Hk. rewrite Hk.
    destruct l as [|[|]]; [| |lia]; cbn [nth]; rewrite (ndiv_fin 1 100) by lra; cbn [nadd nsub nabs nmul XR_Num xadd xsub xopp xabs xmul xlift]; rewrite ndiv_fin by lra; eexists; (split; [reflexivity|]).
    all: match goal with |- 100 * Rabs ?x / ?y <> 0 => replace x with (- (1 / 100)) by lra end; rewrite Rabs_Ropp, Rabs_right by lra; lra.
  Qed.
  Lemma many_follows a b : follows (fun s _ _ => s) (many_src n) (many_map gap a b n) (many_nos n) (seq 0 n) (fun x => a + b * x).
  Proof.
    intros j l y Hj E. apply in_seq in Hj.
    destruct (Classical_Prop.classic ((gap <= j < n)%nat /\ (l < 2)%nat)) as [(Hk & Hl)|N]; [|rewrite many_outside in E by exact N; discriminate].
    rewrite many_ratio in E by assumption. injection E as <-. split; [reflexivity|]. apply many_error; assumption.
  Qed.
  Lemma many_series : lists_series (repeat 1 n) 1 (seq 0 n).
  Proof.
    split.
    - generalize 0%nat, n. intros s m. revert s. induction m as [|m IH]; intros s; cbn [seq]; constructor; [apply IH|]. apply Forall_forall. intros x Hx. apply in_seq in Hx. lia.
    - intros j. rewrite in_seq. split.
      + intros Hj. rewrite (nth_error_nth' _ 0) by (rewrite repeat_length; lia). now rewrite nth_rep by lia.
      + intros E. assert (nth_error (repeat 1 n) j <> None) as Q by congruence. apply nth_error_Some in Q. rewrite repeat_length in Q. lia.
  Qed.
  Lemma many_series_only v idx : lists_series (repeat 1 n) v idx -> idx <> [] -> v = 1 /\ idx = seq 0 n.
  Proof.
    intros LS NI. assert (v = 1) as ->.
    { destruct idx as [|j idx]; [congruence|]. assert (H : nth_error (repeat 1 n) j = Some v) by (apply (proj2 LS); left; reflexivity). apply nth_error_In, repeat_spec in H. exact H. }
    split; [reflexivity|]. rewrite <- (calindex_fin _ _ _ LS). apply calindex_fin, many_series.
  Qed.
  Lemma many_rows mx : right_rows (repeat 1 n) (cf_max_breaks (many_set n mx)).
  Proof.
    exists [1]. split; [repeat constructor|]. split; [|left; cbn; lia]. intros v. cbn [In]. split.
    - intros [<-|[]]. split; [destruct n; [lia|left; reflexivity]|lra].
    - intros (H & _). apply repeat_spec in H. left. now symmetry.
  Qed.
  Lemma many_rectangular : rectangular (many_src n).
  Proof.
    intros cols Hc. assert (R : exists c, length c = 2%nat /\ cols = repeat c n) by (destruct Hc as [<-|[<-|[<-|[]]]]; eexists; (split; [|reflexivity]); reflexivity).
    destruct R as (c & Lc & ->). split; [cbn [src_no many_src]; now rewrite repeat_length, map_length, nos_length|]. intros q Hq. apply repeat_spec in Hq. subst q. exact Lc.
  Qed.
  Lemma rep_value x y : forall j l, entry2 (repeat [Fin x; Fin y] n) j l = oX (rd (repeat [Fin x; Fin y] n) l j).
  Proof. apply rd_value. intros c z Hc Hz. apply repeat_spec in Hc. subst c. destruct Hz as [<-|[<-|[]]]; eexists; reflexivity. Qed.
  Lemma many_temperatures : temperatures (many_src n).
  Proof. intros j l. eexists. apply (rep_value 0 10). Qed.
  Lemma many_ascending : StronglySorted Rlt (numbers_of (many_nos n) (seq 0 n)).
  Proof.
    assert (E : numbers_of (many_nos n) (seq 0 n) = map (fun j => INR (S j)) (seq 0 n)) by (apply map_ext_in; intros j Hj; apply in_seq in Hj; apply nos_nth; lia).
    rewrite E. clear. generalize 0%nat. induction n as [|m IH]; intros s; cbn [seq map]; constructor; [apply IH|]. apply Forall_forall. intros x Hx. apply in_map_iff in Hx as (j & <- & Hj). apply in_seq in Hj. apply lt_INR. lia.
  Qed.
  Lemma sorted_distinct l : StronglySorted Rlt l -> NoDup l.
  Proof. induction 1 as [|x l S IH F]; constructor; [|exact IH]. intros I. rewrite Forall_forall in F. specialize (F x I). lra. Qed.
  Lemma many_depths : depths_given demo_interp2d flat_sea (many_longs n) (many_lats n).
  Proof. destruct many_coords as (l & _ & D). exact D. Qed.

  Lemma many_completes a b mx : mx = (-1)%Z \/ mx = 0%Z -> exists r, many_run n gap a b mx = (Ok r, tt).
  Proof.
    intros Hm. destruct many_coords as (l & EL & DG).
    assert (W : exists r g', many_run n gap a b mx = (Ok r, g')); [|destruct W as (r & [] & E); exists r; exact E].
    unfold many_run. apply (whole_total exact_det exact_solve exact_inv no_optimum unit no_noise line demo_interp2d flat_sea (fun s _ _ => s) (fun c _ _ => c)
      exact_det_ok exact_solve_ok exact_inv_ok no_noise_ok eq_refl line_total (many_longs n) (many_lats n) (1 / 20) (1 / 20) 1 true l ltac:(lra) ltac:(lra) ltac:(intros; lra) DG EL
      (many_src n) (many_map gap a b n) (many_set n mx) (many_nos n) (repeat 1 n) (rd (many_sal n)) (rd (many_tmp n)) (rd (many_pre n)) (rd (many_tmp n)) None None None None (1 / 2) mx).
    - exact many_rectangular.
    - reflexivity.
    - exact (rep_value 34 35).
    - exact (rep_value 0 10).
    - exact (rep_value 0 100).
    - exact (rep_value 0 10).
    - intros m [<-|[<-|[<-|[]]]]; rewrite nos_length; cbn [m_cols la_ptmp la_mapped_sal la_map_sal_errors many_map]; unfold many_tmp, many_mapped; rewrite ?repeat_length, ?map_length, ?seq_length; reflexivity.
    - now rewrite longs_length, nos_length.
    - reflexivity.
    - reflexivity.
    - reflexivity.
    - reflexivity.
    - exact Hm.
    - reflexivity.
    - reflexivity.
    - rewrite repeat_length, nos_length. lia.
    - intros v NZ _ idx LS NI. destruct (many_series_only v idx LS NI) as (-> & ->). cbv zeta. rewrite seq_length. cbn [src_levels many_src].
      split; [apply sorted_distinct, many_ascending|].
      split; [exact (follows_errors _ _ _ _ _ _ (many_follows a b))|]. split; [exact many_wide|]. split; [exists 0, 100; split; [exact many_range|lra]|]. split; [exact many_ties|].
      split; [intros j i x Hj; unfold rd, many_tmp; rewrite rep_entry; apply in_seq in Hj; destruct (Nat.ltb_spec j n); [|discriminate]; destruct i as [|[|[|i]]]; cbn; try discriminate; intros Q; injection Q as <-; lra|].
      intros th mats ET. assert (SP : forall p, (gap <= p < n)%nat -> sampled (fun s _ _ => s) (many_src n) (many_map gap a b n) (seq 0 n) th p).
      { intros p Hp. destruct (many_chosen th mats ET p (proj2 Hp)) as (i & Hi & I). split; [rewrite seq_length; apply Hp|]. exists i. eexists. split; [exact I|]. rewrite seq_nth by apply Hp. apply many_ratio; [exact Hp|exact Hi]. }
      split; [exists gap; apply SP; lia|]. intros _. exists gap, (S gap). split; [lia|]. split; apply SP; lia.
    - discriminate.
    - reflexivity.
    - exact (many_rows mx).
    - intros row [<-|[]]. reflexivity.
    - discriminate.
  Qed.

  Lemma many_offset a mx r : many_run n gap a 0 mx = (Ok r, tt) -> forall j, (j < n)%nat -> entry1 (k_factor r) j = Fin a /\ entry1 (k_deriv r) j = Fin 0.
  Proof.
    intros E j Hj. unfold many_run in E.
    apply (offset_recovered exact_det exact_solve exact_inv no_optimum unit no_noise line demo_interp2d flat_sea (fun s _ _ => s) (fun c _ _ => c)
      exact_det_ok exact_solve_ok exact_inv_ok no_noise_ok eq_refl (many_longs n) (many_lats n) (1 / 20) (1 / 20) 1 true ltac:(lra) ltac:(lra) ltac:(intros; lra) many_depths
      (many_src n) (many_map gap a 0 n) (many_set n mx) (repeat 1 n) (many_nos n) 1 (seq 0 n) many_temperatures eq_refl eq_refl (many_rows mx) eq_refl ltac:(lra) many_series a) with (g := tt) (g' := tt).
    - intros j' l y Hj' Er. destruct (many_follows a 0 j' l y Hj' Er) as (-> & W). split; [ring|exact W].
    - exact E.
    - apply in_seq. lia.
  Qed.
  Lemma many_salinity a mx r : many_run n gap a 0 mx = (Ok r, tt) ->
    forall j l, (gap <= j < n)%nat -> (l < 2)%nat -> exists s, entry2 (src_sal (many_src n)) j l = Fin s /\ entry2 (k_sal r) j l = Fin (a * s).
  Proof.
    intros E j l (Hk & Hj) Hl.
    assert (W : exists s, entry2 (src_sal (many_src n)) j l = Fin s /\ entry2 (m_cols (la_mapped_sal (many_map gap a 0 n))) j l = Fin (a * s) /\ s <> 0).
    { cbn [m_cols la_mapped_sal many_map src_sal many_src]. rewrite sal_entry, mapped_entry by exact Hj. apply Nat.ltb_ge in Hk. rewrite Hk. destruct l as [|[|]]; [| |lia]; cbn [nth]; eexists; (split; [reflexivity|]); (split; [f_equal; ring|lra]). }
    destruct W as (s & Es & Em & NZ). exists s. split; [exact Es|]. rewrite <- Em.
    apply (salinity_recovered exact_det exact_solve exact_inv no_optimum unit no_noise line demo_interp2d flat_sea (fun s _ _ => s) (fun c _ _ => c)
      (mkCovConfig (Fin (1 / 20)) (Fin (1 / 20)) (Fin 1) true) (many_src n) (mkPositions [map Fin (many_longs n)] [map Fin (many_lats n)]) (many_map gap a 0 n) (many_set n mx) (repeat 1 n) (many_nos n) 1 (seq 0 n)
      many_rectangular eq_refl eq_refl (many_rows mx) eq_refl ltac:(lra) many_series tt r tt E j l a s).
    - apply in_seq. lia.
    - rewrite nos_length. exact Hj.
    - exact Hl.
    - rewrite many_ratio by (try split; assumption). f_equal. ring.
    - apply (many_offset a mx r E), Hj.
    - exact Es.
    - exact NZ.
    - reflexivity.
  Qed.
End Many.
