(* Proofs for find_10thetas: the candidate pressure and temperature levels *)
From Coq Require Import ZArith List Bool Reals Lra Lia Permutation Sorted FunctionalExtensionality.
From Flocq Require Import Core.Raux.
From Verif Require Import Num Np NumFacts NpFacts Finders Spec_Utilities Spec_Finders Proofs_Besthist Proofs_Thetas Proofs_Thetas2.
Import ListNotations.
Local Open Scope R_scope.

Lemma Int_part_Zfloor x : Int_part x = Zfloor x.
Proof.
  symmetry. apply Zfloor_imp. destruct (base_Int_part x). rewrite plus_IZR. lra.
Qed.

Lemma arange_fin a b s : s <> 0 ->
  np_arange (Fin a) (Fin b) (Fin s) = Ok (map (fun k => Fin (a + INR k * s)) (seq 0 (Z.to_nat (Zceil ((b - a) / s))))).
Proof.
  intros Hs. unfold np_arange. change (nsub (Fin b) (Fin a)) with (Fin (b - a)). rewrite ndiv_fin by auto.
  cbn [nceil XR_Num xlift nisfin ntoZ xtoZ]. f_equal.
  rewrite Ztrunc_IZR. apply map_ext. intros k. cbn. now rewrite INR_IZR_INZ.
Qed.

Lemma ceil_count x k : 0 <= x -> ((k < Z.to_nat (Zceil x))%nat <-> INR k < x).
Proof.
  intros Hx. rewrite INR_IZR_INZ. split; intros H.
  - destruct (Rlt_dec (IZR (Z.of_nat k)) x) as [|N]; auto. apply Rnot_lt_le in N.
    apply Zceil_glb in N. lia.
  - assert (Z.of_nat k < Zceil x)%Z; [|lia]. apply lt_IZR. pose proof (Zceil_ub x). lra.
Qed.

Lemma spacing_pos r : 10 <= r -> 1 <= spacing r /\ 10 * spacing r <= r + 50.
Proof.
  intros Hr. unfold spacing. destruct (Rlt_dec 450 r); [lra|]. rewrite Int_part_Zfloor. pose proof (Zfloor_lb (r / 10)).
  assert (1 <= Zfloor (r / 10))%Z by (apply Zfloor_lub; lra). apply IZR_le in H0. lra.
Qed.

Lemma levels_eval (P M : nat -> nat -> option R) nr nc lo hi :
  (0 < nr)%nat -> (0 < nc)%nat ->
  nanmin (mflat nr nc (oM P)) = Fin lo -> nanmax (mflat nr nc (oM P)) = Fin hi -> lo <= hi ->
  (exists i j i' j' x y (a b : Z), (i < nr)%nat /\ (j < nc)%nat /\ (i' < nr)%nat /\ (j' < nc)%nat
    /\ M i j = Some x /\ M i' j' = Some y /\ (a < b)%Z /\ x <= IZR a / 10 /\ IZR b / 10 <= y) ->
  (10 <= hi - lo -> exists L,
     pres_levels nr nc (oM P) (oM M) = Ok (map (fun k => Fin (lo + INR k * spacing (hi - lo))) (seq 0 L))
     /\ (10 <= L)%nat /\ forall k, (k < L)%nat <-> lo + INR k * spacing (hi - lo) < hi)
  /\ (hi - lo < 10 -> pres_levels nr nc (oM P) (oM M) = Raise ValueError).
Proof.
  intros Hr Hc El Eh Hlh Hw. unfold pres_levels.
  destruct (Nat.eqb_spec nr 0); [lia|]. destruct (Nat.eqb_spec nc 0); [lia|]. cbn [orb].
  apply (range_check nr nc M) in Hw. rewrite Hw, El, Eh.
  change (@nofZ XR _ 50) with (Fin 50). rewrite arange_fin by lra. cbn [bind]. rewrite map_length, seq_length.
  assert (C : forall s, 0 < s -> forall k, (k < Z.to_nat (Zceil ((hi - lo) / s)))%nat <-> lo + INR k * s < hi).
  { intros s Hs k. rewrite ceil_count.
    - split; intros H.
      + apply (Rmult_lt_compat_r s) in H; auto. unfold Rdiv in H. rewrite Rmult_assoc, Rinv_l in H by lra. lra.
      + apply (Rmult_lt_reg_r s); auto. unfold Rdiv. rewrite Rmult_assoc, Rinv_l by lra. lra.
    - apply Rmult_le_pos; [lra|]. left. now apply Rinv_0_lt_compat. }
  set (L := Z.to_nat (Zceil ((hi - lo) / 50))).
  assert (Hsp : (L < 10)%nat <-> ~ 450 < hi - lo).
  { pose proof (C 50 ltac:(lra) 9%nat) as C9. fold L in C9. replace (INR 9) with 9 in C9 by (simpl; lra).
    split; intros H.
    - intros G. assert (9 < L)%nat; [|lia]. apply C9. lra.
    - destruct (lt_dec L 10); auto. exfalso. apply H. assert (9 < L)%nat by lia. apply C9 in H0. lra. }
  unfold spacing. destruct (Nat.ltb_spec L 10) as [Hl|Hl].
  - destruct (Rlt_dec 450 (hi - lo)) as [|_]; [tauto|].
    change (nsub (Fin hi) (Fin lo)) with (Fin (hi - lo)). change (@nofZ XR _ 10) with (Fin 10). rewrite ndiv_fin by lra.
    cbn [nfloor XR_Num xlift]. change (Int_part ((hi - lo) / 10)) with (Zfloor ((hi - lo) / 10)). split.
    + intros H10. assert (H1 : (1 <= Zfloor ((hi - lo) / 10))%Z) by (apply Zfloor_lub; lra). apply IZR_le in H1.
      set (s := IZR (Zfloor ((hi - lo) / 10))) in *. exists (Z.to_nat (Zceil ((hi - lo) / s))).
      rewrite arange_fin by lra. split; [reflexivity|]. split; [|apply C; lra].
      assert (9 < Z.to_nat (Zceil ((hi - lo) / s)))%nat; [|lia]. apply C; [lra|].
      pose proof (Zfloor_lb ((hi - lo) / 10)). replace (INR 9) with 9 by (simpl; lra). fold s in H. lra.
    + intros Hlt. assert (E0 : Zfloor ((hi - lo) / 10) = 0%Z) by (apply Zfloor_imp; simpl; lra). rewrite E0.
      unfold np_arange. cbn [nsub XR_Num xsub]. 
      destruct (Req_dec (hi - lo) 0) as [Z0|Z0].
      * rewrite Z0. cbn. destruct (Req_EM_T 0 0); [|lra]. destruct (Rlt_dec 0 0); [lra|]. destruct (Rlt_dec 0 0); [lra|]. reflexivity.
      * cbn. destruct (Req_EM_T 0 0); [|lra]. destruct (Rlt_dec 0 (hi - lo)); [|lra]. reflexivity.
  - destruct (Rlt_dec 450 (hi - lo)) as [|N]; [|apply Hsp in N; lia]. split; [|lra].
    intros _. exists L. split; [reflexivity|]. split; [lia|]. intros k. unfold L. apply C. lra.
Qed.

Lemma sorted_unique rows rows' : StronglySorted lt rows -> StronglySorted lt rows' ->
  (forall i, In i rows <-> In i rows') -> rows = rows'.
Proof. intros. now apply sorted_lt_unique. Qed.

Lemma filter_seq_sorted p n m : StronglySorted lt (filter p (seq n m)).
Proof.
  revert n. induction m as [|m IH]; intros n; cbn [seq filter]; [constructor|].
  destruct (p n); auto. constructor; auto. apply Forall_forall. intros x Hx. apply filter_In in Hx as [Hx _].
  apply in_seq in Hx. lia.
Qed.

Section Levels.
  Variable interp1d : list XR -> list XR -> XR -> res XR.
  Variables (d : series) (nr nc : nat) (pct : R).
  Let P := mask d (d_pres d).
  Let M := mask d (d_ptmp d).

  Lemma psample_mask i j x : P i j = Some x <-> psample d i j x.
  Proof. unfold P, psample. rewrite mask_some. tauto. Qed.

  Lemma range_ends lo hi : pressure_range d nr nc lo hi ->
    nanmin (mflat nr nc (oM P)) = Fin lo /\ nanmax (mflat nr nc (oM P)) = Fin hi /\ lo <= hi.
  Proof.
    intros ((i & j & Hi & Hj & Hlo) & (i' & j' & Hi' & Hj' & Hhi) & Hb).
    rewrite mflat_oM. set (l := flat_map _ _).
    assert (A : In (Some lo) l) by (apply in_flat; exists i, j; repeat (split; auto); now apply psample_mask).
    assert (B : In (Some hi) l) by (apply in_flat; exists i', j'; repeat (split; auto); now apply psample_mask).
    split; [|split; [|now apply (Hb i j lo)]].
    - destruct (nanmin_oX l) as [[E _]|(m & -> & I & H)]; [exfalso; apply in_somes in A; rewrite E in A; destruct A|].
      f_equal. apply Rle_antisym; auto. apply in_flat in I as (a & b & Ha & Hbb & Em). apply psample_mask in Em.
      now apply (Hb a b m).
    - destruct (nanmax_oX l) as [[E _]|(m & -> & I & H)]; [exfalso; apply in_somes in A; rewrite E in A; destruct A|].
      f_equal. apply Rle_antisym; auto. apply in_flat in I as (a & b & Ha & Hbb & Em). apply psample_mask in Em.
      now apply (Hb a b m).
  Qed.

  Lemma range_exists : (exists i j x, (i < nr)%nat /\ (j < nc)%nat /\ psample d i j x) ->
    exists lo hi, pressure_range d nr nc lo hi.
  Proof.
    intros (i & j & x & Hi & Hj & Hx). set (l := flat_map (fun i => map (fun j => P i j) (seq 0 nc)) (seq 0 nr)).
    assert (A : In (Some x) l) by (apply in_flat; exists i, j; repeat (split; auto); now apply psample_mask).
    destruct (nanmin_oX l) as [[E _]|(lo & _ & Il & Hl)]; [exfalso; apply in_somes in A; rewrite E in A; destruct A|].
    destruct (nanmax_oX l) as [[E _]|(hi & _ & Ih & Hh)]; [exfalso; apply in_somes in A; rewrite E in A; destruct A|].
    exists lo, hi. apply in_flat in Il as (a & b & Ha & Hb & El). apply in_flat in Ih as (a' & b' & Ha' & Hb' & Eh).
    apply psample_mask in El, Eh. split; [eauto|]. split; [eauto|].
    intros u v y Hu Hv Hy. apply psample_mask in Hy. split; [apply Hl|apply Hh]; apply in_flat; eauto.
  Qed.

  Lemma no_pressure : (forall i j x, (i < nr)%nat -> (j < nc)%nat -> ~ psample d i j x) ->
    nanmin (mflat nr nc (oM P)) = NaN.
  Proof.
    intros Hno. rewrite mflat_oM. set (l := flat_map _ _). destruct (nanmin_oX l) as [[_ ->]|(m & _ & I & _)]; auto.
    apply in_flat in I as (i & j & Hi & Hj & E). apply psample_mask in E. exfalso. eapply Hno; eauto.
  Qed.

  Lemma range_dec : (exists lo hi, pressure_range d nr nc lo hi) \/ (forall i j x, (i < nr)%nat -> (j < nc)%nat -> ~ psample d i j x).
  Proof.
    set (l := flat_map (fun i => map (fun j => P i j) (seq 0 nc)) (seq 0 nr)).
    destruct (nanmin_oX l) as [[E _]|(lo & _ & Il & Hl)].
    - right. intros i j x Hi Hj Hx. assert (A : In (Some x) l) by (apply in_flat; exists i, j; repeat (split; auto); now apply psample_mask).
      apply in_somes in A. rewrite E in A. destruct A.
    - left. apply range_exists. apply in_flat in Il as (a & b & Ha & Hb & El). apply psample_mask in El. exists a, b, lo. auto.
  Qed.

  (* C74: too small a pressure range, or none *)
  Lemma thetas_shallow : wide_range d nr nc ->
    (forall lo hi, pressure_range d nr nc lo hi -> hi - lo < 10) ->
    thetas_run interp1d d nr nc pct = Raise ValueError.
  Proof.
    intros Hw Hs. rewrite run_unfold.
    assert (Hw' := Hw). destruct Hw' as (i & j & i' & j' & x & y & a & b & A1 & A2 & A3 & A4 & Ex & Ey & Hab & Hx & Hy).
    assert (HM : exists i j i' j' x y (a b : Z), (i < nr)%nat /\ (j < nc)%nat /\ (i' < nr)%nat /\ (j' < nc)%nat
      /\ M i j = Some x /\ M i' j' = Some y /\ (a < b)%Z /\ x <= IZR a / 10 /\ IZR b / 10 <= y).
    { exists i, j, i', j', x, y, a, b. unfold M. apply sample_mask in Ex, Ey. repeat (split; [assumption|]). auto. }
    assert (Hr : (0 < nr)%nat) by lia. assert (Hc : (0 < nc)%nat) by lia.
    fold P. fold M.
    destruct range_dec as [(lo & hi & Hpr)|Hn].
    - destruct (range_ends lo hi Hpr) as (El & Eh & Hle).
      rewrite (proj2 (levels_eval P M nr nc lo hi Hr Hc El Eh Hle HM) (Hs lo hi Hpr)). reflexivity.
    - assert (En : pres_levels nr nc (oM P) (oM M) = Raise ValueError); [|now rewrite En].
      unfold pres_levels. destruct (Nat.eqb_spec nr 0); [lia|]. destruct (Nat.eqb_spec nc 0); [lia|]. cbn [orb].
      apply (range_check nr nc M) in HM. rewrite HM. rewrite no_pressure.
      + unfold np_arange. destruct (nanmax (mflat nr nc (oM P))); reflexivity.
      + exact Hn.
  Qed.

  Lemma run_levels r mats : thetas_run interp1d d nr nc pct = Ok (r, mats) ->
    exists levels it, pres_levels nr nc (oM P) (oM M) = Ok levels
      /\ mapM (fun pl => mapM (interp_entry interp1d nr (oM P) (oM M) pl) (seq 0 nc)) levels = Ok it
      /\ theta_levels r = map theta_level it
      /\ p_levels r = map (fun o => match o with Some i => nth i levels NaN | None => NaN end) (select_min 10 (var_sal_theta r)).
  Proof.
    rewrite run_unfold. intros E. apply bind_ok in E as (levels & El & E). apply bind_ok in E as (it & Ei & E).
    apply bind_ok in E as (S & Es & E). cbv zeta in E. apply ok_pair in E as [Er Em]. subst r.
    exists levels, it. repeat (split; [assumption|]). split; reflexivity.
  Qed.

  Lemma entry_levels pl j v rows : usable_rows d nr j rows ->
    interp_entry interp1d nr (oM P) (oM M) (Fin pl) j = Ok v ->
    (brackets d j rows pl ->
       interp1d (map (fun i => oX (d_pres d i j)) rows) (map (fun i => oX (d_ptmp d i j)) rows) (Fin pl) = Ok v)
    /\ (~ brackets d j rows pl -> v = NaN).
  Proof.
    intros [Hs Hin]. unfold interp_entry. set (good := filter _ _).
    assert (Eg : good = rows).
    { apply sorted_unique; [apply filter_seq_sorted|exact Hs|]. intros i. rewrite Hin. unfold good. rewrite filter_In, in_seq.
      unfold oM, P, M, mask. rewrite <- keptb_spec. destruct (keptb d i j); cbn.
      - destruct (d_pres d i j), (d_ptmp d i j); cbn; split; intros; repeat split; try lia; try congruence; try tauto;
          destruct H as (_ & _ & A & B); congruence.
      - split; [intros [_ C]; discriminate|intros (_ & C & _); discriminate]. }
    rewrite Eg. clear Eg good.
    assert (Hk : forall i, In i rows -> oM P i j = oX (d_pres d i j) /\ oM M i j = oX (d_ptmp d i j)).
    { intros i Hi. apply Hin in Hi as (_ & Hk & _). apply keptb_spec in Hk. unfold oM, P, M, mask. now rewrite Hk. }
    assert (E1 : map (fun i => oM P i j) rows = map oX (map (fun i => d_pres d i j) rows)).
    { rewrite map_map. apply map_ext_in. intros i Hi. now apply Hk. }
    assert (E2 : map (fun i => oM M i j) rows = map (fun i => oX (d_ptmp d i j)) rows).
    { apply map_ext_in. intros i Hi. now apply Hk. }
    rewrite E1, E2.
    assert (B : nltb (Fin pl) (nanmax (map oX (map (fun i => d_pres d i j) rows))) && nltb (nanmin (map oX (map (fun i => d_pres d i j) rows))) (Fin pl) = true
       <-> brackets d j rows pl).
    { destruct (nanmin_oX (map (fun i => d_pres d i j) rows)) as [[E ->]|(lo & -> & Il & Hl)].
      - rewrite andb_comm. cbn. split; [discriminate|]. intros (a & b & x & y & Ha & Hb & Ex & _).
        assert (A : In x (somes (map (fun i => d_pres d i j) rows))).
        { apply in_somes, in_map_iff. eauto. } rewrite E in A. destruct A.
      - destruct (nanmax_oX (map (fun i => d_pres d i j) rows)) as [[E _]|(hi & -> & Ih & Hh)].
        { exfalso. apply in_somes in Il. rewrite E in Il. destruct Il. }
        cbn [nltb XR_Num xltb]. rewrite andb_true_iff, !Rltb_true.
        apply in_map_iff in Il as (a & Ea & Ha). apply in_map_iff in Ih as (b & Eb & Hb). split.
        + intros [A1 A2]. exists a, b, lo, hi. auto 10.
        + intros (a' & b' & x & y & Ha' & Hb' & Ex & Ey & Hxy).
          assert (lo <= x) by (apply Hl, in_map_iff; eauto). assert (y <= hi) by (apply Hh, in_map_iff; eauto). lra. }
    rewrite map_map in B. rewrite map_map.
    destruct rows as [|r0 rows'].
    { intros E. injection E as <-. split; auto. intros (a & _ & _ & _ & [] & _). }
    match goal with |- (if ?c then _ else _) = _ -> _ => destruct c end.
    - intros E. split; auto. intros N. exfalso. apply N, B. reflexivity.
    - intros E. injection E as <-. split; auto. intros Hb. apply (proj2 B) in Hb. discriminate.
  Qed.

  (* C74 *)
  Lemma thetas_levels r mats : thetas_run interp1d d nr nc pct = Ok (r, mats) ->
    exists lo hi, pressure_range d nr nc lo hi /\ 10 <= hi - lo /\
      let L := length (theta_levels r) in
      (10 <= L)%nat
      /\ (forall k, (k < L)%nat <-> lo + INR k * spacing (hi - lo) < hi)
      /\ (forall k, (k < L)%nat -> exists row, length row = nc
            /\ (forall j rows, (j < nc)%nat -> usable_rows d nr j rows ->
                 let pl := lo + INR k * spacing (hi - lo) in
                 (brackets d j rows pl ->
                    interp1d (map (fun i => oX (d_pres d i j)) rows) (map (fun i => oX (d_ptmp d i j)) rows) (Fin pl)
                    = Ok (nth j row NaN))
                 /\ (~ brackets d j rows pl -> nth j row NaN = NaN))
            /\ (present row = [] -> nth k (theta_levels r) NaN = NaN)
            /\ (forall vs, vs <> [] -> present row = map Fin vs -> nth k (theta_levels r) NaN = Fin (mean_of vs)))
      /\ (forall i, (i < 10)%nat -> exists o, nth i (p_levels r) NaN = (match o with Some k => Fin (lo + INR k * spacing (hi - lo)) | None => NaN end)
            /\ nth i (t_levels r) NaN = (match o with Some k => nth k (theta_levels r) NaN | None => NaN end)
            /\ forall k, o = Some k -> (k < L)%nat).
  Proof.
    intros E. pose proof (wide_of_ok _ _ _ _ _ _ _ E) as Hw.
    destruct range_dec as [(lo & hi & Hpr)|Hno].
    2:{ rewrite thetas_shallow in E; auto; [discriminate|]. intros lo hi ((i & j & Hi & Hj & Hp) & _). exfalso. eapply Hno; eauto. }
    assert (H10 : 10 <= hi - lo).
    { apply Rnot_lt_le. intros Hlt. rewrite thetas_shallow in E; auto; [discriminate|]. intros lo' hi' Hpr'.
      destruct (range_ends _ _ Hpr) as (E1 & E2 & _). destruct (range_ends _ _ Hpr') as (E1' & E2' & _).
      rewrite E1 in E1'. rewrite E2 in E2'. injection E1' as <-. injection E2' as <-. exact Hlt. }
    exists lo, hi. split; auto. split; auto.
    destruct (run_levels _ _ E) as (levels & it & El & Ei & Et & Ep).
    assert (Hr : (0 < nr)%nat) by (destruct Hpr as ((i & j & Hi & _) & _); lia).
    assert (Hc : (0 < nc)%nat) by (destruct Hpr as ((i & j & _ & Hj & _) & _); lia).
    destruct (range_ends lo hi Hpr) as (Elo & Ehi & Hle).
    destruct Hw as (i & j & i' & j' & x & y & a & b & A1 & A2 & A3 & A4 & Ex & Ey & Hab & Hx & Hy).
    assert (HM : exists i j i' j' x y (a b : Z), (i < nr)%nat /\ (j < nc)%nat /\ (i' < nr)%nat /\ (j' < nc)%nat
      /\ M i j = Some x /\ M i' j' = Some y /\ (a < b)%Z /\ x <= IZR a / 10 /\ IZR b / 10 <= y).
    { exists i, j, i', j', x, y, a, b. unfold M. apply sample_mask in Ex, Ey. repeat (split; [assumption|]). auto. }
    clear i j i' j' x y a b A1 A2 A3 A4 Ex Ey Hab Hx Hy.
    destruct (proj1 (levels_eval P M nr nc lo hi Hr Hc Elo Ehi Hle HM) H10) as (L & EL & L10 & HL).
    rewrite EL in El. injection El as <-.
    assert (Lit : length it = L) by (apply mapM_length in Ei; now rewrite map_length, seq_length in Ei).
    assert (LT : length (theta_levels r) = L) by (now rewrite Et, map_length).
    cbv zeta. rewrite LT. split; auto. split; auto. split.
    - intros k Hk. exists (nth k it []).
      pose proof (mapM_ok_Forall2 _ _ _ Ei) as F.
      apply (Forall2_nth _ _ _ NaN [] k) in F; [|now rewrite map_length, seq_length].
      rewrite (nth_map _ _ _ _ 0%nat), seq_nth in F by (rewrite ?seq_length; auto). cbn [Nat.add] in F.
      split; [apply mapM_length in F; now rewrite seq_length in F|]. split.
      + intros j rows Hj Hu. pose proof (mapM_ok_Forall2 _ _ _ F) as F2.
        apply (Forall2_nth _ _ _ 0%nat NaN j) in F2; [|now rewrite seq_length].
        rewrite seq_nth in F2 by auto. cbn [Nat.add] in F2. now apply entry_levels.
      + rewrite Et. rewrite (nth_map _ _ _ _ []) by lia. unfold theta_level.
        change (drop_nan (nth k it [])) with (present (nth k it [])). split.
        * intros ->. reflexivity.
        * intros vs Hv ->. destruct vs as [|v0 vs']; [congruence|]. apply (mean_fin (v0 :: vs')). discriminate.
    - intros i Hi. destruct (run_ok _ _ _ _ _ _ _ E) as (levels' & S & _ & LS & _ & _ & Ev & (Etl & _) & _).
      rewrite Ep, Etl.
      destruct (select_min_spec 10 (var_sal_theta r)) as (idx & Es & Ll & _ & Hv & _).
      assert (Ls : length (select_min 10 (var_sal_theta r)) = 10%nat).
      { rewrite Es, app_length, map_length, repeat_length. lia. }
      exists (nth i (select_min 10 (var_sal_theta r)) None).
      rewrite !(nth_map _ _ _ NaN None) by lia.
      assert (Hlt : forall k, nth i (select_min 10 (var_sal_theta r)) None = Some k -> (k < L)%nat).
      { intros k Ek. assert (Hin : In (Some k) (select_min 10 (var_sal_theta r))) by (rewrite <- Ek; apply nth_In; lia).
        rewrite Es in Hin. apply in_app_or in Hin as [Hin|Hin]; [|apply repeat_spec in Hin; discriminate].
        apply in_map_iff in Hin as (k' & Ek' & Hk'). injection Ek' as ->. apply Hv in Hk' as [Hk' _].
        rewrite Ev, (proj1 (blank_rare_spec S pct)) in Hk'. lia. }
      split; [|split; auto].
      destruct (nth i (select_min 10 (var_sal_theta r)) None) as [k|]; auto.
      rewrite (nth_map _ _ _ _ 0%nat), seq_nth by (rewrite ?seq_length; auto). reflexivity.
  Qed.
End Levels.

Lemma mapM_total {A B} (f : A -> res B) l : (forall a, In a l -> exists b, f a = Ok b) -> exists bs, mapM f l = Ok bs.
Proof.
  induction l as [|a l IH]; intros H; cbn [mapM]; [eauto|].
  destruct (H a (or_introl eq_refl)) as (b & ->). destruct IH as (bs & ->); [intros; apply H; now right|]. cbn. eauto.
Qed.

(* success: nothing but the three failures above can happen *)
Lemma thetas_succeed interp1d d nr nc pct lo hi :
  (forall xs ys x, exists v, interp1d xs ys x = Ok v) ->
  wide_range d nr nc -> pressure_range d nr nc lo hi -> 10 <= hi - lo -> no_ties d nr nc ->
  exists r mats, thetas_run interp1d d nr nc pct = Ok (r, mats).
Proof.
  intros Hi Hw Hpr H10 Hnt. rewrite run_unfold.
  set (P := mask d (d_pres d)). set (M := mask d (d_ptmp d)).
  destruct Hw as (i & j & i' & j' & x & y & a & b & A1 & A2 & A3 & A4 & Ex & Ey & Hab & Hx & Hy).
  assert (HM : exists i j i' j' x y (a b : Z), (i < nr)%nat /\ (j < nc)%nat /\ (i' < nr)%nat /\ (j' < nc)%nat
      /\ M i j = Some x /\ M i' j' = Some y /\ (a < b)%Z /\ x <= IZR a / 10 /\ IZR b / 10 <= y).
  { exists i, j, i', j', x, y, a, b. unfold M. apply sample_mask in Ex, Ey. repeat (split; [assumption|]). auto. }
  assert (Hr : (0 < nr)%nat) by lia. assert (Hc : (0 < nc)%nat) by lia.
  clear i j i' j' x y a b A1 A2 A3 A4 Ex Ey Hab Hx Hy.
  destruct (range_ends d nr nc lo hi Hpr) as (El & Eh & Hle).
  destruct (proj1 (levels_eval P M nr nc lo hi Hr Hc El Eh Hle HM) H10) as (L & EL & _).
  rewrite EL. cbn [bind].
  match goal with |- context [mapM ?f (map _ (seq 0 L))] => destruct (mapM_total f (map (fun k => Fin (lo + INR k * spacing (hi - lo))) (seq 0 L))) as (it & Eit) end.
  { intros pl _. apply mapM_total. intros j _. unfold interp_entry.
    destruct (filter _ _); [eauto|]. destruct (_ && _); eauto. }
  rewrite Eit. cbn [bind]. cbv zeta.
  match goal with |- context [mapM ?f ?l] => destruct (mapM_total f l) as (S & ES) end.
  { intros [th idx] Hin. cbn [fst snd]. apply mapM_total. intros [j o] Hjo. cbn [fst snd].
    assert (Eidx : idx = map (theta_index nr (oM M) th) (seq 0 nc)).
    { clear -Hin. revert Hin. generalize (map theta_level it). intros l. induction l as [|t l IH]; [intros []|].
      cbn [map combine]. intros [E|Hin]; [injection E as <- <-; reflexivity|auto]. }
    assert (Ejo : (j < nc)%nat /\ o = theta_index nr (oM M) th j).
    { clear -Hjo Eidx. subst idx. assert (G : forall n k, In (j, o) (combine (seq n k) (map (theta_index nr (oM M) th) (seq n k))) -> (n <= j < n + k)%nat /\ o = theta_index nr (oM M) th j).
      { intros n k; revert n; induction k as [|k IH]; intros n; [intros []|]. cbn [seq map combine].
        intros [E|Hin]; [injection E as <- <-; split; [lia|reflexivity]|]. apply IH in Hin as [A B]. split; [lia|auto]. }
      apply G in Hjo as [A B]. split; [lia|auto]. }
    destruct Ejo as [Hj ->]. pose proof (theta_index_spec nr M th j) as T.
    destruct (theta_index nr (oM M) th j) as [k|]; [|eauto].
    destruct T as (th0 & x0 & -> & Hk & Ek & _).
    destruct (sal_at_cases interp1d nr M (mask d (d_sal d)) th0 j k x0 Hk Ek) as [[_ ->]|[(k' & y' & _ & _ & ->)|[(k1 & y1 & k2 & y2 & Hne & F1 & F2 & Hy) _]]].
    - eauto.
    - destruct (mask d (d_sal d) k j), (mask d (d_sal d) k' j); eauto.
    - exfalso. destruct F1 as (B1 & C1 & D1 & _), F2 as (B2 & C2 & D2 & _).
      unfold M in D1, D2. apply sample_mask in D1, D2.
      assert (Hc12 : k2 = S (S k1) \/ k1 = S (S k2)) by lia.
      destruct Hc12; subst; [apply (Hnt j k1 y2 y2)|apply (Hnt j k2 y2 y2)]; auto. }
  rewrite ES. cbn [bind]. eauto.
Qed.

Lemma line_linear2 : linear2 line.
Proof. intros x0 x1 y0 y1 x _ _. reflexivity. Qed.
Lemma line_total xs ys x : exists v, line xs ys x = Ok v.
Proof.
  unfold line. destruct xs as [|[] [|[] [|]]]; eauto; destruct ys as [|[] [|[] [|]]]; eauto; destruct x; eauto.
Qed.

(* a two-level profile, used as an example *)
Definition two_levels : series :=
  mkSeries (fun i _ => Some (34 + INR i)) (fun i _ => Some (10 * INR i)) (fun i _ => Some (100 * INR i))
    (fun i _ => Some 0) None None None None.
Lemma two_kept i j : kept two_levels i j.
Proof. split; [discriminate|]. split; intros; exact I. Qed.
Lemma two_wide : wide_range two_levels 2 3.
Proof.
  exists 0%nat, 0%nat, 1%nat, 0%nat, 0, 10, 0%Z, 100%Z. repeat split; try lia; try lra; try apply two_kept; cbn; f_equal; lra.
Qed.
Lemma two_range : pressure_range two_levels 2 3 0 100.
Proof.
  split; [|split].
  - exists 0%nat, 0%nat. repeat split; try lia; try apply two_kept. cbn. f_equal. lra.
  - exists 1%nat, 0%nat. repeat split; try lia; try apply two_kept. cbn. f_equal. lra.
  - intros i j x Hi _ [_ E]. cbn in E. injection E as <-. destruct i as [|[|]]; cbn; try lra. lia.
Qed.
Lemma two_ties : no_ties two_levels 2 3.
Proof. intros j k x y _ Hk. lia. Qed.
Lemma two_ok pct : exists r mats, thetas_run line two_levels 2 3 pct = Ok (r, mats).
Proof. apply (thetas_succeed line two_levels 2 3 pct 0 100 line_total two_wide two_range); [lra|exact two_ties]. Qed.
