(* A mapped level, from the casts of the database to the value: the whole profile *)
From Coq Require Import String Ascii.
From Coq Require Import ZArith List Bool Reals Lra Lia.
From Verif Require Import Num Np NumFacts Utilities Finders Stats Wrangling Topo Fetchers Spec_Fetchers Saf Helper MapProfile Spec_Finders Spec_Stats Spec_FitCond Spec_Map
  Spec_Helper Spec_Interp Spec_MapLevel Spec_Utilities Spec_Bias Spec_Seam Spec_Whole Proofs_MapLevel
  Proofs_Besthist Proofs_Helper Proofs_Interp2 Proofs_Utilities2 Proofs_Fetchers Proofs_Region Proofs_FetchersEx Proofs_MapProfile Proofs_Bias2 Proofs_Bias3
  Proofs_Seam Proofs_Seam2 Proofs_Seam3 Proofs_Seam4 Proofs_Whole.
Import Helper Stats Spec_Fetchers ListNotations.
Local Open Scope R_scope.

(* a chosen cast appears once *)
Lemma numbered_length {T} `{Num T} index (cs : list (Spec_Fetchers.cast T)) : (length (numbered index cs) <= length index)%nat.
Proof.
  unfold numbered. rewrite map_length. set (f := fun p : nat * Spec_Fetchers.cast T => existsb (Nat.eqb (fst p)) index).
  assert (ND : NoDup (map fst (filter f (combine (seq 0 (length cs)) cs)))).
  { assert (G : forall n (l : list (Spec_Fetchers.cast T)), NoDup (map fst (filter f (combine (seq n (length l)) l))) /\
      forall i, In i (map fst (filter f (combine (seq n (length l)) l))) -> (n <= i)%nat).
    { intros n l. revert n. induction l as [|c l IH]; intros n; [split; [constructor|intros i []]|]. cbn [length seq combine filter].
      destruct (IH (S n)) as [IH1 IH2]. destruct (f (n, c)); cbn [map fst].
      - split; [constructor; [intros Hn; specialize (IH2 n Hn); lia|exact IH1]|]. intros i [<-|Hi]; [lia|]. specialize (IH2 i Hi). lia.
      - split; [exact IH1|]. intros i Hi. specialize (IH2 i Hi). lia. }
    apply G. }
  rewrite <- (map_length fst). apply NoDup_incl_length; [exact ND|]. intros i Hi. apply in_map_iff in Hi as (q & <- & Hq). apply filter_In in Hq as [_ Hq].
  apply existsb_exists in Hq as (k & Hk & E). apply Nat.eqb_eq in E. now subst.
Qed.
Lemma filter_length {B} (f : B -> bool) l : (length (filter f l) <= length l)%nat.
Proof. induction l as [|b l IH]; [reflexivity|]. cbn. destruct (f b); cbn; lia. Qed.
Lemma depth_bound limit c (l : list (Spec_Fetchers.cast XR)) : In c l -> (length (Spec_Fetchers.levels limit c) <= depth limit l)%nat.
Proof.
  intros Hc. unfold depth. induction l as [|a l IH]; [destruct Hc|]. cbn [map list_max fold_right]. destruct Hc as [->|Hc]; [lia|]. specialize (IH Hc). unfold list_max in IH. lia.
Qed.
Lemma kept_fst {B C D} (h : B -> bool) (f : B -> D) (l : list B) (ls : list C) : length ls = length l ->
  map (fun p => f (fst p)) (filter (fun p => h (fst p)) (combine l ls)) = map f (filter h l).
Proof.
  revert ls. induction l as [|b l IH]; intros [|a ls] E; try discriminate; [reflexivity|]. cbn [combine filter fst]. injection E as E.
  destruct (h b); cbn [map fst]; [f_equal|]; now apply IH.
Qed.

Section Whole.
  Context {rng : Type}.
  Variable seed : Z -> rng.
  Variable rand : rng -> nat -> list XR * rng.
  Variable g0 : rng.
  Variable unstable_argsort : list XR -> list nat.
  Variable inv : nat -> (nat -> nat -> XR) -> res (nat -> nat -> XR).
  Variable np_interp : XR -> list XR -> list XR -> XR.
  Variable sa_from_sp : XR -> XR -> XR -> XR -> XR.
  Variable ct_from_pt : XR -> XR -> XR.
  Variable t_from_ct : XR -> XR -> XR -> XR.
  Variable interp2d : list XR -> list XR -> list (list Z) -> XR -> XR -> res XR.
  Variable tbase : binfile.
  Variable read_mat : string -> res (ref_data XR).
  Variable date_str : XR -> list ascii.
  Variable cfg : map_config XR.
  Variable float_name : string.
  Notation levels_of := (profile_levels seed rand g0 unstable_argsort inv np_interp sa_from_sp ct_from_pt t_from_ct interp2d tbase read_mat date_str cfg float_name).
  Notation history_of := (best_history seed rand g0 unstable_argsort np_interp sa_from_sp ct_from_pt t_from_ct interp2d tbase read_mat date_str cfg float_name).
  Hypothesis Hinv : inv_ok inv.
  Variables large small : scales.
  Hypothesis HC : config_scales cfg large small.
  Hypothesis NL : scales_nonzero large.
  Hypothesis NS : scales_nonzero small.
  Hypothesis Hsnd : soundings interp2d (s_pv large).
  Hypothesis HU : mc_use_saf cfg <> 1%Z.
  Variables delta ex : R.
  Hypothesis Hdelta : mc_p_delta cfg = Fin delta.
  Hypothesis Hex : mc_p_exclude cfg = Fin ex.
  Variable db : database XR.
  Hypothesis Hdb : reads db read_mat.
  Variable other : string -> bool.
  Hypothesis Hother : excludes float_name other.
  Hypothesis H4 : four_columns (mc_boxes cfg).
  Variable fd : float_data XR.
  Hypothesis MP : mappable_profile fd.
  Variable boxes : list (list XR).
  Hypothesis EB : find_25boxes (fd_long fd) (fd_lat fd) (mc_boxes cfg) = Ok boxes.
  Variables l la da : R.
  Hypothesis Hlong : fd_long fd = Fin l.
  Hypothesis Hlat : fd_lat fd = Fin la.
  Hypothesis Hdate : fd_date fd = Fin da.
  Hypothesis Hl : 0 <= l < 360.
  Notation cs := (region_casts db (mc_db cfg) other boxes).
  Notation limit := (nadd (nanmax (fd_pres fd)) (map_p_delta (mc_db cfg))).
  Hypothesis Hlats : forall c, In c cs -> number (Spec_Fetchers.c_lat c).
  Variable pos : Spec_Fetchers.cast XR -> R.
  Hypothesis HL : located l pos cs.
  Hypothesis NB : ~ all_beyond (map pos cs) (map pos cs).
  Notation offered := (offered date_str cs).
  Notation search := (search seed rand g0 unstable_argsort cfg fd).
  Notation deep := (fun x => exists r, x = Fin r /\ (s_pv large = true -> r <> 0%R)).

  Lemma history_whole z g : history_of fd z = Ok g ->
    exists gz index best, grid_depths interp2d tbase (wrap_longitude (map Spec_Fetchers.c_long cs)) (map Spec_Fetchers.c_lat cs) = Ok gz /\
      search (wrap_float (wrap_longitude (map Spec_Fetchers.c_long cs)) (fd_long fd)) z (offered (wrap_longitude (map Spec_Fetchers.c_long cs)) gz) = Ok index /\
      get_region_data read_mat date_str boxes float_name (mc_db cfg) index (fd_pres fd) = Ok best /\ index_array nnan gz index = Ok (gr_z g) /\
      g = mkGrid (Fetchers.o_sal best) (o_ptmp best) (o_pres best) (Fetchers.o_lat best) (Fetchers.o_long best) (o_dates best) (gr_z g).
  Proof.
    intros E. unfold best_history in E. rewrite EB in E. cbn [bind] in E.
    pose proof (locations db read_mat (mc_db cfg) float_name Hdb other Hother date_str boxes (F4 cfg H4 fd MP boxes EB)) as EL. cbv zeta in EL. rewrite EL in E. clear EL.
    destruct cs as [|c1 cr] eqn:EC; [discriminate|]. rewrite <- EC in *. cbn [bind] in E.
    destruct (grid_depths _ _ _ _) as [gz|] eqn:EZ; [|discriminate]. cbn [bind] in E.
    match type of E with bind ?t _ = _ => destruct t as [index|] eqn:EI; [|discriminate] end. cbn [bind] in E.
    destruct (get_region_data _ _ _ _ _ _ _) as [best|] eqn:ED; [|discriminate]. cbn [bind] in E.
    destruct (index_array nnan gz index) as [bz|] eqn:EX; [|discriminate]. cbn [bind] in E.
    destruct (Z.eqb_spec (mc_use_saf cfg) 1) as [C|_]; [contradiction|]. apply ok_inj in E. subst g. cbn [gr_z].
    exists gz, index, best. repeat split; assumption.
  Qed.
  Lemma depths_deep gz los las : grid_depths interp2d tbase los las = Ok gz -> Forall deep gz.
  Proof.
    intros EZ. unfold grid_depths in EZ. destruct (elevation _ _ _ _ _ _ _) as [zz|] eqn:EE; [|discriminate]. cbn [bind] in EZ. apply ok_inj in EZ. subst gz.
    destruct (elevation_deep interp2d tbase large Hsnd _ _ _ _ _ _ EE) as [FE _]. apply Forall_forall. intros x Hx. apply in_map_iff in Hx as (y & <- & Hy).
    rewrite Forall_forall in FE. destruct (FE y Hy) as (r & -> & Hr). exists (-1 * r)%R. split; [reflexivity|]. intros P. specialize (Hr P). lra.
  Qed.

  Theorem whole_level s i lev : get_float_data s i = Ok fd -> levels_of s i = Ok lev ->
    exists z depths index, depths_of interp2d cs depths /\ search (Fin l) (Fin z) (offered (map (fun c => Fin (pos c)) cs) depths) = Ok index /\
      forall c0 rest, selected index cs = c0 :: rest -> Spec_Fetchers.levels limit c0 <> [] ->
      let chosen := filter (has_data limit) (selected index cs) in ~ all_beyond (map pos (selected index cs)) (map pos chosen) ->
      forall n xs xt xp, nth_error (fd_sal fd) n = Some xs -> nth_error (fd_ptmp fd) n = Some xt -> nth_error (fd_pres fd) n = Some xp ->
      match Spec_Interp.complete xs xt xp with
      | None => lev n = Ok None
      | Some (_, t, p) =>
          (p < ex -> lev n = Ok None) /\
          (ex <= p -> exists pts, points_from date_str limit pos t p delta (combine chosen (map (fun k => nth k depths nnan) index)) pts /\
             ((length pts <= 5)%nat -> lev n = Ok None) /\
             ((5 < length pts)%nat -> forall nv, noise_estimate (Spec_MapLevel.kept pts) nv -> 0 < nv ->
                exists value err o, two_stage large small nv (mkPoint la l da z) (Spec_MapLevel.kept pts) value err /\ lev n = Ok (Some o) /\
                  lo_ptmp o = Fin t /\ lo_sal o = Fin value /\ lo_err o = Fin err /\ lo_noise o = Fin nv /\ lo_signal o = Fin (pop_var (map hp_sal (Spec_MapLevel.kept pts))) /\
                  exists turn, (turn = 0 \/ turn = 360) /\ lo_points o = map (fun q => (Fin (hp_long q + turn), Fin (hp_lat q))) (Spec_MapLevel.kept pts)))
      end.
  Proof.
    intros EG E. unfold profile_levels in E. rewrite EG in E. cbn [bind] in E.
    assert (U : MapProfile.usable fd = true) by now apply usable_iff. rewrite U in E.
    destruct (elevation _ _ _ _ _ _ _) as [elev|] eqn:EE; [|discriminate]. cbn [bind] in E.
    destruct (elevation_deep interp2d tbase large Hsnd _ _ _ _ _ _ EE) as [FE LE]. cbn [length] in LE. destruct elev as [|fz [|? ?]]; try discriminate. cbn [hd] in E.
    inversion FE as [|? ? (z0 & Ez & HZ) _]; subst. clear FE LE. change (nopp (Fin z0)) with (Fin (- z0)%R) in E. set (z := (- z0)%R) in *.
    destruct (history_of fd (Fin z)) as [g|] eqn:EH; [|discriminate]. cbn [bind] in E.
    destruct (interp_climatology _ _ _ _) as [it|] eqn:EC; [|discriminate]. cbn [bind] in E. apply ok_inj in E.
    destruct (history_whole (Fin z) g EH) as (gz & index & best & EZ & EI & ED & EX & Eg).
    pose proof (depths_deep _ _ _ EZ) as FD. assert (HDep : depths_of interp2d cs gz) by (eapply depths_search; exact EZ).
    exists z, gz, index. split; [exact HDep|].
    split. { rewrite <- EI. symmetry. eapply search_seam; eassumption. }
    assert (EGZ : gr_z g = map (fun k => nth k gz nnan) index) by (unfold index_array in EX; destruct (forallb _ index); [|discriminate]; apply ok_inj in EX; now rewrite <- EX).
    destruct (index_numbers _ _ _ _ FD EX) as [FZ _].
    intros c0 rest ESel HL0 chosen NB2 n xs xt xp Es Et Ep.
    pose proof (data_selected db read_mat (mc_db cfg) float_name Hdb other Hother date_str boxes (F4 cfg H4 fd MP boxes EB) index (fd_pres fd) (pres_some fd MP) c0 rest ESel HL0) as EDS. cbv zeta in EDS.
    rewrite EDS in ED. apply ok_inj in ED.
    set (d := depth limit (selected index cs)) in *.
    assert (LW : length (wrap_longitude (map Spec_Fetchers.c_long (selected index cs))) = length (selected index cs)) by (rewrite wrap_length; apply map_length).
    assert (GS : gr_sal g = map (map l_sal) (map (col limit d) chosen)) by (rewrite Eg, <- ED; cbn [gr_sal Fetchers.o_sal]; rewrite (kept_fst (has_data limit) (fun c => map l_sal (col limit d c))) by exact LW; now rewrite map_map).
    assert (GT : gr_ptmp g = map (map l_ptmp) (map (col limit d) chosen)) by (rewrite Eg, <- ED; cbn [gr_ptmp Fetchers.o_ptmp]; rewrite (kept_fst (has_data limit) (fun c => map l_ptmp (col limit d c))) by exact LW; now rewrite map_map).
    assert (GP : gr_pres g = map (map l_pres) (map (col limit d) chosen)) by (rewrite Eg, <- ED; cbn [gr_pres Fetchers.o_pres]; rewrite (kept_fst (has_data limit) (fun c => map l_pres (col limit d c))) by exact LW; now rewrite map_map).
    assert (GA : gr_lat g = map Spec_Fetchers.c_lat chosen) by (rewrite Eg, <- ED; cbn [gr_lat Fetchers.o_lat]; now rewrite (kept_fst (has_data limit) Spec_Fetchers.c_lat) by exact LW).
    assert (GD : gr_dates g = map (fun c => change_date (date_str (Spec_Fetchers.c_date c))) chosen) by (rewrite Eg, <- ED; cbn [gr_dates Fetchers.o_dates]; now rewrite (kept_fst (has_data limit) (fun c => change_date (date_str (Spec_Fetchers.c_date c)))) by exact LW).
    assert (GL : gr_long g = map snd (filter (fun p => has_data limit (fst p)) (combine (selected index cs) (wrap_longitude (map Spec_Fetchers.c_long (selected index cs)))))) by (rewrite Eg, <- ED; reflexivity).
    assert (HSub : forall c, In c (selected index cs) -> In c cs).
    { intros c Hc. unfold selected in Hc. apply filter_In in Hc as [Hc _]. unfold numbered in Hc. apply in_map_iff in Hc as (q & <- & Hq).
      apply filter_In in Hq as [Hq _]. destruct q as [k c']. now apply in_combine_r in Hq. }
    assert (HD : forall col0, In col0 (map (col limit d) chosen) -> length col0 = d).
    { intros col0 H0. apply in_map_iff in H0 as (c & <- & Hc). apply col_length. apply depth_bound. now apply filter_In in Hc. }
    rewrite GS, GT, GP in EC. pose proof (interp_rows _ _ _ (arr_shape _ d HD _ _) (arr_shape _ d HD _ _) _ _ EC) as RG.
    assert (EN : nth_error (combine (combine (fd_sal fd) (fd_ptmp fd)) (fd_pres fd)) n = Some (xs, xt, xp)).
    { clear - Es Et Ep. revert n Es Et Ep. generalize (fd_sal fd), (fd_ptmp fd), (fd_pres fd). induction l as [|a l0 IH]; intros [|b l1] [|c l2] [|n] E1 E2 E3; try discriminate; cbn in *.
      - congruence. - now apply IH. }
    assert (RN : row_gives (to_array2 (map (map l_sal) (map (col limit d) chosen))) (to_array2 (map (map l_ptmp) (map (col limit d) chosen))) (to_array2 (map (map l_pres) (map (col limit d) chosen))) (xs, xt, xp) (nth n it [])).
    { clear - RG EN. revert n EN. induction RG as [|q row ql rows H F IH]; intros [|n] EN; try discriminate; cbn in *; [injection EN as <-; exact H|now apply IH]. }
    destruct RN as [RL RN]. rewrite arr_cols, map_length in RL. rewrite arr_cols, map_length in RN.
    (* the points at the true places *)
    assert (HLs : located l pos (selected index cs)) by (intros c Hc; apply HL; now apply HSub).
    destruct (located_records l pos _ HLs) as (rs & ER & HF).
    assert (HK : incl (map pos chosen) (map pos (selected index cs))) by (apply incl_map; intros c Hc; now apply filter_In in Hc).
    destruct (seam_right l Hl _ rs HF _ HK NB2) as (off & Hoff & EW & EF).
    assert (EGL : gr_long g = map (shift off) (map (fun c => Fin (pos c)) chosen)).
    { rewrite GL, ER, wrap_R, EW. unfold chosen. clear. induction (selected index cs) as [|c r IH]; [reflexivity|]. cbn [map combine filter fst].
      destruct (has_data limit c); cbn [map snd]; [|exact IH]. f_equal. exact IH. }
    assert (EFL : wrap_float (gr_long g) (fd_long fd) = shift off (Fin l)).
    { rewrite EGL, Hlong. rewrite <- (map_map pos Fin), <- shift_fin. rewrite wrap_float_R, EF. reflexivity. }
    rewrite <- E. rewrite Es, Ep. rewrite EFL, EGL, hist_shift, GA, GD.
    assert (LZ : (length chosen <= length (gr_z g))%nat).
    { rewrite EGZ, map_length. unfold chosen. eapply Nat.le_trans; [apply filter_length|]. unfold selected. eapply Nat.le_trans; [apply filter_length|]. apply numbered_length. }
    assert (EP : forall p, process_profile_hist_variables (map (fun c => Fin (pos c)) chosen) (map Spec_Fetchers.c_lat chosen)
        (map (fun c => change_date (date_str (Spec_Fetchers.c_date c))) chosen) (gr_z g) p (nth n it []) (mc_p_delta cfg)
      = Ok (hist_of (filter (in_window p (mc_p_delta cfg)) (map (xpoint date_str pos) (combine (combine chosen (gr_z g)) (nth n it [])))))).
    { intros p. set (L := map (xpoint date_str pos) (combine (combine chosen (gr_z g)) (nth n it []))).
      assert (A : map hp_long L = map (fun c => Fin (pos c)) chosen /\ map hp_lat L = map Spec_Fetchers.c_lat chosen /\
        map hp_date L = map (fun c => change_date (date_str (Spec_Fetchers.c_date c))) chosen /\ gr_z g = map hp_z L ++ skipn (length chosen) (gr_z g) /\
        nth n it [] = map (fun q => (hp_sal q, hp_pres q)) L).
      { unfold L. clear - RL LZ. revert RL LZ. generalize (nth n it []). generalize (gr_z g). generalize chosen. induction chosen0 as [|c r IH]; intros zs row RL LZ.
        - destruct row; [|discriminate]. now repeat split.
        - destruct row as [|o row]; [discriminate|]. destruct zs as [|z1 zs]; [cbn in LZ; lia|]. destruct (IH zs row) as (A1 & A2 & A3 & A4 & A5); [now injection RL|cbn in LZ; lia|].
          cbn [combine map length skipn app]. unfold xpoint at 1 3 5 7 9 10. cbn [hp_long hp_lat hp_date hp_z hp_sal hp_pres fst snd].
          rewrite A1, A2, A3. rewrite <- A4, <- A5. rewrite <- surjective_pairing. now repeat split. }
      destruct A as (A1 & A2 & A3 & A4 & A5). rewrite <- A1, <- A2, <- A3. rewrite A4 at 1. rewrite A5 at 1. apply window. }
    destruct (Spec_Interp.complete xs xt xp) as [[[xs' t] p]|] eqn:EQ.
    - destruct xs as [sv| | |]; try discriminate. destruct xt as [tv| | |]; try discriminate. destruct xp as [pv| | |]; try discriminate.
      cbn in EQ. injection EQ as <- <- <-. change (negb (nisnan (Fin sv))) with true. cbn [andb]. rewrite Hex. change (nleb (Fin ex) (Fin pv)) with (Rleb ex pv).
      cbn [level_of Spec_Interp.complete] in RN.
      split; [intros H; assert (R0 : Rleb ex pv = false) by (apply Rleb_false; lra); rewrite R0; reflexivity|].
      intros H. assert (R1 : Rleb ex pv = true) by (apply Rleb_true; lra). rewrite R1. rewrite EP. cbn [bind].
      destruct (points_window date_str limit pos tv pv delta (combine chosen (gr_z g)) (nth n it [])) as (pts & HP & EPt).
      { rewrite combine_length, RL. lia. }
      { intros c zc Hc. split; [apply Hlats, HSub; apply in_combine_l in Hc; now apply filter_In in Hc|]. split; [apply change_date_number|].
        apply in_combine_r in Hc. rewrite Forall_forall in FZ. destruct (FZ zc Hc) as (b & -> & _). now exists b. }
      { intros j Hj. rewrite combine_length in Hj. assert (Hj' : (j < length chosen)%nat) by lia. specialize (RN j Hj'). rewrite (arr_samples _ d HD) in RN by (now rewrite map_length).
        rewrite (nth_map _ chosen j [] (Spec_Fetchers.mkCast NaN NaN NaN [] ""%string)) in RN by exact Hj'. rewrite col_samples in RN.
        assert (EM : map fst (combine chosen (gr_z g)) = chosen) by (clear - LZ; revert LZ; generalize (gr_z g); induction chosen as [|c r IH]; intros [|z1 zs] LZ; try reflexivity; [cbn in LZ; lia|cbn; f_equal; apply IH; cbn in LZ; lia]).
        rewrite EM. exact RN. }
      rewrite Hdelta, EPt. exists pts. split; [rewrite <- EGZ; exact HP|].
      rewrite Hlat, Hdate. change (mkPoint (Fin la) (shift off (Fin l)) (Fin da) (Fin z)) with (shift_point off (fpoint (mkPoint la l da z))). rewrite level_shift.
      split.
      + intros H5. now rewrite level_few.
      + intros H5 nv HN Hn.
        assert (HDp : has_depth large (mkPoint la l da z :: map place pts)).
        { intros P q [<-|Hq]; [cbn; unfold z; specialize (HZ P); lra|]. apply in_map_iff in Hq as (h & <- & Hh). cbn.
          clear - HP Hh FZ P. remember (combine chosen (gr_z g)) as zl. assert (FZ' : forall c b, In (c, b) zl -> exists r, b = Fin r /\ r <> 0).
          { intros c b Hb. subst zl. apply in_combine_r in Hb. rewrite Forall_forall in FZ. destruct (FZ b Hb) as (r & -> & Hr). eauto. }
          clear Heqzl FZ. induction HP as [|c z1 q l0 pts G HP IH|c z1 l0 pts NG HP IH]; [destruct Hh| |].
          - destruct Hh as [->|Hh]; [|apply IH; [exact Hh|intros c' b' Hb; apply (FZ' c' b'); now right]].
            destruct G as (_ & _ & _ & G & _). destruct (FZ' c z1 (or_introl eq_refl)) as (r & Er & Hr). congruence.
          - apply IH; [exact Hh|intros c' b' Hb; apply (FZ' c' b'); now right]. }
        destruct (level_mapped inv cfg large small (mkPoint la l da z) (nth n (fd_ptmp fd) nnan) pts nv Hinv HC NL NS HDp H5 HN Hn) as (value & err & TS & EV).
        rewrite EV. exists value, err. eexists. split; [exact TS|]. split; [reflexivity|]. cbn [lo_ptmp lo_sal lo_err lo_noise lo_signal lo_points]. split; [now rewrite (nth_error_nth _ _ _ Et)|].
        split; [reflexivity|]. split; [reflexivity|]. split; [reflexivity|]. split; [reflexivity|]. exists off. split; [exact Hoff|]. rewrite map_map. reflexivity.
    - assert (HNaN : forall q, In q (nth n it []) -> q = (NaN, NaN)).
      { intros q Hq. cbn [level_of] in RN. rewrite EQ in RN. apply (In_nth _ _ (NaN, NaN)) in Hq as (j & Hj & <-). apply RN. lia. }
      destruct (negb (nisnan xs) && nleb (mc_p_exclude cfg) xp)%bool; [|reflexivity]. rewrite EP. cbn [bind].
      assert (EF0 : filter (in_window xp (mc_p_delta cfg)) (map (xpoint date_str pos) (combine (combine chosen (gr_z g)) (nth n it []))) = []).
      { clear - HNaN. revert HNaN. generalize (combine chosen (gr_z g)). generalize (nth n it []). induction l as [|o r IH]; intros [|cz zl] HN; try reflexivity. cbn [combine map filter].
        assert (o = (NaN, NaN)) as -> by (apply HN; now left). unfold in_window at 1, xpoint at 1. cbn. apply IH. intros q Hq. apply HN. now right. }
      rewrite EF0. unfold map_level. cbn. reflexivity.
  Qed.
End Whole.
