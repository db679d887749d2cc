(* A mapping that completes: the profile, from its position to its levels *)
From Coq Require Import String Ascii.
From Coq Require Import ZArith List Bool Reals Lra Lia Permutation Sorted.
From Verif Require Import Num Np NumFacts Utilities Finders Stats Wrangling Topo Fetchers Spec_Fetchers Saf Helper MapProfile Spec_Finders Spec_Stats Spec_FitCond Spec_Map
  Spec_Topo Spec_Depth Spec_Helper Spec_Interp Spec_MapLevel Spec_Utilities Spec_Bias Spec_Seam Spec_Whole Spec_Completes Proofs_MapLevel
  Proofs_Besthist Proofs_Boxes Proofs_Helper Proofs_Interp2 Proofs_Utilities2 Proofs_Fetchers Proofs_Region Proofs_FetchersEx Proofs_MapProfile Proofs_Bias2 Proofs_Bias3
  Proofs_Depth2 Proofs_Depth3 Proofs_Depth4 Proofs_Seam Proofs_Seam2 Proofs_Seam3 Proofs_Seam4 Proofs_Whole Proofs_Whole2 Proofs_Completes.
Import Helper Stats Spec_Fetchers ListNotations.
Local Open Scope R_scope.

Section Completes.
  Context {rng : Type}.
  Variable seed : Z -> rng.
  Variable rand : rng -> nat -> list XR * rng.
  Variable g0 : rng.
  Variable unstable_argsort : list XR -> list nat.
  Variable inv : nat -> (nat -> nat -> XR) -> res (nat -> nat -> XR).
  Variable np_interp : XR -> list XR -> list XR -> XR.
  Variable sa_from_sp : XR -> XR -> XR -> XR -> XR.
  Variable ct_from_pt : XR -> XR -> XR.
  Variable t_from_ct : XR -> XR -> XR -> XR.
  Variable interp2d : list XR -> list XR -> list (list Z) -> XR -> XR -> res XR.
  Variable tbase : binfile.
  Variable read_mat : string -> res (ref_data XR).
  Variable date_str : XR -> list ascii.
  Variable cfg : map_config XR.
  Variable float_name : string.
  Notation levels_of := (profile_levels seed rand g0 unstable_argsort inv np_interp sa_from_sp ct_from_pt t_from_ct interp2d tbase read_mat date_str cfg float_name).
  Notation history_of := (best_history seed rand g0 unstable_argsort np_interp sa_from_sp ct_from_pt t_from_ct interp2d tbase read_mat date_str cfg float_name).
  Hypothesis HR : rand_ok rand.
  Hypothesis HQ : argsort_ok unstable_argsort.
  Hypothesis Hinv : inv_ok inv.
  Hypothesis Hf : tbase_file tbase.
  Hypothesis HA : answers interp2d.
  Variables large small : scales.
  Hypothesis HC : config_scales cfg large small.
  Hypothesis NL : scales_nonzero large.
  Hypothesis NS : scales_nonzero small.
  Hypothesis NA : s_age large <> 0 /\ s_age small <> 0.
  Hypothesis NP : s_pv large = false.
  Hypothesis HM : (mc_max_casts cfg = 3 \/ 5 <= mc_max_casts cfg)%Z.
  Hypothesis HU : mc_use_saf cfg <> 1%Z.
  Variables delta ex : R.
  Hypothesis Hdelta : mc_p_delta cfg = Fin delta.
  Hypothesis Hex : mc_p_exclude cfg = Fin ex.
  Variable db : database XR.
  Hypothesis Hdb : reads db read_mat.
  Variable other : string -> bool.
  Hypothesis Hother : excludes float_name other.
  Hypothesis H4 : four_columns (mc_boxes cfg).
  Hypothesis H648 : length (mc_boxes cfg) = 648%nat.
  Notation ready := (ready seed rand g0 unstable_argsort interp2d date_str cfg large delta ex db other).
  Notation level_points := (level_points seed rand g0 unstable_argsort interp2d date_str cfg delta).
  Notation mapped_at := (mapped_at ex).

  Lemma sounds : soundings interp2d (s_pv large).
  Proof. intros x y e a b v E. destruct (HA x y e a b) as (r & Er). rewrite E in Er. apply ok_inj in Er. exists r. split; [exact Er|]. rewrite NP. discriminate. Qed.
  Lemma casts_depth cs : cs <> [] -> (forall c, In c cs -> exists lo la, Spec_Fetchers.c_long c = Fin lo /\ Spec_Fetchers.c_lat c = Fin la /\ on_map lo la) ->
    exists zs, grid_depths interp2d tbase (wrap_longitude (map Spec_Fetchers.c_long cs)) (map Spec_Fetchers.c_lat cs) = Ok (map Fin zs) /\ length zs = length cs.
  Proof.
    intros NE HP. assert (E : exists los las, map Spec_Fetchers.c_long cs = map Fin los /\ map Spec_Fetchers.c_lat cs = map Fin las /\
      length los = length cs /\ length las = length cs /\ forall i, (i < length los)%nat -> on_map (nth i los 0) (nth i las 0)).
    { clear NE. induction cs as [|c cs IH]; [exists [], []; do 4 (split; [reflexivity|]); intros i Hi; cbn in Hi; lia|]. destruct IH as (los & las & E1 & E2 & L1 & L2 & HO); [intros c' H'; apply HP; now right|].
      destruct (HP c (or_introl eq_refl)) as (lo & la & Eo & Ea & O). exists (lo :: los), (la :: las). cbn [map length]. rewrite Eo, Ea, E1, E2, L1, L2.
      split; [reflexivity|]. split; [reflexivity|]. split; [reflexivity|]. split; [reflexivity|]. intros [|i] Hi; cbn; [exact O|apply HO; rewrite L1; cbn in Hi; lia]. }
    destruct E as (los & las & E1 & E2 & L1 & L2 & HO). rewrite E1, E2.
    destruct (casts_depths tbase demo_interp2d Hf demo_linear los las) as (ds & ED & _); [intros C; rewrite C in L1; destruct cs; [congruence|discriminate]|congruence|exact HO|].
    unfold grid_depths in *. match type of ED with bind ?t _ = _ => destruct t as [zz|] eqn:EE; [|discriminate] end.
    apply (elevation_any _ interp2d) in EE as (rs & EE & LR); [|exact HA]. rewrite EE. cbn [bind]. exists (map (fun r => -1 * r) rs). rewrite !map_map. split; [reflexivity|].
    rewrite map_length, LR, combine_length, !map_length. pose proof (wrap_length (map Fin los)) as W. rewrite map_length in W. lia.
  Qed.

  (* the history of a profile is found *)
  Lemma history_found fd cs pos z : ready fd cs pos -> exists g, history_of fd (Fin z) = Ok g /\ exists depths index c0 rest,
    selected index cs = c0 :: rest /\ depths_of interp2d cs depths /\
    (forall l, fd_long fd = Fin l -> search seed rand g0 unstable_argsort cfg fd (Fin l) (Fin z) (offered date_str cs (map (fun c => Fin (pos c)) cs) depths) = Ok index) /\
    gr_z g = map (fun k => nth k depths nnan) index /\
    let limit := nadd (nanmax (fd_pres fd)) (map_p_delta (mc_db cfg)) in let cols := map (col limit (depth limit (selected index cs))) (selected index cs) in
    gr_sal g = map (map l_sal) cols /\ gr_ptmp g = map (map l_ptmp) cols /\ gr_pres g = map (map l_pres) cols.
  Proof.
    intros (MP & (da & Hda) & LT & LP & l & la & Hl & Hla & Rl & OM & EB & LO & NB & GC & NC & NB2 & NN).
    assert (EX : exists boxes, find_25boxes (Fin l) (Fin la) (mc_boxes cfg) = Ok boxes).
    { eexists. apply boxes_ok; auto. intros n Hn. apply box_numbers_range in Hn. lia. }
    destruct EX as (boxes & EX).
    rewrite <- Hl, <- Hla in EX. pose proof (EB boxes EX) as ECS. clear EB. subst cs. set (cs := region_casts db (mc_db cfg) other boxes) in *.
    assert (NE : cs <> []) by (intros C; rewrite C in NC; inversion NC).
    rewrite Forall_forall in GC.
    destruct (casts_depth cs NE) as (zs & EZ & LZ); [intros c Hc; apply (GC c Hc)|].
    assert (HN : forall c, In c cs -> exists a, Spec_Fetchers.c_lat c = Fin a) by (intros c Hc; destruct (GC c Hc) as ((lo & lac & _ & E & _) & _); eauto).
    destruct (search_finds seed rand g0 unstable_argsort HR HQ date_str cfg large small HC NL NS NA NP HM fd l la da Hla Hda pos z cs zs HN LZ NC) as (index & i & c & ES & Hi & Hc & HB).
    pose proof (search_seam seed rand g0 unstable_argsort date_str cfg db other fd boxes l Hl Rl (Fin z) pos (map Fin zs) LO NB) as SS.
    fold cs in SS. rewrite ES in SS.
    destruct (selected index cs) as [|c0 rest] eqn:ESel.
    { exfalso. assert (In c (selected index cs)); [|rewrite ESel in *; contradiction]. unfold selected. apply filter_In. split; [now apply (numbered_in index cs i)|].
      apply (good_loadable _ c (GC c (nth_error_In _ _ Hc))). }
    assert (L0 : Spec_Fetchers.levels (nadd (nanmax (fd_pres fd)) (map_p_delta (mc_db cfg))) c0 <> []).
    { apply good_levels, GC. apply (selected_sub index). rewrite ESel. now left. }
    pose proof (data_selected db read_mat (mc_db cfg) float_name Hdb other Hother date_str boxes (F4 cfg H4 fd MP boxes EX) index (fd_pres fd) (pres_some fd MP) c0 rest ESel L0) as ED. cbv zeta in ED. fold cs in ED. rewrite ESel in ED.
    assert (EI : index_array nnan (map Fin zs) index = Ok (map (fun k => nth k (map Fin zs) nnan) index)).
    { unfold index_array. assert (FB : forallb (fun k => Nat.ltb k (length (map Fin zs))) index = true).
      { apply forallb_forall. intros k Hk. apply Nat.ltb_lt. rewrite map_length, LZ. now apply HB. }
      first [rewrite FB|idtac]. reflexivity. }
    eexists. split.
    - unfold best_history. rewrite EX. cbn [bind].
      pose proof (locations db read_mat (mc_db cfg) float_name Hdb other Hother date_str boxes (F4 cfg H4 fd MP boxes EX)) as EL. cbv zeta in EL. rewrite EL. fold cs. clear EL.
      destruct cs as [|c1 cr] eqn:EC; [congruence|]. rewrite <- EC in *. cbn [bind]. rewrite EZ. cbn [bind].
      unfold search, offered in SS. unfold Spec_Seam.search, Spec_Seam.offered in SS. rewrite SS. cbn [bind]. rewrite ED. cbn [bind]. rewrite EI. cbn [bind].
      destruct (Z.eqb_spec (mc_use_saf cfg) 1) as [C|_]; [contradiction|]. reflexivity.
    - exists (map Fin zs), index, c0, rest. split; [exact ESel|]. split; [eapply depths_search; exact EZ|]. split; [intros l' E'; rewrite Hl in E'; injection E' as <-; exact ES|].
      split; [reflexivity|]. cbv zeta. cbn [gr_sal gr_ptmp gr_pres]. rewrite !map_map. rewrite ESel.
      set (limit := nadd (nanmax (fd_pres fd)) (map_p_delta (mc_db cfg))) in *.
      assert (LW : length (wrap_longitude (map Spec_Fetchers.c_long (c0 :: rest))) = length (c0 :: rest)) by (rewrite wrap_length; apply map_length).
      assert (FA : filter (has_data limit) (c0 :: rest) = c0 :: rest).
      { apply filter_all. intros c' Hc'. apply good_data, GC. apply (selected_sub index). now rewrite ESel. }
      set (dd := depth limit (c0 :: rest)).
      split; [rewrite (kept_fst (has_data limit) (fun c => map l_sal (col limit dd c))) by exact LW; now rewrite FA|].
      split; [rewrite (kept_fst (has_data limit) (fun c => map l_ptmp (col limit dd c))) by exact LW; now rewrite FA|].
      rewrite (kept_fst (has_data limit) (fun c => map l_pres (col limit dd c))) by exact LW; now rewrite FA.
  Qed.

  Lemma depths_numbers cs depths : depths_of interp2d cs depths -> exists zs, depths = map Fin zs /\ length zs = length cs.
  Proof.
    intros (LD & x & y & e & HD). assert (F : Forall Spec_Bias.number depths).
    { apply Forall_forall. intros d Hd. apply (In_nth _ _ nnan) in Hd as (i & Hi & <-). destruct (nth_error cs i) as [c|] eqn:Ec; [|apply nth_error_None in Ec; lia].
      destruct (HD i c Ec) as (v & Ev & ->). destruct (HA x y e (tbase_long (nth i (wrap_longitude (map Spec_Fetchers.c_long cs)) nnan)) (Spec_Fetchers.c_lat c)) as (r & Er).
      rewrite Er in Ev. apply ok_inj in Ev. subst v. exists (-1 * r). reflexivity. }
    apply numbers_list in F as (zs & ->). exists zs. split; [reflexivity|]. now rewrite map_length in LD.
  Qed.
  Theorem profile_completes s i fd cs pos : get_float_data s i = Ok fd -> ready fd cs pos ->
    exists lev, levels_of s i = Ok lev /\ forall n, (n < length (fd_sal fd))%nat -> (lev n = Ok None \/ exists o, lev n = Ok (Some o) /\ lo_points o <> []) /\
      forall t p, mapped_at fd n t p -> exists pts, level_points fd cs pos t p pts /\
        ((length pts <= 5)%nat -> lev n = Ok None) /\ ((5 < length pts)%nat -> exists o, lev n = Ok (Some o) /\ lo_points o <> []).
  Proof.
    intros EG RD. pose proof RD as (MP & (da & Hda) & LT & LP & l & la & Hl & Hla & Rl & OM & EB & LO & NB & GC & NC & NB2 & NN).
    assert (EL : exists lev, levels_of s i = Ok lev).
    { unfold profile_levels. rewrite EG. cbn [bind]. assert (U : MapProfile.usable fd = true) by now apply usable_iff. rewrite U, Hl, Hla.
      destruct (float_elevation tbase demo_interp2d Hf demo_linear l la OM) as (d & EE & _). apply (elevation_any _ interp2d) in EE as (rs & EE & LR); [|exact HA]. rewrite EE. cbn [bind].
      cbn [length] in LR. destruct rs as [|r [|? ?]]; try discriminate. cbn [map hd]. change (nopp (Fin r)) with (Fin (- r)).
      destruct (history_found fd cs pos (- r) RD) as (g & EH & depths & index & c0 & rest & ES & _ & _ & _ & GS & GT & GP). rewrite EH. cbn [bind].
      rewrite GS, GT, GP. set (limit := nadd (nanmax (fd_pres fd)) (map_p_delta (mc_db cfg))) in *. set (d0 := depth limit (selected index cs)) in *.
      rewrite Forall_forall in GC. assert (GS' : forall c, In c (selected index cs) -> good_cast limit c) by (intros c Hc; apply GC; eapply selected_sub; exact Hc).
      assert (HD : forall col0, In col0 (map (col limit d0) (selected index cs)) -> length col0 = d0).
      { intros col0 H0. apply in_map_iff in H0 as (c & <- & Hc). apply col_length. now apply depth_bound. }
      assert (HS : forall j c, nth_error (selected index cs) j = Some c -> samples (to_array2 (map (map l_sal) (map (col limit d0) (selected index cs))))
        (to_array2 (map (map l_ptmp) (map (col limit d0) (selected index cs)))) (to_array2 (map (map l_pres) (map (col limit d0) (selected index cs)))) j = cast_samples limit c).
      { intros j c Hj. assert (Lj : (j < length (selected index cs))%nat) by (apply nth_error_Some; congruence). rewrite (arr_samples _ d0 HD) by (now rewrite map_length).
        rewrite (nth_map _ (selected index cs) j [] c) by exact Lj. rewrite (nth_error_nth _ _ _ Hj). apply col_samples. }
      destruct (interp_climatology _ _ _ _) as [it|e] eqn:EI; [cbn [bind]; eauto|exfalso].
      apply (interp_raises _ _ _ (arr_shape _ d0 HD _ _) (arr_shape _ d0 HD _ _)) in EI as (_ & [Z0|(_ & q & _ & TR)]).
      - rewrite arr_cols, map_length, ES in Z0. discriminate.
      - destruct TR as (xs & t & p & _ & [FEW|(j & Hj & (k & EK) & NSl)]).
        + specialize (FEW 0%nat). rewrite arr_cols, map_length in FEW. assert (E0 : nth_error (selected index cs) 0 = Some c0) by (rewrite ES; reflexivity).
          rewrite (HS 0%nat c0 E0) in FEW. specialize (FEW ltac:(rewrite ES; cbn; lia)). destruct (GS' c0) as (_ & G2 & _); [rewrite ES; now left|]. lia.
        + rewrite arr_cols, map_length in Hj. destruct (nth_error (selected index cs) j) as [c|] eqn:Ec; [|apply nth_error_None in Ec; lia].
          rewrite (HS j c Ec) in EK, NSl. apply (NSl k EK). destruct (GS' c (nth_error_In _ _ Ec)) as (_ & _ & G3). apply G3, EK. }
    destruct EL as (lev & EL). exists lev. split; [exact EL|]. intros n Hn.
    assert (EX : exists boxes, find_25boxes (Fin l) (Fin la) (mc_boxes cfg) = Ok boxes).
    { eexists. apply boxes_ok; auto. intros k Hk. apply box_numbers_range in Hk. lia. }
    destruct EX as (boxes & EX). rewrite <- Hl, <- Hla in EX. pose proof (EB boxes EX) as ECS. clear EB. subst cs.
    rewrite Forall_forall in GC.
    destruct (whole_level seed rand g0 unstable_argsort inv np_interp sa_from_sp ct_from_pt t_from_ct interp2d tbase read_mat date_str cfg float_name Hinv large small HC NL NS sounds HU
      delta ex Hdelta Hex db Hdb other Hother H4 fd MP boxes EX l la da Hl Hla Hda Rl) with (pos := pos) (s := s) (i := i) (lev := lev) as (z & depths & index & HDs & HSr & W); auto.
    { intros c Hc. destruct (GC c Hc) as ((lo & lac & _ & E & _) & _). now exists lac. }
    set (cs := region_casts db (mc_db cfg) other boxes) in *. set (limit := nadd (nanmax (fd_pres fd)) (map_p_delta (mc_db cfg))) in *.
    assert (GS' : forall c, In c (selected index cs) -> good_cast limit c) by (intros c Hc; apply GC; eapply selected_sub; exact Hc).
    assert (HN : forall c, In c cs -> exists a, Spec_Fetchers.c_lat c = Fin a) by (intros c Hc; destruct (GC c Hc) as ((lo & lac & _ & E & _) & _); eauto).
    destruct (depths_numbers cs depths HDs) as (zs & EZs & LZ).
    destruct (search_finds seed rand g0 unstable_argsort HR HQ date_str cfg large small HC NL NS NA NP HM fd l la da Hla Hda pos z cs zs HN LZ NC) as (index' & i' & c & ES & Hi & Hc & HB).
    rewrite <- EZs, HSr in ES. apply ok_inj in ES. subst index'.
    destruct (selected index cs) as [|c0 rest] eqn:ESel.
    { exfalso. assert (In c (selected index cs)); [|rewrite ESel in *; contradiction]. unfold selected. apply filter_In. split; [now apply (numbered_in index cs i')|].
      apply (good_loadable _ c (GC c (nth_error_In _ _ Hc))). }
    specialize (W c0 rest eq_refl (good_levels _ _ (GS' c0 (or_introl eq_refl)))). cbv zeta in W.
    rewrite (filter_all (has_data limit) (c0 :: rest)) in W by (intros c' Hc'; apply good_data, GS', Hc').
    assert (NB3 := NB2 z depths index HDs HSr). rewrite ESel in NB3. specialize (W NB3).
    destruct (nth_error (fd_sal fd) n) as [xs|] eqn:Es; [|apply nth_error_None in Es; lia].
    destruct (nth_error (fd_ptmp fd) n) as [xt|] eqn:Et; [|apply nth_error_None in Et; lia].
    destruct (nth_error (fd_pres fd) n) as [xp|] eqn:Ep; [|apply nth_error_None in Ep; lia].
    specialize (W n xs xt xp Es Et Ep).
    assert (L : forall sv t p, xs = Fin sv -> xt = Fin t -> xp = Fin p -> ex <= p -> exists pts, level_points fd cs pos t p pts /\
        ((length pts <= 5)%nat -> lev n = Ok None) /\ ((5 < length pts)%nat -> exists o, lev n = Ok (Some o) /\ lo_points o <> [])).
    { intros sv t p -> -> -> GE. destruct W as [_ W2]. destruct (W2 GE) as (pts & HP & WF & WM). exists pts.
      assert (LPt : level_points fd cs pos t p pts) by (exists l, z, depths, index; rewrite ESel; auto).
      split; [exact LPt|]. split; [exact WF|]. intros GT. destruct (NN n t p pts) as (nv & HNv & Pnv); [split; [eauto|auto]|exact LPt|exact GT|].
      destruct (WM GT nv HNv Pnv) as (value & err & o & _ & EO & _ & _ & _ & _ & _ & turn & _ & EPt). exists o. split; [exact EO|]. rewrite EPt.
      destruct (Spec_MapLevel.kept pts) eqn:EK; [|discriminate]. destruct HNv as (nn & _ & ->). exfalso. cbn in Pnv. unfold mean_of, Rdiv in Pnv. cbn in Pnv. lra. }
    split.
    - destruct (Spec_Interp.complete xs xt xp) as [[[sv t] p]|] eqn:EC; [|left; exact W].
      destruct xs as [xs| | |], xt as [xt| | |], xp as [xp| | |]; try discriminate. cbn in EC. injection EC as <- <- <-.
      destruct (Rlt_le_dec xp ex) as [LT0|GE]; [destruct W as [W1 _]; left; now apply W1|]. destruct (L xs xt xp eq_refl eq_refl eq_refl GE) as (pts & _ & L1 & L2).
      destruct (Nat.le_gt_cases (length pts) 5) as [LE|GT]; [left; now apply L1|right; now apply L2].
    - intros t p ((sv & Es') & Et' & Ep' & GE). rewrite Es in Es'. rewrite Et in Et'. rewrite Ep in Ep'. injection Es' as ->. injection Et' as ->. injection Ep' as ->. eapply L; eauto.
  Qed.
End Completes.
