(* The historical casts of a profile and the mapping of its levels around Greenwich *)
From Coq Require Import String Ascii.
From Coq Require Import ZArith List Bool Reals Lra Lia.
From Verif Require Proofs_Saf.
From Verif Require Import Num Np NumFacts Utilities Finders Stats Wrangling Topo Fetchers Spec_Fetchers Saf Helper MapProfile Spec_MapLevel Spec_Utilities Spec_Seam
  Proofs_Utilities2 Proofs_Fetchers Proofs_Region Proofs_FetchersEx Proofs_MapProfile Proofs_Seam Proofs_Seam2 Proofs_Seam3.
Import Helper Stats Spec_Fetchers ListNotations.
Local Open Scope R_scope.
Notation fcast := Finders.cast.

Theorem differences l xs rs : 0 <= l < 360 -> Forall2 (recorded_as l) xs rs -> exists ws f,
  wrap_longitude (map Fin rs) = map Fin ws /\ wrap_float (map Fin ws) (Fin l) = Fin f /\ length ws = length xs /\
  (~ all_beyond xs xs <-> forall n, (n < length xs)%nat -> f - nth n ws 0 = l - nth n xs 0).
Proof.
  intros Hl HF. exists (wrapR rs), (floatR (wrapR rs) l). split; [apply wrap_R|]. split; [apply wrap_float_R|]. split.
  - assert (length xs = length rs) by (clear - HF; induction HF; cbn; congruence). unfold wrapR. destruct (seam rs); rewrite map_length; congruence.
  - now apply seam_differences.
Qed.

(* the recorded longitudes of located casts *)
Lemma located_records l pos cs : located l pos cs -> exists rs, map Spec_Fetchers.c_long cs = map Fin rs /\ Forall2 (recorded_as l) (map pos cs) rs.
Proof.
  induction cs as [|c cs IH]; intros H; [exists []; split; [reflexivity|constructor]|].
  destruct IH as (rs & E & F); [intros d Hd; apply H; now right|]. destruct (H c (or_introl eq_refl)) as (r & EC & HR).
  exists (r :: rs). cbn [map]. split; [now rewrite EC, E|constructor; assumption].
Qed.

Section Seam.
  Context {rng : Type}.
  Variable seed : Z -> rng.
  Variable rand : rng -> nat -> list XR * rng.
  Variable g0 : rng.
  Variable unstable_argsort : list XR -> list nat.
  Variable inv : nat -> (nat -> nat -> XR) -> res (nat -> nat -> XR).
  Variable np_interp : XR -> list XR -> list XR -> XR.
  Variable sa_from_sp : XR -> XR -> XR -> XR -> XR.
  Variable ct_from_pt : XR -> XR -> XR.
  Variable t_from_ct : XR -> XR -> XR -> XR.
  Variable interp2d : list XR -> list XR -> list (list Z) -> XR -> XR -> res XR.
  Variable tbase : binfile.
  Variable read_mat : string -> res (ref_data XR).
  Variable date_str : XR -> list ascii.
  Variable cfg : map_config XR.
  Variable float_name : string.
  Notation levels_of := (profile_levels seed rand g0 unstable_argsort inv np_interp sa_from_sp ct_from_pt t_from_ct interp2d tbase read_mat date_str cfg float_name).
  Notation history_of := (best_history seed rand g0 unstable_argsort np_interp sa_from_sp ct_from_pt t_from_ct interp2d tbase read_mat date_str cfg float_name).
  Variable db : database XR.
  Hypothesis Hdb : reads db read_mat.
  Variable other : string -> bool.
  Hypothesis Hother : excludes float_name other.
  Hypothesis H4 : four_columns (mc_boxes cfg).
  Variable fd : float_data XR.
  Hypothesis MP : mappable_profile fd.
  Variable boxes : list (list XR).
  Hypothesis EB : find_25boxes (fd_long fd) (fd_lat fd) (mc_boxes cfg) = Ok boxes.
  Variable l : R.
  Hypothesis Hlong : fd_long fd = Fin l.
  Hypothesis Hl : 0 <= l < 360.
  Notation cs := (region_casts db (mc_db cfg) other boxes).
  Notation limit := (nadd (nanmax (fd_pres fd)) (map_p_delta (mc_db cfg))).

  Notation offered := (offered date_str cs).
  Notation search := (search seed rand g0 unstable_argsort cfg fd).

  Lemma F4 : four_columns boxes.
  Proof. destruct MP as (ML & MA & _). intros row Hr. apply H4. now apply (boxes_rows _ _ _ _ EB ML MA). Qed.
  Lemma pres_some : fd_pres fd <> [].
  Proof. destruct MP as (_ & _ & i & Hi & _). intros E. rewrite E in Hi. cbn in Hi. lia. Qed.

  Lemma history_unfold z g : mc_use_saf cfg <> 1%Z -> history_of fd z = Ok g ->
    cs <> [] /\ exists gz index best, grid_depths interp2d tbase (wrap_longitude (map Spec_Fetchers.c_long cs)) (map Spec_Fetchers.c_lat cs) = Ok gz /\
      search (wrap_float (wrap_longitude (map Spec_Fetchers.c_long cs)) (fd_long fd)) z (offered (wrap_longitude (map Spec_Fetchers.c_long cs)) gz) = Ok index /\
      get_region_data read_mat date_str boxes float_name (mc_db cfg) index (fd_pres fd) = Ok best /\ index_array nnan gz index = Ok (gr_z g) /\
      gr_long g = Fetchers.o_long best.
  Proof.
    intros HU E. unfold best_history in E. rewrite EB in E. cbn [bind] in E.
    pose proof (locations db read_mat (mc_db cfg) float_name Hdb other Hother date_str boxes F4) as EL. cbv zeta in EL. rewrite EL in E. clear EL.
    destruct cs as [|c1 cr] eqn:EC; [discriminate|]. split; [discriminate|]. rewrite <- EC in *. cbn [bind] in E.
    destruct (grid_depths _ _ _ _) as [gz|] eqn:EZ; [|discriminate]. cbn [bind] in E.
    match type of E with bind ?t _ = _ => destruct t as [index|] eqn:EI; [|discriminate] end. cbn [bind] in E.
    destruct (get_region_data _ _ _ _ _ _ _) as [best|] eqn:ED; [|discriminate]. cbn [bind] in E.
    destruct (index_array nnan gz index) as [bz|] eqn:EX; [|discriminate]. cbn [bind] in E.
    destruct (Z.eqb_spec (mc_use_saf cfg) 1) as [C|_]; [contradiction|]. apply ok_inj in E. subst g. cbn [gr_z gr_lat gr_long].
    exists gz, index, best. repeat split; assumption.
  Qed.

  Lemma offered_alike off pos gz : 
    Forall2 (alike (Fin (l + off)) (Fin l)) (offered (map Fin (map (fun x => x + off) (map pos cs))) gz) (offered (map (fun c => Fin (pos c)) cs) gz).
  Proof.
    unfold Spec_Seam.offered. rewrite !map_map. generalize gz. induction cs as [|c r IH]; intros [|z0 zs]; cbn; try constructor.
    - repeat split. cbn. f_equal. lra.
    - apply IH.
  Qed.
  Lemma depths_search gz : grid_depths interp2d tbase (wrap_longitude (map Spec_Fetchers.c_long cs)) (map Spec_Fetchers.c_lat cs) = Ok gz -> depths_of interp2d cs gz.
  Proof.
    intros EZ.
    unfold grid_depths in EZ. destruct (elevation _ _ _ _ _ _ _) as [e0|] eqn:EE; [|discriminate]. cbn [bind] in EZ. apply ok_inj in EZ.
    unfold elevation in EE. destruct (get_topo_grid _ _ _ _ _) as [[[el x] y]|]; [|discriminate]. cbn [bind] in EE. subst gz.
    assert (LW : length (wrap_longitude (map Spec_Fetchers.c_long cs)) = length cs) by (rewrite wrap_length; apply map_length).
    set (places := combine (map tbase_long (wrap_longitude (map Spec_Fetchers.c_long cs))) (map Spec_Fetchers.c_lat cs)) in *.
    assert (LP : length places = length cs) by (unfold places; rewrite combine_length, !map_length; lia).
    assert (LE : length e0 = length cs).
    { rewrite <- LP. clear - EE. revert e0 EE. induction places as [|p r IH]; intros e0 EE; cbn [mapM] in EE; [apply ok_inj in EE; now subst|].
      destruct (interp2d _ _ _ _ _) as [v|]; [|discriminate]. cbn [bind] in EE. destruct (mapM _ r) as [vs|] eqn:EV; [|discriminate]. cbn [bind] in EE. apply ok_inj in EE. subst e0.
      cbn. f_equal. now apply IH. }
    split; [rewrite map_length; exact LE|]. exists (hd [] x), (map (hd nnan) y), el. intros i c Hc.
    assert (Hi : (i < length cs)%nat) by (apply nth_error_Some; congruence).
    pose proof (mapM_nth _ _ _ EE i (nnan, nnan) nnan ltac:(lia)) as EN. cbv beta in EN. exists (nth i e0 nnan). split.
    + rewrite <- EN. unfold places. rewrite combine_nth by (rewrite !map_length; lia). cbn [fst snd]. f_equal.
      * rewrite (nth_indep (map tbase_long _) nnan (tbase_long nnan)) by (rewrite map_length; lia). now rewrite map_nth.
      * rewrite (nth_indep (map Spec_Fetchers.c_lat _) nnan (Spec_Fetchers.c_lat c)) by (rewrite map_length; lia). rewrite map_nth. f_equal. symmetry. now apply nth_error_nth.
    + rewrite (nth_indep (map (nmul (nofZ (-1))) _) nnan (nmul (nofZ (-1)) nnan)) by (rewrite map_length; lia). now rewrite map_nth.
  Qed.
  Lemma search_seam z pos gz : located l pos cs -> ~ all_beyond (map pos cs) (map pos cs) ->
    search (wrap_float (wrap_longitude (map Spec_Fetchers.c_long cs)) (fd_long fd)) z (offered (wrap_longitude (map Spec_Fetchers.c_long cs)) gz) =
    search (Fin l) z (offered (map (fun c => Fin (pos c)) cs) gz).
  Proof.
    intros HL NB. destruct (located_records l pos cs HL) as (rs & ER & HF). destruct (seam_right l Hl _ rs HF _ (incl_refl _) NB) as (off & _ & EW & EF).
    rewrite ER, wrap_R, EW, Hlong, wrap_float_R, EF. unfold Spec_Seam.search. f_equal. apply besthist_shift; [reflexivity|]. apply offered_alike.
  Qed.
  (* the selection of the casts is that of the float and the casts at their true places *)
  Theorem selection_seam z g pos : mc_use_saf cfg <> 1%Z -> located l pos cs -> ~ all_beyond (map pos cs) (map pos cs) -> history_of fd z = Ok g ->
    exists depths index, depths_of interp2d cs depths /\ gr_z g = map (fun i => nth i depths nnan) index /\
      search (Fin l) z (offered (map (fun c => Fin (pos c)) cs) depths) = Ok index.
  Proof.
    intros HU HL NB E. destruct (history_unfold z g HU E) as (NE & gz & index & best & EZ & EI & ED & EX & _).
    exists gz, index. split; [exact (depths_search gz EZ)|]. split.
    - unfold index_array in EX. destruct (forallb _ index); [|discriminate]. apply ok_inj in EX. symmetry. exact EX.
    - rewrite <- EI. symmetry. now apply search_seam.
  Qed.

  (* ---- every cast on the other side ---- *)
  Theorem history_lost z g pos s : mc_long_large cfg = Fin s -> Rabs s <= 100 -> mc_use_saf cfg <> 1%Z -> located l pos cs -> none_near (map pos cs) ->
    history_of fd z <> Ok g.
  Proof.
    intros HS H100 HU HL NN E. destruct (history_unfold z g HU E) as (_ & gz & index & best & EZ & EI & ED & _).
    destruct (located_records l pos cs HL) as (rs & ER & HF). pose proof (seam_far l Hl _ rs HF NN) as FAR.
    assert (index = []).
    { rewrite ER, wrap_R, Hlong, wrap_float_R in EI. unfold Spec_Seam.search in EI. rewrite HS in EI. eapply besthist_far; [|exact EI]. intros c Hc. unfold Spec_Seam.offered in Hc.
      apply in_map_iff in Hc as (q & <- & Hq). cbn [Finders.c_long]. apply combine_in_l in Hq. apply combine_in_l in Hq. destruct q as [[[qa qo] qd] qz]. cbn in Hq |- *.
      apply in_combine_r in Hq. apply in_map_iff in Hq as (w & <- & Hw). exists w. split; [reflexivity|]. specialize (FAR w Hw). lra. }
    subst index. rewrite (data_none db read_mat (mc_db cfg) float_name Hdb other Hother date_str boxes F4 [] (fd_pres fd) pres_some) in ED; [discriminate|].
    unfold selected, numbered. cbn [existsb]. assert (EF : forall (A : Type) (k : list A), filter (fun _ => false) k = []) by (induction k; auto). now rewrite EF.
  Qed.

  (* ---- the levels ---- *)
  Theorem levels_seam s i lev pos : get_float_data s i = Ok fd -> mc_use_saf cfg <> 1%Z -> located l pos cs -> ~ all_beyond (map pos cs) (map pos cs) ->
    levels_of s i = Ok lev ->
    exists z g depths index interp, history_of fd z = Ok g /\ depths_of interp2d cs depths /\ gr_z g = map (fun i => nth i depths nnan) index /\
      search (Fin l) z (offered (map (fun c => Fin (pos c)) cs) depths) = Ok index /\
      interp_climatology (to_array2 (gr_sal g)) (to_array2 (gr_ptmp g)) (to_array2 (gr_pres g)) (combine (combine (fd_sal fd) (fd_ptmp fd)) (fd_pres fd)) = Ok interp /\
      forall c0 rest, selected index cs = c0 :: rest -> Spec_Fetchers.levels limit c0 <> [] ->
      let kept := filter (has_data limit) (selected index cs) in ~ all_beyond (map pos (selected index cs)) (map pos kept) ->
      forall n sal pres, nth_error (fd_sal fd) n = Some sal -> nth_error (fd_pres fd) n = Some pres -> nisnan sal = false -> nleb (mc_p_exclude cfg) pres = true ->
      same_outcome (lev n)
        (let* h := process_profile_hist_variables (map (fun c => Fin (pos c)) kept) (gr_lat g) (gr_dates g) (gr_z g) pres (nth n interp []) (mc_p_delta cfg) in
         map_level inv cfg (mkPoint (fd_lat fd) (Fin l) (fd_date fd) z) (nth n (fd_ptmp fd) nnan) h).
  Proof.
    intros EG HU HL NB E. unfold profile_levels in E. rewrite EG in E. cbn [bind] in E.
    assert (U : usable fd = true) by now apply usable_iff. rewrite U in E.
    destruct (elevation _ _ _ _ _ _ _) as [elev|]; [|discriminate]. cbn [bind] in E. set (z := nopp (hd nnan elev)) in *.
    destruct (history_of fd z) as [g|] eqn:EH; [|discriminate]. cbn [bind] in E.
    destruct (interp_climatology _ _ _ _) as [it|] eqn:EC; [|discriminate]. cbn [bind] in E. apply ok_inj in E.
    destruct (history_unfold z g HU EH) as (NE & gz & index & best & EZ & EI & ED & EX & ELong).
    exists z, g, gz, index, it. split; [exact EH|]. split; [exact (depths_search gz EZ)|].
    split. { unfold index_array in EX. destruct (forallb _ index); [|discriminate]. apply ok_inj in EX. symmetry. exact EX. }
    split. { rewrite <- EI. symmetry. now apply search_seam. }
    split; [exact EC|].
    intros c0 rest ESel HL0 kept NB2 n sal pres Es Ep Hs Hp. rewrite <- E. rewrite Es, Ep, Hs, Hp. cbn [negb andb].
    pose proof (data_selected db read_mat (mc_db cfg) float_name Hdb other Hother date_str boxes F4 index (fd_pres fd) pres_some c0 rest ESel HL0) as EDS. cbv zeta in EDS.
    rewrite EDS in ED. apply ok_inj in ED. rewrite <- ED in ELong. cbn [Fetchers.o_long] in ELong. clear EDS ED.
    assert (HLs : located l pos (selected index cs)).
    { intros c Hc. apply HL. unfold selected in Hc. apply filter_In in Hc as [Hc _]. unfold numbered in Hc. apply in_map_iff in Hc as (q & <- & Hq).
      apply filter_In in Hq as [Hq _]. destruct q as [k c']. now apply in_combine_r in Hq. }
    destruct (located_records l pos _ HLs) as (rs & ER & HF).
    assert (HK : incl (map pos kept) (map pos (selected index cs))) by (apply incl_map; intros c Hc; now apply filter_In in Hc).
    destruct (seam_right l Hl _ rs HF _ HK NB2) as (off & Hoff & EW & EF).
    assert (EGL : gr_long g = map (shift off) (map (fun c => Fin (pos c)) kept)).
    { rewrite ELong, ER, wrap_R, EW. unfold kept. clear. induction (selected index cs) as [|c r IH]; [reflexivity|]. cbn [map combine filter fst].
      destruct (has_data limit c); cbn [map snd]; [|exact IH]. f_equal. exact IH. }
    assert (EFL : wrap_float (gr_long g) (fd_long fd) = shift off (Fin l)).
    { rewrite EGL, Hlong. rewrite <- (map_map pos Fin), <- shift_fin. rewrite wrap_float_R, EF. reflexivity. }
    rewrite EFL, EGL, hist_shift. destruct (process_profile_hist_variables _ _ _ _ _ _ _) as [h|e]; [|reflexivity]. cbn [bind].
    change (mkPoint (fd_lat fd) (shift off (Fin l)) (fd_date fd) z) with (shift_point off (mkPoint (fd_lat fd) (Fin l) (fd_date fd) z)).
    rewrite level_shift. destruct (map_level _ _ _ _ h) as [[o|]|e]; cbn; auto 10. repeat split. exists off. split; [exact Hoff|reflexivity].
  Qed.
End Seam.
