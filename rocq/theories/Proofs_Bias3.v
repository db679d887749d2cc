(* A profile mapped from a database with a constant added to its salinities *)
From Coq Require Import String Ascii.
From Coq Require Import ZArith List Bool Reals Lra Lia.
From Verif Require Import Num NumFacts Np Utilities Finders Stats Wrangling Topo Fetchers Saf Helper MapProfile
  Spec_Stats Spec_FitCond Spec_Helper Spec_MapLevel Spec_Map Spec_Finders Proofs_Stats1 Proofs_MapLevel Proofs_Besthist Proofs_Utilities2 Spec_Bias Proofs_Bias Proofs_Bias2.
Import Helper ListNotations.
Local Open Scope nat_scope.

Lemma Ok_eq {A} (a b : A) : Ok a = Ok b -> a = b.
Proof. congruence. Qed.
(* the pressures of the points are not used *)
Lemma map_level_pres inv cfg (g : point XR) t h p :
  map_level inv cfg g t (mkHist (h_sal h) p (h_long h) (h_lat h) (h_dates h) (h_z h)) = map_level inv cfg g t h.
Proof.
  unfold map_level. cbn [h_sal]. destruct (Nat.ltb 5 _); [|reflexivity]. destruct (outliers _) as [o|]; [|reflexivity]. cbn [bind]. now destruct o.
Qed.
Lemma map_level_none inv cfg (g : point XR) t h : map_level inv cfg g t h = Ok None <-> length (h_sal h) <= 5.
Proof.
  unfold map_level. destruct (Nat.ltb_spec 5 (length (h_sal h))) as [H|H]; [|split; auto]. split; [|lia]. intros E. exfalso. revert E.
  destruct (outliers _) as [?ol|]; [|discriminate]. cbn [bind]. destruct (noise_variance _) as [?nz|]; [|discriminate]. cbn [bind]. destruct (signal_variance _) as [?sv|]; [|discriminate]. cbn [bind].
  destruct (map_data_grid _ _ _ _ _ _ _ _ _ _) as [[[[a b] d] e]|]; [|discriminate]. cbn [bind]. destruct (signal_variance _) as [?sv|]; [|discriminate]. cbn [bind].
  destruct (map_data_grid _ _ _ _ _ _ _ _ _ _) as [[[[a' b'] d'] e']|]; [|discriminate]. discriminate.
Qed.

Lemma noise_number l : l <> [] -> exists nv, noise_variance (map fstation (map observed l)) = Ok (Fin nv).
Proof.
  intros Hl. destruct (noise_value (map observed l)) as [A B]. destruct (Classical_Prop.classic (all_same (map observed l))) as [C|C]; [exists 0%R; auto|].
  destruct (B C) as (nn & HN & E). rewrite E. cbv zeta. destruct (somes _) as [|x ds] eqn:ES; [|eexists; reflexivity]. exfalso.
  assert (LL : length (map observed l) = length l) by apply map_length. remember (map observed l) as L eqn:EL.
  assert (H0 : 0 < length l) by (destruct l; [congruence|cbn; lia]). destruct (HN 0 ltac:(lia)) as (HJ & _).
  destruct (length L) as [|k] eqn:EK; [lia|]. cbn [seq map somes] in ES. rewrite EL in ES. rewrite !(nth_map observed _ _ dstation dhpoint) in ES by lia.
  discriminate.
Qed.
Lemma level_noise_number inv cfg (g : point R) t l o : map_level inv cfg (fpoint g) t (hist_of (map known l)) = Ok (Some o) -> number (lo_noise o).
Proof.
  intros E. assert (H5 : 5 < length l).
  { destruct (Nat.lt_ge_cases 5 (length l)) as [C|C]; [exact C|]. rewrite (level_few inv cfg g t l C) in E. discriminate. }
  assert (Hl : l <> []) by (destruct l; [cbn in H5; lia|discriminate]).
  destruct (removed l Hl) as (idx & EO & ER & HK). unfold map_level in E. destruct (hist_of_known l) as (S1 & _). rewrite S1, !map_length in E.
  rewrite (proj2 (Nat.ltb_lt 5 (length l)) H5) in E. cbv iota in E. rewrite EO in E. cbn [bind] in E. rewrite ER in E.
  destruct (hist_of_known (Spec_MapLevel.kept l)) as (_ & O2 & _ & _). rewrite O2 in E.
  destruct (noise_number (Spec_MapLevel.kept l) HK) as (nv & EN). rewrite EN in E. cbn [bind] in E. destruct (signal_variance _) as [?sv|]; [|discriminate]. cbn [bind] in E.
  destruct (map_data_grid _ _ _ _ _ _ _ _ _ _) as [[[[a b] d] e]|]; [|discriminate]. cbn [bind] in E. destruct (signal_variance _) as [?sv|]; [|discriminate]. cbn [bind] in E.
  destruct (map_data_grid _ _ _ _ _ _ _ _ _ _) as [[[[a' b'] d'] e']|]; [|discriminate]. cbn [bind] in E.
  exists nv. injection E as <-. reflexivity.
Qed.
Lemma level_noise_fin inv cfg (g : point R) t nz h o : hist_numbers nz h -> map_level inv cfg (fpoint g) t h = Ok (Some o) -> number (lo_noise o).
Proof.
  intros (l & E1 & E2 & E3 & E4 & E5 & _) E. rewrite <- (map_level_pres inv cfg (fpoint g) t h (map (fun q => Fin (hp_pres q)) l)) in E. rewrite E1, E2, E3, E4, E5 in E.
  apply (level_noise_number inv cfg g t l o). rewrite <- E. f_equal. unfold hist_of. now rewrite !map_map.
Qed.

Section Level.
  Variable inv : nat -> (nat -> nat -> XR) -> res (nat -> nat -> XR).
  Hypothesis Hinv : inv_ok inv.
  Variable cfg : map_config XR.
  Variables large small : scales.
  Hypothesis HC : config_scales cfg large small.
  Hypothesis NL : scales_nonzero large.
  Hypothesis NS : scales_nonzero small.
  Variable c : R.

  Lemma level_noise g t l o nv : map_level inv cfg (fpoint g) t (hist_of (map known l)) = Ok (Some o) -> lo_noise o = Fin nv ->
    5 < length l /\ noise_variance (map fstation (map observed (Spec_MapLevel.kept l))) = Ok (Fin nv).
  Proof.
    intros E EN. assert (H5 : 5 < length l).
    { destruct (Nat.lt_ge_cases 5 (length l)) as [C|C]; [exact C|]. rewrite (level_few inv cfg g t l C) in E. discriminate. }
    split; [exact H5|]. assert (Hl : l <> []) by (destruct l; [cbn in H5; lia|discriminate]).
    destruct (removed l Hl) as (idx & EO & ER & HK). unfold map_level in E. destruct (hist_of_known l) as (S1 & _). rewrite S1, !map_length in E.
    rewrite (proj2 (Nat.ltb_lt 5 (length l)) H5) in E. cbv iota in E. rewrite EO in E. cbn [bind] in E. rewrite ER in E.
    destruct (hist_of_known (Spec_MapLevel.kept l)) as (_ & O2 & _ & _). rewrite O2 in E.
    destruct (noise_variance _) as [nz|]; [|discriminate]. cbn [bind] in E. destruct (signal_variance _) as [?sv|]; [|discriminate]. cbn [bind] in E.
    destruct (map_data_grid _ _ _ _ _ _ _ _ _ _) as [[[[a b] d] e]|]; [|discriminate]. cbn [bind] in E. destruct (signal_variance _) as [?sv|]; [|discriminate]. cbn [bind] in E.
    destruct (map_data_grid _ _ _ _ _ _ _ _ _ _) as [[[[a' b'] d'] e']|]; [|discriminate]. cbn [bind] in E.
    assert (EO2 : lo_noise o = nz) by (injection E as <-; reflexivity). congruence.
  Qed.

  Theorem level_raised g t h o nv : (s_pv large = true -> p_z g <> 0%R) -> hist_numbers (s_pv large) h ->
    map_level inv cfg (fpoint g) t h = Ok (Some o) -> lo_noise o = Fin nv -> (0 < nv)%R ->
    map_level inv cfg (fpoint g) t (raised_hist c h) = Ok (Some (raised_level c o)) /\ number (lo_sal o).
  Proof.
    intros HZ (l & E1 & E2 & E3 & E4 & E5 & NZ & LP) E EN Hn.
    assert (EH : forall p, map_level inv cfg (fpoint g) t h = map_level inv cfg (fpoint g) t (mkHist (h_sal h) p (h_long h) (h_lat h) (h_dates h) (h_z h)))
      by (intros p; symmetry; apply map_level_pres).
    rewrite (EH (map (fun q => Fin (hp_pres q)) l)) in E. rewrite E1, E2, E3, E4, E5 in E.
    assert (K : mkHist (map (fun q : hpoint R => Fin (hp_sal q)) l) (map (fun q => Fin (hp_pres q)) l) (map (fun q => Fin (hp_long q)) l)
                       (map (fun q => Fin (hp_lat q)) l) (map (fun q => Fin (hp_date q)) l) (map (fun q => Fin (hp_z q)) l) = hist_of (map known l))
      by (unfold hist_of; now rewrite !map_map).
    rewrite K in E. destruct (level_noise g t l o nv E EN) as [H5 EV].
    assert (HD : has_depth large (g :: map place l)).
    { intros P p [<-|Hp]; [now apply HZ|]. apply in_map_iff in Hp as (q & <- & Hq). now apply NZ. }
    destruct (level_shift inv cfg large small g t l nv c Hinv HC NL NS HD H5 EV Hn) as (v & err & sg & pts & EA & EB).
    rewrite EA in E. assert (EO : mkLevelOut t (Fin v) (Fin err) (Fin nv) sg pts = o) by congruence. subst o. split; [|now exists v].
    rewrite <- (map_level_pres inv cfg (fpoint g) t (raised_hist c h) (map (fun q => Fin (hp_pres q)) l)).
    unfold raised_hist. cbn [h_sal h_pres h_long h_lat h_dates h_z]. rewrite E1, E2, E3, E4, E5, map_map.
    assert (K' : mkHist (map (fun q : hpoint R => raised c (Fin (hp_sal q))) l) (map (fun q => Fin (hp_pres q)) l) (map (fun q => Fin (hp_long q)) l)
                       (map (fun q => Fin (hp_lat q)) l) (map (fun q => Fin (hp_date q)) l) (map (fun q => Fin (hp_z q)) l) = hist_of (map known (map (shifted c) l)))
      by (unfold hist_of; now rewrite !map_map).
    rewrite K'. exact EB.
  Qed.
End Level.

Lemma numbers_list l : Forall number l <-> exists rs, l = map Fin rs.
Proof.
  split.
  - induction 1 as [|x l (r & ->) F (rs & ->)]; [now exists []|now exists (r :: rs)].
  - intros (rs & ->). apply Forall_forall. intros x Hx. apply in_map_iff in Hx as (r & <- & _). now exists r.
Qed.
Lemma wrap_numbers l : Forall number l -> Forall number (wrap_longitude l).
Proof. intros F. apply numbers_list in F as (rs & ->). apply numbers_list. eexists. apply wrap_R. Qed.
Lemma cal2dec_number m d h i v : @cal2dec XR _ m d h i = Ok v -> number v.
Proof.
  unfold cal2dec. destruct (py_index _ m) as [k|]; [|discriminate].
  change (nofZ h) with (Fin (IZR h)). change (nofZ i) with (Fin (IZR i)). change (@nofZ XR _ 24) with (Fin 24). change (@nofZ XR _ 60) with (Fin 60).
  rewrite !ndiv_fin by lra. cbv zeta. destruct (nltb _ _); [discriminate|]. intros E. injection E as <-. eexists. reflexivity.
Qed.
Lemma change_date_number s : number (change_date s).
Proof.
  unfold change_date. repeat match goal with |- context [match py_int ?x with Some _ => _ | None => _ end] => destruct (py_int x); [|now exists 0%R] end.
  destruct (if (9 <? length s)%nat then _ else _); [|now exists 0%R]. destruct (if (11 <? length s)%nat then _ else _); [|now exists 0%R].
  destruct (_ && _)%bool; [|now exists 0%R]. destruct (cal2dec _ _ _ _) as [d|] eqn:E; [|now exists 0%R].
  apply cal2dec_number in E as (r & ->). change (@nofZ XR _ 365) with (Fin 365). rewrite ndiv_fin by lra. eexists. reflexivity.
Qed.

Section Profile.
  Context {rng : Type}.
  Variable seed : Z -> rng.
  Variable rand : rng -> nat -> list XR * rng.
  Variable g0 : rng.
  Variable unstable_argsort : list XR -> list nat.
  Variable inv : nat -> (nat -> nat -> XR) -> res (nat -> nat -> XR).
  Variable np_interp : XR -> list XR -> list XR -> XR.
  Variable sa_from_sp : XR -> XR -> XR -> XR -> XR.
  Variable ct_from_pt : XR -> XR -> XR.
  Variable t_from_ct : XR -> XR -> XR -> XR.
  Variable interp2d : list XR -> list XR -> list (list Z) -> XR -> XR -> res XR.
  Variable tbase : binfile.
  Variable read_mat : string -> res (ref_data XR).
  Variable date_str : XR -> list ascii.
  Variable cfg : map_config XR.
  Variable float_name : string.
  Notation levels_of rm := (profile_levels seed rand g0 unstable_argsort inv np_interp sa_from_sp ct_from_pt t_from_ct interp2d tbase rm date_str cfg float_name).
  Notation history_of rm := (best_history seed rand g0 unstable_argsort np_interp sa_from_sp ct_from_pt t_from_ct interp2d tbase rm date_str cfg float_name).

  Hypothesis Hinv : inv_ok inv.
  Variables large small : scales.
  Hypothesis HC : config_scales cfg large small.
  Hypothesis NL : scales_nonzero large.
  Hypothesis NS : scales_nonzero small.
  Hypothesis Hsaf : mc_use_saf cfg <> 1%Z.
  Hypothesis Hpos : positions_known read_mat.
  Hypothesis Hsnd : soundings interp2d (s_pv large).
  Variable c : R.

  Definition raised_grid (g : grid XR) : grid XR :=
    mkGrid (map (map (raised c)) (gr_sal g)) (gr_ptmp g) (gr_pres g) (gr_lat g) (gr_long g) (gr_dates g) (gr_z g).

  Theorem history_raised fd z : history_of (biased_database c read_mat) fd z
    = match history_of read_mat fd z with Ok g => Ok (raised_grid g) | Raise e => Raise e end.
  Proof.
    unfold best_history. destruct (find_25boxes _ _ _) as [boxes|]; [|reflexivity]. cbn [bind].
    change (biased_database c read_mat) with (fread (raised c) read_mat). rewrite locations_f.
    destruct (get_region_hist_locations _ _ _ _ _) as [[[la lo] da]|]; [|reflexivity]. cbn [bind].
    destruct (grid_depths _ _ _ _) as [gz|]; [|reflexivity]. cbn [bind]. destruct (fst (find_besthist _ _ _ _ _ _ _ _ _ _ _ _ _ _ _ _ _ _ _)) as [index|]; [|reflexivity]. cbn [bind].
    rewrite (region_f (N := XR_Num) (raised c) (raised_nan c) (raised_isnan c)).
    destruct (get_region_data _ _ _ _ _ _ _) as [best|]; [|reflexivity]. cbn [bind]. destruct (index_array _ gz index) as [bz|]; [|reflexivity]. cbn [bind].
    destruct (Z.eqb_spec (mc_use_saf cfg) 1) as [C|_]; [contradiction|]. reflexivity.
  Qed.

  Notation deep := (fun x => exists r, x = Fin r /\ (s_pv large = true -> r <> 0%R)).
  Lemma elevation_deep lo1 lo2 la1 la2 places z : elevation interp2d tbase lo1 lo2 la1 la2 places = Ok z -> Forall deep z /\ length z = length places.
  Proof.
    unfold elevation. destruct (get_topo_grid _ _ _ _ _) as [[[el x] y]|]; [|discriminate]. cbn [bind]. intros E. split.
    - apply Forall_forall. intros v Hv. destruct (mapM_in _ _ _ E v Hv) as (p & _ & EV). exact (Hsnd _ _ _ _ _ _ EV).
    - revert z E. induction places as [|p ps IH]; intros z E; cbn in E; [now injection E as <-|].
      destruct (interp2d _ _ _ _ _); [|discriminate]. cbn in E. destruct (mapM _ ps) as [zs|]; [|discriminate]. cbn in E. injection E as <-. cbn. f_equal. now apply IH.
  Qed.
  Theorem history_known fd z g : history_of read_mat fd z = Ok g ->
    Forall number (gr_long g) /\ Forall number (gr_lat g) /\ Forall number (gr_dates g) /\ Forall deep (gr_z g).
  Proof.
    unfold best_history. destruct (find_25boxes _ _ _) as [boxes|]; [|discriminate]. cbn [bind].
    destruct (get_region_hist_locations _ _ _ _ _) as [[[la lo] da]|]; [|discriminate]. cbn [bind].
    destruct (grid_depths _ _ _ _) as [gz|] eqn:EZ; [|discriminate]. cbn [bind]. destruct (fst (find_besthist _ _ _ _ _ _ _ _ _ _ _ _ _ _ _ _ _ _ _)) as [index|]; [|discriminate]. cbn [bind].
    destruct (get_region_data _ _ _ _ _ _ _) as [best|] eqn:EB; [|discriminate]. cbn [bind]. destruct (index_array _ gz index) as [bz|] eqn:EI; [|discriminate]. cbn [bind].
    destruct (Z.eqb_spec (mc_use_saf cfg) 1) as [C|_]; [contradiction|]. intros E. injection E as <-. cbn [gr_long gr_lat gr_dates gr_z].
    assert (HF : forall path d, read_mat path = Ok d -> file_all number d).
    { intros path d ER. destruct (Hpos path d ER) as [A B]. split; [destruct (d_lat d)|destruct (d_long d)]; cbn in *; [now inversion A|exact A|now inversion B|exact B]. }
    destruct (region_positions (N := XR_Num) read_mat date_str number HF number boxes float_name (mc_db cfg) index (fd_pres fd) best wrap_numbers EB) as [FA FB].
    split; [exact FB|]. split; [exact FA|]. split; [exact (region_dates (N := XR_Num) read_mat date_str number boxes float_name (mc_db cfg) index (fd_pres fd) best change_date_number EB)|].
      assert (FZ : Forall deep gz).
      { unfold grid_depths in EZ. destruct (elevation _ _ _ _ _ _ _) as [zz|] eqn:EE; [|discriminate]. cbn [bind] in EZ. injection EZ as <-.
        apply elevation_deep in EE as [FE _]. apply Forall_forall. intros x Hx. apply in_map_iff in Hx as (y & <- & Hy).
        rewrite Forall_forall in FE. destruct (FE y Hy) as (r & -> & Hr). exists (-1 * r)%R. split; [reflexivity|]. intros P. specialize (Hr P). lra. }
      destruct (index_numbers _ _ _ _ FZ EI) as [F _]. exact F.
  Qed.

  Theorem profile_raised s i : float_known s ->
    (forall e, levels_of read_mat s i = Raise e -> levels_of (biased_database c read_mat) s i = Raise e) /\
    (forall lev, levels_of read_mat s i = Ok lev -> exists lev', levels_of (biased_database c read_mat) s i = Ok lev' /\
       forall n, same_level c (lev n) (lev' n)).
  Proof.
    intros HF. unfold profile_levels. destruct (get_float_data s i) as [fd|] eqn:EF; cbn [bind]; [|split; [auto|discriminate]].
    destruct (HF i fd EF) as ((la & ELA) & (lo & ELO) & (da & EDA)).
    destruct (MapProfile.usable fd); cycle 1.
    { split; [discriminate|]. intros lev E. injection E as <-. eexists. split; [reflexivity|]. intros n. split; [tauto|split; discriminate]. }
    destruct (elevation _ _ _ _ _ _ _) as [elev|] eqn:EE; cbn [bind]; [|split; [auto|discriminate]].
    apply elevation_deep in EE as [FE LE]. cbn [length] in LE. destruct elev as [|fz [|? ?]]; try discriminate. cbn [hd].
    inversion FE as [|? ? (z & -> & HZ) _]; subst. clear FE LE. change (nopp (Fin z)) with (Fin (- z)%R).
    rewrite history_raised. destruct (history_of read_mat fd (Fin (- z))) as [g|] eqn:EH; cbn [bind]; [|split; [auto|discriminate]].
    destruct (history_known fd (Fin (- z)) g EH) as (F1 & F2 & F3 & F4). unfold raised_grid. cbn [gr_sal gr_ptmp gr_pres gr_lat gr_long gr_dates gr_z].
    rewrite (interp_f c). destruct (interp_climatology _ _ _ _) as [it|] eqn:EI; cbn [bind]; [|split; [auto|discriminate]].
    split; [discriminate|]. intros lev E. apply Ok_eq in E. subst lev. eexists. split; [reflexivity|]. intros n. cbv beta.
    destruct (nth_error (fd_sal fd) n) as [sl|]; [|split; [split; discriminate|split; discriminate]].
    destruct (nth_error (fd_pres fd) n) as [pr|]; [|split; [split; discriminate|split; discriminate]].
    destruct (negb (nisnan sl) && _)%bool; [|split; [tauto|split; discriminate]].
    assert (EN : nth n (map (map (g2 c)) it) [] = map (g2 c) (nth n it [])) by exact (map_nth (map (g2 c)) it [] n).
    rewrite EN, window_f. destruct (process_profile_hist_variables _ _ _ _ _ _ _) as [h|] eqn:EP; cbn [bind]; [|split; [split; discriminate|split; discriminate]].
    assert (HN : hist_numbers (s_pv large) h).
    { apply (window_numbers _ _ _ _ _ _ _ _ _ F1 F2 F3 F4) with (2 := EP). intros q Hq.
      destruct (Nat.lt_ge_cases n (length it)) as [L|L]; [|rewrite nth_overflow in Hq by exact L; destruct Hq].
      apply (interp_clean _ _ _ _ _ EI (nth n it [])); [now apply nth_In|exact Hq]. }
    assert (EW : exists w, wrap_float (gr_long g) (fd_long fd) = Fin w).
    { unfold wrap_float. rewrite ELO. destruct (_ && _)%bool; eexists; reflexivity. }
    destruct EW as (w & EW). rewrite EW, ELA, EDA.
    change (mkPoint (Fin la) (Fin w) (Fin da) (Fin (- z)%R)) with (fpoint (mkPoint la w da (- z)%R)).
    split; [|split].
    - rewrite !map_level_none. unfold raised_hist. cbn [h_sal]. now rewrite map_length.
    - intros o E. exact (level_noise_fin _ _ _ _ _ _ _ HN E).
    - intros o nv E EV Hv. apply (level_raised inv Hinv cfg large small HC NL NS c _ _ h o nv); auto. cbn [p_z]. intros P. specialize (HZ P). lra.
  Qed.
End Profile.
