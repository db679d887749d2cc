From Coq Require Import String Ascii.
From Coq Require Import ZArith List Bool Lia FunctionalExtensionality.
From Verif Require Import Num Np NpFacts Utilities Finders Stats Topo Fetchers Saf Helper MapProfile Mapping Wrangling Spec_Quota Proofs_Own.
Import ListNotations.
Local Open Scope num_scope.

Lemma vectorize_mapM {A B} (f : A -> res B) l r : vectorize f l = Ok r -> mapM f l = Ok r.
Proof. unfold vectorize. destruct l; [discriminate|auto]. Qed.
Lemma mapM_filter {A B} (f : A -> res B) (p : B -> bool) l r : mapM f l = Ok r ->
  length (filter p r) = length (filter (fun a => match f a with Ok b => p b | Raise _ => false end) l).
Proof.
  revert r. induction l as [|a l IH]; intros r E; cbn [mapM] in E; [injection E as <-; reflexivity|].
  destruct (f a) as [b|] eqn:Ea; [|discriminate]. cbn [bind] in E. destruct (mapM f l) as [q|] eqn:El; [|discriminate]. cbn [bind] in E. injection E as <-.
  cbn [filter]. rewrite Ea. destruct (p b); cbn; now rewrite (IH q eq_refl).
Qed.
Lemma filter_ext_len {A} (p q : A -> bool) l : (forall a, In a l -> p a = q a) -> length (filter p l) = length (filter q l).
Proof. intros E. f_equal. induction l as [|a l IH]; [reflexivity|]. cbn. rewrite (E a (or_introl eq_refl)). rewrite IH; [reflexivity|]. intros b Hb. apply E. now right. Qed.

Section Quota.
  Context {T : Type} `{N : Num T} `{NT : NumT T}.
  Variable np_interp : T -> list T -> list T -> T.
  Variable sa_from_sp : T -> T -> T -> T -> T.
  Variable ct_from_pt : T -> T -> T.
  Variable t_from_ct : T -> T -> T -> T.
  Variable interp2d : list T -> list T -> list (list Z) -> T -> T -> res T.
  Variable tbase : binfile.
  Variable read_mat : string -> res (ref_data T).
  Variable date_str : T -> list ascii.
  Variable cfg : map_config T.
  Variable float_name : string.
  Variable inv : nat -> (nat -> nat -> T) -> res (nat -> nat -> T).

  (* with the quota not reached the search is the ellipse *)
  Definition only_ellipse (fd : float_data T) (long z : T) (casts : list (cast T)) : res (list nat) :=
    match ellipse_index (fd_lat fd) long z (mc_lat_large cfg) (mc_long_large cfg) (mc_phi_large cfg) (mc_use_pv cfg) casts with
    | Ok (_, ie) => Ok ie | Raise e => Raise e end.
  Notation search seed rand qs g0 m fd long z casts :=
    (fst (find_besthist seed rand qs (fd_lat fd) long (fd_date fd) z (mc_lat_large cfg) (mc_lat_small cfg) (mc_long_large cfg) (mc_long_small cfg)
       (mc_phi_large cfg) (mc_phi_small cfg) (mc_age_large cfg) (mc_age_small cfg) (mc_use_pv cfg) casts m g0)).
  Notation to_casts las longs das zs := (map (fun q => mkCast (fst (fst (fst q))) (snd (fst (fst q))) (snd (fst q)) (snd q)) (combine (combine (combine las longs) das) zs)).

  Lemma ellipse_count fd long z casts pvf ie :
    ellipse_index (fd_lat fd) long z (mc_lat_large cfg) (mc_long_large cfg) (mc_phi_large cfg) (mc_use_pv cfg) casts = Ok (pvf, ie) ->
    length ie = length (filter (fun c => in_reach cfg fd long z (c_lat c, c_long c, c_z c)) casts).
  Proof.
    unfold ellipse_index. intros E. destruct (pv_float _ _ _) as [pf|] eqn:EF; [|discriminate]. cbn [bind] in E.
    destruct (pv_casts _ casts) as [pvh|] eqn:EP; [|discriminate]. cbn [bind] in E. destruct (vectorize _ _) as [el|] eqn:EV; [|discriminate]. cbn [bind] in E.
    injection E as <- <-. rewrite argwhere_length. rewrite (mapM_filter _ (fun e => e <? 1) _ _ (vectorize_mapM _ _ _ EV)). clear EV el.
    assert (VF : vorticity cfg (fd_lat fd) z = Ok pf). { unfold vorticity. unfold pv_float, use_pv in EF. exact EF. }
    assert (VC : exists pv, (forall c, In c casts -> vorticity cfg (c_lat c) (c_z c) = Ok (pv c)) /\ pvh = map pv casts).
    { unfold pv_casts, use_pv in EP. unfold vorticity. destruct (Z.eqb (mc_use_pv cfg) 1).
      - apply vectorize_mapM in EP. exists (fun c => match potential_vorticity (c_lat c) (c_z c) with Ok v => v | Raise _ => nnan end).
        clear VF EF. revert pvh EP. induction casts as [|c l IH]; intros pvh EP; cbn [mapM] in EP; [injection EP as <-; now split|].
        destruct (potential_vorticity (c_lat c) (c_z c)) as [v|] eqn:Ev; [|discriminate]. cbn [bind] in EP. destruct (mapM _ l) as [q|] eqn:Eq; [|discriminate]. cbn [bind] in EP. injection EP as <-.
        destruct (IH q eq_refl) as [A1 A2]. split.
        + intros c' [<-|Hc']; [now rewrite Ev|now apply A1].
        + cbn [map]. rewrite Ev. now f_equal.
      - injection EP as <-. exists (fun _ => 0). split; [reflexivity|reflexivity]. }
    destruct VC as (pv & VC & ->). clear EP EF.
    assert (EC : combine casts (map pv casts) = map (fun c => (c, pv c)) casts) by (clear; induction casts; cbn; congruence). rewrite EC.
    assert (FM : forall (A B : Type) (f : A -> B) (p : B -> bool) l, length (filter p (map f l)) = length (filter (fun a => p (f a)) l)).
    { intros A B f p l. induction l as [|a l IH]; [reflexivity|]. cbn. destruct (p (f a)); cbn; congruence. }
    rewrite FM. apply filter_ext_len. intros c Hc. cbn [fst snd]. unfold in_reach. now rewrite VF, (VC c Hc).
  Qed.

  Lemma search_only {rng} (seed : Z -> rng) rand qs g0 m fd long z casts :
    (Z.of_nat (length (filter (fun c => in_reach cfg fd long z (c_lat c, c_long c, c_z c)) casts)) <= m)%Z ->
    search seed rand qs g0 m fd long z casts = only_ellipse fd long z casts.
  Proof.
    intros Hm. unfold find_besthist, only_ellipse. destruct (ellipse_index _ _ _ _ _ _ _ _) as [[pvf ie]|e] eqn:EI; [|reflexivity].
    apply ellipse_count in EI. rewrite EI. destruct (Z.ltb_spec m (Z.of_nat (length (filter (fun c => in_reach cfg fd long z (c_lat c, c_long c, c_z c)) casts)))); [lia|reflexivity].
  Qed.
  Lemma casts_count (las longs das zs : list T) (p : T * T * T -> bool) :
    length (filter (fun c => p (c_lat c, c_long c, c_z c)) (to_casts las longs das zs)) <= length (filter p (combine (combine las longs) zs)).
  Proof.
    revert longs das zs. induction las as [|a las IH]; intros longs das zs; [cbn; lia|]. destruct longs as [|b longs]; [cbn; lia|].
    destruct das as [|d das]; [cbn; lia|]. destruct zs as [|z zs]; [cbn; lia|]. cbn. destruct (p (a, b, z)); cbn; specialize (IH longs das zs); lia.
  Qed.
End Quota.

Section Runs.
  Context {T : Type} `{N : Num T} `{NT : NumT T}.
  Variable np_interp : T -> list T -> list T -> T.
  Variable sa_from_sp : T -> T -> T -> T -> T.
  Variable ct_from_pt : T -> T -> T.
  Variable t_from_ct : T -> T -> T -> T.
  Variable interp2d : list T -> list T -> list (list Z) -> T -> T -> res T.
  Variable tbase : binfile.
  Variable read_mat : string -> res (ref_data T).
  Variable date_str : T -> list ascii.
  Variable cfg : map_config T.
  Variable float_name : string.
  Variable inv : nat -> (nat -> nat -> T) -> res (nat -> nat -> T).
  Context {rng rng' : Type}.
  Variables (seed : Z -> rng) (rand : rng -> nat -> list T * rng) (g0 : rng) (qs : list T -> list nat).
  Variables (seed' : Z -> rng') (rand' : rng' -> nat -> list T * rng') (g0' : rng') (qs' : list T -> list nat).
  Notation at_most := (at_most interp2d tbase read_mat date_str cfg float_name).
  Notation levels_of := (profile_levels seed rand g0 qs inv np_interp sa_from_sp ct_from_pt t_from_ct interp2d tbase read_mat date_str cfg float_name).
  Notation levels_of' m := (profile_levels seed' rand' g0' qs' inv np_interp sa_from_sp ct_from_pt t_from_ct interp2d tbase read_mat date_str (with_quota m cfg) float_name).

  Theorem profile_quota s i m : (forall fd, get_float_data s i = Ok fd -> at_most (mc_max_casts cfg) fd /\ at_most m fd) -> levels_of' m s i = levels_of s i.
  Proof.
    intros HQ. unfold profile_levels. destruct (get_float_data s i) as [fd|]; [|reflexivity]. destruct (HQ fd eq_refl) as [Q1 Q2]. clear HQ. cbn [bind].
    destruct (MapProfile.usable fd); [|reflexivity]. destruct (elevation _ _ _ _ _ _ _) as [el|] eqn:EE; [|reflexivity]. cbn [bind].
    assert (EB : best_history seed' rand' g0' qs' np_interp sa_from_sp ct_from_pt t_from_ct interp2d tbase read_mat date_str (with_quota m cfg) float_name fd (nopp (hd nnan el))
      = best_history seed rand g0 qs np_interp sa_from_sp ct_from_pt t_from_ct interp2d tbase read_mat date_str cfg float_name fd (nopp (hd nnan el))).
    { unfold best_history. change (mc_boxes (with_quota m cfg)) with (mc_boxes cfg). destruct (find_25boxes _ _ _) as [boxes|] eqn:E25; [|reflexivity]. cbn [bind].
      change (mc_db (with_quota m cfg)) with (mc_db cfg). destruct (get_region_hist_locations _ _ _ _ _) as [[[las longs] das]|] eqn:EL; [|reflexivity]. cbn [bind].
      destruct (grid_depths _ _ _ _) as [zs|] eqn:ED; [|reflexivity]. cbn [bind].
      specialize (Q1 boxes las longs das zs el E25 EL ED EE). specialize (Q2 boxes las longs das zs el E25 EL ED EE).
      pose proof (casts_count las longs das zs (in_reach cfg fd (wrap_float longs (fd_long fd)) (nopp (hd nnan el)))) as CC.
      set (casts := map _ (combine (combine (combine las longs) das) zs)) in *.
      change (mc_max_casts (with_quota m cfg)) with m.
      pose proof (search_only cfg seed rand qs g0 (mc_max_casts cfg) fd (wrap_float longs (fd_long fd)) (nopp (hd nnan el)) casts) as S1.
      pose proof (search_only cfg seed' rand' qs' g0' m fd (wrap_float longs (fd_long fd)) (nopp (hd nnan el)) casts) as S2.
      cbn [with_quota mc_lat_large mc_lat_small mc_long_large mc_long_small mc_phi_large mc_phi_small mc_age_large mc_age_small mc_use_pv mc_use_saf mc_saf].
      rewrite S1, S2 by lia. reflexivity. }
    rewrite EB. reflexivity.
  Qed.

  Theorem run_quota sort s m cwd paths float_dir st : (forall i fd, get_float_data s i = Ok fd -> at_most (mc_max_casts cfg) fd /\ at_most m fd) ->
    update_salinity_mapping sort (levels_of' m) cwd paths (with_quota m cfg) s float_dir float_name st
    = update_salinity_mapping sort levels_of cwd paths cfg s float_dir float_name st.
  Proof.
    intros HQ. unfold update_salinity_mapping. change (map_values (with_quota m cfg)) with (map_values cfg).
    assert (EQ : levels_of' m s = levels_of s) by (apply functional_extensionality; intros i; apply profile_quota; intros fd; apply HQ).
    now rewrite EQ.
  Qed.

  (* the excluded pressure *)
  Notation levels_ex e := (profile_levels seed rand g0 qs inv np_interp sa_from_sp ct_from_pt t_from_ct interp2d tbase read_mat date_str (with_exclude e cfg) float_name).
  Theorem profile_exclude s i e :
    (forall x, levels_of s i = Raise x -> levels_ex e s i = Raise x) /\
    forall lev, levels_of s i = Ok lev -> exists lev', levels_ex e s i = Ok lev' /\
      forall fd n sal pres, get_float_data s i = Ok fd -> nth_error (fd_sal fd) n = Some sal -> nth_error (fd_pres fd) n = Some pres ->
        (nleb e pres = false -> lev' n = Ok None) /\ (nleb (mc_p_exclude cfg) pres = true -> nleb e pres = true -> lev' n = lev n).
  Proof.
    unfold profile_levels. destruct (get_float_data s i) as [fd|x]; [|split; [auto|discriminate]]. cbn [bind].
    destruct (MapProfile.usable fd).
    - destruct (elevation _ _ _ _ _ _ _) as [el|]; [|split; [auto|discriminate]]. cbn [bind].
      change (best_history seed rand g0 qs np_interp sa_from_sp ct_from_pt t_from_ct interp2d tbase read_mat date_str (with_exclude e cfg) float_name fd)
        with (best_history seed rand g0 qs np_interp sa_from_sp ct_from_pt t_from_ct interp2d tbase read_mat date_str cfg float_name fd).
      destruct (best_history _ _ _ _ _ _ _ _ _ _ _ _ _ _ _ _) as [g|]; [|split; [auto|discriminate]]. cbn [bind].
      destruct (interp_climatology _ _ _ _) as [ip|]; [|split; [auto|discriminate]]. cbn [bind]. split; [discriminate|].
      intros lev E. injection E as <-. eexists. split; [reflexivity|]. intros fd' n sal pres E. injection E as <-. intros Es Ep.
      cbv beta. rewrite Es, Ep. cbn [with_exclude mc_p_exclude mc_p_delta]. split.
      + intros ->. now rewrite andb_false_r.
      + intros -> ->. reflexivity.
    - split; [discriminate|]. intros lev E. injection E as <-. eexists. split; [reflexivity|]. intros. split; reflexivity.
  Qed.
End Runs.

Section State.
  Context {T : Type} `{N : Num T} `{NT : NumT T} {rng : Type}.
  Variables (seed : Z -> rng) (rand : rng -> nat -> list T * rng) (g0 g0' : rng) (qs : list T -> list nat).
  Lemma search_state lat long date z a b c d e f g h pv casts m :
    fst (find_besthist seed rand qs lat long date z a b c d e f g h pv casts m g0') = fst (find_besthist seed rand qs lat long date z a b c d e f g h pv casts m g0).
  Proof.
    unfold find_besthist. destruct (ellipse_index _ _ _ _ _ _ _ _) as [[pvf ie]|]; [|reflexivity]. destruct (Z.ltb _ _); [|reflexivity].
    unfold besthist_select. destruct (Z.ltb _ _); [reflexivity|]. destruct (rand _ _) as [draws g2]. reflexivity.
  Qed.
  Theorem profile_state inv np_interp sa ct tc interp2d tbase read_mat date_str cfg float_name s i :
    profile_levels seed rand g0' qs inv np_interp sa ct tc interp2d tbase read_mat date_str cfg float_name s i
    = profile_levels seed rand g0 qs inv np_interp sa ct tc interp2d tbase read_mat date_str cfg float_name s i.
  Proof.
    unfold profile_levels. destruct (get_float_data s i) as [fd|]; [|reflexivity]. cbn [bind]. destruct (MapProfile.usable fd); [|reflexivity].
    destruct (elevation _ _ _ _ _ _ _) as [el|]; [|reflexivity]. cbn [bind].
    assert (EB : best_history seed rand g0' qs np_interp sa ct tc interp2d tbase read_mat date_str cfg float_name fd (nopp (hd nnan el))
      = best_history seed rand g0 qs np_interp sa ct tc interp2d tbase read_mat date_str cfg float_name fd (nopp (hd nnan el))).
    { unfold best_history. destruct (find_25boxes _ _ _); [|reflexivity]. cbn [bind]. destruct (get_region_hist_locations _ _ _ _ _) as [[[las longs] das]|]; [|reflexivity]. cbn [bind].
      destruct (grid_depths _ _ _ _); [|reflexivity]. cbn [bind]. now rewrite search_state. }
    rewrite EB. reflexivity.
  Qed.
End State.
(* the state may be another one at each profile *)
Theorem run_state {T} `{N : Num T} `{NT : NumT T} {rng} (seed : Z -> rng) rand (g g' : nat -> rng) qs inv np_interp sa ct tc interp2d tbase read_mat date_str cfg float_name sort s cwd paths float_dir st :
  update_salinity_mapping sort (fun s i => profile_levels seed rand (g' i) qs inv np_interp sa ct tc interp2d tbase read_mat date_str cfg float_name s i) cwd paths cfg s float_dir float_name st
  = update_salinity_mapping sort (fun s i => profile_levels seed rand (g i) qs inv np_interp sa ct tc interp2d tbase read_mat date_str cfg float_name s i) cwd paths cfg s float_dir float_name st.
Proof.
  unfold update_salinity_mapping. f_equal. apply functional_extensionality. intros i. apply profile_state.
Qed.
