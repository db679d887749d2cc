From Coq Require Import String Ascii.
From Coq Require Import ZArith List Bool Lia Permutation Sorting.Sorted.
From Verif Require Import Num Np NumFacts NpFacts Utilities Finders Stats Wrangling Topo Fetchers Spec_Fetchers Saf Helper MapProfile Spec_MapLevel
  Proofs_Fetchers Proofs_Region Proofs_FetchersEx Proofs_Mapping2.
From Verif Require Proofs_Saf Proofs_Besthist.
Import ListNotations.
Local Open Scope nat_scope.

Lemma ok_inj {A} (a b : A) : Ok a = Ok b -> a = b.
Proof. congruence. Qed.
Lemma wrap_length {T} `{Num T} (l : list T) : length (wrap_longitude l) = length l.
Proof. unfold wrap_longitude. cbv zeta. destruct (existsb _ _); rewrite ?map_length; reflexivity. Qed.
Lemma filter_fst {A B C} (p : A -> bool) (f : A -> C) (l : list A) : forall (m : list B), length m = length l ->
  map (fun q => f (fst q)) (filter (fun q => p (fst q)) (combine l m)) = map f (filter p l).
Proof.
  induction l as [|a l IH]; intros [|b m] L; try discriminate; [reflexivity|]. cbn [combine filter fst].
  destruct (p a); cbn [map fst]; [f_equal|]; apply IH; now injection L.
Qed.

Lemma mapM_nth {A B} (f : A -> res B) : forall l r, mapM f l = Ok r -> forall i a b, i < length l -> f (nth i l a) = Ok (nth i r b).
Proof.
  induction l as [|x l IH]; intros r E i a b Hi; [cbn in Hi; lia|]. cbn [mapM] in E.
  destruct (f x) as [y|] eqn:EX; [|discriminate]. cbn [bind] in E. destruct (mapM f l) as [ys|] eqn:EL; [|discriminate]. cbn [bind] in E.
  apply ok_inj in E. subst r. destruct i; [exact EX|]. cbn [nth]. apply IH; [reflexivity|cbn in Hi; lia].
Qed.
Lemma rows_in {A} (table : list A) : forall l boxes,
  mapM (fun n => match nth_error table (n - 1) with Some row => Ok row | None => Raise IndexError end) l = Ok boxes ->
  forall row, In row boxes -> In row table.
Proof.
  induction l as [|k l IH]; intros boxes E row Hr; cbn [mapM] in E; [injection E as <-; destruct Hr|].
  destruct (nth_error table (k - 1)) as [r|] eqn:EN; [|discriminate]. cbn [bind] in E. destruct (mapM _ l) as [bs|]; [|discriminate]. cbn [bind] in E.
  injection E as <-. destruct Hr as [<-|Hr]; [now apply nth_error_In in EN|]. now apply (IH bs).
Qed.

Section Profile.
  Context {T : Type} {N : Num T} {NT : NumT T} {rng : Type}.
  Variable seed : Z -> rng.
  Variable rand : rng -> nat -> list T * rng.
  Variable g0 : rng.
  Variable unstable_argsort : list T -> list nat.
  Variable inv : nat -> (nat -> nat -> T) -> res (nat -> nat -> T).
  Variable np_interp : T -> list T -> list T -> T.
  Variable sa_from_sp : T -> T -> T -> T -> T.
  Variable ct_from_pt : T -> T -> T.
  Variable t_from_ct : T -> T -> T -> T.
  Variable interp2d : list T -> list T -> list (list Z) -> T -> T -> res T.
  Variable tbase : binfile.
  Variable read_mat : string -> res (ref_data T).
  Variable date_str : T -> list ascii.
  Variable cfg : map_config T.
  Variable float_name : string.
  Notation levels_of := (profile_levels seed rand g0 unstable_argsort inv np_interp sa_from_sp ct_from_pt t_from_ct interp2d tbase read_mat date_str cfg float_name).
  Notation history_of := (best_history seed rand g0 unstable_argsort np_interp sa_from_sp ct_from_pt t_from_ct interp2d tbase read_mat date_str cfg float_name).

  Lemma usable_iff (fd : float_data T) : usable fd = true <-> mappable_profile fd.
  Proof.
    unfold usable, mappable_profile. rewrite !andb_true_iff, !negb_true_iff, existsb_exists. split.
    - intros [[A B] (i & Hi & Hn)]. split; [exact A|]. split; [exact B|]. apply (argwhere_spec nnan) in Hi as [Hi Hv].
      apply negb_true_iff, Nat.eqb_neq in Hn. apply negb_true_iff in Hv. exists i. split; [lia|exact Hv].
    - intros (A & B & i & Hi & Hv). split; [now split|]. exists i. split.
      + apply (argwhere_spec nnan). split; [lia|]. now rewrite Hv.
      + apply negb_true_iff, Nat.eqb_neq. lia.
  Qed.

  (* an unusable profile gets no level, whatever the other inputs *)
  Theorem profile_skipped s i fd : get_float_data s i = Ok fd -> ~ mappable_profile fd ->
    exists lev, levels_of s i = Ok lev /\ forall n, lev n = Ok None.
  Proof.
    intros E Hn. unfold profile_levels. rewrite E. cbn [bind].
    destruct (usable fd) eqn:U; [exfalso; now apply Hn, usable_iff|]. eexists. split; [reflexivity|]. reflexivity.
  Qed.
  (* levels that are not mapped *)
  Theorem level_excluded s i fd lev n sal pres : get_float_data s i = Ok fd -> levels_of s i = Ok lev ->
    nth_error (fd_sal fd) n = Some sal -> nth_error (fd_pres fd) n = Some pres ->
    nisnan sal = true \/ nleb (mc_p_exclude cfg) pres = false -> lev n = Ok None.
  Proof.
    intros E EL ES EP HX. unfold profile_levels in EL. rewrite E in EL. cbn [bind] in EL.
    destruct (usable fd); [|injection EL as <-; reflexivity].
    destruct (elevation _ _ _ _ _ _ _) as [elev|]; [|discriminate]. cbn [bind] in EL.
    destruct (best_history _ _ _ _ _ _ _ _ _ _ _ _ _ _ _ _) as [g|]; [|discriminate]. cbn [bind] in EL.
    destruct (interp_climatology _ _ _ _) as [it|]; [|discriminate]. cbn [bind] in EL. injection EL as <-. rewrite ES, EP.
    destruct HX as [->| ->]; [reflexivity|]. now rewrite andb_false_r.
  Qed.

  (* ---- the depths of the historical casts ---- *)
  Lemma boxes_rows lo la table boxes : find_25boxes (T := T) lo la table = Ok boxes -> nisnan lo = false -> nisnan la = false ->
    forall row, In row boxes -> In row table.
  Proof.
    intros E A B. unfold find_25boxes in E. destruct (negb (nisnan lo) && negb (nisnan la)) eqn:C.
    - exact (rows_in table _ boxes E).
    - rewrite A, B in C. discriminate.
  Qed.

  Lemma numbered_ascending (d : cast T) index cs : StronglySorted lt index -> (forall i, In i index -> i < length cs) ->
    numbered index cs = map (fun i => nth i cs d) index.
  Proof.
    intros SS HB. unfold numbered.
    assert (EC : combine (seq 0 (length cs)) cs = map (fun i => (i, nth i cs d)) (seq 0 (length cs))).
    { apply (nth_ext _ _ (0, d) (0, d)); [rewrite combine_length, map_length, seq_length; lia|]. intros j Hj.
      rewrite combine_length, seq_length in Hj. rewrite combine_nth by apply seq_length.
      rewrite (nth_map0 (fun i => (i, nth i cs d)) _ j (0, d) 0) by (rewrite seq_length; lia). now rewrite seq_nth by lia. }
    rewrite EC. clear EC.
    assert (EF : forall l, map snd (filter (fun p : nat * cast T => existsb (Nat.eqb (fst p)) index) (map (fun i => (i, nth i cs d)) l))
                 = map (fun i => nth i cs d) (filter (fun i => existsb (Nat.eqb i) index) l)).
    { induction l as [|a l IH]; [reflexivity|]. cbn [map filter fst]. destruct (existsb _ index); cbn [map snd]; now rewrite IH. }
    rewrite EF. f_equal. apply sorted_unique; [|exact SS|].
    - assert (SQ : StronglySorted lt (seq 0 (length cs))) by apply seq_sorted. clear - SQ.
      induction SQ as [|a l S IH F]; [constructor|]. cbn [filter]. destruct (existsb _ index); [|exact IH]. constructor; [exact IH|].
      rewrite Forall_forall in *. intros x Hx. apply filter_In in Hx. now apply F.
    - intros x. rewrite filter_In, in_seq, existsb_exists. split.
      + intros [_ (y & Hy & E)]. apply Nat.eqb_eq in E. now subst.
      + intros Hx. split; [specialize (HB x Hx); lia|]. exists x. split; [exact Hx|apply Nat.eqb_refl].
  Qed.

  Context {NN : NumNan T}.
  Variable db : database T.
  Hypothesis Hdb : reads db read_mat.
  Variable other : string -> bool.
  Hypothesis Hother : excludes float_name other.
  Hypothesis H4 : four_columns (mc_boxes cfg).

  Theorem history_depths fd z g : mappable_profile fd -> mc_use_saf cfg <> 1%Z -> history_of fd z = Ok g ->
    exists boxes grid_z index,
      let cs := region_casts db (mc_db cfg) other boxes in
      let limit := nadd (nanmax (fd_pres fd)) (map_p_delta (mc_db cfg)) in
      find_25boxes (fd_long fd) (fd_lat fd) (mc_boxes cfg) = Ok boxes /\
      depths_of interp2d cs grid_z /\ (forall i, In i index -> i < length cs) /\
      gr_z g = map (fun i => nth i grid_z nnan) index /\
      (forall c0 rest, selected index cs = c0 :: rest -> levels limit c0 <> [] ->
         gr_lat g = map c_lat (filter (has_data limit) (selected index cs))).
  Proof.
    intros MP HU E. destruct MP as (ML & MA & i0 & Hi0 & _). assert (HP : fd_pres fd <> []) by (destruct (fd_pres fd); [cbn in Hi0; lia|discriminate]).
    unfold best_history in E. destruct (find_25boxes _ _ _) as [boxes|] eqn:EB; [|discriminate]. cbn [bind] in E.
    assert (F4 : four_columns boxes) by (intros row Hr; apply H4; now apply (boxes_rows _ _ _ _ EB ML MA)).
    destruct (get_region_hist_locations _ _ _ _ _) as [[[la lo] da]|] eqn:EG; [|discriminate]. cbn [bind] in E.
    assert (LL : la = map c_lat (region_casts db (mc_db cfg) other boxes) /\ lo = wrap_longitude (map c_long (region_casts db (mc_db cfg) other boxes))).
    { pose proof (locations db read_mat (mc_db cfg) float_name Hdb other Hother date_str boxes F4) as EL. cbv zeta in EL.
      rewrite EL in EG. clear - EG. destruct (region_casts db (mc_db cfg) other boxes) as [|c1 cr]; [discriminate|].
      assert (E1 : la = map c_lat (c1 :: cr)) by congruence. assert (E2 : lo = wrap_longitude (map c_long (c1 :: cr))) by congruence.
      split; [exact E1|exact E2]. }
    destruct LL as [ELa EW]. assert (ELo : length lo = length (region_casts db (mc_db cfg) other boxes)) by (rewrite EW, wrap_length; apply map_length).
    destruct (grid_depths _ _ _ _) as [gz|] eqn:EZ; [|discriminate]. cbn [bind] in E.
    destruct (fst (find_besthist _ _ _ _ _ _ _ _ _ _ _ _ _ _ _ _ _ _ _)) as [index|] eqn:EI; [|discriminate]. cbn [bind] in E.
    destruct (get_region_data _ _ _ _ _ _ _) as [best|] eqn:ED; [|discriminate]. cbn [bind] in E.
    destruct (index_array nnan gz index) as [bz|] eqn:EX; [|discriminate]. cbn [bind] in E.
    destruct (Z.eqb_spec (mc_use_saf cfg) 1) as [C|_]; [contradiction|].
    apply ok_inj in E. subst g. cbn [gr_z gr_lat]. clear EI.
    exists boxes, gz, index. set (cs := region_casts db (mc_db cfg) other boxes) in *. cbv zeta.
    assert (DZ : depths_of interp2d cs gz).
    { unfold grid_depths in EZ. destruct (elevation _ _ _ _ _ _ _) as [zz|] eqn:EE; [|discriminate]. cbn [bind] in EZ. apply ok_inj in EZ. subst gz.
      unfold elevation in EE. destruct (get_topo_grid _ _ _ _ _) as [[[el x] y]|]; [|discriminate]. cbn [bind] in EE.
      assert (LL : length zz = length cs). { apply mapM_length in EE. rewrite EE, combine_length, map_length, ELo, ELa, map_length. lia. }
      split; [now rewrite map_length|]. eexists _, _, _. intros i c Hc. assert (Hi : i < length cs) by (apply nth_error_Some; congruence).
      pose proof (mapM_nth _ _ _ EE i) as EN. rewrite combine_length, map_length, ELo, ELa, map_length, Nat.min_id in EN. specialize (EN (nnan, nnan) nnan Hi).
      exists (nth i zz nnan). rewrite combine_nth in EN by (rewrite map_length, map_length; congruence). cbn [fst snd] in EN.
      rewrite (Proofs_Besthist.nth_map tbase_long _ _ _ nnan) in EN by (rewrite EW, wrap_length, map_length; exact Hi).
      rewrite (Proofs_Besthist.nth_map c_lat _ _ _ c) in EN by exact Hi.
      rewrite (nth_error_nth _ _ c Hc) in EN. rewrite EW in EN. split; [exact EN|].
      rewrite (Proofs_Besthist.nth_map _ _ _ _ nnan) by congruence. reflexivity. }
    assert (LZ := proj1 DZ).
    split; [reflexivity|]. split; [exact DZ|].
    unfold index_array in EX. destruct (forallb _ index) eqn:EF; [|discriminate]. apply ok_inj in EX. subst bz.
    split; [rewrite forallb_forall in EF; intros i Hi; rewrite <- LZ; now apply Nat.ltb_lt, EF|]. split; [reflexivity|].
    intros c0 rest EN LV.
    pose proof (data_selected db read_mat (mc_db cfg) float_name Hdb other Hother date_str boxes F4 index (fd_pres fd) HP c0 rest EN LV) as ES.
    cbv zeta in ES. rewrite ES in ED. apply ok_inj in ED. subst best. clear. cbn [Fetchers.o_lat].
    set (ch := selected index cs). apply filter_fst. rewrite wrap_length. apply map_length.
  Qed.

  (* the depths belong to the casts when the index ascends and every cast has data *)
  Theorem history_aligned fd z g : mappable_profile fd -> mc_use_saf cfg <> 1%Z -> history_of fd z = Ok g ->
    exists boxes grid_z index,
      let cs := region_casts db (mc_db cfg) other boxes in
      let limit := nadd (nanmax (fd_pres fd)) (map_p_delta (mc_db cfg)) in
      find_25boxes (fd_long fd) (fd_lat fd) (mc_boxes cfg) = Ok boxes /\ depths_of interp2d cs grid_z /\
      gr_z g = map (fun i => nth i grid_z nnan) index /\
      (forall d, StronglySorted lt index -> index <> [] -> (forall i, In i index -> loadable (nth i cs d) = true /\ has_data limit (nth i cs d) = true) ->
         gr_lat g = map (fun i => c_lat (nth i cs d)) index).
  Proof.
    intros MP HU E. destruct (history_depths fd z g MP HU E) as (boxes & gz & index & EB & DZ & HB & EZ & EL).
    exists boxes, gz, index. cbv zeta. split; [exact EB|]. split; [exact DZ|]. split; [exact EZ|]. intros d SS NE HL.
    cbv zeta in EL, HB.
    set (cs := region_casts db (mc_db cfg) other boxes) in *. set (limit := nadd _ _) in *.
    assert (EN : selected index cs = map (fun i => nth i cs d) index).
    { unfold selected. rewrite (numbered_ascending d index cs SS HB). apply Proofs_Saf.filter_all.
      intros c Hc. apply in_map_iff in Hc as (i & <- & Hi). now apply HL. }
    destruct index as [|i0 ir]; [congruence|]. rewrite (EL (nth i0 cs d) (map (fun i => nth i cs d) ir)); [|exact EN|].
    2: { destruct (HL i0 (or_introl eq_refl)) as [_ HL0]. clear HL. rename HL0 into HL. unfold has_data in HL. destruct (levels limit (nth i0 cs d)); [discriminate HL|discriminate]. }
    rewrite EN. rewrite Proofs_Saf.filter_all; [now rewrite map_map|].
    intros c Hc. apply in_map_iff in Hc as (i & <- & Hi). now apply HL.
  Qed.
End Profile.
