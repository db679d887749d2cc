(* A level is mapped from the casts in the ellipse: the theorems *)
From Coq Require Import String Ascii.
From Coq Require Import ZArith List Bool Reals Lra Lia Sorted.
From Verif Require Import Num Np NumFacts NpFacts Utilities Finders Stats Wrangling Topo Fetchers Spec_Fetchers Saf Helper MapProfile Spec_Finders Spec_Stats Spec_FitCond Spec_Map
  Spec_Helper Spec_Interp Spec_MapLevel Spec_Utilities Spec_Bias Spec_Seam Spec_Whole Spec_Local Proofs_MapLevel
  Proofs_Besthist Proofs_FetchersEx Proofs_Bias3 Proofs_Whole Proofs_Whole2 Proofs_Symm2 Proofs_CompletesEx Proofs_Local.
Import Helper Stats Spec_Fetchers ListNotations.
Local Open Scope R_scope.

Section Local.
  Context {rng : Type}.
  Variable seed : Z -> rng.
  Variable rand : rng -> nat -> list XR * rng.
  Variable g0 : rng.
  Variable qs : list XR -> list nat.
  Variable inv : nat -> (nat -> nat -> XR) -> res (nat -> nat -> XR).
  Variable np_interp : XR -> list XR -> list XR -> XR.
  Variable sa : XR -> XR -> XR -> XR -> XR.
  Variable ct : XR -> XR -> XR.
  Variable tc : XR -> XR -> XR -> XR.
  Variable interp2d : list XR -> list XR -> list (list Z) -> XR -> XR -> res XR.
  Variable tbase : binfile.
  Variable date_str : XR -> list ascii.
  Variable cfg : map_config XR.
  Variable float_name : string.
  Hypothesis Hinv : inv_ok inv.
  Variables large small : scales.
  Hypothesis HC : config_scales cfg large small.
  Hypothesis NL : scales_nonzero large.
  Hypothesis NS : scales_nonzero small.
  Hypothesis PV : s_pv large = false.
  Hypothesis Hsnd : soundings interp2d (s_pv large).
  Hypothesis HU : mc_use_saf cfg <> 1%Z.
  Variables delta ex : R.
  Hypothesis Hdelta : mc_p_delta cfg = Fin delta.
  Hypothesis Hex : mc_p_exclude cfg = Fin ex.
  Variable other : string -> bool.
  Hypothesis Hother : excludes float_name other.
  Hypothesis H4 : four_columns (mc_boxes cfg).
  Variable fd : float_data XR.
  Hypothesis MP : mappable_profile fd.
  Variable boxes : list (list XR).
  Hypothesis EB : find_25boxes (fd_long fd) (fd_lat fd) (mc_boxes cfg) = Ok boxes.
  Variables l la da : R.
  Hypothesis Hlong : fd_long fd = Fin l.
  Hypothesis Hlat : fd_lat fd = Fin la.
  Hypothesis Hdate : fd_date fd = Fin da.
  Hypothesis Hl : 0 <= l < 360.
  Variable pos : Spec_Fetchers.cast XR -> R.
  Notation limit := (nadd (nanmax (fd_pres fd)) (map_p_delta (mc_db cfg))).
  Notation levels_of read_mat := (profile_levels seed rand g0 qs inv np_interp sa ct tc interp2d tbase read_mat date_str cfg float_name).
  Notation casts db := (region_casts db (mc_db cfg) other boxes).
  Notation inside db := (filter (near l la large pos) (casts db)).

  Theorem level_near db read_mat : reads db read_mat ->
    (forall c, In c (casts db) -> number (Spec_Fetchers.c_lat c)) -> located l pos (casts db) -> ~ all_beyond (map pos (casts db)) (map pos (casts db)) ->
    (Z.of_nat (length (inside db)) <= mc_max_casts cfg)%Z ->
    forall s i lev, get_float_data s i = Ok fd -> levels_of read_mat s i = Ok lev ->
    forall c0 rest, filter loadable (inside db) = c0 :: rest -> Spec_Fetchers.levels limit c0 <> [] ->
    let chosen := filter (has_data limit) (filter loadable (inside db)) in
    ~ all_beyond (map pos (filter loadable (inside db))) (map pos chosen) ->
    forall n xs xt xp, nth_error (fd_sal fd) n = Some xs -> nth_error (fd_ptmp fd) n = Some xt -> nth_error (fd_pres fd) n = Some xp ->
    match Spec_Interp.complete xs xt xp with
    | None => lev n = Ok None
    | Some (_, t, p) =>
        (p < ex -> lev n = Ok None) /\
        (ex <= p -> exists pts, points_from date_str limit pos t p delta (map (fun c => (c, Fin 0)) chosen) pts /\
           ((length pts <= 5)%nat -> lev n = Ok None) /\
           ((5 < length pts)%nat -> forall nv, noise_estimate (Spec_MapLevel.kept pts) nv -> 0 < nv ->
              exists value err o, two_stage large small nv (mkPoint la l da 0) (Spec_MapLevel.kept pts) value err /\ lev n = Ok (Some o) /\
                lo_ptmp o = Fin t /\ lo_sal o = Fin value /\ lo_err o = Fin err /\ lo_noise o = Fin nv /\ lo_signal o = Fin (pop_var (map hp_sal (Spec_MapLevel.kept pts))) /\
                exists turn, (turn = 0 \/ turn = 360) /\ lo_points o = map (fun q => (Fin (hp_long q + turn), Fin (hp_lat q))) (Spec_MapLevel.kept pts)))
    end.
  Proof.
    intros Hdb Hlats HL NB HQ s i lev EG E c0 rest ES HL0 chosen NB2 n xs xt xp Es Et Ep.
    destruct (whole_level seed rand g0 qs inv np_interp sa ct tc interp2d tbase read_mat date_str cfg float_name Hinv large small HC NL NS Hsnd HU delta ex Hdelta Hex
      db Hdb other Hother H4 fd MP boxes EB l la da Hlong Hlat Hdate Hl Hlats pos HL NB s i lev EG E) as (z & depths & index & HD & EI & W).
    destruct (search_near seed rand g0 qs interp2d date_str cfg large small HC NL NS Hsnd PV fd l la da Hlat Hdate (casts db) Hlats pos HQ z depths index HD EI) as [EN BI].
    assert (EQ : selected index (casts db) = filter loadable (inside db)) by (unfold selected; now rewrite EN).
    rewrite EQ in W. specialize (W c0 rest ES HL0). cbv zeta in W. fold chosen in W. specialize (W NB2 n xs xt xp Es Et Ep).
    destruct (Spec_Interp.complete xs xt xp) as [[[sv t] p]|]; [|exact W]. destruct W as [W1 W2]. split; [exact W1|]. intros Hp. destruct (W2 Hp) as (pts & HP & A & B). clear W1 W2.
    assert (LC : (length chosen <= length (map (fun k => nth k depths nnan) index))%nat).
    { rewrite map_length. unfold chosen. eapply Nat.le_trans; [apply filter_length|]. eapply Nat.le_trans; [apply filter_length|]. rewrite <- EN. apply numbered_length. }
    assert (FZ : forall z0, In z0 (map (fun k => nth k depths nnan) index) -> exists r, z0 = Fin r).
    { intros z0 Hz. apply in_map_iff in Hz as (k & <- & Hk). destruct (depths_finite _ _ Hsnd l la (casts db) pos depths HD) as [LD FD]. apply FD, nth_In. rewrite LD. now apply BI. }
    exists (map flat pts). split; [exact (points_flat _ _ _ _ _ _ _ _ _ HP LC FZ)|]. rewrite map_length. split; [exact A|].
    intros H5 nv HN Hn. pose proof (kept_iso flat (fun q => eq_refl) pts) as KI. rewrite KI in *. apply noise_flat in HN.
    destruct (B H5 nv HN Hn) as (value & err & o & TS & EO & O1 & O2 & O3 & O4 & O5 & turn & HT & O6).
    assert (PS : s_pv small = false) by (destruct HC as (_ & _ & _ & _ & _ & _ & _ & _ & Ev & _); now rewrite Ev).
    exists value, err, o. split; [exact (stage_flat large small nv _ _ _ _ PV PS TS)|]. repeat (split; [assumption|]).
    split; [rewrite O5; do 2 f_equal; now rewrite map_map|]. exists turn. split; [exact HT|]. rewrite O6, map_map. reflexivity.
  Qed.

  Theorem level_same db read_mat db' read_mat' : reads db read_mat -> reads db' read_mat' ->
    (forall c, In c (casts db) -> number (Spec_Fetchers.c_lat c)) -> (forall c, In c (casts db') -> number (Spec_Fetchers.c_lat c)) ->
    located l pos (casts db) -> located l pos (casts db') ->
    ~ all_beyond (map pos (casts db)) (map pos (casts db)) -> ~ all_beyond (map pos (casts db')) (map pos (casts db')) ->
    inside db = inside db' -> (Z.of_nat (length (inside db)) <= mc_max_casts cfg)%Z ->
    forall s i lev lev', get_float_data s i = Ok fd -> levels_of read_mat s i = Ok lev -> levels_of read_mat' s i = Ok lev' ->
    forall c0 rest, filter loadable (inside db) = c0 :: rest -> Spec_Fetchers.levels limit c0 <> [] ->
    let chosen := filter (has_data limit) (filter loadable (inside db)) in
    ~ all_beyond (map pos (filter loadable (inside db))) (map pos chosen) ->
    forall n xs xt xp, nth_error (fd_sal fd) n = Some xs -> nth_error (fd_ptmp fd) n = Some xt -> nth_error (fd_pres fd) n = Some xp ->
    (forall sv t p pts, Spec_Interp.complete xs xt xp = Some (sv, t, p) -> points_from date_str limit pos t p delta (map (fun c => (c, Fin 0)) chosen) pts ->
       (5 < length pts)%nat -> exists nv, noise_estimate (Spec_MapLevel.kept pts) nv /\ 0 < nv) ->
    same_outcome (lev n) (lev' n) \/ same_outcome (lev' n) (lev n).
  Proof.
    intros Hdb Hdb' Hlats Hlats' HL HL' NB NB' EI HQ s i lev lev' EG E E' c0 rest ES HL0 chosen NB2 n xs xt xp Es Et Ep HN.
    pose proof (level_near db read_mat Hdb Hlats HL NB HQ s i lev EG E c0 rest ES HL0) as W.
    assert (HQ' : (Z.of_nat (length (inside db')) <= mc_max_casts cfg)%Z) by (rewrite <- EI; exact HQ).
    assert (ES' : filter loadable (inside db') = c0 :: rest) by (rewrite <- EI; exact ES).
    pose proof (level_near db' read_mat' Hdb' Hlats' HL' NB' HQ' s i lev' EG E' c0 rest ES' HL0) as W'.
    rewrite <- EI in W'. cbv zeta in W, W'. fold chosen in W, W'.
    specialize (W NB2 n xs xt xp Es Et Ep). specialize (W' NB2 n xs xt xp Es Et Ep).
    destruct (Spec_Interp.complete xs xt xp) as [[[sv t] p]|] eqn:EC; [|left; rewrite W, W'; exact I].
    destruct W as [W1 W2], W' as [W1' W2']. destruct (Rlt_le_dec p ex) as [Hp|Hp]; [left; rewrite W1, W1' by exact Hp; exact I|].
    destruct (W2 Hp) as (pts & HP & A & B). destruct (W2' Hp) as (pts' & HP' & A' & B'). rewrite (points_unique _ _ _ _ _ _ _ _ _ HP' HP) in *.
    destruct (le_lt_dec (length pts) 5) as [H5|H5]; [left; rewrite A, A' by exact H5; exact I|].
    destruct (HN sv t p pts eq_refl HP H5) as (nv & Hnv & Hn).
    destruct (B H5 nv Hnv Hn) as (v & e & o & TS & EO & O1 & O2 & O3 & O4 & O5 & turn & HT & O6).
    destruct (B' H5 nv Hnv Hn) as (v' & e' & o' & TS' & EO' & O1' & O2' & O3' & O4' & O5' & turn' & HT' & O6').
    destruct (two_stage_unique _ _ _ _ _ _ _ _ _ TS TS') as [-> ->]. rewrite EO, EO'. unfold same_outcome.
    assert (M : forall a b, map (fun q => (Fin (hp_long q + (b + a)), Fin (hp_lat q))) (Spec_MapLevel.kept pts)
      = map (fun q => (nadd (fst q) (Fin a), snd q)) (map (fun q => (Fin (hp_long q + b), Fin (hp_lat q))) (Spec_MapLevel.kept pts))).
    { intros a b. rewrite map_map. apply map_ext. intros q. cbn [fst snd]. change (nadd (Fin (hp_long q + b)) (Fin a)) with (Fin (hp_long q + b + a)). do 2 f_equal. ring. }
    destruct (Rle_lt_dec turn' turn) as [Ht|Ht]; [left|right]; (split; [congruence|]; split; [congruence|]; split; [congruence|]; split; [congruence|]; split; [congruence|]).
    - exists (turn - turn'). split; [destruct HT, HT'; subst; lra|]. rewrite O6, O6', <- M. now replace (turn' + (turn - turn')) with turn by ring.
    - exists (turn' - turn). split; [destruct HT, HT'; subst; lra|]. rewrite O6, O6', <- M. now replace (turn + (turn' - turn)) with turn' by ring.
  Qed.
End Local.
