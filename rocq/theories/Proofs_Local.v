(* A level is mapped from the casts in the ellipse *)
From Coq Require Import String Ascii.
From Coq Require Import ZArith List Bool Reals Lra Lia Sorted.
From Verif Require Import Num Np NumFacts NpFacts Utilities Finders Stats Wrangling Topo Fetchers Spec_Fetchers Saf Helper MapProfile Spec_Finders Spec_Stats Spec_FitCond Spec_Map
  Spec_Helper Spec_Interp Spec_MapLevel Spec_Utilities Spec_Bias Spec_Seam Spec_Whole Spec_Local Proofs_MapLevel
  Proofs_Besthist Proofs_Helper Proofs_Interp2 Proofs_Utilities2 Proofs_Fetchers Proofs_Region Proofs_FetchersEx Proofs_MapProfile Proofs_Bias2 Proofs_Bias3
  Proofs_Seam Proofs_Seam2 Proofs_Seam3 Proofs_Seam4 Proofs_Whole Proofs_Whole2 Proofs_Symm2.
Import Helper Stats Spec_Fetchers ListNotations.
Local Open Scope R_scope.

Lemma numbered_filter {B} (f : nat * B -> bool) (g : B -> bool) (l : list B) k :
  (forall i c, nth_error l i = Some c -> f (k + i, c)%nat = g c) -> map snd (filter f (combine (seq k (length l)) l)) = filter g l.
Proof.
  revert k. induction l as [|c l IH]; intros k H; [reflexivity|]. cbn [length seq combine filter].
  assert (E := H 0%nat c eq_refl). rewrite Nat.add_0_r in E. rewrite E.
  assert (R : map snd (filter f (combine (seq (S k) (length l)) l)) = filter g l).
  { apply IH. intros i b Hb. replace (S k + i)%nat with (k + S i)%nat by lia. now apply H. }
  destruct (g c); cbn [map snd]; now rewrite R.
Qed.

(* the depth does not matter without the vorticity *)
Definition flat (q : hpoint R) : hpoint R := mkHpoint (hp_sal q) (hp_pres q) (hp_long q) (hp_lat q) (hp_date q) 0.
Definition flat_point (p : point R) : point R := mkPoint (p_lat p) (p_long p) (p_date p) 0.
Lemma points_flat date_str limit pos t p delta chosen zs pts : points_from date_str limit pos t p delta (combine chosen zs) pts ->
  (length chosen <= length zs)%nat -> (forall z, In z zs -> exists r, z = Fin r) ->
  points_from date_str limit pos t p delta (map (fun c => (c, Fin 0)) chosen) (map flat pts).
Proof.
  revert zs pts. induction chosen as [|c chosen IH]; intros zs pts H L F.
  - cbn [combine] in H. inversion H; subst. constructor.
  - destruct zs as [|z zs]; [cbn in L; lia|]. cbn [combine] in H. destruct (F z (or_introl eq_refl)) as (r & Ez).
    assert (F' : forall z, In z zs -> exists r, z = Fin r) by (intros z' Hz; apply F; now right).
    cbn [map]. inversion H as [|c' z' q l pts' G H'|c' z' l pts' N H']; subst; cbn [map].
    + constructor; [|apply (IH zs); auto; cbn in L; lia]. destruct G as (G1 & G2 & G3 & G4 & G5 & G6). unfold gives_point. cbn [flat hp_lat hp_long hp_date hp_z hp_sal hp_pres]. auto 10.
    + apply unused; [|apply (IH zs); auto; cbn in L; lia]. intros q (G1 & G2 & G3 & G4 & G5 & G6).
      apply (N (mkHpoint (hp_sal q) (hp_pres q) (hp_long q) (hp_lat q) (hp_date q) r)). unfold gives_point. cbn [hp_lat hp_long hp_date hp_z hp_sal hp_pres]. auto 10.
Qed.
Lemma noise_flat l nv : noise_estimate (map flat l) nv -> noise_estimate l nv.
Proof.
  intros (nn & HN & E). exists nn. rewrite map_length in HN, E.
  assert (EO : map observed (map flat l) = map observed l) by (rewrite map_map; reflexivity). rewrite EO in HN. split; [exact HN|].
  rewrite E. do 2 f_equal. apply map_ext_in. intros i Hi. apply in_seq in Hi.
  assert (J : (nn i < length l)%nat) by (destruct (HN i ltac:(lia)) as (J & _); now rewrite map_length in J).
  rewrite !(nth_map flat _ _ _ dhpoint) by lia. reflexivity.
Qed.
Lemma stage_flat large small nv g l v e : s_pv large = false -> s_pv small = false ->
  two_stage large small nv g l v e -> two_stage large small nv (flat_point g) (map flat l) v e.
Proof.
  intros PL PS. apply (two_stage_iso flat flat_point (fun q => eq_refl) (fun q => eq_refl) (fun _ => True)); auto.
  intros s p q Es _ _. unfold correlation, separation2. cbn [flat_point p_lat p_long p_date]. assert (s_pv s = false) as -> by (destruct Es as [-> | ->]; assumption). reflexivity.
Qed.

(* the grid of real casts *)
Lemma offered_grid date_str pos (cs : list (Spec_Fetchers.cast XR)) : forall depths, length depths = length cs ->
  (forall c, In c cs -> number (Spec_Fetchers.c_lat c)) -> (forall z, In z depths -> exists r, z = Fin r) ->
  exists grid, offered date_str cs (map (fun c => Fin (pos c)) cs) depths = map Spec_Finders.fcast grid /\ length grid = length cs /\
    forall i c, nth_error cs i = Some c -> Spec_Fetchers.c_lat c = Fin (Finders.c_lat (nth i grid dcastR)) /\ Finders.c_long (nth i grid dcastR) = pos c.
Proof.
  induction cs as [|c cs IH]; intros depths L HL HD.
  - exists []. split; [reflexivity|]. split; [reflexivity|]. intros [|i] c E; discriminate.
  - destruct depths as [|z depths]; [discriminate|]. destruct (IH depths) as (grid & E & LG & HG); [now injection L|intros b Hb; apply HL; now right|intros b Hb; apply HD; now right|].
    destruct (HL c (or_introl eq_refl)) as (y & Ey). destruct (HD z (or_introl eq_refl)) as (r & Er).
    destruct (change_date_number (date_str (Spec_Fetchers.c_date c))) as (d & Ed).
    exists (Finders.mkCast y (pos c) d r :: grid). split; [|split; [cbn; now rewrite LG|]].
    + unfold offered in *. cbn [map combine fst snd]. rewrite E, Ey, Ed, Er. reflexivity.
    + intros [|i] b Hb; [injection Hb as <-; now split|]. cbn [nth]. now apply HG.
Qed.

Section Local.
  Context {rng : Type}.
  Variable seed : Z -> rng.
  Variable rand : rng -> nat -> list XR * rng.
  Variable g0 : rng.
  Variable qs : list XR -> list nat.
  Variable interp2d : list XR -> list XR -> list (list Z) -> XR -> XR -> res XR.
  Variable date_str : XR -> list ascii.
  Variable cfg : map_config XR.
  Variables large small : scales.
  Hypothesis HC : config_scales cfg large small.
  Hypothesis NL : scales_nonzero large.
  Hypothesis NS : scales_nonzero small.
  Hypothesis Hsnd : soundings interp2d (s_pv large).
  Hypothesis PV : s_pv large = false.
  Variable fd : float_data XR.
  Variables l la da : R.
  Hypothesis Hlat : fd_lat fd = Fin la.
  Hypothesis Hdate : fd_date fd = Fin da.
  Variable cs : list (Spec_Fetchers.cast XR).
  Hypothesis Hlats : forall c, In c cs -> number (Spec_Fetchers.c_lat c).
  Variable pos : Spec_Fetchers.cast XR -> R.
  Notation nearb := (near l la large pos).
  Hypothesis HQ : (Z.of_nat (length (filter nearb cs)) <= mc_max_casts cfg)%Z.

  Lemma depths_finite depths : depths_of interp2d cs depths -> length depths = length cs /\ forall z, In z depths -> exists r, z = Fin r.
  Proof.
    intros (L & x & y & e & H). split; [exact L|]. intros z Hz. apply (In_nth _ _ nnan) in Hz as (i & Hi & <-).
    destruct (nth_error cs i) as [c|] eqn:E; [|apply nth_error_None in E; lia]. destruct (H i c E) as (v & Ev & ->).
    destruct (Hsnd _ _ _ _ _ _ Ev) as (r & -> & _). eexists. reflexivity.
  Qed.
  Lemma search_near z depths index : depths_of interp2d cs depths ->
    search seed rand g0 qs cfg fd (Fin l) (Fin z) (offered date_str cs (map (fun c => Fin (pos c)) cs) depths) = Ok index ->
    numbered index cs = filter nearb cs /\ (forall i, In i index -> (i < length cs)%nat).
  Proof.
    intros HD E. destruct (depths_finite depths HD) as [L F]. destruct (offered_grid date_str pos cs depths L Hlats F) as (grid & EO & LG & HG). rewrite EO in E.
    destruct HC as (C1 & C2 & C3 & C4 & C5 & C6 & C7 & C8 & C9 & C10). rewrite PV in C10.
    set (p := mkProblem la l da z (s_lat large) (s_lat small) (s_long large) (s_long small) (s_phi large) (s_phi small) 1 1 0).
    assert (Pv : b_pv p = false) by reflexivity.
    assert (SO : scales_ok p).
    { destruct NL as (A1 & A2 & _), NS as (B1 & B2 & _). unfold scales_ok. rewrite Pv. cbn. repeat split; auto; try discriminate; lra. }
    assert (DO : depths_ok p grid) by (intros C; rewrite Pv in C; discriminate).
    unfold search in E. rewrite Hlat, Hdate, C1, C2, C3, C4, C5, C6, C7, C8, C10 in E.
    unfold find_besthist in E.
    assert (NE : forall i c, nth_error cs i = Some c -> (nearb c = true <-> inside p (nth i grid dcastR))).
    { intros i c Hc. destruct (HG i c Hc) as [G1 G2]. unfold near, inside, ellipse2, vort_cast, vort_float. rewrite Pv, G1, G2. cbn [p b_long b_lat b_longL b_latL b_phiL].
      unfold vorticity_distance2. destruct (Req_EM_T 0 0) as [_|C]; [|contradiction]. rewrite Rplus_0_r. destruct (Rlt_dec _ 1); split; intros; auto; try discriminate; contradiction. }
    assert (IL : inside_list p grid (argwhere nearb cs)).
    { split; [apply argwhere_sorted|]. intros i. set (d := Spec_Fetchers.mkCast NaN NaN NaN [] ""%string : Spec_Fetchers.cast XR). rewrite (argwhere_spec d), LG.
      split; intros [Hi H]; (split; [exact Hi|]); destruct (nth_error cs i) as [c|] eqn:Ec; try (apply nth_error_None in Ec; lia); rewrite ?(nth_error_nth _ _ d Ec) in *; now apply (NE i c Ec). }
    assert (GN : grid <> []) by (intros ->; cbn in E; discriminate).
    pose proof (ellipse_index_eval p grid SO DO (argwhere nearb cs) GN IL) as EE. cbn [p b_lat b_long b_z b_latL b_longL b_phiL b_use] in EE. rewrite EE in E.
    destruct (Z.ltb_spec (mc_max_casts cfg) (Z.of_nat (length (argwhere nearb cs)))) as [C|_]; [rewrite argwhere_length in C; lia|].
    cbn [fst] in E. apply ok_inj in E. subst index. split.
    - unfold numbered. apply numbered_filter. intros i c Hc. cbn [Nat.add fst]. apply eq_true_iff_eq. rewrite existsb_exists, (NE i c Hc). split.
      + intros (k & Hk & Ek). apply Nat.eqb_eq in Ek. subst k. now apply IL.
      + intros H. exists i. split; [|apply Nat.eqb_refl]. apply IL. split; [|exact H]. rewrite LG. apply nth_error_Some. congruence.
    - intros i Hi. apply IL in Hi. rewrite LG in Hi. apply Hi.
  Qed.
End Local.
