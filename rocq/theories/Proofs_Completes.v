(* A mapping that completes: the profile *)
From Coq Require Import String Ascii.
From Coq Require Import ZArith List Bool Reals Lra Lia Permutation Sorted.
From Verif Require Import Num Np NumFacts Utilities Finders Stats Wrangling Topo Fetchers Spec_Fetchers Saf Helper MapProfile Spec_Finders Spec_Stats Spec_FitCond Spec_Map
  Spec_Topo Spec_Depth Spec_Helper Spec_Interp Spec_MapLevel Spec_Utilities Spec_Bias Spec_Seam Spec_Whole Spec_Completes Proofs_MapLevel
  Proofs_Besthist Proofs_Boxes Proofs_Helper Proofs_Interp2 Proofs_Utilities2 Proofs_Fetchers Proofs_Region Proofs_FetchersEx Proofs_MapProfile Proofs_Bias2 Proofs_Bias3
  Proofs_Depth2 Proofs_Depth3 Proofs_Depth4 Proofs_Seam Proofs_Seam2 Proofs_Seam3 Proofs_Seam4 Proofs_Whole Proofs_Whole2.
Import Helper Stats Spec_Fetchers ListNotations.
Local Open Scope R_scope.

Lemma answers_all interp2d x y e (places : list (XR * XR)) : answers interp2d ->
  exists rs, mapM (fun p => interp2d x y e (fst p) (snd p)) places = Ok (map Fin rs) /\ length rs = length places.
Proof.
  intros HA. induction places as [|p l (rs & E & L)]; [exists []; split; reflexivity|].
  destruct (HA x y e (fst p) (snd p)) as (r & Er). exists (r :: rs). cbn [mapM]. rewrite Er. cbn [bind]. rewrite E. cbn. split; [reflexivity|now rewrite L].
Qed.
Lemma elevation_any i1 i2 f a b c d places r : answers i2 -> elevation i1 f a b c d places = Ok r ->
  exists rs, elevation i2 f a b c d places = Ok (map Fin rs) /\ length rs = length places.
Proof.
  intros HA E. unfold elevation in *. destruct (get_topo_grid _ _ _ _ _) as [[[el x] y]|]; [|discriminate]. cbn [bind] in *. now apply answers_all.
Qed.
Lemma samples_complete limit c : cast_samples limit c <> [] -> has_data limit c = true.
Proof.
  unfold cast_samples, has_data. induction (Spec_Fetchers.levels limit c) as [|l r IH]; [intros H; now elim H|]. cbn [flat_map existsb].
  destruct l as [p s t]. unfold Spec_Fetchers.complete at 1. cbn [l_pres l_sal l_ptmp]. intros H.
  destruct s as [s'| | |], t as [t'| | |], p as [p'| | |]; cbn in *; try reflexivity; apply IH, H.
Qed.
Lemma filter_all {B} (f : B -> bool) l : (forall b, In b l -> f b = true) -> filter f l = l.
Proof. induction l as [|b l IH]; intros H; [reflexivity|]. cbn. rewrite H by now left. f_equal. apply IH. intros x Hx. apply H. now right. Qed.
Lemma flat_opt {B C} (f : B -> option C) (l : list B) : (length (flat_map (fun b => opt_list (f b)) l) <= length l)%nat.
Proof. induction l as [|b l IH]; [reflexivity|]. cbn [flat_map]. rewrite app_length. destruct (f b); cbn; lia. Qed.
Lemma good_loadable limit c : good_cast limit c -> loadable c = true.
Proof.
  intros (_ & H2 & _). unfold loadable. apply Nat.leb_le. eapply Nat.le_trans; [exact H2|]. unfold cast_samples.
  eapply Nat.le_trans; [apply (flat_opt (fun l => Spec_Interp.complete (l_sal l) (l_ptmp l) (l_pres l)))|]. unfold Spec_Fetchers.levels. apply Proofs_Whole2.filter_length.
Qed.
Lemma good_data limit c : good_cast limit c -> has_data limit c = true.
Proof. intros (_ & H2 & _). apply samples_complete. destruct (cast_samples limit c); [cbn in H2; lia|discriminate]. Qed.
Lemma good_levels limit c : good_cast limit c -> Spec_Fetchers.levels limit c <> [].
Proof. intros G. apply good_data in G. unfold has_data in G. intros E. rewrite E in G. discriminate. Qed.
Lemma numbered_in (index : list nat) (cs : list (Spec_Fetchers.cast XR)) i c : In i index -> nth_error cs i = Some c -> In c (numbered index cs).
Proof.
  intros Hi Hc. unfold numbered. apply in_map_iff. exists (i, c). split; [reflexivity|]. apply filter_In. split.
  - assert (Li : (i < length cs)%nat) by (apply nth_error_Some; congruence).
    replace (i, c) with (nth i (combine (seq 0 (length cs)) cs) (0%nat, c)).
    + apply nth_In. rewrite combine_length, seq_length. lia.
    + rewrite combine_nth by apply seq_length. rewrite seq_nth by exact Li. f_equal. now apply nth_error_nth.
  - apply existsb_exists. exists i. split; [exact Hi|]. cbn. apply Nat.eqb_refl.
Qed.
Lemma selected_sub index (cs : list (Spec_Fetchers.cast XR)) c : In c (selected index cs) -> In c cs.
Proof.
  intros Hc. unfold selected in Hc. apply filter_In in Hc as [Hc _]. unfold numbered in Hc. apply in_map_iff in Hc as (q & <- & Hq).
  apply filter_In in Hq as [Hq _]. destruct q as [k c']. now apply in_combine_r in Hq.
Qed.

(* the search finds casts *)
Section Search.
  Context {rng : Type}.
  Variable seed : Z -> rng.
  Variable rand : rng -> nat -> list XR * rng.
  Variable g0 : rng.
  Variable qs : list XR -> list nat.
  Hypothesis HR : rand_ok rand.
  Hypothesis HQ : argsort_ok qs.
  Variable date_str : XR -> list ascii.
  Variable cfg : map_config XR.
  Variables large small : scales.
  Hypothesis HC : config_scales cfg large small.
  Hypothesis NL : scales_nonzero large.
  Hypothesis NS : scales_nonzero small.
  Hypothesis NA : s_age large <> 0 /\ s_age small <> 0.
  Hypothesis NP : s_pv large = false.
  Hypothesis HM : (mc_max_casts cfg = 3 \/ 5 <= mc_max_casts cfg)%Z.
  Variable fd : float_data XR.
  Variables l la da : R.
  Hypothesis Hlat : fd_lat fd = Fin la.
  Hypothesis Hdate : fd_date fd = Fin da.
  Variable pos : Spec_Fetchers.cast XR -> R.

  Definition fprob (z : R) : problem :=
    mkProblem la l da z (s_lat large) (s_lat small) (s_long large) (s_long small) (s_phi large) (s_phi small) (s_age large) (s_age small) 0.
  Lemma offered_real (cs : list (Spec_Fetchers.cast XR)) (zs : list R) : (forall c, In c cs -> exists a, Spec_Fetchers.c_lat c = Fin a) -> length zs = length cs ->
    exists grid, offered date_str cs (map (fun c => Fin (pos c)) cs) (map Fin zs) = map Spec_Finders.fcast grid /\ length grid = length cs /\
      forall i c lc, nth_error cs i = Some c -> Spec_Fetchers.c_lat c = Fin lc -> Finders.c_long (nth i grid dcastR) = pos c /\ Finders.c_lat (nth i grid dcastR) = lc.
  Proof.
    revert zs. induction cs as [|c cs IH]; intros [|z zs] HN L; try discriminate.
    - exists []. split; [reflexivity|]. split; [reflexivity|]. intros [|i]; discriminate.
    - destruct (IH zs) as (grid & E & LG & HG); [intros c' H'; apply HN; now right|now injection L|].
      destruct (HN c (or_introl eq_refl)) as (lc & Elc). destruct (change_date_number (date_str (Spec_Fetchers.c_date c))) as (d & Ed).
      exists (Finders.mkCast lc (pos c) d z :: grid). split; [|split; [cbn; now rewrite LG|]].
      + unfold offered in *. cbn [map combine fst snd]. rewrite E, Elc, Ed. reflexivity.
      + intros [|i] c' lc' E1 E2; cbn in E1; [|now apply HG]. injection E1 as <-. rewrite Elc in E2. injection E2 as <-. split; reflexivity.
  Qed.
  Lemma search_finds z cs zs : (forall c, In c cs -> exists a, Spec_Fetchers.c_lat c = Fin a) -> length zs = length cs -> Exists (near_cast large l la pos) cs ->
    exists index i c, search seed rand g0 qs cfg fd (Fin l) (Fin z) (offered date_str cs (map (fun c => Fin (pos c)) cs) (map Fin zs)) = Ok index /\
      In i index /\ nth_error cs i = Some c /\ forall k, In k index -> (k < length cs)%nat.
  Proof.
    intros HN L HE. destruct (offered_real cs zs HN L) as (grid & EO & LG & HG).
    assert (ES : search seed rand g0 qs cfg fd (Fin l) (Fin z) (offered date_str cs (map (fun c => Fin (pos c)) cs) (map Fin zs))
      = fst (besthist seed rand qs (fprob z) grid (mc_max_casts cfg) g0)).
    { rewrite EO. unfold search, besthist, fprob. destruct HC as (-> & -> & -> & -> & -> & -> & -> & -> & _ & ->). rewrite NP, Hlat, Hdate. reflexivity. }
    assert (SO : scales_ok (fprob z)).
    { unfold scales_ok, fprob, b_pv. cbn. destruct NL as (? & ? & ?), NS as (? & ? & ?), NA. repeat split; auto; discriminate. }
    assert (DO : depths_ok (fprob z) grid) by (intros C; discriminate).
    assert (HI : exists i, (i < length grid)%nat /\ inside (fprob z) (nth i grid dcastR)).
    { apply Exists_exists in HE as (c & Hc & (lc & Elc & HL)). apply In_nth_error in Hc as (i & Hi). exists i.
      split; [rewrite LG; apply nth_error_Some; congruence|]. destruct (HG i c lc Hi Elc) as [E1 E2]. unfold inside, ellipse2, fprob, vort_cast, vort_float, b_pv. cbn [b_long b_longL b_lat b_latL b_phiL b_use Z.eqb].
      rewrite E1, E2. unfold vorticity_distance2. destruct (Req_EM_T 0 0); [rewrite Rplus_0_r; exact HL|lra]. }
    destruct HI as (i0 & Hi0 & HI0). assert (NG : grid <> []) by (intros E; rewrite E in Hi0; cbn in Hi0; lia).
    destruct (inside_list_exists (fprob z) grid) as (ie & Hie). pose proof (besthist_count seed rand qs HR HQ (fprob z) grid SO DO (mc_max_casts cfg) g0 ie NG Hie) as [C1 C2].
    assert (NI : ie <> []) by (intros E; pose proof (proj2 (proj2 Hie i0) (conj Hi0 HI0)) as Q; rewrite E in Q; destruct Q).
    assert (HOK : exists index, fst (besthist seed rand qs (fprob z) grid (mc_max_casts cfg) g0) = Ok index /\ index <> []).
    { destruct (Z_le_gt_dec (Z.of_nat (length ie)) (mc_max_casts cfg)) as [LE|GT].
      - exists ie. split; [now apply C1|exact NI].
      - destruct C2 as (index & EI & LI); [lia|exact HM|]. exists index. split; [exact EI|]. intros E. rewrite E in LI. cbn in LI. lia. }
    destruct HOK as (index & EI & NX). destruct index as [|i index]; [congruence|].
    destruct (besthist_valid seed rand qs HR HQ (fprob z) grid SO DO _ _ _ EI) as [_ HV].
    destruct (HV i (or_introl eq_refl)) as [Li _]. rewrite LG in Li. destruct (nth_error cs i) as [c|] eqn:Ec; [|apply nth_error_None in Ec; lia].
    exists (i :: index), i, c. rewrite ES. split; [exact EI|]. split; [now left|]. split; [exact Ec|]. intros k Hk. rewrite <- LG. now apply HV.
  Qed.
End Search.
