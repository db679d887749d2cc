From Coq Require Import ZArith List Bool Reals Lra Lia Permutation FinFun.
From Verif Require Import Num Np NumFacts NpFacts Stats Wrangling LinR Spec_Utilities Spec_Finders Spec_Stats Spec_FitCond Spec_Map
  Helper Spec_Helper MapProfile Spec_MapLevel Spec_Symm Proofs_Besthist Proofs_Stats1 Proofs_Stats2 Proofs_Map Proofs_Map2 Proofs_Helper Proofs_MapLevel Proofs_Symm.
Import ListNotations.
Local Open Scope R_scope.

(* ---- unit ---- *)
Lemma sum_affine a c l : fold_right Rplus 0 (map (fun x => a * x + c) l) = a * fold_right Rplus 0 l + c * INR (length l).
Proof. induction l as [|x l IH]; [cbn; ring|]. cbn [map fold_right length]. rewrite S_INR, IH. ring. Qed.
Lemma mean_affine a c l : l <> [] -> mean_of (map (fun x => a * x + c) l) = a * mean_of l + c.
Proof.
  intros Hl. unfold mean_of. rewrite sum_affine, map_length. assert (INR (length l) <> 0) by (destruct l; [congruence|apply not_0_INR; discriminate]).
  field. assumption.
Qed.
Lemma mean_scal a l : mean_of (map (fun x => a * x) l) = a * mean_of l.
Proof.
  unfold mean_of. rewrite map_length. replace (fold_right Rplus 0 (map (fun x => a * x) l)) with (a * fold_right Rplus 0 l); [unfold Rdiv; ring|].
  induction l as [|x l IH]; [cbn; ring|]. cbn [map fold_right]. rewrite <- IH. ring.
Qed.
Lemma pop_var_affine a c l : l <> [] -> pop_var (map (fun x => a * x + c) l) = a ^ 2 * pop_var l.
Proof.
  intros Hl. unfold pop_var. rewrite mean_affine, map_map by exact Hl. rewrite <- (mean_scal (a ^ 2)), map_map. f_equal. apply map_ext. intros x. ring.
Qed.
Lemma pop_var_scal a l : pop_var (map (fun x => a * x) l) = a ^ 2 * pop_var l.
Proof. unfold pop_var. rewrite mean_scal, map_map. rewrite <- (mean_scal (a ^ 2)), map_map. f_equal. apply map_ext. intros x. ring. Qed.
Lemma rsd_affine a c l : l <> [] -> rsd (map (fun x => a * x + c) l) = Rabs a * rsd l.
Proof.
  intros Hl. assert (E : forall k, rsd k = sqrt (pop_var k)) by (intros k; unfold rsd, pop_var, mean_of, rmean; now rewrite map_length).
  rewrite !E, pop_var_affine by exact Hl. rewrite sqrt_mult_alt by apply pow2_ge_0. f_equal. rewrite <- sqrt_Rsqr_abs. f_equal. unfold Rsqr. ring.
Qed.
Lemma map_sal_unit a c l : map hp_sal (map (in_unit a c) l) = map (fun x => a * x + c) (map hp_sal l).
Proof. now rewrite !map_map. Qed.
Lemma kept_unit a c l : a <> 0 -> l <> [] -> kept (map (in_unit a c) l) = map (in_unit a c) (kept l).
Proof.
  intros Ha Hl. unfold kept. cbv zeta. rewrite map_sal_unit. set (sal := map hp_sal l).
  assert (Hs : sal <> []) by (unfold sal; destruct l; [congruence|discriminate]).
  replace (rmean (map (fun x => a * x + c) sal)) with (a * rmean sal + c) by (symmetry; exact (mean_affine a c sal Hs)). rewrite (rsd_affine a c sal Hs).
  clearbody sal. clear - Ha. assert (0 < Rabs a) by now apply Rabs_pos_lt. induction l as [|q l IH]; [reflexivity|]. cbn [map filter].
  replace (hp_sal (in_unit a c q) - (a * rmean sal + c)) with (a * (hp_sal q - rmean sal)) by (cbn [in_unit hp_sal]; ring). rewrite Rabs_mult.
  destruct (Rle_dec (Rabs a * _) _), (Rle_dec (Rabs (hp_sal q - rmean sal)) _); cbn [map]; rewrite ?IH; try reflexivity; exfalso; nra.
Qed.

Lemma mse_unit2 a s sv nv data g w : mean_square_error s (a ^ 2 * sv) (a ^ 2 * nv) data g w = a ^ 2 * mean_square_error s sv nv data g w.
Proof.
  unfold mean_square_error. cbv zeta. set (n := length data).
  rewrite (bsum_ext n _ (fun i => a ^ 2 * (w i * (sv * correlation s (cast data i) g)))) by (intros i _; ring). rewrite bsum_scal.
  rewrite (bsum_ext n (fun i => bsum n (fun j => w i * w j * covariances s (a ^ 2 * sv) (a ^ 2 * nv) data i j))
             (fun i => a ^ 2 * bsum n (fun j => w i * w j * covariances s sv nv data i j))).
  - rewrite bsum_scal. ring.
  - intros i _. rewrite <- bsum_scal. apply bsum_ext. intros j _. unfold covariances. ring.
Qed.
Lemma best_unit a s sv nv data g w : a <> 0 -> best_weights s sv nv data g w -> best_weights s (a ^ 2 * sv) (a ^ 2 * nv) data g w.
Proof.
  intros Ha [U B]. split; [exact U|]. intros w' U'. destruct (B w' U') as [B1 B2]. rewrite !mse_unit2.
  assert (0 < a ^ 2) by (rewrite <- Rsqr_pow2; now apply Rsqr_pos_lt). split; [nra|]. intros E. apply B2. nra.
Qed.
Lemma estimate_affine s sv nv data g w sal a c : best_weights s sv nv data g w -> length sal = length data ->
  estimate w (map (fun x => a * x + c) sal) = a * estimate w sal + c.
Proof.
  intros [U _] L. unfold estimate. rewrite map_length, L. unfold unbiased in U.
  transitivity (a * bsum (length data) (fun i => w i * nth i sal 0) + c * bsum (length data) w); [|rewrite U; ring].
  rewrite <- !bsum_scal, <- bsum_plus. apply bsum_ext. intros i Hi. rewrite (nth_map (fun x => a * x + c) _ _ _ 0) by congruence. ring.
Qed.
Lemma estimate_scal w sal a : estimate w (map (fun x => a * x) sal) = a * estimate w sal.
Proof.
  unfold estimate. rewrite map_length, <- bsum_scal. apply bsum_ext. intros i Hi. rewrite (nth_map (fun x => a * x) _ _ _ 0) by assumption. ring.
Qed.
Lemma two_stage_unit large small nv g l a c v e : a <> 0 -> l <> [] -> two_stage large small nv g l v e ->
  two_stage large small (a ^ 2 * nv) g (map (in_unit a c) l) (a * v + c) (Rabs a * e).
Proof.
  intros Ha Hl. unfold two_stage. cbv zeta. rewrite map_sal_unit.
  assert (EP : map place (map (in_unit a c) l) = map place l) by now rewrite map_map. rewrite EP.
  set (data := map place l). set (sal := map hp_sal l).
  assert (Hs : sal <> []) by (unfold sal; destruct l; [congruence|discriminate]).
  assert (LS : length sal = length data) by (unfold sal, data; now rewrite !map_length).
  rewrite pop_var_affine by exact Hs.
  intros (w & w' & res & A & [LR B] & C & -> & ->). exists w, w', (map (fun x => a * x) res). rewrite pop_var_scal. split; [now apply best_unit|]. split.
  - split; [now rewrite !map_length|]. intros i Hi. destruct (B i Hi) as (u & BU & EU). exists u. split; [now apply best_unit|].
    rewrite (estimate_affine _ _ _ _ _ _ _ a c BU LS). rewrite (nth_map (fun x => a * x + c) _ _ _ 0), (nth_map (fun x => a * x) _ _ _ 0) by congruence. rewrite EU. ring.
  - split; [now apply best_unit|]. split; [rewrite (estimate_affine _ _ _ _ _ _ _ a c A LS), estimate_scal; ring|].
    rewrite !mse_unit2, <- Rmult_plus_distr_l. rewrite sqrt_mult_alt by apply pow2_ge_0. f_equal. rewrite <- sqrt_Rsqr_abs. f_equal. unfold Rsqr. ring.
Qed.

(* ---- positions only ---- *)
Lemma nearest_same l l' i j : length l = length l' ->
  (forall a b, (a < length l)%nat -> (b < length l)%nat -> (same_place (nth a l' dstation) (nth b l' dstation) <-> same_place (nth a l dstation) (nth b l dstation)) /\
     dist2 (nth a l' dstation) (nth b l' dstation) = dist2 (nth a l dstation) (nth b l dstation)) ->
  (i < length l)%nat -> nearest l i j -> nearest l' i j.
Proof.
  intros L E Hi (J & ND & AL & FI). split; [lia|]. split; [rewrite (proj1 (E i j Hi J)); exact ND|]. split.
  - intros k Hk. rewrite (proj1 (E i k Hi ltac:(lia))), (proj2 (E i k Hi ltac:(lia))), (proj2 (E i j Hi J)). apply AL. lia.
  - intros k Hk. rewrite (proj1 (E i k Hi ltac:(lia))), (proj2 (E i k Hi ltac:(lia))), (proj2 (E i j Hi J)). now apply FI.
Qed.
Lemma noise_unit a c l nv : noise_estimate l nv -> noise_estimate (map (in_unit a c) l) (a ^ 2 * nv).
Proof.
  intros (nn & HN & ->). exists nn. rewrite map_length. split.
  - intros i Hi. apply (nearest_same (map observed l)); [now rewrite !map_length| |now rewrite map_length|now apply HN].
    intros p q Hp Hq. rewrite map_length in Hp, Hq. rewrite map_map. rewrite !(nth_map _ _ _ _ dhpoint) by assumption. split; reflexivity.
  - unfold Rdiv. rewrite <- Rmult_assoc. f_equal. rewrite <- mean_scal, map_map. f_equal. apply map_ext_in. intros i Hi. apply in_seq in Hi. cbn [Nat.add] in Hi.
    assert (J : (nn i < length l)%nat) by (destruct (HN i (proj2 Hi)) as (J & _); now rewrite map_length in J).
    rewrite !(nth_map (in_unit a c) _ _ _ dhpoint) by (exact J || exact (proj2 Hi)). cbn [in_unit hp_sal]. ring.
Qed.

(* a change of the places that keeps distances and correlations *)
Section Iso.
  Variable m : hpoint R -> hpoint R.
  Variable mp : point R -> point R.
  Hypothesis Hsal : forall q, hp_sal (m q) = hp_sal q.
  Hypothesis Hmp : forall q, place (m q) = mp (place q).
  Hypothesis Hsame : forall p q, same_place (observed (m p)) (observed (m q)) <-> same_place (observed p) (observed q).
  Hypothesis Hdist : forall p q, dist2 (observed (m p)) (observed (m q)) = dist2 (observed p) (observed q).
  Variable ok : point R -> Prop.
  Variables large small : scales.
  Hypothesis Hcorr : forall s p q, s = large \/ s = small -> ok p -> ok q -> correlation s (mp p) (mp q) = correlation s p q.

  Lemma map_sal_iso l : map hp_sal (map m l) = map hp_sal l.
  Proof. rewrite map_map. apply map_ext. exact Hsal. Qed.
  Lemma kept_iso l : kept (map m l) = map m (kept l).
  Proof.
    unfold kept. cbv zeta. rewrite map_sal_iso. generalize (rmean (map hp_sal l)) (rsd (map hp_sal l)). intros a b.
    induction l as [|q l IH]; [reflexivity|]. cbn [map filter]. rewrite Hsal. destruct (Rle_dec _ _); cbn [map]; now rewrite IH.
  Qed.
  Lemma noise_iso l nv : noise_estimate l nv -> noise_estimate (map m l) nv.
  Proof.
    intros (nn & HN & ->). exists nn. rewrite map_length. split.
    - intros i Hi. apply (nearest_same (map observed l)); [now rewrite !map_length| |now rewrite map_length|now apply HN].
      intros p q Hp Hq. rewrite map_length in Hp, Hq. rewrite map_map. rewrite !(nth_map _ _ _ _ dhpoint) by assumption. split; [apply Hsame|apply Hdist].
    - do 2 f_equal. apply map_ext_in. intros i Hi. apply in_seq in Hi. cbn [Nat.add] in Hi.
      assert (J : (nn i < length l)%nat) by (destruct (HN i (proj2 Hi)) as (J & _); now rewrite map_length in J).
      rewrite !(nth_map m _ _ _ dhpoint) by (exact J || exact (proj2 Hi)). now rewrite !Hsal.
  Qed.
  Section Data.
    Variables (s : scales) (data : list (point R)).
    Hypothesis Hs : s = large \/ s = small.
    Hypothesis Hok : forall p, In p data -> ok p.
    Lemma cast_iso i : (i < length data)%nat -> cast (map mp data) i = mp (cast data i) /\ ok (cast data i).
    Proof. intros H. unfold cast. rewrite (nth_map mp _ _ _ dpointR) by exact H. split; [reflexivity|]. apply Hok. now apply nth_In. Qed.
    Lemma mse_iso sv nv g w : ok g -> mean_square_error s sv nv (map mp data) (mp g) w = mean_square_error s sv nv data g w.
    Proof.
      intros Hg. unfold mean_square_error. rewrite map_length. f_equal; [f_equal; f_equal|].
      - apply bsum_ext. intros i Hi. destruct (cast_iso i Hi) as [-> O]. now rewrite (Hcorr s).
      - apply bsum_ext. intros i Hi. apply bsum_ext. intros j Hj. unfold covariances. destruct (cast_iso i Hi) as [-> O]. destruct (cast_iso j Hj) as [-> O']. now rewrite (Hcorr s).
    Qed.
    Lemma best_iso sv nv g w : ok g -> best_weights s sv nv data g w -> best_weights s sv nv (map mp data) (mp g) w.
    Proof. intros Hg [U B]. unfold best_weights. rewrite map_length. split; [exact U|]. intros w' U'. rewrite !mse_iso by exact Hg. now apply B. Qed.
  End Data.
  Lemma two_stage_iso nv g l v e : ok g -> (forall q, In q l -> ok (place q)) -> two_stage large small nv g l v e -> two_stage large small nv (mp g) (map m l) v e.
  Proof.
    intros Hg Hl. unfold two_stage. cbv zeta. rewrite map_sal_iso.
    assert (EP : map place (map m l) = map mp (map place l)) by (rewrite !map_map; apply map_ext; exact Hmp). rewrite EP.
    assert (Hok : forall p, In p (map place l) -> ok p) by (intros p Hp; apply in_map_iff in Hp as (q & <- & Hq); now apply Hl).
    set (data := map place l) in *. set (sal := map hp_sal l).
    intros (w & w' & res & A & [LR B] & C & -> & ->). exists w, w', res. split; [now apply best_iso; auto|]. split.
    - split; [exact LR|]. intros i Hi. rewrite map_length in Hi. destruct (cast_iso data Hok i Hi) as [-> O]. destruct (B i Hi) as (u & BU & EU). exists u. split; [|exact EU]. apply best_iso; auto.
    - split; [apply best_iso; auto|]. split; [reflexivity|]. now rewrite !mse_iso by auto.
  Qed.
End Iso.

Section Level.
  Variable inv : nat -> (nat -> nat -> XR) -> res (nat -> nat -> XR).
  Hypothesis Hinv : inv_ok inv.
  Variable cfg : map_config XR.
  Variables large small : scales.
  Hypothesis HC : config_scales cfg large small.
  Hypothesis NL : scales_nonzero large.
  Hypothesis NS : scales_nonzero small.

  Lemma kept_some l : (5 < length l)%nat -> l <> [] /\ kept l <> [].
  Proof. intros H5. assert (Hl : l <> []) by (destruct l; [cbn in H5; lia|discriminate]). split; [exact Hl|]. destruct (removed l Hl) as (_ & _ & _ & HK). exact HK. Qed.

  Theorem level_unit g t l nv a c : has_depth large (g :: map place l) -> (5 < length l)%nat -> noise_estimate (kept l) nv -> 0 < nv -> a <> 0 ->
    exists value err signal points,
      map_level inv cfg (fpoint g) t (hist_of (map known l)) = Ok (Some (mkLevelOut t (Fin value) (Fin err) (Fin nv) (Fin signal) points)) /\
      map_level inv cfg (fpoint g) t (hist_of (map known (map (in_unit a c) l)))
      = Ok (Some (mkLevelOut t (Fin (a * value + c)) (Fin (Rabs a * err)) (Fin (a ^ 2 * nv)) (Fin (a ^ 2 * signal)) points)).
  Proof.
    intros HD H5 HN Hn Ha. destruct (kept_some l H5) as [Hl HK].
    destruct (level_mapped inv cfg large small g t l nv Hinv HC NL NS HD H5 HN Hn) as (v & e & TS & EM).
    assert (EP : map place (map (in_unit a c) l) = map place l) by now rewrite map_map.
    destruct (level_mapped inv cfg large small g t (map (in_unit a c) l) (a ^ 2 * nv) Hinv HC NL NS) as (v' & e' & TS' & EM').
    - now rewrite EP.
    - now rewrite map_length.
    - rewrite kept_unit by assumption. now apply noise_unit.
    - apply Rmult_lt_0_compat; [rewrite <- Rsqr_pow2; now apply Rsqr_pos_lt|exact Hn].
    - rewrite kept_unit in TS', EM' by assumption.
      destruct (two_stage_unique _ _ _ _ _ _ _ _ _ TS' (two_stage_unit large small nv g (kept l) a c v e Ha HK TS)) as [-> ->].
      eexists _, _, _, _. split; [exact EM|]. rewrite EM'. rewrite map_sal_unit, pop_var_affine by (destruct (kept l); [congruence|discriminate]). now rewrite map_map.
  Qed.

  Theorem level_moved g t l nv x y : has_depth large (g :: map place l) -> (5 < length l)%nat -> noise_estimate (kept l) nv -> 0 < nv ->
    exists value err signal, 
      map_level inv cfg (fpoint g) t (hist_of (map known l)) = Ok (Some (mkLevelOut t (Fin value) (Fin err) (Fin nv) signal (map (fun q => (Fin (hp_long q), Fin (hp_lat q))) (kept l)))) /\
      map_level inv cfg (fpoint (moved_point x y g)) t (hist_of (map known (map (moved x y) l)))
      = Ok (Some (mkLevelOut t (Fin value) (Fin err) (Fin nv) signal (map (fun q => (Fin (hp_long q + x), Fin (hp_lat q))) (kept l)))).
  Proof.
    intros HD H5 HN Hn. destruct (kept_some l H5) as [Hl HK].
    assert (HP : forall q, place (moved x y q) = moved_point x y (place q)) by reflexivity.
    assert (HS : forall p q, same_place (observed (moved x y p)) (observed (moved x y q)) <-> same_place (observed p) (observed q)).
    { intros p q. unfold same_place. cbn. split; intros [A B]; (split; lra). }
    assert (HDi : forall p q, dist2 (observed (moved x y p)) (observed (moved x y q)) = dist2 (observed p) (observed q)) by (intros p q; unfold dist2; cbn; ring).
    assert (HCo : forall s p q, s = large \/ s = small -> True -> True -> correlation s (moved_point x y p) (moved_point x y q) = correlation s p q).
    { intros s p q _ _ _. unfold correlation, separation2. cbn [moved_point p_lat p_long p_date p_z].
      replace (p_long p + x - (p_long q + x)) with (p_long p - p_long q) by ring. replace (p_date p + y - (p_date q + y)) with (p_date p - p_date q) by ring. reflexivity. }
    assert (KI := kept_iso (moved x y) (fun q => eq_refl) l).
    destruct (level_mapped inv cfg large small g t l nv Hinv HC NL NS HD H5 HN Hn) as (v & e & TS & EM).
    destruct (level_mapped inv cfg large small (moved_point x y g) t (map (moved x y) l) nv Hinv HC NL NS) as (v' & e' & TS' & EM').
    - intros Ev p [<-|Hp]; [apply (HD Ev g); now left|]. rewrite map_map in Hp. apply in_map_iff in Hp as (q & <- & Hq). apply (HD Ev (place q)). right. now apply in_map.
    - now rewrite map_length.
    - rewrite KI. apply noise_iso; auto.
    - exact Hn.
    - rewrite KI in TS', EM'.
      pose proof (two_stage_iso (moved x y) (moved_point x y) (fun q => eq_refl) HP (fun _ => True) large small HCo nv g (kept l) v e I (fun _ _ => I) TS) as TI.
      destruct (two_stage_unique _ _ _ _ _ _ _ _ _ TS' TI) as [-> ->].
      eexists _, _, _. split; [exact EM|]. rewrite EM'. rewrite !map_map. reflexivity.
  Qed.

  Lemma sin_mirror a : sin (- a * PI / 180) = - sin (a * PI / 180).
  Proof. replace (- a * PI / 180) with (- (a * PI / 180)) by (unfold Rdiv; ring). apply sin_neg. Qed.
  Lemma vort_mirror a z : sin (a * PI / 180) <> 0 -> vort (- a) z = - vort a z.
  Proof.
    intros H. unfold vort. rewrite sin_mirror. destruct (Req_EM_T _ 0) as [E|_]; [exfalso; apply H; lra|]. destruct (Req_EM_T _ 0) as [E|_]; [contradiction|]. unfold Rdiv. ring.
  Qed.
  Lemma distance_mirror phi p q : vorticity_distance2 phi (- p) (- q) = vorticity_distance2 phi p q.
  Proof.
    unfold vorticity_distance2. destruct (Req_EM_T (- p) 0), (Req_EM_T p 0); try lra. destruct (Req_EM_T (- q) 0), (Req_EM_T q 0); try lra.
    replace ((- p - - q) ^ 2) with ((p - q) ^ 2) by ring. now replace ((- p) ^ 2 + (- q) ^ 2) with (p ^ 2 + q ^ 2) by ring.
  Qed.
  Theorem level_mirror g t l nv : has_depth large (g :: map place l) -> (5 < length l)%nat -> noise_estimate (kept l) nv -> 0 < nv ->
    (s_pv large = true -> off_equator (g :: map place l)) ->
    exists value err signal, 
      map_level inv cfg (fpoint g) t (hist_of (map known l)) = Ok (Some (mkLevelOut t (Fin value) (Fin err) (Fin nv) signal (map (fun q => (Fin (hp_long q), Fin (hp_lat q))) (kept l)))) /\
      map_level inv cfg (fpoint (mirrored_point g)) t (hist_of (map known (map mirrored l)))
      = Ok (Some (mkLevelOut t (Fin value) (Fin err) (Fin nv) signal (map (fun q => (Fin (hp_long q), Fin (- hp_lat q))) (kept l)))).
  Proof.
    intros HD H5 HN Hn HO. destruct (kept_some l H5) as [Hl HK].
    assert (HP : forall q, place (mirrored q) = mirrored_point (place q)) by reflexivity.
    assert (HS : forall p q, same_place (observed (mirrored p)) (observed (mirrored q)) <-> same_place (observed p) (observed q)).
    { intros p q. unfold same_place. cbn. split; intros [A B]; (split; lra). }
    assert (HDi : forall p q, dist2 (observed (mirrored p)) (observed (mirrored q)) = dist2 (observed p) (observed q)) by (intros p q; unfold dist2; cbn; ring).
    set (ok := fun p : point R => s_pv large = true -> sin (p_lat p * PI / 180) <> 0).
    assert (HCo : forall s p q, s = large \/ s = small -> ok p -> ok q -> correlation s (mirrored_point p) (mirrored_point q) = correlation s p q).
    { intros s p q Es Op Oq. unfold correlation, separation2. cbn [mirrored_point p_lat p_long p_date p_z].
      assert (EV : s_pv s = s_pv large) by (destruct HC as (_ & _ & _ & _ & _ & _ & _ & _ & Ev & _); destruct Es as [-> | ->]; auto).
      replace (((- p_lat p - - p_lat q) / s_lat s) ^ 2) with (((p_lat p - p_lat q) / s_lat s) ^ 2) by (unfold Rdiv; ring).
      rewrite EV. destruct (s_pv large) eqn:EL; [|reflexivity]. rewrite !vort_mirror by (first [apply Op|apply Oq]; first [exact EL|reflexivity]). now rewrite distance_mirror. }
    assert (KI := kept_iso mirrored (fun q => eq_refl) l).
    destruct (level_mapped inv cfg large small g t l nv Hinv HC NL NS HD H5 HN Hn) as (v & e & TS & EM).
    destruct (level_mapped inv cfg large small (mirrored_point g) t (map mirrored l) nv Hinv HC NL NS) as (v' & e' & TS' & EM').
    - intros Ev p [<-|Hp]; [apply (HD Ev g); now left|]. rewrite map_map in Hp. apply in_map_iff in Hp as (q & <- & Hq). apply (HD Ev (place q)). right. now apply in_map.
    - now rewrite map_length.
    - rewrite KI. apply noise_iso; auto.
    - exact Hn.
    - rewrite KI in TS', EM'.
      assert (Og : ok g) by (intros Ev; apply (HO Ev); now left).
      assert (Oq : forall q, In q (kept l) -> ok (place q)).
      { intros q Hq Ev. apply (HO Ev). right. apply in_map. unfold kept in Hq. apply filter_In in Hq. apply Hq. }
      pose proof (two_stage_iso mirrored mirrored_point (fun q => eq_refl) HP ok large small HCo nv g (kept l) v e Og Oq TS) as TI.
      destruct (two_stage_unique _ _ _ _ _ _ _ _ _ TS' TI) as [-> ->].
      eexists _, _, _. split; [exact EM|]. rewrite EM'. rewrite !map_map. reflexivity.
  Qed.
End Level.
