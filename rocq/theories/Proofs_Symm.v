From Coq Require Import ZArith List Bool Reals Lra Lia Permutation FinFun.
From Verif Require Import Num Np NumFacts NpFacts Stats Wrangling LinR Spec_Utilities Spec_Finders Spec_Stats Spec_FitCond Spec_Map
  Helper Spec_Helper MapProfile Spec_MapLevel Spec_Symm Proofs_Besthist Proofs_Stats1 Proofs_Stats2 Proofs_Map Proofs_Map2 Proofs_Helper Proofs_MapLevel.
Import ListNotations.
Local Open Scope R_scope.

(* ---- order ---- *)
Lemma mean_perm l l' : Permutation l l' -> mean_of l = mean_of l'.
Proof. intros P. unfold mean_of. f_equal; [exact (rsum_perm _ _ P)|now rewrite (Permutation_length P)]. Qed.
Lemma pop_var_perm l l' : Permutation l l' -> pop_var l = pop_var l'.
Proof. intros P. unfold pop_var. rewrite (mean_perm _ _ P). apply mean_perm. now apply Permutation_map. Qed.
Lemma rsd_perm l l' : Permutation l l' -> rsd l = rsd l'.
Proof.
  intros P. unfold rsd. replace (rmean l') with (rmean l) by exact (mean_perm _ _ P). rewrite (Permutation_length P). do 2 f_equal.
  apply rsum_perm. now apply Permutation_map.
Qed.
Lemma perm_filter {X} (f : X -> bool) l l' : Permutation l l' -> Permutation (filter f l) (filter f l').
Proof.
  induction 1 as [|x l l' P IH|x y l|l l' l'' P1 IH1 P2 IH2]; cbn [filter]; [constructor|destruct (f x); [now constructor|exact IH]| |now transitivity (filter f l')].
  destruct (f x), (f y); try apply Permutation_refl. apply perm_swap.
Qed.
Lemma kept_perm l l' : Permutation l l' -> Permutation (kept l) (kept l').
Proof.
  intros P. unfold kept. cbv zeta. rewrite (rsd_perm _ _ (Permutation_map hp_sal P)).
  replace (rmean (map hp_sal l')) with (rmean (map hp_sal l)) by exact (mean_perm _ _ (Permutation_map hp_sal P)).
  now apply perm_filter.
Qed.

Section Reindexed.
  Variables l l' : list (hpoint R).
  Variable f : nat -> nat.
  Hypothesis HL : length l' = length l.
  Hypothesis Hf : bFun (length l) f.
  Hypothesis Hi : bInjective (length l) f.
  Hypothesis Hn : forall i, (i < length l)%nat -> nth i l' dhpoint = nth (f i) l dhpoint.

  Lemma map_reindex {Y} (h : hpoint R -> Y) d i : (i < length l)%nat -> nth i (map h l') d = nth (f i) (map h l) d.
  Proof. intros H. rewrite !(nth_map h _ _ _ dhpoint) by (try apply Hf; lia). now rewrite Hn. Qed.

  Lemma rsum_reindex (u u' : list R) : length u = length l -> length u' = length l ->
    (forall i, (i < length l)%nat -> nth i u' 0 = nth (f i) u 0) -> Permutation u u'.
  Proof.
    intros L L' E. apply (Permutation_nth u u' 0). split; [congruence|]. exists f. rewrite L. auto.
  Qed.

  Lemma estimate_reindex w w' u u' : length u = length l -> length u' = length l ->
    (forall i, (i < length l)%nat -> nth i u' 0 = nth (f i) u 0) -> (forall i, (i < length l)%nat -> w' i = w (f i)) ->
    estimate w' u' = estimate w u.
  Proof.
    intros L L' E Ew. unfold estimate. rewrite L, L'. rewrite <- (bsum_reindex (length l) f Hf Hi (fun i => w i * nth i u 0)).
    apply bsum_ext. intros i H. now rewrite Ew, E.
  Qed.

  Lemma two_stage_reindex large small nv g v e v' e' : two_stage large small nv g l v e -> two_stage large small nv g l' v' e' -> v = v' /\ e = e'.
  Proof.
    unfold two_stage. cbv zeta.
    assert (P : Permutation (map hp_sal l) (map hp_sal l')).
    { apply rsum_reindex; [apply map_length|rewrite map_length; exact HL|]. intros i H. apply (map_reindex hp_sal 0 i H). }
    rewrite <- (pop_var_perm _ _ P). set (sv := pop_var (map hp_sal l)).
    set (data := map place l). set (data' := map place l').
    assert (LD : length data = length l) by apply map_length. assert (LD' : length data' = length data) by (unfold data, data'; rewrite !map_length; exact HL).
    assert (Hc : forall i, (i < length data)%nat -> cast data' i = cast data (f i)) by (intros i H; rewrite LD in H; exact (map_reindex place dpointR i H)).
    assert (Hf' : bFun (length data) f) by now rewrite LD. assert (Hi' : bInjective (length data) f) by now rewrite LD.
    intros (w & w1 & r & A & [LR B] & C & -> & ->) (w' & w1' & r' & A' & [LR' B'] & C' & -> & ->).
    rewrite map_length in LR, LR'. rewrite HL in LR'.
    destruct (best_reindex large sv nv data data' f LD' Hf' Hi' Hc g w w' A A') as [Ew Em]. rewrite LD in Ew.
    assert (ER : forall i, (i < length l)%nat -> nth i r' 0 = nth (f i) r 0).
    { intros i H. assert (Hfi : (f i < length l)%nat) by now apply Hf. rewrite <- LD in H. destruct (B' i ltac:(lia)) as (u' & BU' & ->). rewrite <- LD in Hfi. destruct (B (f i) Hfi) as (u & BU & ->).
      rewrite LD in H. rewrite (map_reindex hp_sal 0 i H). f_equal. rewrite <- LD in H. rewrite (Hc i H) in BU'.
      destruct (best_reindex large sv nv data data' f LD' Hf' Hi' Hc _ u u' BU BU') as [Eu _]. rewrite LD in Eu.
      apply estimate_reindex; [apply map_length|rewrite map_length; exact HL| |exact Eu]. intros k Hk. apply (map_reindex hp_sal 0 k Hk). }
    assert (PR : Permutation r r') by (apply rsum_reindex; assumption).
    rewrite <- (pop_var_perm _ _ PR) in C' |- *.
    destruct (best_reindex small (pop_var r) nv data data' f LD' Hf' Hi' Hc g w1 w1' C C') as [Ew1 Em1]. rewrite LD in Ew1.
    rewrite Em, Em1. split; [|reflexivity]. f_equal; symmetry.
    - apply estimate_reindex; [apply map_length|rewrite map_length; exact HL| |exact Ew]. intros k Hk. apply (map_reindex hp_sal 0 k Hk).
    - apply estimate_reindex; assumption.
  Qed.

  Lemma nearest_closest k i j : (i < length k)%nat -> nearest (map observed k) i j -> closest k (nth i k dhpoint) (nth j k dhpoint).
  Proof.
    intros H (J & NS & AL & _). rewrite map_length in J. rewrite !(nth_map observed _ _ _ dhpoint) in NS by lia.
    split; [now apply nth_In|]. split; [exact NS|]. intros q Hq Nq. destruct (In_nth _ _ dhpoint Hq) as (m & Hm & <-).
    specialize (AL m). rewrite map_length, !(nth_map observed _ _ _ dhpoint) in AL by lia. now apply AL.
  Qed.
  Lemma closest_perm k k' c a : (forall q, In q k <-> In q k') -> closest k c a -> closest k' c a.
  Proof. intros E (I & N & AL). split; [now apply E|]. split; [exact N|]. intros q Hq. apply AL. now apply E. Qed.

  Lemma noise_reindex nv : (forall q, In q l <-> In q l') -> l <> [] -> untied l -> noise_estimate l nv -> noise_estimate l' nv.
  Proof.
    intros E Hl U (nn & HN & ->).
    assert (NS : ~ all_same (map observed l')).
    { intros C. assert (L0 : (0 < length l)%nat) by (destruct l; [congruence|cbn; lia]). destruct (HN 0%nat L0) as (HJ & ND & _).
      apply ND. apply C; apply in_map_iff; rewrite map_length in HJ.
      - exists (nth 0 l dhpoint). split; [now rewrite (nth_map observed _ _ _ dhpoint)|apply E; now apply nth_In].
      - exists (nth (nn 0%nat) l dhpoint). split; [now rewrite (nth_map observed _ _ _ dhpoint)|apply E; now apply nth_In]. }
    destruct (proj2 (noise_value (map observed l')) NS) as (nn' & HN' & _). rewrite map_length in HN'. exists nn'. split; [exact HN'|].
    f_equal. apply mean_perm. rewrite HL.
    apply rsum_reindex; [now rewrite map_length, seq_length|now rewrite map_length, seq_length|].
    intros i H. rewrite !(nth_map _ _ _ _ 0%nat) by (rewrite seq_length; try apply Hf; lia). rewrite !seq_nth by (try apply Hf; lia). cbn [Nat.add].
    rewrite Hn by exact H. do 2 f_equal. apply (U (nth (f i) l dhpoint)).
    - apply nth_In. now apply Hf.
    - rewrite <- (Hn i H). apply (closest_perm l'); [intros q; symmetry; apply E|]. apply nearest_closest; [lia|]. apply HN'. lia.
    - apply nearest_closest; [now apply Hf|]. apply HN. now apply Hf.
  Qed.
End Reindexed.

Section Level.
  Variable inv : nat -> (nat -> nat -> XR) -> res (nat -> nat -> XR).
  Hypothesis Hinv : inv_ok inv.
  Variable cfg : map_config XR.
  Variables large small : scales.
  Hypothesis HC : config_scales cfg large small.
  Hypothesis NL : scales_nonzero large.
  Hypothesis NS : scales_nonzero small.

  Theorem level_order g t l l' nv : has_depth large (g :: map place l) -> (5 < length l)%nat -> Permutation l l' ->
    noise_estimate (kept l) nv -> 0 < nv -> untied (kept l) ->
    exists value err signal points points',
      map_level inv cfg (fpoint g) t (hist_of (map known l)) = Ok (Some (mkLevelOut t (Fin value) (Fin err) (Fin nv) signal points)) /\
      map_level inv cfg (fpoint g) t (hist_of (map known l')) = Ok (Some (mkLevelOut t (Fin value) (Fin err) (Fin nv) signal points')) /\
      Permutation points points'.
  Proof.
    intros HD H5 P HN Hn U. assert (PK := kept_perm l l' P). assert (Hl : l <> []) by (destruct l; [cbn in H5; lia|discriminate]).
    assert (HK : kept l <> []) by (destruct (removed l Hl) as (_ & _ & _ & HK); exact HK).
    destruct (proj1 (Permutation_nth (kept l) (kept l') dhpoint) PK) as (HL & f & Hf & Hfi & HE).
    assert (HN' : noise_estimate (kept l') nv).
    { apply (noise_reindex (kept l) (kept l') f HL Hf Hfi HE nv); [|exact HK|exact U|exact HN].
      intros q. split; apply Permutation_in; [exact PK|now apply Permutation_sym]. }
    destruct (level_mapped inv cfg large small g t l nv Hinv HC NL NS HD H5 HN Hn) as (v & e & TS & EM).
    destruct (level_mapped inv cfg large small g t l' nv Hinv HC NL NS) as (v' & e' & TS' & EM').
    - intros Ev p [<-|Hp]; [apply (HD Ev); now left|]. apply (HD Ev). right. revert Hp. apply Permutation_in. apply Permutation_map. now apply Permutation_sym.
    - now rewrite <- (Permutation_length P).
    - exact HN'.
    - exact Hn.
    - destruct (two_stage_reindex (kept l) (kept l') f HL Hf Hfi HE large small nv g v e v' e' TS TS') as [-> ->].
      eexists _, _, _, _, _. split; [exact EM|]. split.
      + rewrite EM'. now rewrite (pop_var_perm _ _ (Permutation_map hp_sal PK)).
      + now apply Permutation_map.
  Qed.
End Level.
