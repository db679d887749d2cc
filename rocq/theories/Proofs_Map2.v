(* Consequences of the optimality of map_data_grid *)
From Coq Require Import ZArith List Bool Reals Lra Lia Permutation FinFun.
From Verif Require Import Num Np NumFacts Stats Wrangling LinR LeastSq Spec_Stats Spec_FitCond Spec_Map Proofs_Map Proofs_Besthist Proofs_FC11.
Import ListNotations.
Local Open Scope R_scope.

Lemma estimate_const w c n : estimate w (repeat c n) = c * bsum n w.
Proof.
  unfold estimate. rewrite repeat_length, <- bsum_scal. apply bsum_ext. intros i Hi.
  replace (nth i (repeat c n) 0) with c; [ring|]. symmetry. 
  rewrite (nth_indep _ 0 c) by (rewrite repeat_length; auto). apply nth_repeat.
Qed.
Lemma nth_combo a b c l l' i : length l = length l' -> (i < length l)%nat ->
  nth i (combo a b c l l') 0 = a * nth i l 0 + b * nth i l' 0 + c.
Proof.
  intros E Hi. unfold combo. rewrite (nth_map _ _ _ _ (0, 0)) by (rewrite combine_length; lia).
  rewrite combine_nth by auto. reflexivity.
Qed.
Lemma length_combo a b c l l' : length l = length l' -> length (combo a b c l l') = length l.
Proof. intros E. unfold combo. rewrite map_length, combine_length. lia. Qed.
Lemma estimate_combo w a b c l l' : length l = length l' -> bsum (length l) w = 1 ->
  estimate w (combo a b c l l') = a * estimate w l + b * estimate w l' + c.
Proof.
  intros E U. unfold estimate. rewrite length_combo, <- E by auto.
  transitivity (a * bsum (length l) (fun i => w i * nth i l 0) + b * bsum (length l) (fun i => w i * nth i l' 0)
    + c * bsum (length l) w); [|rewrite U; ring].
  rewrite <- !bsum_scal, <- !bsum_plus. apply bsum_ext. intros i Hi.
  rewrite nth_combo by auto. ring.
Qed.
Lemma map_seq_repeat {X} (f : nat -> X) n x : (forall i, (i < n)%nat -> f i = x) -> map f (seq 0 n) = repeat x n.
Proof.
  intros H. rewrite (map_ext_in _ (fun _ => x)).
  - rewrite <- (seq_length n 0) at 2. generalize (seq 0 n). intros l. induction l; simpl; congruence.
  - intros i Hi. apply in_seq in Hi. apply H. lia.
Qed.
Lemma map_nth_seq {X} (l : list X) d : map (fun i => nth i l d) (seq 0 (length l)) = l.
Proof.
  induction l as [|x l IH]; auto. simpl. f_equal. rewrite <- seq_shift, map_map. exact IH.
Qed.

Section Consequences.
  Variable inv : nat -> (nat -> nat -> XR) -> res (nat -> nat -> XR).
  Hypothesis Hinv : inv_ok inv.

  Lemma map_constant s sv nv g data c : mappable s sv nv g data -> regular s sv nv data ->
    exists e es, mapped inv s sv nv (repeat c (length data)) g data
      = Ok (Fin c, Fin e, map Fin (repeat c (length data)), map Fin es).
  Proof.
    intros Hm Hr. destruct (map_value inv Hinv s sv nv g data Hm Hr) as (w & ws & Bw & Bs & E).
    rewrite E by apply repeat_length.
    assert (E1 : estimate w (repeat c (length data)) = c).
    { rewrite estimate_const. destruct Bw as [U _]. unfold unbiased in U. rewrite U. ring. }
    assert (E2 : map (fun i => estimate (ws i) (repeat c (length data))) (seq 0 (length data)) = repeat c (length data)).
    { apply map_seq_repeat. intros i Hi. rewrite estimate_const. destruct (Bs i Hi) as [U _].
      unfold unbiased in U. rewrite U. ring. }
    rewrite E1, E2. do 2 eexists. reflexivity.
  Qed.

  Lemma map_affine s sv nv g data a b c sal sal' : mappable s sv nv g data -> regular s sv nv data ->
    length sal = length data -> length sal' = length data ->
    exists v v' vs vs' e es,
      mapped inv s sv nv sal g data = Ok (Fin v, Fin e, map Fin vs, map Fin es) /\
      mapped inv s sv nv sal' g data = Ok (Fin v', Fin e, map Fin vs', map Fin es) /\
      mapped inv s sv nv (combo a b c sal sal') g data
        = Ok (Fin (a * v + b * v' + c), Fin e, map Fin (combo a b c vs vs'), map Fin es).
  Proof.
    intros Hm Hr L L'. destruct (map_value inv Hinv s sv nv g data Hm Hr) as (w & ws & Bw & Bs & E).
    do 6 eexists. split; [now apply E|]. split; [now apply E|].
    rewrite E by (rewrite length_combo; congruence).
    assert (E1 : estimate w (combo a b c sal sal') = a * estimate w sal + b * estimate w sal' + c).
    { apply estimate_combo; [congruence|]. rewrite L. apply Bw. }
    assert (E2 : map (fun i => estimate (ws i) (combo a b c sal sal')) (seq 0 (length data))
      = combo a b c (map (fun i => estimate (ws i) sal) (seq 0 (length data))) (map (fun i => estimate (ws i) sal') (seq 0 (length data)))).
    { assert (G : forall l, (forall i, In i l -> (i < length data)%nat) ->
        map (fun i => estimate (ws i) (combo a b c sal sal')) l
        = map (fun q => a * fst q + b * snd q + c) (combine (map (fun i => estimate (ws i) sal) l) (map (fun i => estimate (ws i) sal') l))).
      { induction l as [|i l IH]; intros Hl; auto. cbn [map combine]. f_equal.
        - cbn [fst snd]. apply estimate_combo; [congruence|]. rewrite L. apply Bs. apply Hl. simpl; auto.
        - apply IH. intros j Hj. apply Hl. simpl; auto. }
      apply G. intros i Hi. apply in_seq in Hi. lia. }
    rewrite E1, E2. reflexivity.
  Qed.

  Lemma map_solvable s sv nv g data sal : mappable s sv nv g data -> 0 < nv -> length sal = length data ->
    exists v e vs es, mapped inv s sv nv sal g data = Ok (Fin v, Fin e, map Fin vs, map Fin es) /\
      length vs = length data /\ length es = length data /\ 0 <= e /\ Forall (Rle 0) es.
  Proof.
    intros Hm Hp L. assert (Hr : regular s sv nv data).
    { destruct Hm as (Hs & Hz & Hne & Hsv & _). apply noise_regular; auto. now apply depth_tail in Hz. }
    destruct (map_value inv Hinv s sv nv g data Hm Hr) as (w & ws & Bw & Bs & E).
    do 4 eexists. split; [now apply E|]. rewrite !map_length, seq_length. repeat split; auto using sqrt_pos.
    apply Forall_forall. intros x Hx. apply in_map_iff in Hx. destruct Hx as (i & <- & _). apply sqrt_pos.
  Qed.

  Lemma mse_unit s sv data i : (i < length data)%nat ->
    mean_square_error s sv 0 data (cast data i) (fun k => delta i k) = 0.
  Proof.
    intros Hi. unfold mean_square_error. rewrite bsum_delta by auto. rewrite corr_self.
    rewrite (bsum_ext _ _ (fun k => delta i k * bsum (length data) (fun j => delta i j * covariances s sv 0 data k j))).
    2:{ intros k Hk. rewrite <- bsum_scal. apply bsum_ext. intros; ring. }
    rewrite bsum_delta, bsum_delta by auto. unfold covariances. rewrite corr_self, delta_same. ring.
  Qed.

  Lemma map_exact s sv g data sal : mappable s sv 0 g data -> regular s sv 0 data -> length sal = length data ->
    exists v e, mapped inv s sv 0 sal g data = Ok (Fin v, Fin e, map Fin sal, map Fin (repeat 0 (length data))).
  Proof.
    intros Hm Hr L. destruct (map_value inv Hinv s sv 0 g data Hm Hr) as (w & ws & Bw & Bs & E).
    destruct Hm as (Hs & Hz & Hne & Hsv & Hnv). apply depth_tail in Hz.
    assert (U : forall i, (i < length data)%nat -> unbiased (length data) (fun k => delta i k)).
    { intros i Hi. unfold unbiased. rewrite (bsum_ext _ _ (fun k => delta i k * 1)) by (intros; ring).
      now rewrite bsum_delta. }
    assert (Z : forall i, (i < length data)%nat -> mean_square_error s sv 0 data (cast data i) (ws i) = 0).
    { intros i Hi. destruct (Bs i Hi) as [_ B]. destruct (B _ (U i Hi)) as [B1 _]. rewrite mse_unit in B1 by auto.
      apply Rle_antisym; auto. apply mse_nonneg; auto. intros Ev p [<-|Hp]; apply (Hz Ev); auto. now apply nth_In. }
    assert (E1 : map (fun i => estimate (ws i) sal) (seq 0 (length data)) = sal).
    { transitivity (map (fun i => nth i sal 0) (seq 0 (length sal))); [|apply map_nth_seq]. rewrite L. apply map_ext_in. intros i Hi. apply in_seq in Hi.
      destruct (Bs i ltac:(lia)) as [_ B]. destruct (B _ (U i ltac:(lia))) as [_ B2].
      rewrite mse_unit, Z in B2 by lia. specialize (B2 eq_refl). unfold estimate. rewrite L.
      rewrite (bsum_ext _ _ (fun k => delta i k * nth k sal 0)).
      + rewrite bsum_delta by lia. reflexivity.
      + intros k Hk. now rewrite <- (B2 k Hk). }
    assert (E2 : map (fun i => sqrt (mean_square_error s sv 0 data (cast data i) (ws i))) (seq 0 (length data)) = repeat 0 (length data)).
    { apply map_seq_repeat. intros i Hi. rewrite Z by auto. apply sqrt_0. }
    rewrite E by auto. rewrite E1, E2. do 2 eexists. reflexivity.
  Qed.

  (* the whole of it *)
  Lemma map_optimal s sv nv g data : mappable s sv nv g data -> regular s sv nv data ->
    exists w, best_weights s sv nv data g w /\ forall sal, length sal = length data ->
      exists e vs es, mapped inv s sv nv sal g data = Ok (Fin (estimate w sal), Fin e, map Fin vs, map Fin es) /\
        0 <= e /\ e ^ 2 = mean_square_error s sv nv data g w.
  Proof.
    intros Hm Hr. destruct (map_value inv Hinv s sv nv g data Hm Hr) as (w & ws & Bw & Bs & E).
    exists w. split; auto. intros sal L. do 3 eexists. split; [now apply E|]. split; [apply sqrt_pos|].
    destruct Hm as (Hs & Hz & Hne & Hsv & Hnv). apply pow2_sqrt. now apply mse_nonneg.
  Qed.
  Lemma map_optimal_casts s sv nv g data : mappable s sv nv g data -> regular s sv nv data ->
    forall i, (i < length data)%nat -> exists w, best_weights s sv nv data (cast data i) w /\
      forall sal, length sal = length data ->
      exists v e vs es, mapped inv s sv nv sal g data = Ok (Fin v, Fin e, map Fin vs, map Fin es) /\
        nth i vs 0 = estimate w sal /\ 0 <= nth i es 0 /\ nth i es 0 ^ 2 = mean_square_error s sv nv data (cast data i) w.
  Proof.
    intros Hm Hr i Hi. destruct (map_value inv Hinv s sv nv g data Hm Hr) as (w & ws & Bw & Bs & E).
    exists (ws i). split; [now apply Bs|]. intros sal L. do 4 eexists. split; [now apply E|].
    rewrite !(nth_map _ _ _ _ 0%nat) by now rewrite seq_length. rewrite seq_nth by auto. cbn [plus].
    split; auto. split; [apply sqrt_pos|].
    destruct Hm as (Hs & Hz & Hne & Hsv & Hnv). apply pow2_sqrt. apply mse_nonneg; auto.
    apply depth_tail in Hz. intros Ev p [<-|Hp]; apply (Hz Ev); auto. now apply nth_In.
  Qed.

  (* ---- order ---- *)
  Section Reindex.
    Variables (n : nat) (f h : nat -> nat).
    Hypothesis Hf : bFun n f.
    Hypothesis Hfi : bInjective n f.
    Lemma bsum_reindex (x : nat -> R) : bsum n (fun i => x (f i)) = bsum n x.
    Proof.
      unfold bsum. rewrite <- (map_map f x). apply rsum_perm. apply Permutation_map.
      apply NoDup_Permutation_bis.
      - clear - Hfi. assert (G : forall l, NoDup l -> (forall i, In i l -> (i < n)%nat) -> NoDup (map f l)).
        { induction l as [|i l IH]; intros N B; [constructor|]. inversion N; subst. cbn. constructor.
          - intros Hin. apply in_map_iff in Hin. destruct Hin as (j & Ej & Hj).
            apply Hfi in Ej; [subst; auto| |]; apply B; simpl; auto.
          - apply IH; auto. intros j Hj. apply B. simpl; auto. }
        apply G; [apply seq_NoDup|]. intros i Hi. apply in_seq in Hi. lia.
      - now rewrite map_length.
      - intros k Hk. apply in_map_iff in Hk. destruct Hk as (i & <- & Hi). apply in_seq in Hi. apply in_seq.
        specialize (Hf i). lia.
    Qed.
  End Reindex.

  Section Order.
    Variable s : scales.
    Variables sv nv : R.
    Variables data data' : list (point R).
    Variable f : nat -> nat.
    Notation n := (length data).
    Hypothesis Hlen : length data' = n.
    Hypothesis Hf : bFun n f.
    Hypothesis Hfi : bInjective n f.
    Hypothesis Hnth : forall i, (i < n)%nat -> cast data' i = cast data (f i).

    Lemma cov_reindex i j : (i < n)%nat -> (j < n)%nat ->
      covariances s sv nv data' i j = covariances s sv nv data (f i) (f j).
    Proof.
      intros Hi Hj. unfold covariances. rewrite !Hnth by auto. f_equal. f_equal. unfold delta.
      destruct (Nat.eqb_spec i j) as [->|N]; [now rewrite Nat.eqb_refl|].
      destruct (Nat.eqb_spec (f i) (f j)) as [E|]; auto. apply Hfi in E; auto. congruence.
    Qed.
    Lemma mse_reindex p w : mean_square_error s sv nv data' p (fun i => w (f i)) = mean_square_error s sv nv data p w.
    Proof.
      unfold mean_square_error. rewrite Hlen. f_equal; [f_equal; f_equal|].
      - rewrite (bsum_ext n _ (fun i => (fun k => w k * (sv * correlation s (cast data k) p)) (f i))).
        + exact (bsum_reindex n f Hf Hfi (fun k => w k * (sv * correlation s (cast data k) p))).
        + intros i Hi. now rewrite Hnth.
      - rewrite <- (bsum_reindex n f Hf Hfi (fun i => bsum n (fun j => w i * w j * covariances s sv nv data i j))).
        apply bsum_ext. intros i Hi.
        rewrite <- (bsum_reindex n f Hf Hfi (fun j => w (f i) * w j * covariances s sv nv data (f i) j)).
        apply bsum_ext. intros j Hj. now rewrite cov_reindex.
    Qed.
    Lemma inverse_fun : exists h, bFun n h /\ (forall i, (i < n)%nat -> h (f i) = i /\ f (h i) = i).
    Proof. apply bSurjective_bBijective; auto. apply (bInjective_bSurjective Hf); auto. Qed.

    Lemma regular_reindex : regular s sv nv data -> regular s sv nv data'.
    Proof.
      intros Hr. unfold regular. rewrite Hlen. destruct inverse_fun as (h & Hh & Hfh).
      intros x Hx i Hi.
      assert (Q : forall k, (k < n)%nat -> mv n (covariances s sv nv data) (fun k => x (h k)) k = 0).
      { intros k Hk. rewrite <- (Hx (h k)) by (apply Hh; auto). unfold mv.
        rewrite <- (bsum_reindex n f Hf Hfi (fun j => covariances s sv nv data k j * x (h j))).
        apply bsum_ext. intros j Hj. rewrite cov_reindex by (auto; apply Hh; auto).
        destruct (Hfh k Hk) as [_ ->]. destruct (Hfh j Hj) as [-> _]. reflexivity. }
      specialize (Hr _ Q (f i) (Hf i Hi)). cbv beta in Hr. destruct (Hfh i Hi) as [Eh _]. now rewrite Eh in Hr.
    Qed.

    Lemma best_reindex p w w' : best_weights s sv nv data p w -> best_weights s sv nv data' p w' ->
      (forall i, (i < n)%nat -> w' i = w (f i)) /\ mean_square_error s sv nv data' p w' = mean_square_error s sv nv data p w.
    Proof.
      intros [U B] [U' B']. destruct inverse_fun as (h & Hh & Hfh). unfold unbiased in *. rewrite Hlen in *.
      assert (V : bsum n (fun i => w (f i)) = 1) by (rewrite (bsum_reindex n f Hf Hfi w); auto).
      assert (Eq : bsum n (fun k => w' (h k)) = 1).
      { rewrite <- (bsum_reindex n f Hf Hfi (fun k => w' (h k))). rewrite <- U'. apply bsum_ext. intros i Hi.
        now rewrite (proj1 (Hfh i Hi)). }
      assert (Em : mean_square_error s sv nv data p (fun k => w' (h k)) = mean_square_error s sv nv data' p w').
      { rewrite <- mse_reindex. unfold mean_square_error. rewrite Hlen. f_equal; [f_equal; f_equal|].
        - apply bsum_ext. intros i Hi. now rewrite (proj1 (Hfh i Hi)).
        - apply bsum_ext. intros i Hi. apply bsum_ext. intros j Hj.
          now rewrite (proj1 (Hfh i Hi)), (proj1 (Hfh j Hj)). }
      destruct (B _ Eq) as [B1 B2]. destruct (B' _ V) as [B1' B2']. rewrite mse_reindex in B1', B2'.
      rewrite Em in B1, B2.
      assert (Q : mean_square_error s sv nv data' p w' = mean_square_error s sv nv data p w) by lra.
      split; auto. intros i Hi. symmetry. apply B2'; auto.
    Qed.
  End Order.

  Lemma map_permutation s sv nv g casts casts' : mappable s sv nv g (map fst casts) -> regular s sv nv (map fst casts) ->
    Permutation casts casts' ->
    exists v e vs es vs' es',
      mapped_casts inv s sv nv g casts = Ok (Fin v, Fin e, map Fin vs, map Fin es) /\
      mapped_casts inv s sv nv g casts' = Ok (Fin v, Fin e, map Fin vs', map Fin es') /\
      length vs = length casts /\ length es = length casts /\
      Permutation (combine casts (combine vs es)) (combine casts' (combine vs' es')).
  Proof.
    intros Hm Hr P. pose (d := (dpointR, 0)).
    destruct (proj1 (Permutation_nth casts casts' d) P) as (Hl & f & Hf & Hfi & Hn).
    set (data := map fst casts). set (data' := map fst casts'). fold data in Hm, Hr.
    assert (L : length data = length casts) by apply map_length.
    assert (L' : length data' = length data) by (unfold data, data'; rewrite !map_length; auto).
    rewrite <- L in Hf, Hfi.
    assert (Hnth : forall i, (i < length data)%nat -> cast data' i = cast data (f i)).
    { intros i Hi. unfold cast, data, data'. assert (Hfi' := Hf i Hi).
      rewrite (nth_map _ _ _ _ d), (nth_map _ casts _ _ d) by lia. rewrite Hn by lia. reflexivity. }
    assert (Hsal : forall i, (i < length data)%nat -> nth i (map snd casts') 0 = nth (f i) (map snd casts) 0).
    { intros i Hi. assert (Hfi' := Hf i Hi). rewrite (nth_map _ _ _ _ d), (nth_map _ casts _ _ d) by lia.
      rewrite Hn by lia. reflexivity. }
    assert (Hr' : regular s sv nv data') by now apply (regular_reindex s sv nv data data' f).
    assert (Hm' : mappable s sv nv g data').
    { destruct Hm as (Hs & Hz & Hne & Hsv & Hnv). repeat split; auto; try apply Hs.
      - intros Ev p [<-|Hp]; [apply (Hz Ev); simpl; auto|]. apply (Hz Ev). right.
        apply (Permutation_in p (Permutation_sym (Permutation_map fst P))). exact Hp.
      - intros E. apply Hne. apply length_zero_iff_nil. rewrite <- L', E. reflexivity. }
    destruct (map_value inv Hinv s sv nv g data Hm Hr) as (w & ws & Bw & Bs & E).
    destruct (map_value inv Hinv s sv nv g data' Hm' Hr') as (w' & ws' & Bw' & Bs' & E').
    destruct (best_reindex s sv nv data data' f L' Hf Hfi Hnth g w w' Bw Bw') as [Ew Em].
    assert (Est : forall u u', (forall i, (i < length data)%nat -> u' i = u (f i)) ->
      estimate u' (map snd casts') = estimate u (map snd casts)).
    { intros u u' Hu. unfold estimate. rewrite !map_length, Hl, <- L.
      rewrite <- (bsum_reindex (length data) f Hf Hfi (fun i => u i * nth i (map snd casts) 0)).
      apply bsum_ext. intros i Hi. rewrite Hu, Hsal by auto. reflexivity. }
    do 6 eexists. unfold mapped_casts. fold data. fold data'.
    split; [apply E; unfold data; now rewrite !map_length|].
    split; [rewrite E' by (unfold data'; now rewrite !map_length); rewrite (Est w w' Ew), Em, L'; reflexivity|].
    rewrite !map_length, seq_length. split; auto. split; auto.
    (* outputs at the casts *)
    assert (C : forall X Y (l : list X) (u : nat -> Y) (v : nat -> Y) dd, 
      combine l (combine (map u (seq 0 (length l))) (map v (seq 0 (length l)))) =
      map (fun i => (nth i l dd, (u i, v i))) (seq 0 (length l))).
    { intros X Y l u v dd. rewrite <- (map_nth_seq l dd) at 1. generalize (seq 0 (length l)). intros q.
      induction q; cbn; congruence. }
    rewrite L, (C _ _ casts _ _ d). replace (length casts) with (length casts') by auto. rewrite (C _ _ casts' _ _ d).
    apply Permutation_sym.
    assert (Ei : forall i, (i < length data)%nat ->
       estimate (ws' i) (map snd casts') = estimate (ws (f i)) (map snd casts) /\
       mean_square_error s sv nv data' (cast data' i) (ws' i) = mean_square_error s sv nv data (cast data (f i)) (ws (f i))).
    { intros i Hi. rewrite Hnth by auto. assert (B1 := Bs (f i) (Hf i Hi)). assert (B2 := Bs' i ltac:(lia)). rewrite Hnth in B2 by auto.
      destruct (best_reindex s sv nv data data' f L' Hf Hfi Hnth _ _ _ B1 B2) as [Q1 Q2]. split; auto. }
    rewrite (map_ext_in _ (fun i => (fun k => (nth k casts d, (estimate (ws k) (map snd casts),
        sqrt (mean_square_error s sv nv data (cast data k) (ws k))))) (f i))).
    2:{ intros i Hi. apply in_seq in Hi. destruct (Ei i ltac:(lia)) as [Q1 Q2]. rewrite Q1, Q2, Hn by lia. reflexivity. }
    rewrite Hl. rewrite <- (map_map f (fun k => (nth k casts d, (estimate (ws k) (map snd casts),
        sqrt (mean_square_error s sv nv data (cast data k) (ws k)))))).
    apply Permutation_map. rewrite L in Hf, Hfi. clear - Hf Hfi. 
    set (n := length casts) in *. clearbody n. apply NoDup_Permutation_bis.
    - assert (G : forall l, NoDup l -> (forall i, In i l -> (i < n)%nat) -> NoDup (map f l)).
      { induction l as [|i l IH]; intros N B; [constructor|]. inversion N; subst. cbn. constructor.
        - intros Hin. apply in_map_iff in Hin. destruct Hin as (j & Ej & Hj).
          apply Hfi in Ej; [subst; auto| |]; apply B; simpl; auto.
        - apply IH; auto. intros j Hj. apply B. simpl; auto. }
      apply G; [apply seq_NoDup|]. intros i Hi. apply in_seq in Hi. lia.
    - now rewrite map_length.
    - intros k Hk. apply in_map_iff in Hk. destruct Hk as (i & <- & Hi). apply in_seq in Hi. apply in_seq.
      specialize (Hf i). lia.
  Qed.

  (* ---- more casts ---- *)
  Lemma bsum_app n m (x : nat -> R) : bsum (n + m) x = bsum n x + bsum m (fun i => x (n + i)%nat).
  Proof.
    induction m; [rewrite Nat.add_0_r, bsum_0; lra|]. rewrite Nat.add_succ_r, !bsum_Sr, IHm. lra.
  Qed.
  Lemma mse_pad s sv nv data extra p w :
    mean_square_error s sv nv (data ++ extra) p (fun i => if Nat.ltb i (length data) then w i else 0)
    = mean_square_error s sv nv data p w.
  Proof.
    unfold mean_square_error. rewrite app_length.
    assert (Hc : forall i, (i < length data)%nat -> cast (data ++ extra) i = cast data i).
    { intros i Hi. unfold cast. now apply app_nth1. }
    assert (Hin : forall i, (i < length data)%nat -> Nat.ltb i (length data) = true) by (intros; now apply Nat.ltb_lt).
    assert (Hout : forall i, Nat.ltb (length data + i) (length data) = false) by (intros; apply Nat.ltb_ge; lia).
    f_equal; [f_equal; f_equal|].
    - rewrite bsum_app, (bsum_zero (length extra)) by (intros; rewrite Hout; ring). rewrite Rplus_0_r.
      apply bsum_ext. intros i Hi. rewrite Hin, Hc by auto. reflexivity.
    - rewrite bsum_app, (bsum_zero (length extra)).
      2:{ intros i Hi. apply bsum_zero. intros j Hj. rewrite Hout. ring. }
      rewrite Rplus_0_r. apply bsum_ext. intros i Hi. rewrite bsum_app, (bsum_zero (length extra)).
      2:{ intros j Hj. rewrite Hout. ring. }
      rewrite Rplus_0_r. apply bsum_ext. intros j Hj. rewrite !Hin by auto. unfold covariances. now rewrite !Hc.
  Qed.
  Lemma map_more_casts s sv nv g data extra sal sal' : mappable s sv nv g (data ++ extra) -> data <> [] ->
    regular s sv nv data -> regular s sv nv (data ++ extra) -> length sal = length data -> length sal' = length (data ++ extra) ->
    exists v e vs es v' e' vs' es',
      mapped inv s sv nv sal g data = Ok (Fin v, Fin e, map Fin vs, map Fin es) /\
      mapped inv s sv nv sal' g (data ++ extra) = Ok (Fin v', Fin e', map Fin vs', map Fin es') /\
      e' <= e.
  Proof.
    intros Hm' Hne Hr Hr' L L'.
    assert (Hm : mappable s sv nv g data).
    { destruct Hm' as (Hs & Hz & _ & Hsv & Hnv). repeat split; auto; try apply Hs.
      intros Ev p Hp. apply (Hz Ev). simpl in *. rewrite in_app_iff. tauto. }
    destruct (map_value inv Hinv s sv nv g data Hm Hr) as (w & ws & Bw & Bs & E).
    destruct (map_value inv Hinv s sv nv g (data ++ extra) Hm' Hr') as (w' & ws' & Bw' & Bs' & E').
    do 8 eexists. split; [now apply E|]. split; [now apply E'|]. apply sqrt_le_1_alt.
    destruct Bw' as [_ B']. rewrite <- (mse_pad s sv nv data extra). apply B'. unfold unbiased.
    rewrite app_length, bsum_app, (bsum_zero (length extra)).
    - rewrite Rplus_0_r. destruct Bw as [U _]. unfold unbiased in U. rewrite <- U. apply bsum_ext. intros i Hi.
      now rewrite (proj2 (Nat.ltb_lt i (length data)) Hi).
    - intros i Hi. rewrite (proj2 (Nat.ltb_ge (length data + i) (length data)) ltac:(lia)). reflexivity.
  Qed.
End Consequences.

(* two casts of different position *)
Definition demo_scales : scales := mkScales 4 8 10 (1 / 10) true.
Definition demo_data : list (point R) := [mkPoint 50 10 2000 3000; mkPoint 51 12 2001 4000].
Definition demo_float : point R := mkPoint 50 11 2002 3500.
Lemma demo_mappable nv : 0 <= nv -> mappable demo_scales 1 nv demo_float demo_data.
Proof.
  intros Hn. repeat split; try lra; try discriminate; cbn; try lra.
  intros _ p. cbn. intros [<-|[<-|[<-|[]]]]; cbn; lra.
Qed.
Lemma demo_regular : regular demo_scales 1 (1 / 10) demo_data.
Proof.
  destruct (demo_mappable (1 / 10)) as (A & B & C & D & E); [lra|]. apply noise_regular; auto; [|lra].
  now apply depth_tail in B.
Qed.
Lemma demo_single : regular demo_scales 1 0 [demo_float].
Proof.
  intros x Hx i Hi. cbn in Hi. assert (i = 0)%nat as -> by lia. specialize (Hx 0%nat ltac:(cbn; lia)).
  unfold mv, bsum, covariances in Hx. cbn in Hx. change (cast [demo_float] 0) with demo_float in Hx.
  rewrite corr_self in Hx. change (delta 0 0) with 1 in Hx. lra.
Qed.
