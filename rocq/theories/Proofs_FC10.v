(* Proofs for fit_cond: station means, order of the input *)
From Coq Require Import String ZArith List Bool Reals Lra Lia Sorted Permutation FunctionalExtensionality.
From Flocq Require Import Core.Raux.
From Verif Require Import Num Np NumFacts NpFacts Utilities Finders Stats FitCond Spec_Utilities Spec_Finders Spec_Stats
  Spec_FitCond LinR LeastSq Proofs_Utilities Proofs_Besthist Proofs_Thetas2 Proofs_Stats1 Proofs_Fit Proofs_FC1 Proofs_FC2 Proofs_FC3.
Import ListNotations.
Local Open Scope R_scope.
Local Open Scope list_scope.

(* ---- places in a sorted list ---- *)
Lemma before_spec xs u i : ascending xs -> (i < length xs)%nat -> (nth i xs 0 < u <-> (i < before xs u)%nat).
Proof.
  revert i. induction xs as [|a xs IH]; intros i Ax Hi; [simpl in Hi; lia|].
  assert (Ax' : ascending xs) by (intros p q Hpq; apply (Ax (S p) (S q)); simpl; lia).
  unfold before in *. cbn [filter]. destruct (Rlt_dec a u) as [L|L].
  - cbn [length]. destruct i as [|i]; cbn [nth]; [split; [lia|auto]|]. cbn [length] in Hi. rewrite (IH i Ax') by lia. lia.
  - assert (E : filter (fun w => if Rlt_dec w u then true else false) xs = []).
    { assert (G : forall w, In w xs -> ~ w < u).
      { intros w Hw Q. apply (In_nth _ _ 0) in Hw as (k & Hk & <-). specialize (Ax 0%nat (S k) ltac:(simpl; lia)). simpl in Ax. lra. }
      clear - G. induction xs as [|w xs IH]; auto. cbn [filter]. destruct (Rlt_dec w u) as [Q|Q].
      - exfalso. apply (G w); simpl; auto.
      - apply IH. intros; apply G; simpl; auto. }
    rewrite E. cbn [length]. split; [|lia]. specialize (Ax 0%nat i ltac:(simpl in *; lia)). cbn [nth] in *. lra.
Qed.
Lemma before_le xs u : (before xs u <= length xs)%nat.
Proof. unfold before. clear. induction xs as [|a xs IH]; cbn; auto. destruct (Rlt_dec a u); cbn; lia. Qed.
Lemma before_at xs u : ascending xs -> In u xs -> (before xs u < length xs)%nat /\ nth (before xs u) xs 0 = u.
Proof.
  intros Ax Hu. apply (In_nth _ _ 0) in Hu as (j & Hj & Ej).
  assert (B : (before xs u <= j)%nat).
  { destruct (le_lt_dec (before xs u) j); auto. apply (before_spec xs u j Ax Hj) in l. lra. }
  split; [lia|]. pose proof (Ax (before xs u) j ltac:(lia)). rewrite Ej in *.
  assert (~ nth (before xs u) xs 0 < u); [|lra]. intros Q. apply before_spec in Q; auto; lia.
Qed.
Lemma findex_before xs u : ascending xs -> In u xs -> findex xs u = before xs u.
Proof.
  intros Ax Hu. destruct (before_at xs u Ax Hu) as [L E]. unfold findex.
  assert (F : forall l, StronglySorted lt l -> In (before xs u) l -> (forall i, In i l -> (before xs u <= i)%nat) -> hd 0%nat l = before xs u).
  { intros [|x l] S I B; [destruct I|]. cbn [hd]. inversion S as [|? ? S' F']. subst. rewrite Forall_forall in F'.
    destruct I as [I|I]; auto. specialize (F' _ I). specialize (B x (or_introl eq_refl)). lia. }
  apply F.
  - apply argwhere_sorted.
  - apply (argwhere_spec 0). split; auto. apply Reqb_true. auto.
  - intros i Hi. apply (argwhere_spec 0) in Hi as [Hi Q]. apply Reqb_true in Q.
    destruct (le_lt_dec (before xs u) i); auto. apply before_spec in l; auto. lra.
Qed.

Lemma seq_filter (f : nat -> bool) a b n : (b <= n)%nat -> (forall i, (i < n)%nat -> (f i = true <-> (a <= i < b)%nat)) ->
  filter f (seq 0 n) = seq a (b - a).
Proof.
  intros Hb Hf.
  assert (G : forall k m, (k + m = n)%nat -> filter f (seq k m) = seq (Nat.max a k) (b - Nat.max a k)).
  { intros k m. revert k. induction m as [|m IH]; intros k E.
    - cbn [seq filter]. replace (b - Nat.max a k)%nat with 0%nat by lia. reflexivity.
    - cbn [seq filter]. rewrite (IH (S k)) by lia. destruct (f k) eqn:F.
      + apply Hf in F; [|lia]. replace (Nat.max a (S k)) with (S k) by lia. replace (Nat.max a k) with k by lia.
        replace (b - k)%nat with (S (b - S k)) by lia. reflexivity.
      + assert (~ (a <= k < b)%nat) by (intros Q; apply Hf in Q; [congruence|lia]).
        destruct (le_lt_dec a k).
        * replace (b - Nat.max a (S k))%nat with 0%nat by lia. replace (b - Nat.max a k)%nat with 0%nat by lia. reflexivity.
        * replace (Nat.max a (S k)) with (Nat.max a k) by lia. reflexivity. }
  rewrite (G 0%nat n) by lia. now rewrite Nat.max_0_r.
Qed.
Lemma slice_seq (l : list R) a m : (a + m <= length l)%nat ->
  firstn m (skipn a (map Fin l)) = map (fun i => Fin (nth i l 0)) (seq a m).
Proof.
  revert a l. induction m as [|m IH]; intros a l H; [reflexivity|].
  assert (E : skipn a (map Fin l) = Fin (nth a l 0) :: skipn (S a) (map Fin l)).
  { clear IH. revert a H. induction l as [|x l IHl]; intros a H; [simpl in H; lia|]. destruct a as [|a]; [reflexivity|].
    cbn [map skipn nth]. apply IHl. cbn [length] in H. lia. }
  rewrite E. cbn [firstn seq map]. f_equal. apply IH. lia.
Qed.

(* the start of the window: the place after the first sample of the position before *)
Lemma window_seq xs vs k : ascending xs -> distinct_of xs vs -> (k < length vs)%nat ->
  let a := match k with O => O | S k' => S (before xs (nth k' vs 0)) end in
  let b := S (before xs (nth k vs 0)) in
  (a < b)%nat /\ (b <= length xs)%nat /\ window xs (nth k vs 0) = seq a (b - a).
Proof.
  intros Ax [Sv Ev] Hk. cbv zeta. set (u := nth k vs 0). assert (Iu : In u xs) by (apply Ev, nth_In; auto).
  destruct (before_at xs u Ax Iu) as [Lu Nu].
  assert (Mono : forall w w', In w xs -> w < w' -> (before xs w < before xs w')%nat).
  { intros w w' Hw L. destruct (before_at xs w Ax Hw) as [Lw Nw]. apply before_spec; auto. lra. }
  assert (SS : forall i j, (i < j < length vs)%nat -> nth i vs 0 < nth j vs 0).
  { clear - Sv. induction Sv as [|v vs Sv IH F]; intros i j Hij; [simpl in Hij; lia|].
    destruct j as [|j]; [lia|]. cbn [length] in Hij. destruct i as [|i]; cbn [nth].
    - rewrite Forall_forall in F. apply F. apply nth_In. lia.
    - apply IH. lia. }
  assert (A : forall i, (i < length xs)%nat -> (forallb (fun w => if Rlt_dec w u then Nat.ltb (before xs w) i else true) xs = true
     <-> (match k with O => O | S k' => S (before xs (nth k' vs 0%R)) end <= i)%nat)).
  { intros i Hi. rewrite forallb_forall. split.
    - intros F. destruct k as [|k1]; [lia|]. set (w := nth k1 vs 0).
      assert (Iw : In w xs) by (apply Ev, nth_In; lia). specialize (F w Iw).
      destruct (Rlt_dec w u) as [_|N]; [apply Nat.ltb_lt in F; lia|]. exfalso. apply N. apply SS. lia.
    - intros L w Hw. destruct (Rlt_dec w u) as [Q|]; auto. apply Nat.ltb_lt.
      apply Ev in Hw as Hv. apply (In_nth _ _ 0) in Hv as (j & Hj & Ej).
      assert (j < k)%nat.
      { destruct (lt_eq_lt_dec j k) as [[|E2]|G]; auto; exfalso.
        - subst j. unfold u in Q. lra.
        - specialize (SS k j ltac:(lia)). unfold u in Q. lra. }
      destruct k as [|k']; [lia|]. destruct (Nat.eq_dec j k') as [->|Nj]; [rewrite Ej in L; lia|].
      assert (Lw : w < nth k' vs 0) by (rewrite <- Ej; apply SS; lia). pose proof (Mono w _ Hw Lw). lia. }
  split.
  { destruct k as [|k']; [lia|]. assert (before xs (nth k' vs 0%R) < before xs u)%nat; [|lia].
    apply Mono; [apply Ev, nth_In; lia|apply SS; lia]. }
  split; [lia|]. unfold window. apply seq_filter; [lia|]. intros i Hi. rewrite andb_true_iff, A, Nat.leb_le by auto. lia.
Qed.

Section Station.
  Context {T : Type} `{Num T} `{NumT T}.
  Notation mat := (nat -> nat -> T).
  Variable det : nat -> mat -> T.
  Variable solve : nat -> nat -> mat -> mat -> res mat.
  Variable inv : nat -> mat -> res mat.
  Variable least_squares : (list T -> res (list T)) -> list T -> res (list (list T) * list T).
  Variable rng : Type.
  Variable randn : nat -> rng -> list T * rng.
  Notation call := (fit_cond det solve inv least_squares rng randn).
  Lemma evaluate_sta p o nbr1 t best g f g' :
    evaluate det solve inv least_squares rng randn p o nbr1 t best g = (Ok f, g') ->
    f_xfit f = map (fun v => nadd (nmul v (x_scale p)) (x_0 p)) (xfit p) /\
    f_sta_mean f = map (fun v => nadd (nmul (fst (sta_stats p v)) (y_scale p)) (y_0 p)) (xfit p) /\
    f_sta_rms f = map (fun v => nmul (snd (sta_stats p v)) (y_scale p)) (xfit p).
  Proof.
    unfold evaluate. destruct (param_var _ _ _ _) as [[p1 p2]|]; [|discriminate].
    match goal with |- context [let '(err, g') := ?X in _] => destruct X as [[err|] g''] end; [|discriminate].
    intros E. apply (f_equal fst) in E. cbn [fst] in E. apply ok_inj in E. rewrite <- E.
    cbn [f_sta_mean f_sta_rms f_xfit]. now rewrite !map_map.
  Qed.
  Lemma fit_sta x y e lv args g f g' : call x y e lv args g = (Ok (Fitted f), g') ->
    let p := prepare x y e lv in
    f_xfit f = map (fun v => nadd (nmul v (x_scale p)) (x_0 p)) (xfit p) /\
    f_sta_mean f = map (fun v => nadd (nmul (fst (sta_stats p v)) (y_scale p)) (y_0 p)) (xfit p) /\
    f_sta_rms f = map (fun v => nmul (snd (sta_stats p v)) (y_scale p)) (xfit p).
  Proof.
    unfold fit_cond. destruct (good_points x y) as [|a r] eqn:E; [discriminate|]. cbv zeta.
    match goal with |- context [match ?X with Ok _ => _ | Raise _ => _ end] =>
      destruct X as [[[[o nbr1] t2] best]|]; [|discriminate] end.
    destruct (evaluate _ _ _ _ _ _ _ _ _ _ _ _) as [[f0|] g0] eqn:Ev; [|discriminate].
    intros Q. assert (f0 = f) by congruence. subst f0. now apply evaluate_sta in Ev.
  Qed.
End Station.

Section Means.
  Variables (rows : list row) (lvcov : nat -> nat -> XR) (xs us vs : list R).
  Hypothesis Huse : usable rows.
  Hypothesis Hxs : sorted_positions rows xs.
  Hypothesis Hus : distinct_of (map fst rows) us.
  Hypothesis Hvs : distinct_of xs vs.
  Notation p := (prepare (col_x rows) (col_y rows) (col_e rows) lvcov).

  Lemma argwhere_vs u : argwhere (fun w => neqb w (Fin (normx xs u))) (map Fin (map (normx xs) vs)) = argwhere (fun w => Reqb w u) vs.
  Proof.
    rewrite !argwhere_map. apply argwhere_ext. intros w. cbn [neqb XR_Num xeqb].
    apply (normx_eqb rows xs Huse Hxs).
  Qed.
  Lemma argwhere_nodup k : (k < length vs)%nat -> argwhere (fun w => Reqb w (nth k vs 0)) vs = [k].
  Proof.
    intros Hk. destruct Hvs as [Sv _].
    assert (ND : NoDup vs).
    { clear - Sv. induction Sv as [|v vs Sv IH F]; constructor; auto. intros Q. rewrite Forall_forall in F. specialize (F v Q). lra. }
    pose proof (argwhere_sorted (fun w => Reqb w (nth k vs 0)) vs) as SA.
    assert (I : forall i, In i (argwhere (fun w => Reqb w (nth k vs 0)) vs) <-> i = k).
    { intros i. rewrite (argwhere_spec 0), Reqb_true. split.
      - intros [Hi E]. apply (proj1 (NoDup_nth vs 0) ND); auto.
      - intros ->. auto. }
    destruct (argwhere _ vs) as [|i r].
    - exfalso. apply (proj2 (I k) eq_refl).
    - assert (i = k) by (apply I; simpl; auto). subst i. f_equal. destruct r as [|j r]; auto. exfalso.
      assert (j = k) by (apply I; simpl; auto). subst j. inversion SA as [|? ? _ F]. inversion F. lia.
  Qed.

  Lemma sta_value k : (k < length vs)%nat -> let u := nth k vs 0 in let st := sta_stats p (Fin (normx xs u)) in
    nadd (nmul (fst st) (Fin (yscR rows))) (Fin (y0R rows)) = Fin (station_mean rows (window xs u)) /\
    nmul (snd st) (Fin (yscR rows)) = Fin (station_rms rows (window xs u)).
  Proof.
    intros Hk. cbv zeta. set (u := nth k vs 0).
    destruct (window_seq xs vs k (proj1 Hxs) Hvs Hk) as (La & Lb & Ew). cbv zeta in La, Lb, Ew. fold u in La, Lb, Ew.
    rewrite Ew. clear Ew.
    rewrite (prepare_fin rows lvcov xs us vs Huse Hxs Hus Hvs). unfold sta_stats. cbn [x_unique].
    rewrite argwhere_vs. pose proof (argwhere_nodup k Hk) as AN. fold u in AN. rewrite AN. clear AN. unfold sta_slice. cbn [index_unique wdiag yf].
    set (a := match k with O => O | S k' => S (before xs (nth k' vs 0)) end) in *.
    set (b := S (before xs u)) in *.
    assert (Ea : Z.to_nat (nth k ((-1)%Z :: map Z.of_nat (map (findex xs) vs)) 0%Z + 1) = a).
    { unfold a. destruct k as [|k']; [reflexivity|]. cbn [nth]. rewrite (nth_map _ _ _ _ 0%nat) by (rewrite map_length; lia).
      rewrite (nth_map _ _ _ _ 0) by lia. rewrite findex_before; [lia|apply Hxs|]. apply Hvs, nth_In. lia. }
    assert (Eb : Z.to_nat (nth (S k) ((-1)%Z :: map Z.of_nat (map (findex xs) vs)) 0%Z + 1) = b).
    { unfold b. cbn [nth]. rewrite (nth_map _ _ _ _ 0%nat) by (rewrite map_length; lia).
      rewrite (nth_map _ _ _ _ 0) by lia. fold u. rewrite findex_before; [lia|apply Hxs|]. apply Hvs, nth_In. lia. }
    rewrite Ea, Eb. clear Ea Eb.
    assert (Ln : length xs = nobs rows) by exact (xs_length rows xs Hxs).
    assert (Lw : length (wR rows) = nobs rows).
    { unfold wR, evR. rewrite !map_length. apply es_length. }
    assert (Ly : length (map (normy rows) (values rows)) = nobs rows) by (rewrite map_length; apply ys_length).
    rewrite !slice_seq by lia. set (l := seq a (b - a)).
    assert (Hl : l <> []) by (unfold l; destruct (b - a)%nat eqn:Q; [lia|discriminate]).
    assert (Hin : forall i, In i l -> (i < nobs rows)%nat) by (intros i Hi; apply in_seq in Hi; lia).
    clearbody l a b. clear La Lb.
    set (Y := yscR rows) in *. assert (PY : 0 < Y) by apply (yscR_pos rows).
    set (m := mean_of (evR rows)). assert (Pm : 0 < m) by apply (mean_ev_pos rows Huse).
    set (e := fun i => nth i (errors rows) 0). set (y := fun i => nth i (values rows) 0).
    assert (He : forall i, In i l -> 0 < e i ^ 2).
    { intros i Hi. assert (e i <> 0). { apply Huse. apply nth_In. rewrite es_length. auto. } 
      pose proof (pow2_ge_0 (e i)). pose proof (pow_nonzero (e i) 2 H). lra. }
    assert (Ew : forall i, In i l -> nth i (wR rows) 0 = m * Y ^ 2 * (1 / e i ^ 2)).
    { intros i Hi. unfold wR, evR. rewrite (nth_map _ _ _ _ 0) by (rewrite map_length, es_length; auto).
      rewrite (nth_map _ _ _ _ 0) by (rewrite es_length; auto). fold (evR rows). fold m. fold Y. fold (e i).
      specialize (He i Hi). assert (e i <> 0) by (intros Q; rewrite Q in He; lra). field. split; lra. }
    assert (Ey : forall i, In i l -> nth i (map (normy rows) (values rows)) 0 = (y i - y0R rows) / Y).
    { intros i Hi. rewrite (nth_map _ _ _ _ 0) by (rewrite ys_length; auto). reflexivity. }
    rewrite combine_map2.
    assert (S1 : nsum (map (fun i => Fin (nth i (wR rows) 0)) l) = Fin (m * Y ^ 2 * idx_sum l (fun i => 1 / e i ^ 2))).
    { rewrite <- (map_map (fun i => nth i (wR rows) 0) Fin), nsum_fin. f_equal. unfold idx_sum. change (fold_right Rplus 0) with rsum.
      rewrite <- rsum_map_scal. f_equal. now apply map_ext_in. }
    set (Sw := idx_sum l (fun i => 1 / e i ^ 2)) in *.
    assert (PS : 0 < Sw).
    { unfold Sw, idx_sum. destruct l as [|i r]; [congruence|]. cbn [map fold_right].
      assert (0 < 1 / e i ^ 2) by (apply Rdiv_lt_0_compat; [lra|apply He; simpl; auto]).
      assert (0 <= fold_right Rplus 0 (map (fun i => 1 / e i ^ 2) r)); [|lra].
      assert (Q : forall i, In i r -> 0 < e i ^ 2) by (intros; apply He; simpl; auto). clear - Q.
      induction r as [|i r IH]; cbn [map fold_right]; [lra|].
      assert (0 < 1 / e i ^ 2) by (apply Rdiv_lt_0_compat; [lra|apply Q; simpl; auto]).
      assert (0 <= fold_right Rplus 0 (map (fun i => 1 / e i ^ 2) r)) by (apply IH; intros; apply Q; simpl; auto). lra. }
    set (Sy := idx_sum l (fun i => y i / e i ^ 2)).
    assert (S2 : nsum (map (fun q => nmul (fst q) (snd q)) (map (fun i => (Fin (nth i (wR rows) 0), Fin (nth i (map (normy rows) (values rows)) 0))) l))
                 = Fin (m * Y * (Sy - y0R rows * Sw))).
    { rewrite map_map. cbn [fst snd nmul XR_Num xmul].
      rewrite <- (map_map (fun i => nth i (wR rows) 0 * nth i (map (normy rows) (values rows)) 0) Fin), nsum_fin. f_equal.
      unfold Sy, Sw, idx_sum. change (fold_right Rplus 0) with rsum. unfold Rminus. rewrite <- Ropp_mult_distr_l_reverse, <- rsum_map_scal, <- rsum_map_plus, <- rsum_map_scal.
      f_equal. apply map_ext_in. intros i Hi. rewrite Ew, Ey by auto. specialize (He i Hi). assert (e i <> 0) by (intros Q; rewrite Q in He; lra). field. split; lra. }
    rewrite S1, S2.
    assert (MP : 0 < m * Y ^ 2) by (apply Rmult_lt_0_compat; [lra|]; apply pow_lt; lra).
    assert (MPS : 0 < m * Y ^ 2 * Sw) by now apply Rmult_lt_0_compat.
    rewrite ndiv_fin by lra. cbn [fst snd].
    assert (Em : m * Y * (Sy - y0R rows * Sw) / (m * Y ^ 2 * Sw) = (Sy / Sw - y0R rows) / Y) by (field; repeat split; lra).
    rewrite Em. assert (SM : station_mean rows l = Sy / Sw) by reflexivity.
    split.
    - cbn [nmul nadd XR_Num xmul xadd]. f_equal. rewrite SM. field. split; lra.
    - set (M := (Sy / Sw - y0R rows) / Y).
      set (Sq := idx_sum l (fun i => (station_mean rows l - y i) ^ 2 / e i ^ 2)).
      assert (S3 : nsum (map (fun q => nmul (fst q) (nsq (nsub (Fin M) (snd q)))) (map (fun i => (Fin (nth i (wR rows) 0), Fin (nth i (map (normy rows) (values rows)) 0))) l))
                 = Fin (m * Sq)).
      { rewrite map_map. cbn [fst snd]. unfold nsq. cbn [nsub nmul XR_Num xmul xsub].
        rewrite <- (map_map (fun i => nth i (wR rows) 0 * ((M - nth i (map (normy rows) (values rows)) 0) * (M - nth i (map (normy rows) (values rows)) 0))) Fin), nsum_fin. f_equal.
        unfold Sq, idx_sum. change (fold_right Rplus 0) with rsum. rewrite <- rsum_map_scal. f_equal. apply map_ext_in.
        intros i Hi. rewrite Ew, Ey by auto. rewrite SM. unfold M. specialize (He i Hi). assert (e i <> 0) by (intros Q; rewrite Q in He; lra).
        field. repeat split; lra. }
      rewrite S3, ndiv_fin by lra.
      assert (PQ : 0 <= Sq).
      { unfold Sq, idx_sum. generalize (station_mean rows l). intros z. clear - He.
        induction l as [|i r IH]; cbn [map fold_right]; [lra|].
        assert (0 <= (z - y i) ^ 2 / e i ^ 2).
        { apply Rmult_le_pos; [apply pow2_ge_0|]. left. apply Rinv_0_lt_compat. apply He. simpl. auto. }
        specialize (IH ltac:(intros; apply He; simpl; auto)). lra. }
      replace (m * Sq / (m * Y ^ 2 * Sw)) with ((1 / Y) ^ 2 * (Sq / Sw)) by (field; repeat split; lra).
      assert (PQS : 0 <= Sq / Sw) by (apply Rmult_le_pos; auto; left; now apply Rinv_0_lt_compat).
      cbn [nsqrt XR_Num]. rewrite xsqrt_fin by (apply Rmult_le_pos; [apply pow2_ge_0|auto]).
      cbn [nmul xmul XR_Num]. f_equal. change (station_rms rows l) with (sqrt (Sq / Sw)). fold Y.
      rewrite sqrt_mult by (auto; apply pow2_ge_0). rewrite sqrt_pow2 by (left; apply Rdiv_lt_0_compat; lra). field. lra.
  Qed.

  Lemma sta_missing u : ~ In u xs -> sta_stats p (Fin (normx xs u)) = (NaN, NaN).
  Proof.
    intros N. rewrite (prepare_fin rows lvcov xs us vs Huse Hxs Hus Hvs). unfold sta_stats. cbn [x_unique]. rewrite argwhere_vs.
    destruct (argwhere _ vs) as [|i r] eqn:E; [reflexivity|]. exfalso.
    assert (I : In i (argwhere (fun w => Reqb w u) vs)) by (rewrite E; simpl; auto).
    apply (argwhere_spec 0) in I as [Hi Q]. apply Reqb_true in Q. apply N, Hvs. rewrite <- Q. now apply nth_In.
  Qed.

  Variable det : nat -> (nat -> nat -> XR) -> XR.
  Variable solve : nat -> nat -> (nat -> nat -> XR) -> (nat -> nat -> XR) -> res (nat -> nat -> XR).
  Variable inv : nat -> (nat -> nat -> XR) -> res (nat -> nat -> XR).
  Variable least_squares : (list XR -> res (list XR)) -> list XR -> res (list (list XR) * list XR).
  Variable rng : Type.
  Variable randn : nat -> rng -> list XR * rng.
  Lemma station_values args g f g' :
    fit_cond det solve inv least_squares rng randn (col_x rows) (col_y rows) (col_e rows) lvcov args g = (Ok (Fitted f), g') ->
    f_xfit f = map Fin us /\
    f_sta_mean f = at_positions xs us (fun u => station_mean rows (window xs u)) /\
    f_sta_rms f = at_positions xs us (fun u => station_rms rows (window xs u)).
  Proof.
    intros E. apply fit_sta in E. cbv zeta in E. destruct E as (E1 & E2 & E3). rewrite E1, E2, E3. clear E1 E2 E3.
    assert (X : forall A (F : XR -> A), map F (xfit p) = map (fun u => F (Fin (normx xs u))) us).
    { intros A F. rewrite (prepare_fin rows lvcov xs us vs Huse Hxs Hus Hvs). cbn [xfit]. now rewrite !map_map. }
    rewrite !X.
    assert (S : x_scale p = Fin (xscR xs) /\ x_0 p = Fin (x0R xs) /\ y_scale p = Fin (yscR rows) /\ y_0 p = Fin (y0R rows)).
    { rewrite (prepare_fin rows lvcov xs us vs Huse Hxs Hus Hvs). auto. }
    destruct S as (S1 & S2 & S3 & S4). rewrite S1, S2, S3, S4. split; [|split].
    - apply map_ext. intros u. cbn [nadd nmul XR_Num xadd xmul]. f_equal. unfold normx.
      pose proof (xscR_pos rows xs Huse Hxs). field. lra.
    - unfold at_positions. apply map_ext. intros u. destruct (in_dec Req_EM_T u xs) as [I|I].
      + apply Hvs in I. apply (In_nth _ _ 0) in I as (k & Hk & <-). apply (sta_value k Hk).
      + rewrite sta_missing by auto. reflexivity.
    - unfold at_positions. apply map_ext. intros u. destruct (in_dec Req_EM_T u xs) as [I|I].
      + apply Hvs in I. apply (In_nth _ _ 0) in I as (k & Hk & <-). apply (sta_value k Hk).
      + rewrite sta_missing by auto. reflexivity.
  Qed.
End Means.

(* one sample per position *)
Lemma window_single xs u : ascending xs -> NoDup xs -> In u xs -> window xs u = own_samples xs u.
Proof.
  intros Ax ND Hu. destruct (before_at xs u Ax Hu) as [Lu Nu].
  unfold window, own_samples. apply filter_ext_in. intros i Hi. apply in_seq in Hi. apply eq_true_iff_eq.
  rewrite andb_true_iff, forallb_forall, Nat.leb_le. destruct (Req_EM_T (nth i xs 0) u) as [E|E].
  - assert (i = before xs u). { apply (proj1 (NoDup_nth xs 0) ND); auto; try lia. congruence. } subst i.
    split; auto. intros _. split; [|lia]. intros w Hw. destruct (Rlt_dec w u) as [L|]; auto. apply Nat.ltb_lt.
    destruct (before_at xs w Ax Hw) as [Lw Nw]. apply before_spec; auto. lra.
  - split; [|discriminate]. intros [F L]. exfalso.
    assert (Li : (i < before xs u)%nat). { destruct (Nat.eq_dec i (before xs u)); [congruence|lia]. }
    apply before_spec in Li as Q; auto; try lia.
    specialize (F (nth i xs 0) ltac:(apply nth_In; lia)). destruct (Rlt_dec (nth i xs 0) u); [|contradiction].
    apply Nat.ltb_lt in F.
    assert (In (nth i xs 0) xs) by (apply nth_In; lia). destruct (before_at xs (nth i xs 0) Ax H) as [Lw Nw].
    assert (before xs (nth i xs 0) = i) by (apply (proj1 (NoDup_nth xs 0) ND); auto; lia). lia.
Qed.

(* ---- only the sorted positions and the order of the values count ---- *)
Section Order.
  Variables (rows rows' : list row) (lvcov : nat -> nat -> XR).
  Hypothesis Hsnd : map snd rows = map snd rows'.
  Hypothesis Hperm : Permutation (map fst (valid rows)) (map fst (valid rows')).
  Hypothesis Hall : forall x, In x (map fst rows) <-> In x (map fst rows').

  Lemma has_same : argwhere has rows = argwhere has rows'.
  Proof.
    assert (E : forall r, argwhere has r = argwhere (fun o : option (R * R) => match o with Some _ => true | None => false end) (map snd r))
      by (intros r; now rewrite argwhere_map).
    now rewrite !E, Hsnd.
  Qed.
  Lemma valid_snd r : map snd (valid r) = flat_map (fun o => match o with Some q => [q] | None => [] end) (map snd r).
  Proof. induction r as [|[x [q|]] r IH]; cbn; auto. now rewrite IH. Qed.
  Lemma valid_same : map snd (valid rows) = map snd (valid rows').
  Proof. now rewrite !valid_snd, Hsnd. Qed.
  Lemma prepare_same : prepare (col_x rows) (col_y rows) (col_e rows) lvcov = prepare (col_x rows') (col_y rows') (col_e rows') lvcov.
  Proof.
    destruct (sorted_positions_exists rows) as (xs & Hxs). destruct (distinct_exists (map fst rows)) as (us & Hus).
    assert (Hxs' : sorted_positions rows' xs). { split; [apply Hxs|]. etransitivity; [apply Hxs|auto]. }
    assert (Hus' : distinct_of (map fst rows') us). { split; [apply Hus|]. intros x. rewrite <- Hall. apply Hus. }
    rewrite (prepare_core rows lvcov xs us Hxs Hus), (prepare_core rows' lvcov xs us Hxs' Hus').
    assert (V : values rows = values rows').
    { unfold values. rewrite <- !(map_map snd fst). now rewrite valid_same. }
    assert (Er : errors rows = errors rows').
    { unfold errors. rewrite <- !(map_map snd snd). now rewrite valid_same. }
    rewrite V, Er. unfold nobs, lvR. rewrite has_same.
    replace (length (valid rows)) with (length (valid rows')); [reflexivity|].
    rewrite <- (map_length snd (valid rows)), <- (map_length snd (valid rows')), valid_same. reflexivity.
  Qed.
  Lemma fit_same det solve inv least_squares rng randn args (g : rng) :
    fit_cond det solve inv least_squares rng randn (col_x rows) (col_y rows) (col_e rows) lvcov args g
    = fit_cond det solve inv least_squares rng randn (col_x rows') (col_y rows') (col_e rows') lvcov args g.
  Proof.
    unfold fit_cond. rewrite !good_rows, has_same, prepare_same. destruct (argwhere has rows'); auto.
    destruct (distinct_exists (map fst rows)) as (us & Hus).
    assert (Hus' : distinct_of (map fst rows') us). { split; [apply Hus|]. intros x. rewrite <- Hall. apply Hus. }
    assert (C : forall r, col_x r = map Fin (map fst r)) by (intros r; unfold col_x; now rewrite map_map).
    now rewrite !C, (np_unique_eq _ us Hus), (np_unique_eq _ us Hus').
  Qed.
End Order.
