From Coq Require Import String Ascii.
From Coq Require Import ZArith List Bool Lia Permutation.
From Verif Require Import Num Np NumFacts NpFacts Helper MapProfile Mapping Spec_Mapping.
Import ListNotations.
Local Open Scope nat_scope.

Lemma set_nth_app {A} (l r : list A) x y : set_nth (length l) x (l ++ y :: r) = l ++ x :: r.
Proof. induction l; cbn; [reflexivity|now f_equal]. Qed.
Lemma nth_app_len {A} (l r : list A) x d : nth (length l) (l ++ x :: r) d = x.
Proof. induction l; cbn; auto. Qed.
Lemma set_nth_app' {A} k (l r : list A) x y : length l = k -> set_nth k x (l ++ y :: r) = l ++ x :: r.
Proof. intros <-. apply set_nth_app. Qed.
Lemma nth_app_len' {A} k (l r : list A) x d : length l = k -> nth k (l ++ x :: r) d = x.
Proof. intros <-. apply nth_app_len. Qed.
Lemma flat_map_nil {A B} (f : A -> list B) l : (forall a, In a l -> f a = []) -> flat_map f l = [].
Proof. induction l as [|a l IH]; intros Hf; cbn; [reflexivity|]. rewrite Hf, IH by (intros; (now left) || apply Hf; now right). reflexivity. Qed.
Lemma seq_snoc a n : seq a (S n) = seq a n ++ [a + n].
Proof. rewrite <- Nat.add_1_r, seq_app. reflexivity. Qed.
Lemma firstn_snoc {A} (l : list A) k d : k < length l -> firstn (S k) l = firstn k l ++ [nth k l d].
Proof.
  revert k. induction l as [|a l IH]; intros k Hk; cbn in Hk; [lia|]. destruct k; [reflexivity|].
  change (firstn (S (S k)) (a :: l)) with (a :: firstn (S k) l). rewrite IH by lia. reflexivity.
Qed.
Lemma foldM_ok {A B} (f : A -> B -> res A) l : forall a r, foldM f a l = Ok r -> forall b, In b l -> exists a1 a2, f a1 b = Ok a2.
Proof.
  induction l as [|b l IH]; intros a r E b' Hb; [destruct Hb|]. cbn in E.
  destruct (f a b) as [a1|e] eqn:E1; [|discriminate]. cbn in E.
  destruct Hb as [<-|Hb]; [eauto|]. apply (IH a1 r E b' Hb).
Qed.
Lemma foldM_app {A B} (f : A -> B -> res A) l1 l2 a : foldM f a (l1 ++ l2) = let* b := foldM f a l1 in foldM f b l2.
Proof. revert a. induction l1 as [|x l1 IH]; intros a; cbn; [reflexivity|]. destruct (f a x); cbn; auto. Qed.

Lemma mapped_ext {T} (a b : mapped T) : la_ptmp a = la_ptmp b -> la_mapped_sal a = la_mapped_sal b ->
  la_map_sal_errors a = la_map_sal_errors b -> la_noise_sal a = la_noise_sal b -> la_signal_sal a = la_signal_sal b ->
  la_profile_no a = la_profile_no b -> settings a = settings b -> selected_hist a = selected_hist b -> a = b.
Proof.
  destruct a as [x1 x2 x3 x4 x5 x6 x7 x8], b as [y1 y2 y3 y4 y5 y6 y7 y8].
  cbn [la_ptmp la_mapped_sal la_map_sal_errors la_noise_sal la_signal_sal la_profile_no settings selected_hist]. congruence.
Qed.

Section Fresh.
  Context {T : Type} `{Num T}.
  Variable values : list T.
  Variable levels : nat.
  Variable calc : nat -> res (nat -> res (option (level_out T))).
  Variable nos : list T.
  Hypothesis Hvalues : length values = 12.

  Notation outcome := (outcome calc).
  Notation N := (length nos).

  Definition entry (f : level_out T -> T) (p n : nat) : T := match outcome p n with Some o => f o | None => nnan end.
  Definition part (f : level_out T -> T) (p n : nat) : list T := map (entry f p) (seq 0 n) ++ repeat nnan (levels - n).
  Definition some_level (p n : nat) : bool :=
    existsb (fun n => match outcome p n with Some _ => true | None => false end) (seq 0 n).
  Definition prev f k := map (profile_column levels calc f) (seq 0 k).
  Definition set_prev k v : list T := map (fun p => if has_levels levels calc p then v else nnan) (seq 0 k).

  (* the dictionary when profile k is at level n *)
  Definition D (k n : nat) (sel : list (record T)) : mapped T :=
    let M f := mkMatrix levels (prev f k ++ [part f k n]) in
    mkMapped (M lo_ptmp) (M lo_sal) (M lo_err) (M lo_noise) (M lo_signal) (firstn (S k) nos)
      (combine setting_names (map (fun v => set_prev k v ++ [if some_level k n then v else nnan]) values)) sel.
  Definition E (k : nat) (sel : list (record T)) : mapped T :=
    let M f := mkMatrix levels (prev f k) in
    mkMapped (M lo_ptmp) (M lo_sal) (M lo_err) (M lo_noise) (M lo_signal) (firstn k nos)
      (combine setting_names (map (set_prev k) values)) sel.
  Definition calls_level (k n : nat) : list (T * list (T * T)) :=
    match outcome k n with Some o => [(nth k nos nnan, lo_points o)] | None => [] end.

  Lemma recorded_app h1 h2 s : recorded (T := T) (h1 ++ h2) s = let* r := recorded h1 s in recorded h2 r.
  Proof. revert s. induction h1 as [|[no pts] h1 IH]; intros s; cbn; [reflexivity|]. destruct (selected_historical_points s pts no); cbn; auto. Qed.

  Lemma prev_length f k : length (prev f k) = k.
  Proof. unfold prev. now rewrite map_length, seq_length. Qed.
  Lemma part_step f k n o : n < levels -> outcome k n = Some o -> set_nth n (f o) (part f k n) = part f k (S n).
  Proof.
    intros Hn Ho. unfold part. replace (levels - n) with (S (levels - S n)) by lia. cbn [repeat].
    rewrite seq_snoc, map_app. cbn [map plus]. unfold entry at 3. rewrite Ho.
    rewrite (set_nth_app' n), <- app_assoc by (now rewrite map_length, seq_length). reflexivity.
  Qed.
  Lemma part_none f k n : n < levels -> outcome k n = None -> part f k (S n) = part f k n.
  Proof.
    intros Hn Ho. unfold part. replace (levels - n) with (S (levels - S n)) by lia. cbn [repeat].
    rewrite seq_snoc, map_app. cbn [map plus]. unfold entry at 2. rewrite Ho, <- app_assoc. reflexivity.
  Qed.
  Lemma some_level_S k n : some_level k (S n) = some_level k n || match outcome k n with Some _ => true | None => false end.
  Proof. unfold some_level. rewrite seq_snoc, existsb_app. cbn. now rewrite orb_false_r. Qed.
  Lemma part_length f k n : n <= levels -> length (part f k n) = levels.
  Proof. intros. unfold part. rewrite app_length, map_length, seq_length, repeat_length. lia. Qed.

  Lemma set_entry_last f k n o : n < levels -> outcome k n = Some o ->
    set_entry n k (f o) (mkMatrix levels (prev f k ++ [part f k n])) = Ok (mkMatrix levels (prev f k ++ [part f k (S n)])).
  Proof.
    intros Hn Ho. unfold set_entry. cbn [m_rows m_cols].
    replace (Nat.ltb n levels) with true by (symmetry; apply Nat.ltb_lt; lia).
    replace (Nat.ltb k _) with true by (symmetry; apply Nat.ltb_lt; rewrite app_length, prev_length; cbn; lia).
    cbn [andb]. f_equal. f_equal.
    rewrite (set_nth_app' k), (nth_app_len' k), part_step by (assumption || apply prev_length). reflexivity.
  Qed.

  Lemma set_prev_length k v : length (set_prev k v) = k.
  Proof. unfold set_prev. now rewrite map_length, seq_length. Qed.

  Lemma settings_set k b : forall names vs, length names = length vs ->
    mapM (fun q : string * list T * T => if Nat.ltb k (length (snd (fst q)))
             then Ok (fst (fst q), set_nth k (snd q) (snd (fst q))) else Raise IndexError)
      (combine (combine names (map (fun v => set_prev k v ++ [if b : bool then v else nnan]) vs)) vs)
    = Ok (combine names (map (fun v => set_prev k v ++ [v]) vs)).
  Proof.
    induction names as [|a names IH]; intros [|v vs] L; try discriminate; [reflexivity|].
    cbn [map combine mapM fst snd].
    replace (Nat.ltb k _) with true by (symmetry; apply Nat.ltb_lt; rewrite app_length, set_prev_length; cbn; lia).
    cbn [bind]. rewrite IH by (cbn in L; lia). cbn [bind]. repeat f_equal.
    now rewrite (set_nth_app' k) by apply set_prev_length.
  Qed.

  Lemma store_level_eq k n o sel : k < N -> n < levels -> outcome k n = Some o ->
    store_level values k (D k n sel) n o = let* sel' := selected_historical_points sel (lo_points o) (nth k nos nnan) in Ok (D k (S n) sel').
  Proof.
    intros Hk Hn Ho. unfold store_level, D. cbn [la_ptmp la_mapped_sal la_map_sal_errors la_noise_sal la_signal_sal la_profile_no settings selected_hist].
    rewrite !set_entry_last by assumption. cbn [bind].
    rewrite settings_set by (rewrite Hvalues; reflexivity). cbn [bind].
    assert (NE : nth_error (firstn (S k) nos) k = Some (nth k nos nnan)).
    { rewrite (firstn_snoc nos k nnan) by exact Hk. rewrite nth_error_app2 by (rewrite firstn_length; lia).
      rewrite firstn_length. replace (k - Nat.min k N) with 0 by lia. reflexivity. }
    rewrite NE. cbn [bind]. destruct (selected_historical_points _ _ _) as [s'|e]; [|reflexivity]. cbn [bind].
    unfold D. rewrite some_level_S, Ho, orb_true_r. reflexivity.
  Qed.

  Definition step (lev : nat -> res (option (level_out T))) (k : nat) (d : mapped T) (n : nat) : res (mapped T) :=
    let* o := lev n in match o with None => Ok d | Some o => store_level values k d n o end.

  Lemma inner k lev : k < N -> calc k = Ok lev -> (forall n, n < levels -> exists o, lev n = Ok o) ->
    forall m n sel, n + m = levels ->
    foldM (step lev k) (D k n sel) (seq n m) = let* s := recorded (flat_map (calls_level k) (seq n m)) sel in Ok (D k levels s).
  Proof.
    intros Hk Hc Hl. induction m as [|m IH]; intros n sel E1; cbn [seq foldM flat_map].
    - cbn. replace n with levels by lia. reflexivity.
    - destruct (Hl n ltac:(lia)) as [o Ho].
      assert (EO : outcome k n = o) by (unfold Spec_Mapping.outcome; now rewrite Hc, Ho).
      unfold step at 1. rewrite Ho. cbn [bind]. rewrite recorded_app. unfold calls_level at 1. rewrite EO.
      destruct o as [o|].
      + rewrite store_level_eq by (assumption || lia). cbn [recorded].
        destruct (selected_historical_points _ _ _) as [s'|e]; [|reflexivity]. cbn [bind]. apply IH. lia.
      + cbn [recorded bind]. rewrite <- IH by lia. f_equal. unfold D. rewrite some_level_S, EO, orb_false_r.
        rewrite !part_none by (assumption || lia). reflexivity.
  Qed.

  Lemma part_0 f k : part f k 0 = repeat nnan levels.
  Proof. unfold part. cbn. now rewrite Nat.sub_0_r. Qed.
  Lemma part_all f k : part f k levels = profile_column levels calc f k.
  Proof. unfold part. rewrite Nat.sub_diag, app_nil_r. reflexivity. Qed.
  Lemma D_0 k sel : D k 0 sel =
    mkMapped (mkMatrix levels (prev lo_ptmp k ++ [repeat nnan levels])) (mkMatrix levels (prev lo_sal k ++ [repeat nnan levels]))
      (mkMatrix levels (prev lo_err k ++ [repeat nnan levels])) (mkMatrix levels (prev lo_noise k ++ [repeat nnan levels]))
      (mkMatrix levels (prev lo_signal k ++ [repeat nnan levels])) (firstn (S k) nos)
      (combine setting_names (map (fun v => set_prev k v ++ [nnan]) values)) sel.
  Proof. unfold D. rewrite !part_0. reflexivity. Qed.
  Lemma prev_S f k : prev f k ++ [profile_column levels calc f k] = prev f (S k).
  Proof. unfold prev. now rewrite seq_snoc, map_app. Qed.
  Lemma D_levels k sel : D k levels sel = E (S k) sel.
  Proof.
    unfold D, E. rewrite !part_all, !prev_S. f_equal. f_equal. apply map_ext. intros v.
    unfold set_prev. rewrite seq_snoc, map_app. reflexivity.
  Qed.

  Lemma new_column_last f k : new_column levels k (mkMatrix levels (prev f k)) = Ok (mkMatrix levels (prev f k ++ [repeat nnan levels])).
  Proof.
    unfold new_column. cbn [m_rows m_cols]. rewrite Nat.eqb_refl, prev_length, Nat.ltb_irrefl. reflexivity.
  Qed.
  Lemma settings_append k : forall names vs,
    map (fun e : string * list T => (fst e, snd e ++ [nnan])) (combine names (map (set_prev k) vs))
    = combine names (map (fun v => set_prev k v ++ [nnan]) vs).
  Proof. induction names as [|a names IH]; intros [|v vs]; try reflexivity. cbn. now rewrite IH. Qed.

  Lemma add_profile_eq k sel : k < N ->
    add_profile values levels calc nos (mkState (E k sel) false k) k
    = let* lev := calc k in let* d := foldM (step lev k) (D k 0 sel) (seq 0 levels) in Ok (mkState d false (S k)).
  Proof.
    intros Hk. unfold add_profile. cbn [st_data st_index st_arrays].
    unfold E at 1 2 3 4 5 6 7 8. cbn [la_ptmp la_mapped_sal la_map_sal_errors la_noise_sal la_signal_sal la_profile_no settings selected_hist].
    unfold np_insert. assert (LF : length (firstn k nos) = k) by (rewrite firstn_length; lia).
    rewrite LF, Nat.leb_refl. cbn [bind]. rewrite !new_column_last. cbn [bind].
    rewrite settings_append. rewrite firstn_all2 by lia. rewrite skipn_all2 by lia.
    rewrite <- (firstn_snoc nos k nnan) by exact Hk. rewrite <- D_0. reflexivity.
  Qed.

  Definition calls_profile k := flat_map (calls_level k) (seq 0 levels).
  Lemma outer : calculated levels calc nos -> forall m k sel, k + m = N ->
    foldM (add_profile values levels calc nos) (mkState (E k sel) false k) (seq k m)
    = let* s := recorded (flat_map calls_profile (seq k m)) sel in Ok (mkState (E N s) false N).
  Proof.
    intros Hc. induction m as [|m IH]; intros k sel E1; cbn [seq foldM flat_map].
    - cbn. replace k with N by lia. reflexivity.
    - rewrite add_profile_eq by lia. destruct (Hc k ltac:(lia)) as (lev & EC & HL). rewrite EC. cbn [bind].
      rewrite (inner k lev) by (assumption || lia). rewrite recorded_app. fold (calls_profile k).
      destruct (recorded (calls_profile k) sel) as [s|e]; [|reflexivity]. cbn [bind]. rewrite D_levels. apply IH. lia.
  Qed.

  (* the loop finishes only if everything was calculated *)
  Lemma outer_ok : forall m k sel r, k + m = N ->
    foldM (add_profile values levels calc nos) (mkState (E k sel) false k) (seq k m) = Ok r ->
    forall p, k <= p < N -> exists lev, calc p = Ok lev /\ forall n, n < levels -> exists o, lev n = Ok o.
  Proof.
    induction m as [|m IH]; intros k sel r E1 ER p Hp; [lia|]. cbn [seq foldM] in ER.
    rewrite add_profile_eq in ER by lia. destruct (calc k) as [lev|e] eqn:EC; [|discriminate]. cbn [bind] in ER.
    destruct (foldM (step lev k) (D k 0 sel) (seq 0 levels)) as [d|e] eqn:EF; [|discriminate].
    assert (HL : forall n, n < levels -> exists o, lev n = Ok o).
    { intros n Hn. destruct (foldM_ok _ _ _ _ EF n) as (a1 & a2 & E2); [apply in_seq; lia|].
      unfold step in E2. destruct (lev n); [eauto|discriminate]. }
    destruct (Nat.eq_dec p k) as [->|NE]; [eauto|].
    rewrite (inner k lev) in EF by (assumption || lia).
    destruct (recorded _ sel) as [s|e]; [|discriminate]. cbn [bind] in EF. inversion EF; subst d.
    rewrite D_levels in ER. cbn [bind] in ER. apply (IH (S k) s r); [lia|exact ER|lia].
  Qed.

  Lemma missing_all : missing_profile_index [] nos = seq 0 N.
  Proof.
    unfold missing_profile_index, argwhere. cbn [existsb negb]. generalize 0.
    induction nos as [|x l IH]; intros a; cbn; [reflexivity|]. now rewrite IH.
  Qed.
  Lemma start_E : load_variables None levels = Ok (mkState (E 0 []) false 0).
  Proof.
    unfold load_variables, E, prev, set_prev. cbn [seq map firstn]. do 3 f_equal.
    destruct values as [|? [|? [|? [|? [|? [|? [|? [|? [|? [|? [|? [|? [|? ?]]]]]]]]]]]]]; try discriminate. reflexivity.
  Qed.

  Variable qs : list T -> list nat.

  Theorem run_fresh : calculated levels calc nos ->
    run values levels calc qs None nos = let* s := recorded (points_used levels calc nos) [] in finish qs (E N s).
  Proof.
    intros Hc. unfold run. rewrite start_E. cbn [bind st_data]. change (la_profile_no (E 0 [])) with (@nil T).
    rewrite missing_all, outer by (assumption || lia). change (flat_map calls_profile (seq 0 N)) with (points_used levels calc nos).
    destruct (recorded _ _); reflexivity.
  Qed.
  Theorem run_fresh_ok d : run values levels calc qs None nos = Ok d -> calculated levels calc nos.
  Proof.
    unfold run. rewrite start_E. cbn [bind st_data]. change (la_profile_no (E 0 [])) with (@nil T). rewrite missing_all.
    intros ER p Hp. destruct (foldM _ _ _) as [r|e] eqn:EF; [|discriminate].
    apply (outer_ok N 0 [] r); [lia|exact EF|lia].
  Qed.

  (* ---- the final part ---- *)
  Lemma index_ok {A} (d : A) (l : list A) idx : Permutation idx (seq 0 (length l)) -> index_array d l idx = Ok (take d l idx).
  Proof.
    intros HP. unfold index_array. replace (forallb _ idx) with true; [reflexivity|]. symmetry. apply forallb_forall.
    intros i Hi. apply Nat.ltb_lt. apply (Permutation_in _ HP), in_seq in Hi. lia.
  Qed.
  Lemma take_length {A} (d : A) l idx : length (take d l idx) = length idx.
  Proof. unfold take. apply map_length. Qed.
  Lemma perm_len idx n : Permutation idx (seq 0 n) -> length idx = n.
  Proof. intros HP. rewrite (Permutation_length HP). apply seq_length. Qed.

  Lemma sort_matrix_ok idx r (c : list (list T)) : Permutation idx (seq 0 (length c)) ->
    exists m, sort_matrix idx (mkMatrix r c) = Ok m /\ (1 <= r -> m = mkMatrix r (take [] c idx)).
  Proof.
    intros HP. unfold sort_matrix. cbn [m_rows m_cols]. destruct (Nat.ltb 1 (r * length c)) eqn:EL.
    - unfold permute. cbn [m_cols m_rows]. rewrite index_ok by exact HP. cbn [bind]. eauto.
    - exists (mkMatrix r c). split; [reflexivity|]. intros Hr. apply Nat.ltb_ge in EL. f_equal.
      destruct c as [|x [|y c]]; cbn in EL, HP.
      + symmetry in HP. apply Permutation_nil in HP. now subst idx.
      + symmetry in HP. apply Permutation_length_1_inv in HP. now subst idx.
      + lia.
  Qed.
  Lemma sort_vector_ok idx (v : list T) : Permutation idx (seq 0 (length v)) -> sort_vector idx v = Ok (take nnan v idx).
  Proof.
    intros HP. unfold sort_vector. destruct (Nat.ltb 1 (length v)) eqn:EL; [now apply index_ok|].
    apply Nat.ltb_ge in EL. f_equal. destruct v as [|x [|y v]]; cbn in EL, HP; [| |lia].
    - symmetry in HP. apply Permutation_nil in HP. now subst idx.
    - symmetry in HP. apply Permutation_length_1_inv in HP. now subst idx.
  Qed.
  Lemma sort_settings_ok idx n : Permutation idx (seq 0 n) -> forall (s : list (string * list T)),
    (forall e, In e s -> length (snd e) = n) ->
    mapM (fun e => let* v := sort_vector idx (snd e) in Ok (fst e, v)) s = Ok (map (fun e => (fst e, take nnan (snd e) idx)) s).
  Proof.
    intros HP s Hs. apply mapM_map. intros e He. rewrite sort_vector_ok by (rewrite Hs; assumption). reflexivity.
  Qed.

  (* finish on data with n columns everywhere *)
  Definition regular (n r : nat) (d : mapped T) : Prop :=
    length (la_profile_no d) = n /\ (forall e, In e (settings d) -> length (snd e) = n) /\
    Forall (fun m => m_rows m = r /\ length (m_cols m) = n)
      [la_ptmp d; la_mapped_sal d; la_map_sal_errors d; la_noise_sal d; la_signal_sal d].
  Lemma finish_value n r d : sorting qs -> regular n r d -> 1 <= r ->
    finish qs d =
    let idx := qs (la_profile_no d) in
    let tw m := mkMatrix r (take [] (take [] (m_cols m) idx) idx) in
    match selected_hist d with
    | [] => Raise UnboundLocalError
    | l => Ok (mkMapped (tw (la_ptmp d)) (tw (qc (la_mapped_sal d))) (tw (la_map_sal_errors d)) (tw (la_noise_sal d)) (tw (la_signal_sal d))
                 (take nnan (la_profile_no d) idx) (map (fun e => (fst e, take nnan (snd e) idx)) (settings d))
                 (sort_by (fun a b => nltb (snd a) (snd b)) l))
    end.
  Proof.
    intros HS (HN & HSet & HM) Hr. unfold finish. cbv zeta.
    assert (HP : Permutation (qs (la_profile_no d)) (seq 0 n)) by (rewrite <- HN; apply HS).
    set (idx := qs (la_profile_no d)) in *. clearbody idx.
    rewrite Forall_forall in HM. cbn [In] in HM.
    assert (A1 := HM (la_ptmp d) ltac:(tauto)). assert (A2 := HM (la_mapped_sal d) ltac:(tauto)).
    assert (A3 := HM (la_map_sal_errors d) ltac:(tauto)). assert (A4 := HM (la_noise_sal d) ltac:(tauto)).
    assert (A5 := HM (la_signal_sal d) ltac:(tauto)). clear HM.
    assert (A2' : m_rows (qc (la_mapped_sal d)) = r /\ length (m_cols (qc (la_mapped_sal d))) = n)
      by (unfold qc; cbn [m_rows m_cols]; rewrite map_length; exact A2).
    assert (P : forall m : matrix T, m_rows m = r /\ length (m_cols m) = n -> permute idx m = Ok (mkMatrix r (take [] (m_cols m) idx))).
    { intros m [<- L]. unfold permute. rewrite index_ok by (rewrite L; exact HP). reflexivity. }
    assert (Q : forall c : list (list T), length c = n -> sort_matrix idx (mkMatrix r (take [] c idx)) = Ok (mkMatrix r (take [] (take [] c idx) idx))).
    { intros c L. destruct (sort_matrix_ok idx r (take [] c idx)) as (m & -> & Hm); [rewrite take_length, (perm_len _ _ HP); exact HP|].
      now rewrite Hm. }
    rewrite !P by assumption. cbn [bind]. rewrite !Q by tauto. cbn [bind].
    rewrite sort_vector_ok by (rewrite HN; exact HP). cbn [bind].
    rewrite (sort_settings_ok idx n) by assumption. cbn [bind]. destruct (selected_hist d); reflexivity.
  Qed.
  Lemma finish_no_points n r d : sorting qs -> regular n r d -> selected_hist d = [] -> finish qs d = Raise UnboundLocalError.
  Proof.
    intros HS (HN & HSet & HM) Hsel. unfold finish. cbv zeta.
    assert (HP : Permutation (qs (la_profile_no d)) (seq 0 n)) by (rewrite <- HN; apply HS).
    set (idx := qs (la_profile_no d)) in *. clearbody idx.
    rewrite Forall_forall in HM. cbn [In] in HM.
    assert (A1 := HM (la_ptmp d) ltac:(tauto)). assert (A2 := HM (la_mapped_sal d) ltac:(tauto)).
    assert (A3 := HM (la_map_sal_errors d) ltac:(tauto)). assert (A4 := HM (la_noise_sal d) ltac:(tauto)).
    assert (A5 := HM (la_signal_sal d) ltac:(tauto)). clear HM.
    assert (A2' : m_rows (qc (la_mapped_sal d)) = r /\ length (m_cols (qc (la_mapped_sal d))) = n)
      by (unfold qc; cbn [m_rows m_cols]; rewrite map_length; exact A2).
    assert (P : forall m : matrix T, m_rows m = r /\ length (m_cols m) = n -> permute idx m = Ok (mkMatrix r (take [] (m_cols m) idx))).
    { intros m [<- L]. unfold permute. rewrite index_ok by (rewrite L; exact HP). reflexivity. }
    assert (Q : forall c : list (list T), length c = n -> exists m, sort_matrix idx (mkMatrix r (take [] c idx)) = Ok m).
    { intros c L. destruct (sort_matrix_ok idx r (take [] c idx)) as (m & E1 & _); [rewrite take_length, (perm_len _ _ HP); exact HP|eauto]. }
    rewrite !P by assumption. cbn [bind].
    destruct (Q (m_cols (la_ptmp d))) as [m1 ->]; [tauto|]. destruct (Q (m_cols (qc (la_mapped_sal d)))) as [m2 ->]; [tauto|].
    destruct (Q (m_cols (la_map_sal_errors d))) as [m3 ->]; [tauto|]. destruct (Q (m_cols (la_noise_sal d))) as [m4 ->]; [tauto|].
    destruct (Q (m_cols (la_signal_sal d))) as [m5 ->]; [tauto|]. cbn [bind].
    rewrite sort_vector_ok by (rewrite HN; exact HP). cbn [bind].
    rewrite (sort_settings_ok idx n) by assumption. cbn [bind]. now rewrite Hsel.
  Qed.

  Lemma E_regular s : regular N levels (E N s).
  Proof.
    unfold regular, E. cbn [la_ptmp la_mapped_sal la_map_sal_errors la_noise_sal la_signal_sal la_profile_no settings].
    split; [rewrite firstn_all; reflexivity|]. split.
    - intros e He. rewrite <- (firstn_all nos) in *. destruct e as [k v]. apply in_combine_r, in_map_iff in He as (x & <- & _).
      cbn [snd]. rewrite set_prev_length. reflexivity.
    - repeat constructor; cbn [m_rows m_cols]; try apply prev_length.
  Qed.
  Lemma E_settings s idx : map (fun e : string * list T => (fst e, take nnan (snd e) idx)) (settings (E N s))
    = combine setting_names (map (fun v => rearranged nnan idx (setting_column levels calc nos v)) values).
  Proof.
    unfold E. cbn [settings]. clear Hvalues. generalize setting_names. intros names. revert names.
    induction values as [|v vs IH]; intros [|a names]; try reflexivity. cbn. now rewrite IH.
  Qed.
  Lemma sel_levels s : recorded (points_used levels calc nos) [] = Ok s -> s <> [] -> 1 <= levels.
  Proof.
    intros ER Hs. destruct levels; [|lia]. exfalso. apply Hs.
    assert (Z : points_used 0 calc nos = []) by (unfold points_used; cbn [seq flat_map]; induction (seq 0 N); auto).
    rewrite Z in ER. cbn in ER. congruence.
  Qed.
  Lemma qc_columns : m_cols (qc (mkMatrix levels (columns levels calc nos lo_sal)))
    = columns levels calc nos (fun o => in_range (lo_sal o)).
  Proof.
    unfold qc, columns. cbn [m_cols]. rewrite map_map. apply map_ext. intros p. unfold profile_column. rewrite map_map.
    apply map_ext. intros n. destruct (outcome p n); [reflexivity|]. destruct (_ || _); reflexivity.
  Qed.

  (* exactly what a run without mapped file saves *)
  Theorem fresh_iff d : sorting qs ->
    (run values levels calc qs None nos = Ok d <->
     calculated levels calc nos /\ exists sel, recorded (points_used levels calc nos) [] = Ok sel /\ sel <> [] /\
       saved_file levels calc nos values (qs nos) sel d).
  Proof.
    intros HS.
    assert (V : forall sel, recorded (points_used levels calc nos) [] = Ok sel -> sel <> [] ->
              exists d', finish qs (E N sel) = Ok d' /\ saved_file levels calc nos values (qs nos) sel d').
    { intros sel ER Hs. rewrite (finish_value N levels _ HS (E_regular sel) (sel_levels sel ER Hs)). cbv zeta.
      rewrite E_settings. unfold E. cbn [la_ptmp la_mapped_sal la_map_sal_errors la_noise_sal la_signal_sal la_profile_no selected_hist m_cols].
      rewrite firstn_all. destruct sel as [|q r]; [congruence|]. eexists. split; [reflexivity|].
      unfold saved_file. cbn [la_ptmp la_mapped_sal la_map_sal_errors la_noise_sal la_signal_sal la_profile_no settings selected_hist].
      change (prev lo_sal N) with (columns levels calc nos lo_sal). rewrite qc_columns. repeat split; reflexivity. }
    split.
    - intros ER. assert (Hc := run_fresh_ok d ER). split; [exact Hc|]. rewrite run_fresh in ER by exact Hc.
      destruct (recorded _ []) as [sel|e] eqn:EC; [|discriminate]. cbn [bind] in ER. exists sel. split; [reflexivity|].
      assert (Hs : sel <> []). { intros ->. now rewrite (finish_no_points N levels _ HS (E_regular []) eq_refl) in ER. }
      split; [exact Hs|]. destruct (V sel eq_refl Hs) as (d' & E1 & S1). congruence.
    - intros (Hc & sel & EC & Hs & S1). rewrite run_fresh, EC by exact Hc. cbn [bind].
      destruct (V sel EC Hs) as (d' & -> & S2). f_equal.
      unfold saved_file in S1, S2. destruct S1 as (a1&a2&a3&a4&a5&a6&a7&a8), S2 as (b1&b2&b3&b4&b5&b6&b7&b8).
      apply mapped_ext; congruence.
  Qed.
  (* a run in which nothing could be mapped fails *)
  Theorem fresh_nothing : sorting qs -> calculated levels calc nos -> (forall p n, p < N -> n < levels -> outcome p n = None) ->
    run values levels calc qs None nos = Raise UnboundLocalError.
  Proof.
    intros HS Hc HN. rewrite run_fresh by exact Hc.
    assert (Z : points_used levels calc nos = []).
    { unfold points_used. apply flat_map_nil. intros p Hp. apply in_seq in Hp. apply flat_map_nil. intros n Hn. apply in_seq in Hn.
      rewrite HN by lia. reflexivity. }
    rewrite Z. cbn [recorded bind]. apply (finish_no_points N levels _ HS (E_regular [])). reflexivity.
  Qed.
End Fresh.
