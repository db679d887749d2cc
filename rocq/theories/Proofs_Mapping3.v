From Coq Require Import String Ascii.
From Coq Require Import ZArith List Bool Reals Lra Lia Permutation Sorting.Sorted.
From Verif Require Import Num Np NumFacts NpFacts Helper MapProfile Mapping Spec_Mapping Proofs_Mapping Proofs_Mapping2.
Import ListNotations.
Local Open Scope nat_scope.

Lemma rearranged_dflt {A} (d e : A) idx l : (forall i, In i idx -> i < length l) -> rearranged d idx l = rearranged e idx l.
Proof. intros Hb. unfold rearranged. apply map_ext_in. intros i Hi. apply nth_indep. auto. Qed.
Lemma rearranged_fin idx rs : Permutation idx (seq 0 (length rs)) -> rearranged NaN idx (map Fin rs) = map Fin (rearranged 0%R idx rs).
Proof.
  intros HP. rewrite <- rearranged_map. apply rearranged_dflt. intros i Hi. rewrite map_length.
  apply (Permutation_in _ HP), in_seq in Hi. lia.
Qed.
Lemma slt_fin a b : slt (Fin a) (Fin b) = Rltb a b.
Proof. unfold slt. cbn. now rewrite orb_false_r. Qed.

Lemma nth_combine' {A B} (l : list A) (m : list B) i a b : length l = length m -> nth i (combine l m) (a, b) = (nth i l a, nth i m b).
Proof. apply combine_nth. Qed.

Section Numbers.
  Variable qs : list XR -> list nat.
  Hypothesis HS : sorting qs.
  Lemma qs_perm rs : Permutation (qs (map Fin rs)) (seq 0 (length rs)).
  Proof. rewrite <- (map_length Fin rs). apply HS. Qed.

  Lemma sorted_numbers rs : NoDup rs -> increasing (rearranged 0%R (qs (map Fin rs)) rs).
  Proof.
    intros ND i j Hij. pose proof (qs_perm rs) as HP. destruct (HS (map Fin rs)) as [_ HA].
    set (idx := qs (map Fin rs)) in *.
    assert (LI : length idx = length rs) by (rewrite (Permutation_length HP); apply seq_length).
    unfold rearranged in Hij. rewrite map_length in Hij.
    specialize (HA i j). rewrite map_length in HA. specialize (HA Hij).
    change (map (fun i => nth i (map Fin rs) nnan) idx) with (rearranged (NaN : XR) idx (map Fin rs)) in HA.
    rewrite rearranged_fin in HA by exact HP.
    assert (LR : length (rearranged 0%R idx rs) = length idx) by (unfold rearranged; apply map_length).
    rewrite (nth_map0 Fin _ j nnan 0%R), (nth_map0 Fin _ i nnan 0%R) in HA by lia. rewrite slt_fin in HA. apply Rltb_false in HA.
    destruct HA as [HA|HA]; [exact HA|]. exfalso. rewrite !rearranged_nth in HA by lia.
    rewrite NoDup_nth in ND. apply (ND _ _) in HA; [|apply (perm_bound idx (length rs)); [exact HP|lia]..].
    apply (perm_inj idx (length rs) HP) in HA; lia.
  Qed.
  Lemma increasing_index rs : increasing rs -> qs (map Fin rs) = seq 0 (length rs).
  Proof.
    intros HI. pose proof (qs_perm rs) as HP. destruct (HS (map Fin rs)) as [_ HA].
    set (idx := qs (map Fin rs)) in *.
    assert (LI : length idx = length rs) by (rewrite (Permutation_length HP); apply seq_length).
    apply perm_seq_id; [exact HP|]. intros i j Hij. specialize (HA i j). rewrite map_length in HA. specialize (HA ltac:(lia)).
    change (map (fun i => nth i (map Fin rs) nnan) idx) with (rearranged (NaN : XR) idx (map Fin rs)) in HA.
    rewrite rearranged_fin in HA by exact HP.
    assert (LR : length (rearranged 0%R idx rs) = length idx) by (unfold rearranged; apply map_length).
    rewrite (nth_map0 Fin _ j nnan 0%R), (nth_map0 Fin _ i nnan 0%R) in HA by lia. rewrite slt_fin in HA. apply Rltb_false in HA.
    rewrite !rearranged_nth in HA by lia.
    destruct (Nat.lt_trichotomy (nth i idx 0) (nth j idx 0)) as [?|[E|G]]; [assumption| |].
    - apply (perm_inj idx (length rs) HP) in E; lia.
    - specialize (HI (nth j idx 0) (nth i idx 0)). pose proof (perm_bound idx _ HP i ltac:(lia)). specialize (HI ltac:(lia)). lra.
  Qed.
  Lemma identity_increasing rs : NoDup rs -> qs (map Fin rs) = seq 0 (length rs) -> increasing rs.
  Proof. intros ND E. pose proof (sorted_numbers rs ND) as HI. now rewrite E, rearranged_seq in HI. Qed.

  Variable values : list XR.
  Variable levels : nat.
  Variable calc : nat -> res (nat -> res (option (level_out XR))).
  Hypothesis Hvalues : length values = 12.
  Variable rs : list R.
  Hypothesis ND : NoDup rs.
  Notation nos := (map Fin rs).
  Notation N := (length rs).
  Notation idx := (qs nos).

  (* ---- C63 ---- *)
  Definition sorted_list : list R := rearranged 0%R idx rs.
  Lemma sorted_list_perm : Permutation sorted_list rs.
  Proof. apply rearranged_perm, qs_perm. Qed.

  Theorem fresh_labels d : run values levels calc qs None nos = Ok d ->
    la_profile_no d = map Fin sorted_list /\ Permutation sorted_list rs /\ increasing sorted_list /\
    complete_columns levels N d.
  Proof.
    intros E. apply fresh_iff in E; [|assumption|assumption]. destruct E as (_ & sel & _ & _ & SF).
    destruct SF as (A1 & A2 & A3 & A4 & A5 & A6 & A7 & _).
    pose proof (qs_perm rs) as HP.
    assert (LI : length idx = N) by (rewrite (Permutation_length HP); apply seq_length).
    split; [rewrite A6; apply rearranged_fin, HP|]. split; [apply sorted_list_perm|]. split; [now apply sorted_numbers|].
    set (P := fun m : matrix XR => m_rows m = levels /\ length (m_cols m) = N /\ Forall (fun c : list XR => length c = levels) (m_cols m)).
    assert (G : forall f, P (mkMatrix levels (rearranged [] idx (rearranged [] idx (columns levels calc nos f))))).
    { intros f. unfold P. cbn [m_rows m_cols]. split; [reflexivity|].
      split; [unfold rearranged; rewrite map_length; exact LI|].
      assert (LC : length (columns levels calc nos f) = N) by (unfold columns; rewrite map_length, seq_length, map_length; reflexivity).
      assert (LR : length (rearranged [] idx (columns levels calc nos f)) = N) by (unfold rearranged; rewrite map_length; exact LI).
      apply (Permutation_Forall (Permutation_sym (rearranged_perm [] idx _ ltac:(rewrite LR; exact HP)))).
      apply (Permutation_Forall (Permutation_sym (rearranged_perm [] idx _ ltac:(rewrite LC; exact HP)))).
      apply Forall_forall. intros c Hc. apply in_map_iff in Hc as (p & <- & _). unfold profile_column. now rewrite map_length, seq_length. }
    unfold complete_columns. rewrite A1, A2, A3, A4, A5. split.
    { do 5 (apply Forall_cons; [apply G|]). constructor. }
    rewrite A7. split.
    - rewrite map_fst_combine; [reflexivity|]. rewrite map_length, Hvalues. reflexivity.
    - apply Forall_forall. intros [k v] Hk. apply in_combine_r, in_map_iff in Hk as (x & <- & _). cbn [snd].
      unfold rearranged. rewrite map_length. exact LI.
  Qed.

  Lemma saved_well_formed d : run values levels calc qs None nos = Ok d -> well_formed d.
  Proof.
    intros E. destruct (fresh_labels d E) as (EN & HP & _ & HM & HF & _).
    assert (LN : length (la_profile_no d) = N) by (rewrite EN, map_length; apply Permutation_length, HP).
    unfold well_formed. rewrite LN. split.
    - intros k Hk. rewrite <- HF in Hk. unfold lookup. destruct (find _ (settings d)) as [e|] eqn:EF; [eexists; reflexivity|].
      exfalso. apply in_map_iff in Hk as (e & <- & He). apply (find_none _ _ EF) in He. rewrite String.eqb_refl in He. discriminate.
    - rewrite Forall_forall in HM. repeat split; apply HM; cbn; auto 6.
  Qed.

  Lemma mapM_flat : forall vs : list (list XR), length vs = 12 ->
    mapM (fun k => match lookup k (combine setting_names vs) with Some v => Ok (k, v) | None => Raise KeyError end) setting_names
    = Ok (combine setting_names vs).
  Proof.
    intros vs L. destruct vs as [|? [|? [|? [|? [|? [|? [|? [|? [|? [|? [|? [|? [|? ?]]]]]]]]]]]]]; try discriminate. reflexivity.
  Qed.

  Lemma in_range_idem (x : XR) : in_range (in_range x) = in_range x.
  Proof. unfold in_range at 2 3. destruct (_ || _) eqn:E; [reflexivity|]. unfold in_range. now rewrite E. Qed.
  Lemma columns_range : columns levels calc nos (fun o => in_range (lo_sal o)) = map (map in_range) (columns levels calc nos lo_sal).
  Proof.
    unfold columns. rewrite map_map. apply map_ext. intros p. unfold profile_column. rewrite map_map. apply map_ext. intros n.
    destruct (outcome calc p n); reflexivity.
  Qed.

  Lemma recorded_numbers h : forall s sel, recorded (T := XR) h s = Ok sel ->
    (forall no pts, In (no, pts) h -> exists r, no = Fin r) -> Forall (fun q => exists r, snd q = Fin r) s ->
    Forall (fun q => exists r, snd q = Fin r) sel.
  Proof.
    induction h as [|[no pts] h IH]; intros s sel E Hh Hs; cbn in E; [inversion E; now subst|].
    destruct (selected_historical_points s pts no) as [s1|e] eqn:E1; [|discriminate]. cbn in E.
    apply (IH s1 sel E); [intros; apply (Hh no0 pts0); now right|].
    destruct (Hh no pts (or_introl eq_refl)) as [r ->]. clear E IH Hh.
    unfold selected_historical_points in E1.
    assert (G : forall pts s, Forall (fun q : record XR => exists r, snd q = Fin r) s ->
              Forall (fun q => exists r, snd q = Fin r) (fold_left (add_point (Fin r)) pts s)).
    { clear. induction pts as [|p pts IH]; intros s Hs; cbn; [exact Hs|]. apply IH. unfold add_point.
      destruct (existsb _ s); [exact Hs|]. apply Forall_app. split; [exact Hs|]. constructor; [|constructor]. cbn. eauto. }
    destruct s as [|q s]; [destruct pts as [|p pts]; [discriminate|]|]; cbn [bind] in E1; injection E1 as <-.
    - apply (G (p :: pts)). constructor; [|constructor]. cbn. eauto.
    - apply G. exact Hs.
  Qed.
  Definition by_no (a b : record XR) : bool := nltb (snd a) (snd b).
  Lemma by_no_idem sel : Forall (fun q => exists r, snd q = Fin r) sel -> sort_by by_no (sort_by by_no sel) = sort_by by_no sel.
  Proof.
    intros Hf. set (by_slt := fun a b : record XR => slt (snd a) (snd b)).
    assert (EX : forall l, Forall (fun q => exists r, snd q = Fin r) l -> sort_by by_no l = sort_by by_slt l).
    { intros l Hl. rewrite Forall_forall in Hl. apply sort_by_ext. intros a b Ha Hb. unfold by_no, by_slt.
      destruct (Hl a Ha) as [x ->], (Hl b Hb) as [y ->]. now rewrite slt_fin. }
    assert (F2 : Forall (fun q => exists r, snd q = Fin r) (sort_by by_no sel))
      by (apply (Permutation_Forall (Permutation_sym (sort_by_perm by_no sel))); exact Hf).
    rewrite (EX (sort_by by_no sel) F2). rewrite (EX sel Hf). apply sort_by_id, sort_by_sorted; unfold by_slt; intros.
    - now apply slt_asym.
    - eapply slt_negtrans; eauto.
  Qed.

  (* a second run over the saved file changes nothing and calculates nothing *)
  Theorem second_run d values' calc' : run values levels calc qs None nos = Ok d ->
    run values' levels calc' qs (Some d) nos = Ok d.
  Proof.
    intros E. pose proof (saved_well_formed d E) as WF. destruct (fresh_labels d E) as (EN & HP & HI & HM & HF & HSet).
    rewrite nothing_missing; [|exact WF|].
    2:{ intros p Hp. exists p. apply in_map_iff in Hp as (r & <- & Hr). split.
        - rewrite EN. apply in_map. apply (Permutation_in _ (Permutation_sym HP) Hr).
        - cbn. now apply Reqb_true. }
    apply fresh_iff in E; [|assumption|assumption]. destruct E as (_ & sel & ER & Hsel & SF).
    assert (Hlev := sel_levels values levels calc nos Hvalues sel ER Hsel).
    destruct SF as (A1 & A2 & A3 & A4 & A5 & A6 & A7 & A8).
    assert (EL : load_variables (Some d) levels = Ok (mkState d true N)).
    { unfold load_variables. rewrite A7. rewrite mapM_flat by (rewrite map_length; exact Hvalues). cbn [bind].
      rewrite Forall_forall in HM. assert (M2 := HM (la_mapped_sal d) ltac:(cbn; auto)). destruct M2 as (R2 & C2 & _).
      rewrite R2, Nat.ltb_irrefl. cbn [andb bind]. rewrite C2. do 2 f_equal. apply mapped_ext; try reflexivity. cbn [settings]. now rewrite A7. }
    rewrite EL. cbn [bind st_data].
    assert (LN : length sorted_list = N) by (apply Permutation_length, HP).
    assert (REG : regular N levels d).
    { unfold regular. split; [rewrite EN, map_length; exact LN|]. split; [rewrite Forall_forall in HSet; exact HSet|].
      apply Forall_forall. intros m Hm. rewrite Forall_forall in HM. destruct (HM m Hm) as (? & ? & _). auto. }
    rewrite (finish_value values levels calc Hvalues qs N levels d HS REG Hlev). cbv zeta.
    rewrite EN. rewrite increasing_index by exact HI. rewrite LN.
    assert (TW : forall c : list (list XR), length c = N -> take [] (take [] c (seq 0 N)) (seq 0 N) = c).
    { intros c L. change (rearranged [] (seq 0 N) (rearranged [] (seq 0 N) c) = c). rewrite <- L, !rearranged_seq. reflexivity. }
    assert (NE : exists q r, selected_hist d = q :: r).
    { destruct (selected_hist d) as [|q r] eqn:ES; [|eauto]. exfalso. apply Hsel. apply Permutation_nil.
      rewrite A8. apply sort_by_perm. }
    destruct NE as (q & r & ES). rewrite ES. rewrite <- ES. f_equal.
    rewrite Forall_forall in HM.
    assert (MM : forall m, In m [la_ptmp d; la_mapped_sal d; la_map_sal_errors d; la_noise_sal d; la_signal_sal d] ->
              mkMatrix levels (take [] (take [] (m_cols m) (seq 0 N)) (seq 0 N)) = m).
    { intros m Hm. destruct (HM m Hm) as (R & C & _). rewrite TW by exact C. rewrite <- R. now destruct m. }
    apply mapped_ext; cbn [la_ptmp la_mapped_sal la_map_sal_errors la_noise_sal la_signal_sal la_profile_no settings selected_hist].
    - apply MM. cbn. auto.
    - replace (qc (la_mapped_sal d)) with (la_mapped_sal d); [apply MM; cbn; auto|].
      rewrite A2. unfold qc. cbn [m_rows m_cols]. f_equal. rewrite columns_range.
      change (fun x : XR => if nltb x (nofZ 30) || nltb (nofZ 40) x then nnan else x) with (in_range (T := XR)).
      change (@nil XR) with (map in_range (@nil XR)). rewrite !rearranged_map, map_map. apply map_ext. intros c. rewrite map_map.
      apply map_ext. intros x. now rewrite in_range_idem.
    - apply MM. cbn. auto.
    - apply MM. cbn. auto.
    - apply MM. cbn. auto 6.
    - rewrite EN, <- LN, <- (map_length Fin sorted_list). apply (rearranged_seq (nnan : XR)).
    - assert (HSet' : forall e, In e (settings d) -> length (snd e) = N) by (rewrite Forall_forall in HSet; exact HSet).
      clear - HSet'. induction (settings d) as [|[k v] s IH]; [reflexivity|]. cbn [map fst snd].
      rewrite IH by (intros; apply HSet'; now right). do 2 f_equal. rewrite <- (HSet' (k, v) (or_introl eq_refl)). apply (rearranged_seq (nnan : XR)).
    - rewrite A8. change (fun a b : record XR => nltb (snd a) (snd b)) with by_no. apply by_no_idem.
      apply (recorded_numbers _ _ _ ER); [|constructor]. intros no pts Hin. unfold points_used in Hin.
      apply in_flat_map in Hin as (p & Hp & Hin). apply in_flat_map in Hin as (n & _ & Hin). apply in_seq in Hp. rewrite map_length in Hp.
      destruct (outcome calc p n); [|destruct Hin]. destruct Hin as [Hin|[]]. injection Hin as Hno _. exists (nth p rs 0%R). rewrite <- Hno. apply nth_map0. lia.
  Qed.

  (* ---- C65 ---- *)
  Definition label (j : nat) : nat := nth j idx 0.
  Theorem labels d : run values levels calc qs None nos = Ok d -> forall j, j < N ->
    label j < N /\ nth j (la_profile_no d) NaN = Fin (nth (label j) rs 0%R) /\
    (forall m f, In (m, f) (contents d) ->
       nth j (m_cols m) [] = profile_column levels calc f (label (label j))) /\
    (forall i, i < 12 -> nth j (snd (nth i (settings d) (""%string, []))) NaN
                         = if has_levels levels calc (label j) then nth i values NaN else NaN).
  Proof.
    intros E j Hj. apply fresh_iff in E; [|assumption|assumption]. destruct E as (_ & sel & ER & Hsel & SF).
    destruct SF as (A1 & A2 & A3 & A4 & A5 & A6 & A7 & A8). pose proof (qs_perm rs) as HP.
    assert (LI : length idx = N) by (rewrite (Permutation_length HP); apply seq_length).
    assert (B1 : label j < N) by (apply (perm_bound idx N HP); exact Hj).
    assert (B2 : label (label j) < N) by (apply (perm_bound idx N HP); exact B1).
    split; [exact B1|]. split; [|split].
    - rewrite A6. change (nnan : XR) with NaN. rewrite rearranged_nth by lia. fold (label j). now rewrite (nth_map0 Fin _ _ NaN 0%R).
    - assert (G : forall f, nth j (rearranged [] idx (rearranged [] idx (columns levels calc nos f))) [] = profile_column levels calc f (label (label j))).
      { intros f. rewrite rearranged_nth by lia. fold (label j). rewrite rearranged_nth by (rewrite LI; exact B1). fold (label (label j)).
        unfold columns. rewrite (nth_map0 _ _ _ [] 0) by (rewrite seq_length, map_length; exact B2). rewrite seq_nth by (rewrite map_length; exact B2). reflexivity. }
      intros m f Hm. unfold contents in Hm. cbn [In] in Hm. destruct Hm as [Hm|[Hm|[Hm|[Hm|[Hm|[]]]]]]; inversion Hm; subst m f;
        rewrite ?A1, ?A2, ?A3, ?A4, ?A5; cbn [m_cols]; apply G.
    - intros i Hi. rewrite A7. rewrite nth_combine' by (rewrite map_length, Hvalues; reflexivity). cbn [snd].
      rewrite (nth_map0 _ _ i [] NaN) by (rewrite Hvalues; exact Hi). change (nnan : XR) with NaN. rewrite rearranged_nth by lia. fold (label j).
      unfold setting_column. rewrite (nth_map0 _ _ _ NaN 0) by (rewrite seq_length, map_length; exact B1).
      rewrite seq_nth by (rewrite map_length; exact B1). reflexivity.
  Qed.
End Numbers.
