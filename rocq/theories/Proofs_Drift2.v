(* The samples given to the fit of a series *)
From Coq Require Import String Ascii.
From Coq Require Import ZArith List Bool Lia Reals Lra Sorted Permutation FunctionalExtensionality.
From Verif Require Import Num Np NumFacts NpFacts Utilities Finders Stats FitCond Topo Helper MapProfile Mapping Config Calib
  Spec_Utilities Spec_Finders Spec_Stats Spec_FitCond Spec_Calib Spec_Drift LinR
  Proofs_Besthist Proofs_Stats2 Proofs_Stats3 Proofs_FC1 Proofs_FC3 Proofs_FC9 Proofs_Calib Proofs_Calib2 Proofs_Calib3 Proofs_Calib4 Proofs_Calib7 Proofs_Drift1.
Import ListNotations.
Local Open Scope R_scope.

Section Levels.
  Context {T : Type} {HN : Num T} {HT : NumT T}.
  Variable interp1d : list T -> list T -> T -> res T.
  Lemma select_min_length k : forall v : list T, length (select_min k v) = k.
  Proof.
    induction k as [|k IH]; intros v; cbn [select_min]; auto.
    destruct (forallb nisnan v); [cbn; now rewrite IH|]. destruct (argwhere _ v); cbn; now rewrite IH.
  Qed.
  Lemma thetas_ten nr nc sal ptmp pres la a b c e pc th ms :
    find_10thetas interp1d nr nc sal ptmp pres la a b c e pc = Ok (th, ms) -> length (th_index th) = 10%nat.
  Proof.
    unfold find_10thetas. destruct (exclude la a b c e (pres, sal, ptmp)) as [[pr sa] pt]. intros E.
    apply bind_ok in E as (levels & _ & E). apply bind_ok in E as (it & _ & E). cbv zeta in E. apply bind_ok in E as (st & ES & E).
    apply (f_equal (fun r => match r with Ok x => length (th_index (fst x)) | _ => 0%nat end)) in E. cbn [fst th_index] in E.
    rewrite <- E, map_length. apply select_min_length.
  Qed.
  Lemma levels_le (th : @thetas T) p : (length (valid_levels th p) <= length (th_index th))%nat.
  Proof.
    unfold valid_levels. induction (th_index th) as [|r l IH]; [apply le_n|]. cbn [flat_map]. rewrite app_length. destruct (nth p r None); cbn [length]; lia.
  Qed.
End Levels.

Lemma map2_maps {A B C D} (g : B -> C -> D) (f : A -> B) (h : A -> C) l : map2 g (map f l) (map h l) = map (fun x => g (f x) (h x)) l.
Proof. unfold map2. rewrite combine_map2, map_map. reflexivity. Qed.

(* what is selected *)
Lemma select_parts interp1d (src : source XR) l d c per idx sd : select_series interp1d src (Some l) d c per idx = Ok sd ->
  sd_sal sd = take [] (src_sal src) idx /\ sd_ptmp sd = take [] (src_ptmp src) idx /\ sd_mapped_sal sd = take [] (m_cols (la_mapped_sal d)) idx /\
  sd_mapsalerrors sd = take [] (m_cols (la_map_sal_errors d)) idx /\ sd_no sd = take NaN (src_no src) idx /\
  (forall i, In i idx -> (i < length (src_no src))%nat) /\ (forall i, In i idx -> (i < length l)%nat) /\ length (th_index (sd_thetas sd)) = 10%nat.
Proof.
  intros ES. unfold select_series in ES. cbn [bind] in ES. apply bind_ok in ES as (co & Eco & ES).
  apply bind_ok in ES as (x1 & E1 & ES). apply bind_ok in ES as (x2 & E2 & ES). apply bind_ok in ES as (x3 & E3 & ES). apply bind_ok in ES as (x4 & E4 & ES).
  apply bind_ok in ES as (x5 & E5 & ES). apply bind_ok in ES as (x6 & E6 & ES).
  do 4 (apply bind_ok in ES as (? & _ & ES)). apply bind_ok in ES as ((th & ms) & Eth & ES). apply bind_ok in ES as (no & Eno & ES). injection ES as <-.
  cbn [sd_sal sd_ptmp sd_mapped_sal sd_mapsalerrors sd_no sd_thetas].
  apply index_array_ok in Eco as (_ & B). apply index_array_ok in Eno as (-> & B').
  apply index_array_ok in E1 as (-> & _). apply index_array_ok in E2 as (-> & _). apply index_array_ok in E5 as (-> & _). apply index_array_ok in E6 as (-> & _).
  repeat (split; [reflexivity|]). split; [exact B'|]. split; [exact B|]. exact (thetas_ten _ _ _ _ _ _ _ _ _ _ _ _ _ _ Eth).
Qed.

(* an entry in one of the ten places *)
Definition cell (cols : list (list XR)) (idx : list nat) (q : nat * option nat) : XR :=
  match snd q with Some l => entry2 cols (nth (fst q) idx 0%nat) l | None => NaN end.
Definition all_places (idx : list nat) (th : @thetas XR) : list (nat * option nat) :=
  flat_map (fun p => map (pair p) (places th p)) (seq 0 (length idx)).

(* the model and the specification mean the same levels *)
Lemma levels_valid (th : @thetas XR) p : levels_of th p = valid_levels th p.
Proof.
  unfold levels_of, valid_levels. induction (th_index th) as [|row l IH]; [reflexivity|]. cbn [levels_in flat_map].
  destruct (nth_error row p) as [o|] eqn:E; [rewrite (nth_error_nth _ _ None E)|rewrite (nth_overflow row) by (now apply nth_error_None)]; [destruct o|]; cbn [app]; now rewrite IH.
Qed.
Lemma ten_cells sd idx cols : length (sd_no sd) = length idx -> concat (ten sd (take [] cols idx)) = map (cell cols idx) (all_places idx (sd_thetas sd)).
Proof.
  intros L. unfold ten, all_places. rewrite L, <- flat_map_concat_map.
  assert (G : forall ps, (forall p, In p ps -> (p < length idx)%nat) ->
    flat_map (fun ipr => ten_rows (valid_levels (sd_thetas sd) ipr) (nth ipr (take [] cols idx) [])) ps
    = map (cell cols idx) (flat_map (fun p => map (pair p) (places (sd_thetas sd) p)) ps)).
  { induction ps as [|p ps IH]; intros B; [reflexivity|]. cbn [flat_map]. rewrite map_app, <- IH by (intros; apply B; right; assumption). f_equal.
    unfold ten_rows, places. rewrite levels_valid, map_map, map_app, map_map.
    assert (EN : nth p (take [] cols idx) [] = nth (nth p idx 0%nat) cols []).
    { unfold take. rewrite (nth_indep _ [] (nth 0%nat cols [])) by (rewrite map_length; apply B; left; reflexivity). now rewrite (map_nth (fun i => nth i cols [])). }
    rewrite EN. f_equal. unfold cell. cbn [fst snd]. generalize (10 - length (valid_levels (sd_thetas sd) p))%nat. clear. intros k. induction k as [|k IH]; [reflexivity|]. cbn [repeat map fst snd]. f_equal. exact IH. }
  apply G. intros p Hp. apply in_seq in Hp. lia.
Qed.

Lemma places_ten (th : @thetas XR) p : length (th_index th) = 10%nat -> length (places th p) = 10%nat.
Proof. intros E. unfold places. rewrite levels_valid, app_length, map_length, repeat_length. pose proof (levels_le th p). lia. Qed.

Lemma numbers_places (th : @thetas XR) nos idx : length (th_index th) = 10%nat ->
  flat_map (fun n => repeat n 10) (map (fun i => nth i nos 0) idx) = map (fun q => nth (nth (fst q) idx 0%nat) nos 0) (all_places idx th).
Proof.
  intros E. unfold all_places.
  assert (EI : map (fun i => nth i nos 0) idx = map (fun p => nth (nth p idx 0%nat) nos 0) (seq 0 (length idx))).
  { transitivity (map (fun i => nth i nos 0) (map (fun p => nth p idx 0%nat) (seq 0 (length idx)))); [|rewrite map_map; reflexivity].
    f_equal. symmetry. apply nth_ext with (d := 0%nat) (d' := 0%nat); [now rewrite map_length, seq_length|].
    intros n Hn. rewrite map_length, seq_length in Hn. rewrite (nth_indep _ 0%nat (nth 0%nat idx 0%nat)) by (rewrite map_length, seq_length; exact Hn).
    rewrite (map_nth (fun p => nth p idx 0%nat)), seq_nth by exact Hn. reflexivity. }
  rewrite EI. generalize (seq 0 (length idx)). intros ps. induction ps as [|p ps IH]; [reflexivity|]. cbn [flat_map map]. rewrite map_app, <- IH. f_equal.
  rewrite map_map. cbn [fst]. rewrite <- (places_ten th p E). clear. induction (places th p) as [|o l IHl]; [reflexivity|]. cbn [length repeat map]. now rewrite IHl.
Qed.

Section Input.
  Variable interp1d : list XR -> list XR -> XR -> res XR.
  Variable interp2d : list XR -> list XR -> list (list Z) -> XR -> XR -> res XR.
  Variable tbase : binfile.
  Variable c_from_sp : XR -> XR -> XR -> XR.
  Hypothesis Hnan : c_from_sp NaN NaN (Fin 0) = NaN.
  Variables (src : source XR) (d : mapped XR) (c : calfile XR) (nos : list R) (idx : list nat).
  Hypothesis Hno : src_no src = map Fin nos.
  Hypothesis Hfol : errors_given c_from_sp src d idx.
  Notation ratio := (ratio c_from_sp src d).
  Notation ratio_error := (ratio_error c_from_sp src d).
  Notation samples := (samples c_from_sp src d nos idx).
  Notation sample := (sample c_from_sp src d nos).

  Definition yat (q : nat * option nat) : XR := match snd q with Some l => ratio (nth (fst q) idx 0%nat) l | None => NaN end.
  Definition eat (q : nat * option nat) : XR := match snd q with Some l => ratio_error (nth (fst q) idx 0%nat) l | None => NaN end.
  Definition rowat (q : nat * option nat) : row := sample (nth (fst q) idx 0%nat) (snd q).

  Lemma samples_places th : samples th = map rowat (all_places idx th).
  Proof.
    unfold Spec_Drift.samples, all_places. generalize (seq 0 (length idx)). intros ps. induction ps as [|p ps IH]; [reflexivity|]. cbn [flat_map]. rewrite map_app, <- IH. f_equal.
    rewrite map_map. reflexivity.
  Qed.

  Lemma input_parts cfg l per sd fi : select_series interp1d src (Some l) d c per idx = Ok sd -> build_input c_from_sp cfg sd = Ok fi ->
    let Q := all_places idx (sd_thetas sd) in
    fi_x fi = map (fun q => Fin (nth (nth (fst q) idx 0%nat) nos 0)) Q /\ fi_y fi = map yat Q /\
    exists err, fi_err fi = map err Q /\ forall p j, (p < length idx)%nat -> err (p, Some j) = ratio_error (nth p idx 0%nat) j.
  Proof.
    intros ES EB Q. apply select_parts in ES as (E1 & E2 & E3 & E4 & E5 & B & _ & L10).
    assert (LN : length (sd_no sd) = length idx) by (rewrite E5; unfold take; apply map_length).
    assert (EN : sd_no sd = map Fin (map (fun i => nth i nos 0) idx)).
    { rewrite E5, Hno. apply take_fin. intros i Hi. specialize (B i Hi). rewrite Hno, map_length in B. exact B. }
    unfold build_input in EB. cbv zeta in EB. rewrite E1, E2, E3, E4, !ten_cells, !map2_maps in EB by exact LN. fold Q in EB. apply bind_ok in EB as (cov & _ & EB). injection EB as <-. cbn [fi_x fi_y fi_err].
    split; [|split].
    - rewrite EN, flat_repeat, (numbers_places (sd_thetas sd)) by exact L10. rewrite map_map. reflexivity.
    - apply map_ext. intros (p & [i|]); unfold yat, cell; cbn [fst snd]; [reflexivity|]. change (nofZ 0) with (Fin 0). now rewrite Hnan.
    - eexists. split; [reflexivity|]. intros p j Hp. unfold cell. cbn [fst snd]. reflexivity.
  Qed.

  Lemma in_places th p o : In (p, o) (all_places idx th) <-> (p < length idx)%nat /\ In o (places th p).
  Proof.
    unfold all_places. rewrite in_flat_map. split.
    - intros (p' & Hp & I). apply in_map_iff in I as (o' & E & I). injection E as <- <-. apply in_seq in Hp. split; [lia|exact I].
    - intros (Hp & I). exists p. split; [apply in_seq; lia|]. apply in_map_iff. eauto.
  Qed.
  Lemma in_some th p i : In (Some i) (places th p) <-> In i (levels_of th p).
  Proof.
    unfold places. rewrite in_app_iff, in_map_iff. split.
    - intros [(i' & E & I)|I]; [injection E as <-; exact I|apply repeat_spec in I; discriminate].
    - intros I. left. eauto.
  Qed.

  Lemma known th p o y : In (p, o) (all_places idx th) -> yat (p, o) = Fin y ->
    exists i e, o = Some i /\ In i (levels_of th p) /\ ratio (nth p idx 0%nat) i = Fin y /\ ratio_error (nth p idx 0%nat) i = Fin e /\ e <> 0 /\
      rowat (p, o) = (nth (nth p idx 0%nat) nos 0, Some (y, e)).
  Proof.
    intros I E. apply in_places in I as (Hp & I). unfold yat in E. cbn [fst snd] in E. destruct o as [i|]; [|discriminate].
    destruct (Hfol (nth p idx 0%nat) i y) as (e & Ee & NZ); [apply nth_In, Hp|exact E|].
    exists i, e. apply in_some in I. split; [reflexivity|]. split; [exact I|]. split; [exact E|]. split; [exact Ee|]. split; [exact NZ|]. unfold rowat, Spec_Drift.sample. cbn [fst snd]. now rewrite E, Ee.
  Qed.
  Lemma unknown p o : (forall y, yat (p, o) <> Fin y) -> rowat (p, o) = (nth (nth p idx 0%nat) nos 0, None).
  Proof.
    intros N. unfold yat in N. cbn [fst snd] in N. unfold rowat, Spec_Drift.sample. cbn [fst snd]. destruct o as [i|]; [|reflexivity].
    destruct (ratio (nth p idx 0%nat) i) as [y| | |] eqn:E; try reflexivity. exfalso. exact (N y eq_refl).
  Qed.

  (* the fit sees the samples *)
  Lemma fit_samples cfg l per sd fi det solve inv least_squares rng randn args (g : rng) :
    select_series interp1d src (Some l) d c per idx = Ok sd -> build_input c_from_sp cfg sd = Ok fi ->
    let rows := samples (sd_thetas sd) in
    fit_cond det solve inv least_squares rng randn (fi_x fi) (fi_y fi) (fi_err fi) (fi_cov fi) args g
    = fit_cond det solve inv least_squares rng randn (col_x rows) (col_y rows) (col_e rows) (fi_cov fi) args g.
  Proof.
    intros ES EB rows. destruct (input_parts _ _ _ _ _ ES EB) as (EX & EY & err & EE & HE). set (Q := all_places idx (sd_thetas sd)) in *.
    assert (ER : rows = map rowat Q) by apply samples_places.
    assert (EX' : col_x rows = fi_x fi). { rewrite ER, EX. unfold col_x. rewrite map_map. apply map_ext. intros q. reflexivity. }
    rewrite EX'. apply fit_valid_only.
    - rewrite EX, EY, ER. unfold good_points, col_y. rewrite map_map, !combine_map2, !argwhere_map.
      clear - Hfol. assert (I : forall q, In q Q -> In q Q) by auto. revert I. unfold argwhere. generalize 0%nat. generalize Q at 1 3 4. intros R. induction R as [|(p & o) R IH]; intros n I; [reflexivity|].
      cbn [argwhere_from map fst snd]. rewrite IH by (intros; apply I; right; assumption).
      assert (ZZ : nisfin (yat (p, o)) = nisfin (oX (option_map fst (snd (rowat (p, o)))))); [|now rewrite ZZ].
      destruct (yat (p, o)) as [y| | |] eqn:E.
      + destruct (known (sd_thetas sd) p o y (I _ (or_introl eq_refl)) E) as (i & e & _ & _ & _ & _ & _ & ->). reflexivity.
      + rewrite unknown by congruence. reflexivity.
      + rewrite unknown by congruence. reflexivity.
      + rewrite unknown by congruence. reflexivity.
    - rewrite EX, EY, EE, ER. intros i Hi. unfold good_points in Hi. rewrite combine_map2, argwhere_map in Hi.
      assert (Hq : (i < length Q)%nat) by (apply argwhere_lt in Hi; exact Hi). destruct (nth i Q (0%nat, None)) as (p & o) eqn:Eq.
      assert (IN : In (p, o) Q) by (rewrite <- Eq; apply nth_In, Hq).
      apply (argwhere_spec (0%nat, None)) in Hi as (_ & Hi). rewrite Eq in Hi. cbn [fst snd] in Hi. apply andb_true_iff in Hi as (Hi & _).
      destruct (yat (p, o)) as [y| | |] eqn:E; try discriminate Hi.
      destruct (known (sd_thetas sd) p o y IN E) as (j & e & -> & _ & _ & Ee & _ & Er). unfold col_y, col_e. rewrite !map_map.
      change (@nnan XR XR_Num) with NaN.
      rewrite !(nth_map _ _ _ NaN (0%nat, None)) by exact Hq. rewrite Eq, E, Er. cbn [snd option_map fst oX]. split; [reflexivity|].
      rewrite HE, Ee by (apply in_places in IN; apply IN). reflexivity.
  Qed.

  Lemma samples_valid th q : In q (valid (samples th)) -> exists p i y e, (p < length idx)%nat /\ In i (levels_of th p) /\
    q = (nth (nth p idx 0%nat) nos 0, (y, e)) /\ e <> 0 /\ ratio (nth p idx 0%nat) i = Fin y.
  Proof.
    rewrite samples_places. intros I.
    assert (I' : exists x, In x (all_places idx th) /\ rowat x = (fst q, Some (snd q))).
    { revert I. generalize (all_places idx th). intros R. induction R as [|x R IH]; [intros []|]. cbn [map valid]. destruct (rowat x) as [a [b|]] eqn:E.
      - intros [<-|I]; [exists x; split; [left; reflexivity|exact E]|]. destruct (IH I) as (y & Hy & Ey). exists y. split; [right; exact Hy|exact Ey].
      - intros I. destruct (IH I) as (y & Hy & Ey). exists y. split; [right; exact Hy|exact Ey]. }
    destruct I' as ((p & o) & Hx & Er). destruct (yat (p, o)) as [y| | |] eqn:E.
    - destruct (known th p o y Hx E) as (i & e & -> & Hi & E1 & E2 & NZ & Er'). rewrite Er in Er'. exists p, i, y, e. apply in_places in Hx as (Hp & _).
      split; [exact Hp|]. split; [exact Hi|]. destruct q as (a & b). cbn [fst snd] in Er'. injection Er' as -> ->. auto.
    - rewrite unknown in Er by congruence. discriminate.
    - rewrite unknown in Er by congruence. discriminate.
    - rewrite unknown in Er by congruence. discriminate.
  Qed.

  Lemma samples_positions th us : length (th_index th) = 10%nat -> distinct_of (numbers_of nos idx) us -> distinct_of (map fst (samples th)) us.
  Proof.
    intros L D. rewrite samples_places, map_map.
    change (map (fun x => fst (rowat x)) (all_places idx th)) with (map (fun q => nth (nth (fst q) idx 0%nat) nos 0) (all_places idx th)).
    rewrite <- numbers_places by exact L. apply flat_distinct. exact D.
  Qed.

  Lemma follows_usable th : valid (samples th) <> [] -> usable (samples th).
  Proof.
    intros N. split; [exact N|]. intros e He. unfold errors in He. apply in_map_iff in He as (q & <- & Hq). apply samples_valid in Hq as (p & i & y & e & _ & _ & -> & NZ & _). exact NZ.
  Qed.
End Input.
