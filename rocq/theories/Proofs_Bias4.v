(* The mapped file of a float, from a database with a constant added to its salinities *)
From Coq Require Import String Ascii.
From Coq Require Import ZArith List Bool Reals Lra Lia Permutation.
From Verif Require Import Num NumFacts Np Topo Fetchers Helper MapProfile Spec_Stats Spec_FitCond Spec_Helper Spec_Map Spec_MapLevel Mapping Spec_Mapping Spec_Bias Proofs_Mapping Proofs_Mapping3 Proofs_Mapping4 Proofs_Bias2 Proofs_Bias3.
Import Helper Mapping ListNotations.
Local Open Scope nat_scope.

Section File.
  Variable c : R.
  Variable qs : list XR -> list nat.
  Hypothesis HS : sorting qs.
  Variable values : list XR.
  Hypothesis HV : length values = 12.
  Variable levels : nat.
  Variables calc calc' : nat -> res (nat -> res (option (level_out XR))).
  Variable nos : list XR.
  Hypothesis Hcalc : forall p lev, calc p = Ok lev -> exists lev', calc' p = Ok lev' /\ forall n, same_level c (lev n) (lev' n).

  Lemma rearranged_in {A} (d : A) index (l : list A) x : Permutation index (seq 0 (length l)) -> In x l -> In x (rearranged d index l).
  Proof.
    intros HP Hx. apply (In_nth _ _ d) in Hx as (i & Hi & <-). unfold rearranged. apply in_map_iff. exists i. split; [reflexivity|].
    apply (Permutation_in _ (Permutation_sym HP)). apply in_seq. lia.
  Qed.
  Lemma rearranged_length {A} (d : A) index l : length (rearranged d index l) = length index.
  Proof. apply map_length. Qed.

  Definition noise_ok (o : level_out XR) : Prop := exists nv, lo_noise o = Fin nv /\ (0 < nv)%R.
  (* every level calculated is in the file *)
  Lemma noise_positive sel d : saved_file levels calc nos values (qs nos) sel d -> positive_noise d ->
    forall p n o, p < length nos -> n < levels -> outcome calc p n = Some o -> noise_ok o.
  Proof.
    intros SF PN p n o Hp Hn EO.
    assert (NN : number (lo_noise o)).
    { unfold outcome in EO. destruct (calc p) as [lev|] eqn:EC; [|discriminate]. destruct (lev n) as [q|] eqn:EN; [|discriminate]. subst q.
      destruct (Hcalc p lev EC) as (lev' & _ & HSL). destruct (HSL n) as (_ & A & _). exact (A o EN). } destruct SF as (_ & _ & _ & EN & _).
    assert (HP : Permutation (qs nos) (seq 0 (length nos))) by apply HS.
    assert (LI : length (qs nos) = length nos) by (rewrite (Permutation_length HP); apply seq_length).
    assert (IN : In (profile_column levels calc lo_noise p) (m_cols (la_noise_sal d))).
    { rewrite EN. cbn [m_cols]. apply rearranged_in.
      - rewrite rearranged_length, LI. exact HP.
      - apply rearranged_in; [unfold columns; rewrite map_length, seq_length; exact HP|]. unfold columns. apply in_map, in_seq. lia. }
    apply (In_nth _ _ []) in IN as (j & Hj & EJ). specialize (PN j n). rewrite EJ in PN.
    unfold profile_column in PN. rewrite (nth_indep _ NaN ((fun n => match outcome calc p n with Some o => lo_noise o | None => nnan end) 0)) in PN
      by (rewrite map_length, seq_length; exact Hn).
    rewrite (map_nth (fun n => match outcome calc p n with Some o => lo_noise o | None => nnan end) (seq 0 levels) 0 n) in PN.
    rewrite seq_nth in PN by exact Hn. cbn [Nat.add] in PN. rewrite EO in PN. destruct NN as (nv & EL). rewrite EL in PN. now exists nv.
  Qed.

  Definition raised_outcome (o o' : option (level_out XR)) : Prop :=
    match o, o' with None, None => True | Some x, Some y => y = raised_level c x /\ number (lo_sal x) | _, _ => False end.
  Lemma outcome_raised : (forall p n o, p < length nos -> n < levels -> outcome calc p n = Some o -> noise_ok o) ->
    calculated levels calc nos -> calculated levels calc' nos /\
    forall p n, p < length nos -> n < levels -> raised_outcome (outcome calc p n) (outcome calc' p n).
  Proof.
    intros HN HC. assert (G : forall p n, p < length nos -> n < levels -> exists lev lev' o o', calc p = Ok lev /\ calc' p = Ok lev' /\ lev n = Ok o /\ lev' n = Ok o' /\ raised_outcome o o').
    { intros p n Hp Hn. destruct (HC p Hp) as (lev & E & HL). destruct (HL n Hn) as (o & EO). destruct (Hcalc p lev E) as (lev' & E' & HSL).
      destruct (HSL n) as (A & _ & B). destruct o as [o|].
      - destruct (HN p n o Hp Hn) as (nv & EV & Hv); [unfold outcome; now rewrite E, EO|]. destruct (B o nv EO EV Hv) as [B1 B2].
        exists lev, lev', (Some o), (Some (raised_level c o)). repeat split; auto.
      - exists lev, lev', None, None. repeat split; auto. now apply A. }
    split.
    - intros p Hp. destruct (HC p Hp) as (lev & E & _). destruct (Hcalc p lev E) as (lev' & E' & _). exists lev'. split; [exact E'|].
      intros n Hn. destruct (G p n Hp Hn) as (l1 & l2 & o & o' & _ & E2 & _ & E4 & _). exists o'. congruence.
    - intros p n Hp Hn. destruct (G p n Hp Hn) as (l1 & l2 & o & o' & E1 & E2 & E3 & E4 & RO). unfold outcome. now rewrite E1, E2, E3, E4.
  Qed.

  Lemma columns_same (f : level_out XR -> XR) : (forall o, f (raised_level c o) = f o) ->
    (forall p n, p < length nos -> n < levels -> raised_outcome (outcome calc p n) (outcome calc' p n)) ->
    columns levels calc' nos f = columns levels calc nos f.
  Proof.
    intros Hf RO. apply map_ext_in. intros p Hp. apply in_seq in Hp. apply map_ext_in. intros n Hn. apply in_seq in Hn.
    specialize (RO p n ltac:(lia) ltac:(lia)). unfold raised_outcome in RO. destruct (outcome calc p n), (outcome calc' p n); try tauto. destruct RO as [-> _]. apply Hf.
  Qed.

  Theorem file_raised d : run values levels calc qs None nos = Ok d -> positive_noise d ->
    exists d', run values levels calc' qs None nos = Ok d' /\ same_but_salinity d d' /\
      forall j l x, nth l (nth j (m_cols (la_mapped_sal d)) []) NaN = Fin x -> (30 <= x + c <= 40)%R ->
        nth l (nth j (m_cols (la_mapped_sal d')) []) NaN = Fin (x + c).
  Proof.
    intros E PN. apply (fresh_iff values levels calc nos HV qs d HS) in E as (HC & sel & ES & NS & SF).
    destruct (outcome_raised (noise_positive sel d SF PN) HC) as [HC' RO].
    assert (EP : points_used levels calc' nos = points_used levels calc nos).
    { unfold points_used. rewrite !flat_map_concat_map. f_equal. apply map_ext_in. intros p Hp. apply in_seq in Hp. rewrite !flat_map_concat_map. f_equal.
      apply map_ext_in. intros n Hn. apply in_seq in Hn. specialize (RO p n ltac:(lia) ltac:(lia)). unfold raised_outcome in RO.
      destruct (outcome calc p n), (outcome calc' p n); try tauto. now destruct RO as [-> _]. }
    assert (EL : forall v, setting_column levels calc' nos v = setting_column levels calc nos v).
    { intros v. apply map_ext_in. intros p Hp. apply in_seq in Hp. f_equal. unfold has_levels.
      assert (G : forall l, (forall n, In n l -> n < levels) -> existsb (fun n => match outcome calc' p n with Some _ => true | None => false end) l
         = existsb (fun n => match outcome calc p n with Some _ => true | None => false end) l).
      { induction l as [|n l IH]; intros HL; [reflexivity|]. cbn [existsb]. rewrite IH by (intros m Hm; apply HL; now right). f_equal.
        specialize (RO p n ltac:(lia) (HL n (or_introl eq_refl))). unfold raised_outcome in RO. destruct (outcome calc p n), (outcome calc' p n); tauto. }
      rewrite G; [reflexivity|]. intros n Hn. apply in_seq in Hn. lia. }
    set (twice := fun f : list (list XR) => mkMatrix levels (rearranged [] (qs nos) (rearranged [] (qs nos) f))).
    set (d' := mkMapped (la_ptmp d) (twice (columns levels calc' nos (fun o => in_range (lo_sal o)))) (la_map_sal_errors d) (la_noise_sal d) (la_signal_sal d)
                        (la_profile_no d) (settings d) (selected_hist d)).
    exists d'. destruct SF as (A1 & A2 & A3 & A4 & A5 & A6 & A7 & A8). split; [|split].
    - apply (fresh_iff values levels calc' nos HV qs d' HS). split; [exact HC'|]. exists sel. rewrite EP. split; [exact ES|]. split; [exact NS|].
      unfold saved_file. cbv zeta. unfold d'. cbn [la_ptmp la_mapped_sal la_map_sal_errors la_noise_sal la_signal_sal la_profile_no settings selected_hist].
      split; [rewrite columns_same; auto|]. split; [reflexivity|]. split; [rewrite columns_same; auto|]. split; [rewrite columns_same; auto|].
      split; [rewrite columns_same; auto|]. split; [exact A6|]. split; [|exact A8]. rewrite A7. f_equal. apply map_ext. intros v. now rewrite EL.
    - unfold same_but_salinity, d'. cbn. repeat split.
    - intros j l x EX HR. rewrite A2 in EX. unfold d', twice. cbn [la_mapped_sal m_cols] in *.
      assert (HP : Permutation (qs nos) (seq 0 (length nos))) by apply HS.
      assert (LI : length (qs nos) = length nos) by (rewrite (Permutation_length HP); apply seq_length).
      destruct (Nat.lt_ge_cases j (length nos)) as [Hj|Hj]; cycle 1.
      { exfalso. rewrite (nth_overflow (rearranged _ _ _)) in EX by (rewrite rearranged_length; lia). destruct l; discriminate. }
      assert (PB : forall i, i < length nos -> nth i (qs nos) 0 < length nos).
      { intros i Hi. assert (H : In (nth i (qs nos) 0) (seq 0 (length nos))) by (apply (Permutation_in _ HP), nth_In; lia). apply in_seq in H. lia. }
      assert (RN : forall (ll : list (list XR)) i, i < length nos -> nth i (rearranged [] (qs nos) ll) [] = nth (nth i (qs nos) 0) ll []).
      { intros ll i Hi. unfold rearranged. rewrite (nth_indep _ [] ((fun i => nth i ll []) 0)) by (rewrite map_length; lia). apply (map_nth (fun i => nth i ll [])). }
      rewrite !RN in * by auto. set (p := nth (nth j (qs nos) 0) (qs nos) 0) in *. assert (Hp : p < length nos) by (unfold p; auto).
      assert (CN : forall ca f, nth p (columns levels ca nos f) [] = profile_column levels ca f p).
      { intros ca f. unfold columns. rewrite (nth_indep _ [] (profile_column levels ca f 0)) by (rewrite map_length, seq_length; exact Hp).
        rewrite (map_nth (profile_column levels ca f)). now rewrite seq_nth. }
      rewrite CN in *. destruct (Nat.lt_ge_cases l levels) as [Hl|Hl]; cycle 1.
      { exfalso. rewrite (nth_overflow (profile_column _ _ _ _)) in EX by (unfold profile_column; rewrite map_length, seq_length; exact Hl). discriminate. }
      assert (PC : forall ca f, nth l (profile_column levels ca f p) NaN = match outcome ca p l with Some o => f o | None => NaN end).
      { intros ca f. unfold profile_column. set (F := fun n => match outcome ca p n with Some o => f o | None => nnan end).
        rewrite (nth_indep _ NaN (F 0)) by (rewrite map_length, seq_length; exact Hl). rewrite (map_nth F). now rewrite seq_nth. }
      rewrite PC in *. specialize (RO p l Hp Hl). unfold raised_outcome in RO. destruct (outcome calc p l) as [o|]; [|discriminate].
      destruct (outcome calc' p l) as [o'|]; [|destruct RO]. destruct RO as [-> (y & EY)]. cbn [raised_level lo_sal].
      rewrite EY in *. unfold in_range in EX. destruct (_ || _)%bool; [discriminate|]. injection EX as ->.
      apply range_kept. exact HR.
  Qed.
End File.

Section Store.
  Context {rng : Type}.
  Variable seed : Z -> rng.
  Variable rand : rng -> nat -> list XR * rng.
  Variable g0 : rng.
  Variable qs : list XR -> list nat.
  Variable inv : nat -> (nat -> nat -> XR) -> res (nat -> nat -> XR).
  Variable np_interp : XR -> list XR -> list XR -> XR.
  Variable sa_from_sp : XR -> XR -> XR -> XR -> XR.
  Variable ct_from_pt : XR -> XR -> XR.
  Variable t_from_ct : XR -> XR -> XR -> XR.
  Variable interp2d : list XR -> list XR -> list (list Z) -> XR -> XR -> res XR.
  Variable tbase : binfile.
  Variable date_str : XR -> list ascii.
  Variable cfg : map_config XR.
  Variables float_dir float_name : string.
  Notation mapping_from rm := (update_salinity_mapping qs
    (profile_levels seed rand g0 qs inv np_interp sa_from_sp ct_from_pt t_from_ct interp2d tbase rm date_str cfg float_name)).

  Theorem store_raised large small read_mat c cwd paths src st st' d :
    inv_ok inv -> config_scales cfg large small -> scales_nonzero large -> scales_nonzero small -> mc_use_saf cfg <> 1%Z ->
    positions_known read_mat -> soundings interp2d (s_pv large) -> sorting qs -> float_known src ->
    st (load_path cwd paths float_dir float_name) = None ->
    mapping_from read_mat cwd paths cfg src float_dir float_name st = (Ok tt, st') ->
    st' (save_path cwd paths float_name) = Some d -> positive_noise d ->
    exists st'' d', mapping_from (biased_database c read_mat) cwd paths cfg src float_dir float_name st = (Ok tt, st'') /\
      st'' (save_path cwd paths float_name) = Some d' /\ same_but_salinity d d' /\
      forall j l x, nth l (nth j (m_cols (la_mapped_sal d)) []) NaN = Fin x -> (30 <= x + c <= 40)%R ->
        nth l (nth j (m_cols (la_mapped_sal d')) []) NaN = Fin (x + c).
  Proof.
    intros Hinv HC NL NS Hsaf Hpos Hsnd HS HF E0 E ED PN. unfold update_salinity_mapping, update in *. rewrite E0 in *.
    destruct (run _ _ _ _ None _) as [d0|e] eqn:ER; [|discriminate]. injection E as <-. rewrite path_eqb_refl in ED. injection ED as ->.
    destruct (file_raised c qs HS (map_values cfg) eq_refl (src_levels src)
      (profile_levels seed rand g0 qs inv np_interp sa_from_sp ct_from_pt t_from_ct interp2d tbase read_mat date_str cfg float_name src)
      (profile_levels seed rand g0 qs inv np_interp sa_from_sp ct_from_pt t_from_ct interp2d tbase (biased_database c read_mat) date_str cfg float_name src)
      (src_no src)) with (2 := ER) as (d' & ER' & SB & HX).
    - intros p lev. exact (proj2 (profile_raised seed rand g0 qs inv np_interp sa_from_sp ct_from_pt t_from_ct interp2d tbase read_mat date_str cfg float_name
        Hinv large small HC NL NS Hsaf Hpos Hsnd c src p HF) lev).
    - exact PN.
    - rewrite ER'. eexists _, d'. split; [reflexivity|]. cbv beta. rewrite path_eqb_refl. auto.
  Qed.
End Store.
