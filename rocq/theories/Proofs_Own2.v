(* The mapped files of two floats that differ in some samples *)
From Coq Require Import String Ascii.
From Coq Require Import ZArith List Bool Lia Permutation.
From Verif Require Import Num Np Topo Fetchers Helper MapProfile Mapping Spec_Mapping Spec_Own Proofs_Mapping Proofs_Mapping3 Proofs_Mapping4 Proofs_Own.
Import Helper Mapping ListNotations.
Local Open Scope nat_scope.

Section File.
  Context {T : Type} `{Num T}.
  Variable qs : list T -> list nat.
  Hypothesis HS : sorting qs.
  Variable nos : list T.

  Definition twice_moved (j : nat) : nat := nth (nth j (qs nos) 0) (qs nos) 0.
  Lemma perm_moved : Permutation (map twice_moved (seq 0 (length nos))) (seq 0 (length nos)).
  Proof.
    assert (HP : Permutation (qs nos) (seq 0 (length nos))) by apply HS.
    assert (LI : length (qs nos) = length nos) by (rewrite (Permutation_length HP); apply seq_length).
    assert (E : forall l : list nat, map (fun j => nth j l 0) (seq 0 (length l)) = l).
    { intros l. apply (nth_ext _ _ 0 0); [now rewrite map_length, seq_length|]. intros n Hn. rewrite map_length, seq_length in Hn.
      rewrite (nth_indep _ 0 ((fun j => nth j l 0) 0)) by (rewrite map_length, seq_length; exact Hn).
      rewrite (map_nth (fun j => nth j l 0)). now rewrite seq_nth. }
    unfold twice_moved. rewrite <- (map_map (fun j => nth j (qs nos) 0) (fun k => nth k (qs nos) 0)).
    assert (E1 : map (fun j => nth j (qs nos) 0) (seq 0 (length nos)) = qs nos) by (rewrite <- LI; apply E). rewrite E1.
    apply (Permutation_trans (l' := map (fun k => nth k (qs nos) 0) (seq 0 (length nos)))); [now apply Permutation_map|]. now rewrite E1.
  Qed.

  Variable levels : nat.
  Variable values : list T.
  Hypothesis HV : length values = 12.
  Variables calc calc' : nat -> res (nat -> res (option (level_out T))).

  Lemma entry_twice (f : level_out T -> T) ca j l : j < length nos -> l < levels ->
    at_entry (mkMatrix levels (rearranged [] (qs nos) (rearranged [] (qs nos) (columns levels ca nos f)))) j l
    = match outcome ca (twice_moved j) l with Some o => f o | None => nnan end.
  Proof.
    intros Hj Hl. assert (HP : Permutation (qs nos) (seq 0 (length nos))) by apply HS.
    assert (LI : length (qs nos) = length nos) by (rewrite (Permutation_length HP); apply seq_length).
    assert (PB : forall i, i < length nos -> nth i (qs nos) 0 < length nos).
    { intros i Hi. assert (X : In (nth i (qs nos) 0) (seq 0 (length nos))) by (apply (Permutation_in _ HP), nth_In; lia). apply in_seq in X. lia. }
    assert (RN : forall (ll : list (list T)) i, i < length nos -> nth i (rearranged [] (qs nos) ll) [] = nth (nth i (qs nos) 0) ll []).
    { intros ll i Hi. unfold rearranged. rewrite (nth_indep _ [] ((fun i => nth i ll []) 0)) by (rewrite map_length; lia). apply (map_nth (fun i => nth i ll [])). }
    unfold at_entry. cbn [m_cols]. rewrite !RN by auto. fold (twice_moved j). set (p := twice_moved j). assert (Hp : p < length nos) by (unfold p, twice_moved; auto).
    unfold columns. rewrite (nth_indep _ [] (profile_column levels ca f 0)) by (rewrite map_length, seq_length; exact Hp).
    rewrite (map_nth (profile_column levels ca f)), seq_nth by exact Hp. cbn [Nat.add].
    unfold profile_column. set (F := fun n => match outcome ca p n with Some o => f o | None => nnan end).
    rewrite (nth_indep _ nnan (F 0)) by (rewrite map_length, seq_length; exact Hl). rewrite (map_nth F). now rewrite seq_nth.
  Qed.

  Lemma entry_same d d' j l : run values levels calc qs None nos = Ok d -> run values levels calc' qs None nos = Ok d' ->
    j < length nos -> l < levels ->
    (forall lev lev', calc (twice_moved j) = Ok lev -> calc' (twice_moved j) = Ok lev' -> lev' l = lev l) -> same_entry d d' j l.
  Proof.
    intros E E' Hj Hl HL. apply (fresh_iff values levels calc nos HV qs d HS) in E as (HC & sel & _ & _ & A1 & A2 & A3 & A4 & A5 & _).
    apply (fresh_iff values levels calc' nos HV qs d' HS) in E' as (HC' & sel' & _ & _ & B1 & B2 & B3 & B4 & B5 & _).
    assert (Hp : twice_moved j < length nos).
    { assert (X : In (twice_moved j) (seq 0 (length nos))) by (apply (Permutation_in _ perm_moved), in_map, in_seq; lia). apply in_seq in X. lia. }
    assert (EO : outcome calc' (twice_moved j) l = outcome calc (twice_moved j) l).
    { destruct (HC _ Hp) as (lev & EC & _). destruct (HC' _ Hp) as (lev' & EC' & _). specialize (HL _ _ EC EC'). unfold outcome. now rewrite EC, EC', HL. }
    unfold same_entry. rewrite A1, A2, A3, A4, A5, B1, B2, B3, B4, B5. rewrite !entry_twice by auto. rewrite EO. auto.
  Qed.
End File.

Section Store.
  Context {T : Type} `{Num T} `{NumT T} {rng : Type}.
  Variable seed : Z -> rng.
  Variable rand : rng -> nat -> list T * rng.
  Variable g0 : rng.
  Variable qs : list T -> list nat.
  Variable inv : nat -> (nat -> nat -> T) -> res (nat -> nat -> T).
  Variable np_interp : T -> list T -> list T -> T.
  Variable sa_from_sp : T -> T -> T -> T -> T.
  Variable ct_from_pt : T -> T -> T.
  Variable t_from_ct : T -> T -> T -> T.
  Variable interp2d : list T -> list T -> list (list Z) -> T -> T -> res T.
  Variable tbase : binfile.
  Variable read_mat : string -> res (ref_data T).
  Variable date_str : T -> list ascii.
  Notation levels_with cfg float_name := (profile_levels seed rand g0 qs inv np_interp sa_from_sp ct_from_pt t_from_ct interp2d tbase read_mat date_str cfg float_name).

  Theorem file_own : sorting qs -> forall nos : list T, exists own : nat -> nat,
    Permutation (map own (seq 0 (length nos))) (seq 0 (length nos)) /\
    forall cfg s s' cwd paths float_dir float_name (st st1 st2 : store T) d d',
    no_front cfg s -> src_no s = nos -> src_no s' = nos -> src_levels s' = src_levels s ->
    st (load_path cwd paths float_dir float_name) = None ->
    update_salinity_mapping qs (levels_with cfg float_name) cwd paths cfg s float_dir float_name st = (Ok tt, st1) ->
    update_salinity_mapping qs (levels_with cfg float_name) cwd paths cfg s' float_dir float_name st = (Ok tt, st2) ->
    st1 (save_path cwd paths float_name) = Some d -> st2 (save_path cwd paths float_name) = Some d' ->
    la_profile_no d' = la_profile_no d /\
    forall j l, j < length nos -> l < src_levels s -> same_station s s' (own j) -> same_sample s s' (own j) l -> same_entry d d' j l.
  Proof.
    intros HS nos. exists (twice_moved qs nos). split; [exact (perm_moved qs HS nos)|].
    intros cfg s s' cwd paths fdir fname st st1 st2 d d' NF N1 N2 EL L0 U1 U2 D1 D2. unfold update_salinity_mapping, update in U1, U2. rewrite L0 in U1, U2.
    rewrite N1 in U1. rewrite N2, EL in U2.
    destruct (run (map_values cfg) (src_levels s) (levels_with cfg fname s) qs None nos) as [r1|] eqn:R1; [|discriminate].
    destruct (run (map_values cfg) (src_levels s) (levels_with cfg fname s') qs None nos) as [r2|] eqn:R2; [|discriminate].
    injection U1 as <-. injection U2 as <-. rewrite path_eqb_refl in D1, D2. injection D1 as ->. injection D2 as ->.
    split.
    - apply (fresh_iff (map_values cfg) _ _ nos eq_refl qs d HS) in R1 as (_ & sel & _ & _ & _ & _ & _ & _ & _ & A & _).
      apply (fresh_iff (map_values cfg) _ _ nos eq_refl qs d' HS) in R2 as (_ & sel' & _ & _ & _ & _ & _ & _ & _ & B & _). congruence.
    - intros j l Hj Hl ST SA. apply (entry_same qs HS nos (src_levels s) (map_values cfg) eq_refl _ _ d d' j l R1 R2 Hj Hl).
      intros lev lev' E E'. exact (level_own seed rand g0 qs inv np_interp sa_from_sp ct_from_pt t_from_ct interp2d tbase read_mat date_str cfg fname s s' _ l lev lev' NF ST SA E E').
  Qed.
End Store.
