(* The levels in the file *)
From Coq Require Import String Ascii.
From Coq Require Import ZArith List Bool Reals Lra Lia Permutation.
From Verif Require Import Num Np MapProfile Mapping Spec_Mapping Proofs_Besthist Proofs_Mapping Proofs_Mapping2 Proofs_Mapping3 Proofs_Mapping4.
Import ListNotations.
Local Open Scope nat_scope.

Section File.
  Variable qs : list XR -> list nat.
  Hypothesis HS : sorting qs.
  Variable cwd : list string.
  Variable paths : map_paths.
  Variable calc : source XR -> nat -> res (nat -> res (option (level_out XR))).
  Variable cfg : map_config XR.
  Variables float_dir float_name : string.

  Lemma column_entry levels ca f p n : n < levels ->
    nth n (profile_column levels ca f p) NaN = match outcome ca p n with Some o => f o | None => NaN end.
  Proof.
    intros Hl. unfold profile_column. set (F := fun n => match outcome ca p n with Some o => f o | None => nnan end).
    rewrite (nth_indep _ NaN (F 0)) by (rewrite map_length, seq_length; exact Hl). rewrite (map_nth F). now rewrite seq_nth.
  Qed.
  Theorem file_levels src rs st st' d : src_no src = map Fin rs -> increasing rs ->
    st (load_path cwd paths float_dir float_name) = None ->
    update_salinity_mapping qs calc cwd paths cfg src float_dir float_name st = (Ok tt, st') ->
    st' (save_path cwd paths float_name) = Some d ->
    la_profile_no d = map Fin rs /\
    forall i, i < length rs -> exists lev, calc src i = Ok lev /\
    forall n, n < src_levels src -> exists o, lev n = Ok o /\
    forall m f, In (m, f) (contents d) -> nth n (nth i (m_cols m) []) NaN = match o with Some o => f o | None => NaN end.
  Proof.
    intros HN HI E0 E ED. unfold update_salinity_mapping, update in E. rewrite E0 in E.
    destruct (run _ _ _ _ None _) as [d0|e] eqn:ER; [|discriminate]. injection E as <-. rewrite path_eqb_refl in ED. injection ED as ->.
    apply (fresh_iff (map_values cfg) (src_levels src) (calc src) (src_no src) eq_refl qs d HS) in ER as (HC & sel & _ & _ & SF).
    unfold saved_file in SF. cbv zeta in SF. rewrite HN in SF, HC. rewrite (increasing_index qs HS rs HI) in SF.
    assert (LN : length (map Fin rs) = length rs) by apply map_length.
    assert (LC : forall f, length (columns (src_levels src) (calc src) (map Fin rs) f) = length rs).
    { intros f. unfold columns. now rewrite map_length, seq_length, map_length. }
    assert (RR : forall f, rearranged [] (seq 0 (length rs)) (rearranged [] (seq 0 (length rs)) (columns (src_levels src) (calc src) (map Fin rs) f))
      = columns (src_levels src) (calc src) (map Fin rs) f).
    { intros f. rewrite <- (LC f). now rewrite !rearranged_seq. }
    destruct SF as (S1 & S2 & S3 & S4 & S5 & S6 & _). rewrite RR in S1, S2, S3, S4, S5. split.
    { rewrite S6. rewrite <- LN. apply rearranged_seq. }
    intros i Hi. destruct (HC i) as (lev & EL & HL); [now rewrite LN|]. exists lev. split; [exact EL|].
    intros n Hn. destruct (HL n Hn) as (o & EO). exists o. split; [exact EO|].
    assert (G : forall f, nth n (nth i (columns (src_levels src) (calc src) (map Fin rs) f) []) NaN = match o with Some o => f o | None => NaN end).
    { intros f. unfold columns. rewrite LN. rewrite (nth_map _ (seq 0 (length rs)) i [] 0) by (now rewrite seq_length).
      rewrite seq_nth by exact Hi. rewrite Nat.add_0_l, column_entry by exact Hn. unfold outcome. now rewrite EL, EO. }
    intros m f Hm. unfold contents in Hm.
    destruct Hm as [Hm|[Hm|[Hm|[Hm|[Hm|[]]]]]]; injection Hm as <- <-; [rewrite S1|rewrite S3|rewrite S4|rewrite S5|rewrite S2]; apply G.
  Qed.
End File.
