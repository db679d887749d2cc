From Coq Require Import String Ascii.
From Coq Require Import ZArith List Bool Reals Lra Lia Permutation.
From Verif Require Import Num Np NumFacts NpFacts Helper MapProfile Mapping Spec_Mapping Proofs_Mapping Proofs_Mapping2 Proofs_Mapping3.
Import ListNotations.
Local Open Scope nat_scope.

(* ---- C65 ---- *)
Section Labels.
  Variable qs : list XR -> list nat.
  Hypothesis HS : sorting qs.
  Variable values : list XR.
  Hypothesis Hvalues : length values = 12.
  Variable levels : nat.
  Variable calc : nat -> res (nat -> res (option (level_out XR))).
  Variable rs : list R.
  Hypothesis ND : NoDup rs.
  Variable d : mapped XR.
  Hypothesis HR : run values levels calc qs None (map Fin rs) = Ok d.
  Notation lab := (label qs rs).

  Lemma number_inj j p : j < length rs -> p < length rs -> Fin (nth j rs 0%R) = Fin (nth p rs 0%R) -> j = p.
  Proof. intros Hj Hp E. injection E as E. rewrite NoDup_nth in ND. now apply ND in E. Qed.

  Theorem settings_labelled i : i < 12 ->
    labelled rs (la_profile_no d) (fun p => if has_levels levels calc p then nth i values NaN else NaN)
      (fun j => nth j (snd (nth i (settings d) (""%string, []))) NaN).
  Proof.
    intros Hi j p Hj Hp E. destruct (labels qs HS values levels calc Hvalues rs d HR j Hj) as (B & EL & _ & HSet).
    rewrite EL in E. apply number_inj in E; [|assumption..]. subst p. now apply HSet.
  Qed.

  Theorem columns_labelled m f : In (m, f) (contents d) ->
    (forall p q, p < length rs -> q < length rs -> profile_column levels calc f p = profile_column levels calc f q -> p = q) ->
    (labelled rs (la_profile_no d) (profile_column levels calc f) (fun j => nth j (m_cols m) []) <-> increasing rs).
  Proof.
    intros Hm INJ. split.
    - intros HL. apply (identity_increasing qs HS rs ND).
      assert (HP := qs_perm qs HS rs). assert (LI : length (qs (map Fin rs)) = length rs) by (rewrite (Permutation_length HP); apply seq_length).
      assert (F : forall j, j < length rs -> lab j = j).
      { intros j Hj. destruct (labels qs HS values levels calc Hvalues rs d HR j Hj) as (B & EL & HC & _).
        assert (B2 : lab (lab j) < length rs) by (apply (perm_bound _ _ HP); exact B).
        specialize (HL j (lab j) Hj B EL). cbv beta in HL. rewrite (HC m f Hm) in HL. apply INJ in HL; [|assumption..].
        unfold label at 1 3 in HL. apply (perm_inj _ _ HP) in HL; [exact HL| |]; assumption || exact Hj. }
      apply (nth_ext _ _ 0 0); [rewrite LI, seq_length; reflexivity|]. intros j Hj. rewrite LI in Hj.
      rewrite seq_nth by exact Hj. exact (F j Hj).
    - intros HI j p Hj Hp E. destruct (labels qs HS values levels calc Hvalues rs d HR j Hj) as (B & EL & HC & _).
      rewrite EL in E. apply number_inj in E; [|assumption..]. subst p. rewrite (HC m f Hm).
      f_equal. unfold label. rewrite (increasing_index qs HS rs HI). rewrite !seq_nth; [reflexivity|exact Hj|rewrite seq_nth; exact Hj].
  Qed.

  (* a source in order is labelled correctly without further conditions *)
  Theorem ascending_labelled m f : In (m, f) (contents d) -> increasing rs ->
    labelled rs (la_profile_no d) (profile_column levels calc f) (fun j => nth j (m_cols m) []).
  Proof.
    intros Hm HI j p Hj Hp E. destruct (labels qs HS values levels calc Hvalues rs d HR j Hj) as (B & EL & HC & _).
    rewrite EL in E. apply number_inj in E; [|assumption..]. subst p. rewrite (HC m f Hm).
    f_equal. unfold label. rewrite (increasing_index qs HS rs HI). rewrite !seq_nth; [reflexivity|exact Hj|rewrite seq_nth; exact Hj].
  Qed.
End Labels.

(* ---- C66 ---- *)
Lemma index_array_in {A} (d : A) l idx r : index_array d l idx = Ok r -> forall x, In x r -> In x l.
Proof.
  unfold index_array. destruct (forallb _ idx) eqn:F; [|discriminate]. intros E x Hx. injection E as <-.
  unfold take in Hx. apply in_map_iff in Hx as (i & <- & Hi). rewrite forallb_forall in F. apply F, Nat.ltb_lt in Hi. now apply nth_In.
Qed.
Lemma permute_in {T} (idx : list nat) (m m' : matrix T) : permute idx m = Ok m' -> forall c, In c (m_cols m') -> In c (m_cols m).
Proof.
  unfold permute. destruct (index_array [] (m_cols m) idx) as [c|e] eqn:E; [|discriminate]. cbn [bind]. intros E1. injection E1 as <-.
  cbn [m_cols]. exact (index_array_in _ _ _ _ E).
Qed.
Lemma sort_matrix_in {T} (idx : list nat) (m m' : matrix T) : sort_matrix idx m = Ok m' -> forall c, In c (m_cols m') -> In c (m_cols m).
Proof. unfold sort_matrix. destruct (Nat.ltb _ _); [apply permute_in|]. intros E. injection E as <-. auto. Qed.

Lemma finish_in qs (d d' : mapped XR) : finish qs d = Ok d' -> forall c, In c (m_cols (la_mapped_sal d')) -> In c (m_cols (qc (la_mapped_sal d))).
Proof.
  unfold finish. cbv zeta. set (idx := qs (la_profile_no d)).
  destruct (permute idx (la_ptmp d)) as [p1|] eqn:E1; [|discriminate]. cbn [bind].
  destruct (permute idx (qc (la_mapped_sal d))) as [p2|] eqn:E2; [|discriminate]. cbn [bind].
  destruct (permute idx (la_map_sal_errors d)) as [p3|] eqn:E3; [|discriminate]. cbn [bind].
  destruct (permute idx (la_noise_sal d)) as [p4|] eqn:E4; [|discriminate]. cbn [bind].
  destruct (permute idx (la_signal_sal d)) as [p5|] eqn:E5; [|discriminate]. cbn [bind].
  destruct (sort_matrix idx p1) as [q1|] eqn:F1; [|discriminate]. cbn [bind].
  destruct (sort_matrix idx p2) as [q2|] eqn:F2; [|discriminate]. cbn [bind].
  destruct (sort_matrix idx p3) as [q3|] eqn:F3; [|discriminate]. cbn [bind].
  destruct (sort_matrix idx p4) as [q4|] eqn:F4; [|discriminate]. cbn [bind].
  destruct (sort_matrix idx p5) as [q5|] eqn:F5; [|discriminate]. cbn [bind].
  destruct (sort_vector idx _) as [no|]; [|discriminate]. cbn [bind].
  destruct (mapM _ (settings d)) as [st|]; [|discriminate]. cbn [bind].
  destruct (selected_hist d) as [|q r]; [discriminate|]. intros E. injection E as <-. cbn [la_mapped_sal].
  intros c Hc. apply (permute_in _ _ _ E2). apply (sort_matrix_in _ _ _ F2). exact Hc.
Qed.
Lemma in_range_ok (x : XR) : salinity_ok (in_range x).
Proof.
  unfold in_range. destruct (_ || _) eqn:E; [now left|]. apply orb_false_iff in E as [A B].
  destruct x as [r| | |]; cbn in A, B; try discriminate; [|now left]. right. exists r. split; [reflexivity|].
  apply Rltb_false in A, B. lra.
Qed.

Theorem range_any values levels calc qs file nos d : run (T := XR) values levels calc qs file nos = Ok d ->
  Forall (Forall salinity_ok) (m_cols (la_mapped_sal d)).
Proof.
  unfold run. destruct (load_variables file levels) as [s|]; [|discriminate]. cbn [bind].
  destruct (foldM _ s _) as [s'|]; [|discriminate]. cbn [bind]. intros E.
  apply Forall_forall. intros c Hc. apply (finish_in _ _ _ E) in Hc. unfold qc in Hc. cbn [m_cols] in Hc.
  apply in_map_iff in Hc as (c' & <- & _). apply Forall_forall. intros x Hx. apply in_map_iff in Hx as (y & <- & _).
  apply (in_range_ok y).
Qed.

(* ---- paths ---- *)
Local Open Scope string_scope.
Lemma split_app a b : forall cur, split_slash cur (a ++ "/" ++ b) = (split_slash cur a ++ split_slash "" b)%list.
Proof.
  induction a as [|c a IH]; intros cur; [reflexivity|]. cbn [append split_slash].
  destruct (Ascii.eqb c "/"); [cbn [app]; now rewrite IH|apply IH].
Qed.
Lemma split_nonempty s : forall cur, split_slash cur s <> [].
Proof. induction s as [|c s IH]; intros cur; cbn [split_slash]; [discriminate|]. destruct (Ascii.eqb c "/"); [discriminate|apply IH]. Qed.
Lemma norm_nothing l acc : Forall (fun c => c = "" \/ c = ".") l -> fold_left norm_step l acc = acc.
Proof.
  intros F. revert acc. induction F as [|c l [->| ->] _ IH]; intros acc; cbn [fold_left]; [reflexivity|apply IH|apply IH].
Qed.
Lemma norm_plain acc s : s <> "" -> s <> "." -> s <> ".." -> norm_step acc s = (acc ++ [s])%list.
Proof.
  intros A B C. unfold norm_step. apply String.eqb_neq in A, B, C. rewrite A, B, C. reflexivity.
Qed.

Section Paths.
  Variable cwd : list string.
  Variable p : map_paths.
  Notation dir := (mp_directory p).
  Lemma start_same (d a b : string) :
    match d ++ "/" ++ a with String "/" _ => [] | _ => cwd end = match d ++ "/" ++ b with String "/" _ => [] | _ => cwd end.
  Proof. destruct d as [|c d]; reflexivity. Qed.
  Lemma abspath_split (d a : string) : exists start, forall b, abspath cwd (d ++ "/" ++ b) = fold_left norm_step (split_slash "" b) start.
  Proof.
    exists (fold_left norm_step (split_slash "" d) (match d ++ "/" ++ a with String "/" _ => [] | _ => cwd end)). intros b.
    unfold abspath. rewrite (start_same d a b), split_app, fold_left_app. reflexivity.
  Qed.

  Theorem paths_agree float_dir float_name : no_directory float_dir -> load_path cwd p float_dir float_name = save_path cwd p float_name.
  Proof.
    intros F. unfold load_path, save_path. cbn [path_join]. destruct (abspath_split dir "") as [st E].
    rewrite !E. rewrite split_app, fold_left_app, (norm_nothing _ _ F). reflexivity.
  Qed.
  Theorem paths_differ float_dir float_name : plain_name float_dir -> plain_name (mp_prefix p ++ float_name ++ mp_postfix p) ->
    load_path cwd p float_dir float_name <> save_path cwd p float_name.
  Proof.
    intros (S1 & A1 & B1 & C1) (S2 & A2 & B2 & C2). unfold load_path, save_path. cbn [path_join]. destruct (abspath_split dir "") as [st E].
    rewrite !E. rewrite split_app, S1, S2. cbn [app fold_left]. rewrite !norm_plain by assumption.
    intros C. apply (f_equal (@length string)) in C. rewrite !app_length in C. cbn in C. lia.
  Qed.
End Paths.
Lemma path_eqb_refl a : path_eqb a a = true.
Proof. unfold path_eqb. destruct (list_eq_dec _ a a); congruence. Qed.
Lemma path_eqb_neq a b : a <> b -> path_eqb a b = false.
Proof. unfold path_eqb. destruct (list_eq_dec _ a b); congruence. Qed.

(* ---- runs on the store ---- *)
Section Store.
  Variable qs : list XR -> list nat.
  Hypothesis HS : sorting qs.
  Variable cwd : list string.
  Variable paths : map_paths.
  Variable src : source XR.
  Variable rs : list R.
  Hypothesis HN : src_no src = map Fin rs.
  Hypothesis ND : NoDup rs.
  Variables float_dir float_name : string.
  Notation loading := (load_path cwd paths float_dir float_name).
  Notation saving := (save_path cwd paths float_name).
  Notation calc_fun := (source XR -> nat -> res (nat -> res (option (level_out XR)))).
  Notation usm calc cfg st := (update_salinity_mapping qs calc cwd paths cfg src float_dir float_name st).

  Theorem fresh_store (calc : calc_fun) cfg st st' : st loading = None -> usm calc cfg st = (Ok tt, st') ->
    exists d sorted, st' saving = Some d /\ (forall q, q <> saving -> st' q = st q) /\
      la_profile_no d = map Fin sorted /\ Permutation sorted rs /\ increasing sorted /\
      complete_columns (src_levels src) (length rs) d.
  Proof.
    intros E0 E. unfold update_salinity_mapping, update in E. rewrite E0, HN in E.
    destruct (run _ _ _ _ None _) as [d|e] eqn:ER; [|discriminate]. injection E as <-.
    exists d, (sorted_list qs rs). rewrite path_eqb_refl. split; [reflexivity|].
    split; [intros q Hq; now rewrite path_eqb_neq|].
    apply (fresh_labels qs HS (map_values cfg) (src_levels src) (calc src) eq_refl rs ND d ER).
  Qed.

  Theorem second_store (calc calc' : calc_fun) cfg cfg' st st' : no_directory float_dir ->
    st loading = None -> usm calc cfg st = (Ok tt, st') ->
    exists st'', usm calc' cfg' st' = (Ok tt, st'') /\ same_store st'' st'.
  Proof.
    intros NDir E0 E. unfold update_salinity_mapping, update in *. rewrite E0, HN in E.
    destruct (run _ _ _ _ None _) as [d|e] eqn:ER; [|discriminate]. injection E as <-.
    rewrite (paths_agree cwd paths _ _ NDir), path_eqb_refl. rewrite HN.
    rewrite (second_run qs HS (map_values cfg) (src_levels src) (calc src) eq_refl rs ND d (map_values cfg') (calc' src) ER).
    eexists. split; [reflexivity|]. intros q. cbv beta. destruct (path_eqb q saving); reflexivity.
  Qed.

  Theorem second_store_named (calc calc' : calc_fun) cfg cfg' st st' :
    plain_name float_dir -> plain_name (mp_prefix paths ++ float_name ++ mp_postfix paths) ->
    st loading = None -> usm calc cfg st = (Ok tt, st') ->
    fst (usm calc' cfg' st') = fst (usm calc' cfg' st) /\ st' loading = None.
  Proof.
    intros P1 P2 E0 E. assert (E1 : st' loading = None).
    { destruct (fresh_store calc cfg st st' E0 E) as (d & s & _ & HO & _). rewrite HO; [exact E0|]. now apply paths_differ. }
    split; [|exact E1]. unfold update_salinity_mapping, update. rewrite E0, E1. destruct (run _ _ _ _ None _); reflexivity.
  Qed.
End Store.

Section AnyNum.
  Context {T : Type} `{Num T}.
  Variable qs : list T -> list nat.
  Variable cwd : list string.
  Variable paths : map_paths.
  Notation usm calc cfg src fd fn st := (update_salinity_mapping qs calc cwd paths cfg src fd fn st).

  (* a failing run leaves the files alone *)
  Theorem failure_unchanged calc cfg src fd fn st e st' : usm calc cfg src fd fn st = (Raise e, st') -> same_store st' st.
  Proof. unfold update_salinity_mapping, update. destruct (run _ _ _ _ _ _); intros E; [discriminate|]. injection E as _ <-. intros q. reflexivity. Qed.

  Theorem incremental_store calc cfg src fd fn st d p : st (load_path cwd paths fd fn) = Some d -> well_formed d ->
    In p (src_no src) -> (forall q, In q (la_profile_no d) -> neqb q p = false) ->
    usm calc cfg src fd fn st = (Raise AttributeError, st).
  Proof.
    intros E WF Hp Hu. unfold update_salinity_mapping, update. rewrite E.
    rewrite (incremental_crash _ _ _ qs d (src_no src) p WF Hp Hu). reflexivity.
  Qed.
  Theorem older_file calc cfg src fd fn st d name : st (load_path cwd paths fd fn) = Some d ->
    In name setting_names -> lookup name (settings d) = None -> usm calc cfg src fd fn st = (Raise KeyError, st).
  Proof.
    intros E Hin HL. unfold update_salinity_mapping, update, run. rewrite E.
    rewrite (load_missing_setting d (src_levels src) name Hin HL). reflexivity.
  Qed.
  Theorem nothing_mapped calc cfg src fd fn st : sorting qs -> st (load_path cwd paths fd fn) = None ->
    calculated (src_levels src) (calc src) (src_no src) ->
    (forall p n, p < length (src_no src) -> n < src_levels src -> outcome (calc src) p n = None) ->
    usm calc cfg src fd fn st = (Raise UnboundLocalError, st).
  Proof.
    intros HS E HC HO. unfold update_salinity_mapping, update. rewrite E.
    rewrite (fresh_nothing (map_values cfg) (src_levels src) (calc src) (src_no src) eq_refl qs HS HC HO). reflexivity.
  Qed.
  (* one level that cannot be calculated, and nothing is saved *)
  Theorem level_fails calc cfg src fd fn st p : st (load_path cwd paths fd fn) = None -> p < length (src_no src) ->
    (forall lev, calc src p = Ok lev -> exists n e, n < src_levels src /\ lev n = Raise e) ->
    exists e, usm calc cfg src fd fn st = (Raise e, st).
  Proof.
    intros E Hp HF. unfold update_salinity_mapping, update. rewrite E.
    destruct (run _ _ _ _ None _) as [d|e] eqn:ER; [|eauto]. exfalso.
    apply run_fresh_ok in ER; [|reflexivity]. destruct (ER p Hp) as (lev & EC & HL). destruct (HF lev EC) as (n & e & Hn & En).
    destruct (HL n Hn) as [o Eo]. congruence.
  Qed.
End AnyNum.

Theorem one_file {T} `{Num T} qs cwd paths calc cfg (src : source T) fd fn (st : store T) o st' :
  update_salinity_mapping qs calc cwd paths cfg src fd fn st = (o, st') -> forall q, q <> save_path cwd paths fn -> st' q = st q.
Proof.
  intros E q Hq. unfold update_salinity_mapping, update in E. destruct (run _ _ _ _ _ _); injection E as <- <-; [|reflexivity].
  now rewrite path_eqb_neq.
Qed.
Lemma append_cancel_l a b c : (a ++ b = a ++ c)%string -> b = c.
Proof. induction a as [|x a IH]; cbn; [auto|]. intros E. injection E as E. auto. Qed.
Lemma append_cancel_r a b c : (a ++ c = b ++ c)%string -> a = b.
Proof.
  intros E. apply (f_equal list_ascii_of_string) in E.
  assert (L : forall s t, list_ascii_of_string (s ++ t)%string = (list_ascii_of_string s ++ list_ascii_of_string t)%list)
    by (induction s as [|x s IH]; intros t; cbn; [reflexivity|now rewrite IH]).
  rewrite !L in E. apply app_inv_tail in E. rewrite <- (string_of_list_ascii_of_string a), <- (string_of_list_ascii_of_string b). now rewrite E.
Qed.
Theorem other_floats {T} `{Num T} qs cwd paths calc cfg (src : source T) fd fn od other (st : store T) o st' :
  plain_name (mp_prefix paths ++ fn ++ mp_postfix paths)%string -> plain_name (mp_prefix paths ++ other ++ mp_postfix paths)%string ->
  other <> fn -> no_directory od -> update_salinity_mapping qs calc cwd paths cfg src fd fn st = (o, st') ->
  st' (load_path cwd paths od other) = st (load_path cwd paths od other).
Proof.
  intros (S1 & A1 & B1 & C1) (S2 & A2 & B2 & C2) NE ND E. apply (one_file _ _ _ _ _ _ _ _ _ _ _ E).
  rewrite (paths_agree cwd paths _ _ ND). unfold save_path. cbn [path_join]. destruct (abspath_split cwd (mp_directory paths) ""%string) as [s ES].
  rewrite !ES, S1, S2. cbn [fold_left]. rewrite !norm_plain by assumption. intros C. apply app_inj_tail in C as [_ C].
  apply append_cancel_l, append_cancel_r in C. contradiction.
Qed.
Lemma range_kept r : (30 <= r <= 40)%R -> in_range (Fin r) = Fin r.
Proof.
  intros Hr. unfold in_range. change (nltb (Fin r) (nofZ 30)) with (Rltb r 30). change (nltb (nofZ 40) (Fin r)) with (Rltb 40 r).
  rewrite (proj2 (NumFacts.Rltb_false r 30)) by lra. rewrite (proj2 (NumFacts.Rltb_false 40 r)) by lra. reflexivity.
Qed.
