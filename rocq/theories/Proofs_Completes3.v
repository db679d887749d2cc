(* A mapping that completes: the run *)
From Coq Require Import String Ascii.
From Coq Require Import ZArith List Bool Reals Lra Lia.
From Verif Require Import Num Np Helper MapProfile Mapping Spec_Mapping Proofs_Besthist Proofs_Mapping Proofs_Mapping2 Proofs_Mapping3 Proofs_Mapping4.
Import ListNotations.
Local Open Scope nat_scope.

Section Run.
  Variable qs : list XR -> list nat.
  Hypothesis HS : sorting qs.
  Variable cwd : list string.
  Variable paths : map_paths.
  Variable calc : source XR -> nat -> res (nat -> res (option (level_out XR))).
  Variable cfg : map_config XR.
  Variables float_dir float_name : string.

  Lemma fold_add (no : XR) pts start : start <> [] -> fold_left (add_point no) pts start <> [].
  Proof.
    revert start. induction pts as [|q pts IH]; intros start NE; [exact NE|]. cbn [fold_left]. apply IH. unfold add_point.
    destruct (existsb _ _); [exact NE|]. now destruct start.
  Qed.
  Lemma recorded_some (h : list (XR * list (XR * XR))) start : (forall q, In q h -> snd q <> []) -> (start <> [] \/ h <> []) ->
    exists sel, recorded h start = Ok sel /\ sel <> [].
  Proof.
    revert start. induction h as [|[no pts] h IH]; intros start HP [NE|NE]; try congruence; [exists start; split; [reflexivity|exact NE]| |];
      cbn [recorded]; unfold selected_historical_points.
    - destruct start as [|a start]; [congruence|]. cbn [bind]. apply IH; [intros q Hq; apply HP; now right|left; now apply fold_add].
    - destruct start as [|a start].
      + destruct pts as [|xy pts]; [exfalso; now apply (HP (no, []) (or_introl eq_refl))|]. cbn [bind]. apply IH; [intros q Hq; apply HP; now right|left; now apply fold_add].
      + cbn [bind]. apply IH; [intros q Hq; apply HP; now right|left; now apply fold_add].
  Qed.
  Theorem run_completes src st : st (load_path cwd paths float_dir float_name) = None ->
    (forall i, i < length (src_no src) -> exists lev, calc src i = Ok lev /\
       forall n, n < src_levels src -> lev n = Ok None \/ exists o, lev n = Ok (Some o) /\ lo_points o <> []) ->
    (exists i n lev o, i < length (src_no src) /\ n < src_levels src /\ calc src i = Ok lev /\ lev n = Ok (Some o)) ->
    exists st' d, update_salinity_mapping qs calc cwd paths cfg src float_dir float_name st = (Ok tt, st') /\ st' (save_path cwd paths float_name) = Some d.
  Proof.
    intros E0 HC (i0 & n0 & lev0 & o0 & Hi0 & Hn0 & EL0 & EO0).
    assert (CA : calculated (src_levels src) (calc src) (src_no src)).
    { intros p Hp. destruct (HC p Hp) as (lev & EL & HL). exists lev. split; [exact EL|]. intros n Hn. destruct (HL n Hn) as [E|(o & E & _)]; eauto. }
    destruct (recorded_some (points_used (src_levels src) (calc src) (src_no src)) []) as (sel & ER & NS).
    { intros q Hq. unfold points_used in Hq. apply in_flat_map in Hq as (p & Hp & Hq). apply in_flat_map in Hq as (n & Hn & Hq). apply in_seq in Hp. apply in_seq in Hn.
      destruct (HC p ltac:(lia)) as (lev & EL & HL). unfold outcome in Hq. rewrite EL in Hq. destruct (HL n ltac:(lia)) as [E|(o & E & NP)]; rewrite E in Hq; [destruct Hq|].
      destruct Hq as [<-|[]]. exact NP. }
    { right. intros C. assert (I : In (nth i0 (src_no src) nnan, lo_points o0) (points_used (src_levels src) (calc src) (src_no src))); [|rewrite C in I; destruct I].
      unfold points_used. apply in_flat_map. exists i0. split; [apply in_seq; lia|]. apply in_flat_map. exists n0. split; [apply in_seq; lia|]. unfold outcome. rewrite EL0, EO0. now left. }
    assert (ED : exists d, run (map_values cfg) (src_levels src) (calc src) qs None (src_no src) = Ok d).
    { eexists (mkMapped _ _ _ _ _ _ _ _). apply (fresh_iff (map_values cfg) (src_levels src) (calc src) (src_no src) eq_refl qs _ HS).
      split; [exact CA|]. exists sel. split; [exact ER|]. split; [exact NS|]. unfold saved_file. cbv zeta. cbn [la_ptmp la_mapped_sal la_map_sal_errors la_noise_sal la_signal_sal la_profile_no settings selected_hist].
      repeat split; reflexivity. }
    destruct ED as (d & ED). unfold update_salinity_mapping, update. rewrite E0, ED. eexists _, d. split; [reflexivity|]. cbv beta. now rewrite path_eqb_refl.
  Qed.
End Run.
