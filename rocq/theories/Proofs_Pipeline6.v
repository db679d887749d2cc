(* C119-C121 for the whole script *)
From Coq Require Import String Ascii.
From Coq Require Import ZArith List Bool Lia Reals Lra.
From Verif Require Import Num Np Utilities Finders Stats FitCond Topo Helper MapProfile Mapping Config Calib Pyplot Plots Dashboard Pipeline
  Spec_FitCond Spec_Mapping Spec_Config Spec_Calib Spec_Pipeline Spec_Pipeline2 Proofs_Mapping4
  Proofs_Pipeline Proofs_Pipeline2 Proofs_Pipeline4 Proofs_Pipeline5.
Import ListNotations.
Local Open Scope nat_scope.

Section Any.
  Context {T : Type} {NT : Num T}.
  Variable cwd : list string.
  Variable cp : cal_paths.
  Variable float_dir : string.
  Hypothesis same_postfix : cp_mapped_postfix cp = cp_calib_postfix cp.
  Hypothesis no_dir : no_directory float_dir.
  Variable map_cfg : map_config T.
  Variable calc : string -> source T -> nat -> res (nat -> res (option (level_out T))).
  Variable argsort : list T -> list nat.
  Variable rng : Type.
  Variable fit : source T -> positions T -> Mapping.mapped T -> res (calfile T) -> rng -> res (calib T) * rng.
  Variable interp1d : list T -> list T -> T -> res T.
  Variable interp1d_nan : list T -> list T -> T -> T.
  Variable show_bounds : T * T -> string.
  Variable plots : @plot_paths T.
  Variable show_closes : bool.
  Notation script := (script cwd cp float_dir map_cfg calc argsort rng fit interp1d interp1d_nan show_bounds plots show_closes).
  Notation products := (products cwd cp float_dir map_cfg calc argsort fit).

  (* the files of a float do not depend on the other floats *)
  Theorem script_independent cpus1 names1 s1 s1' cpus2 names2 s2 s2' n :
    NoDup names1 -> separate cwd cp float_dir names1 -> script cpus1 names1 s1 (Ok tt) s1' ->
    NoDup names2 -> separate cwd cp float_dir names2 -> script cpus2 names2 s2 (Ok tt) s2' ->
    In n names1 -> In n names2 -> (forall p, In p (own_files cwd cp float_dir n) -> wd_disk s1 p = wd_disk s2 p) ->
    wd_disk s1' (at_save cwd cp n) = wd_disk s2' (at_save cwd cp n) /\
    wd_disk s1' (at_set cwd cp float_dir n) = wd_disk s2' (at_set cwd cp float_dir n) /\
    exists src pos d c g1 g2 h1 h2 k1 k2, wd_disk s1 (at_source cwd cp float_dir n) = Some (CSource src pos) /\
      wd_disk s1' (at_save cwd cp n) = Some (CMapped d) /\ wd_disk s1' (at_set cwd cp float_dir n) = Some (CSeries c) /\
      fit src pos d (Ok c) g1 = (Ok k1, h1) /\ fit src pos d (Ok c) g2 = (Ok k2, h2) /\
      wd_disk s1' (at_calib cwd cp float_dir n) = Some (CCalib k1) /\ wd_disk s2' (at_calib cwd cp float_dir n) = Some (CCalib k2).
  Proof.
    intros N1 S1 R1 N2 S2 R2 I1 I2 OW.
    destruct (script_products cwd cp float_dir map_cfg calc argsort rng fit interp1d interp1d_nan show_bounds plots show_closes same_postfix no_dir _ _ _ _ N1 S1 R1) as (P1 & _).
    destruct (script_products cwd cp float_dir map_cfg calc argsort rng fit interp1d interp1d_nan show_bounds plots show_closes same_postfix no_dir _ _ _ _ N2 S2 R2) as (P2 & _).
    destruct (products_agree cwd cp float_dir map_cfg calc argsort fit _ _ _ _ n (P1 n I1) (P2 n I2) OW) as (E1 & E2 & src & pos & d & c & g1 & g2 & h1 & h2 & k1 & k2 & Q1 & Q2 & Q3 & Q4 & Q5 & Q6 & Q7).
    split; [exact E1|]. split; [exact E2|]. exists src, pos, d, c, g1, g2, h1, h2, k1, k2.
    destruct (P1 n I1) as (src' & pos' & d' & c' & k' & g & g' & A1 & A2 & A3 & A4 & A5 & A6 & A7).
    assert (d' = d) by congruence. assert (c' = c) by congruence. subst d' c'. repeat (split; [assumption|]). assumption.
  Qed.
End Any.

Section Reals.
  Notation mat := (nat -> nat -> XR).
  Variable det : nat -> mat -> XR.
  Variable solve : nat -> nat -> mat -> mat -> res mat.
  Variable inv : nat -> mat -> res mat.
  Variable least_squares : (list XR -> res (list XR)) -> list XR -> res (list (list XR) * list XR).
  Variable rng : Type.
  Variable randn : nat -> rng -> list XR * rng.
  Variable interp1d : list XR -> list XR -> XR -> res XR.
  Variable interp2d : list XR -> list XR -> list (list Z) -> XR -> XR -> res XR.
  Variable tbase : binfile.
  Variable c_from_sp : XR -> XR -> XR -> XR.
  Variable sp_from_c : XR -> XR -> XR -> XR.
  Variable cov_cfg : cov_config XR.
  Notation fit := (piecewisefit det solve inv least_squares rng randn interp1d interp2d tbase c_from_sp sp_from_c cov_cfg).
  Variable cwd : list string.
  Variable cp : cal_paths.
  Variable float_dir : string.
  Hypothesis same_postfix : cp_mapped_postfix cp = cp_calib_postfix cp.
  Hypothesis no_dir : no_directory float_dir.
  Variable argsort : list XR -> list nat.
  Variable interp1d_nan : list XR -> list XR -> XR -> XR.
  Variable show_bounds : XR * XR -> string.
  Variable plots : @plot_paths XR.
  Variable show_closes : bool.
  Notation at_source := (at_source cwd cp float_dir).
  Notation at_save := (at_save cwd cp).
  Notation at_set := (at_set cwd cp float_dir).
  Notation at_calib := (at_calib cwd cp float_dir).
  Notation script cfg calc := (script cwd cp float_dir cfg calc argsort rng fit interp1d interp1d_nan show_bounds plots show_closes).

  Theorem script_calibrations cfg calc cpus1 names1 s1 s1' cpus2 names2 s2 s2' n src pos c :
    NoDup names1 -> separate cwd cp float_dir names1 -> script cfg calc cpus1 names1 s1 (Ok tt) s1' ->
    NoDup names2 -> separate cwd cp float_dir names2 -> script cfg calc cpus2 names2 s2 (Ok tt) s2' ->
    In n names1 -> In n names2 -> (forall p, In p (own_files cwd cp float_dir n) -> wd_disk s1 p = wd_disk s2 p) ->
    wd_disk s1 (at_source n) = Some (CSource src pos) -> rectangular src -> wd_disk s1' (at_set n) = Some (CSeries c) -> series_file c ->
    exists k1 k2, wd_disk s1' (at_calib n) = Some (CCalib k1) /\ wd_disk s2' (at_calib n) = Some (CCalib k2) /\ same_calibrations src k1 k2.
  Proof.
    intros N1 S1 R1 N2 S2 R2 I1 I2 OW ES RE EC SF.
    destruct (script_independent cwd cp float_dir same_postfix no_dir cfg calc argsort rng fit interp1d interp1d_nan show_bounds plots show_closes
      cpus1 names1 s1 s1' cpus2 names2 s2 s2' n N1 S1 R1 N2 S2 R2 I1 I2 OW) as (_ & _ & src' & pos' & d & c' & g1 & g2 & h1 & h2 & k1 & k2 & Q1 & Q2 & Q3 & Q4 & Q5 & Q6 & Q7).
    assert (src' = src /\ pos' = pos) as [-> ->] by (split; congruence). assert (c' = c) as -> by congruence.
    exists k1, k2. split; [exact Q6|]. split; [exact Q7|]. exact (same_fit _ _ _ _ _ _ _ _ _ _ _ _ _ _ _ _ _ _ _ _ _ _ RE SF Q4 Q5).
  Qed.

  Hypothesis HS : sorting argsort.
  Theorem script_new_float cfg calc cpus names s s' n src rs :
    NoDup names -> separate cwd cp float_dir names -> script cfg calc cpus names s (Ok tt) s' -> In n names ->
    new_float cwd cp float_dir (wd_disk s) n src rs -> done_float cwd cp float_dir calc c_from_sp sp_from_c (wd_disk s') n src rs.
  Proof.
    intros N1 S1 R1 I1 NF.
    destruct (script_products cwd cp float_dir cfg calc argsort rng fit interp1d interp1d_nan show_bounds plots show_closes same_postfix no_dir _ _ _ _ N1 S1 R1) as (P1 & _).
    exact (fresh_products _ _ _ _ _ _ _ _ _ _ _ _ _ _ _ _ HS cfg calc _ _ n src rs (P1 n I1) NF).
  Qed.

  (* the script again, perhaps with another configuration of the mapping and for some of the floats *)
  Theorem script_again cfg calc cpus names s s' cfg' calc' cpus' names' t r t' :
    NoDup names -> separate cwd cp float_dir names -> script cfg calc cpus names s (Ok tt) s' ->
    (forall n, In n names -> exists src rs, new_float cwd cp float_dir (wd_disk s) n src rs) ->
    (forall q, wd_disk t q = wd_disk s' q) -> NoDup names' -> (forall n, In n names' -> In n names) -> script cfg' calc' cpus' names' t r t' ->
    (forall q, (forall n, In n names' -> q <> at_calib n) -> wd_disk t' q = wd_disk s' q) /\
    (r = Ok tt -> forall n, In n names' -> exists src pos k k', wd_disk s (at_source n) = Some (CSource src pos) /\
       wd_disk s' (at_calib n) = Some (CCalib k) /\ wd_disk t' (at_calib n) = Some (CCalib k') /\ same_calibrations src k k').
  Proof.
    intros N1 S1 R1 NF ET N2 SUB R2.
    assert (S2 : separate cwd cp float_dir names') by (intros a b Ha Hb; apply S1; auto).
    destruct (script_products cwd cp float_dir cfg calc argsort rng fit interp1d interp1d_nan show_bounds plots show_closes same_postfix no_dir _ _ _ _ N1 S1 R1) as (P1 & O1).
    assert (SRC : forall n, In n names -> wd_disk s' (at_source n) = wd_disk s (at_source n)).
    { intros n Hn. apply O1. intros m Hm. destruct (S1 m n Hm Hn) as (A & _).
      split; [|split]; intros Q; [apply (A (at_save m))|apply (A (at_set m))|apply (A (at_calib m))]; cbn [In]; auto. }
    assert (AL : forall n, In n names' -> exists d, alone cwd cp float_dir cfg' calc' argsort (wd_disk t) n = (Ok tt, Some d) /\ wd_disk s' (at_save n) = Some (CMapped d)).
    { intros n Hn. destruct (NF n (SUB n Hn)) as (src & rs & F). destruct (P1 n (SUB n Hn)) as (src1 & pos & d & c & k & g & g' & A1 & A2 & A3 & A4 & A5 & A6 & A7).
      exists d. split; [|exact A5]. apply (alone_again cwd cp float_dir no_dir argsort HS cfg calc cfg' calc' (wd_disk s) (wd_disk t) n src rs d F A2).
      - rewrite ET. apply SRC; auto.
      - now rewrite ET. }
    assert (ST : forall n, In n names' -> forall w, (w (at_source n) = wd_disk s (at_source n)) -> w (at_set n) = wd_disk s' (at_set n) ->
       exists c, settings_of cwd cp float_dir argsort w n = Ok c /\ wd_disk s' (at_set n) = Some (CSeries c) /\ series_file c).
    { intros n Hn w E1 E2. destruct (NF n (SUB n Hn)) as (src & rs & F). destruct (P1 n (SUB n Hn)) as (src1 & pos & d & c & k & g & g' & A1 & A2 & A3 & A4 & A5 & A6 & A7).
      exists c. destruct (settings_again cwd cp float_dir argsort HS (wd_disk s) w n src rs c F A3 E1 ltac:(now rewrite E2)) as (B1 & B2). auto. }
    split.
    - intros q Hq. destruct (script_cases cwd cp float_dir cfg' calc' argsort rng fit interp1d interp1d_nan show_bounds plots show_closes same_postfix cpus' names' t r t' N2 S2 R2)
        as [(_ & _ & ->)|[(_ & e & _ & PM & _)|(_ & w & PM & LE)]].
      + apply ET.
      + exfalso. assert (Raise e = Ok tt); [|discriminate]. apply (pool_succeeds cwd cp float_dir cfg' calc' argsort names' _ _ _ N2 S2 PM).
        intros n Hn. destruct (AL n Hn) as (d & -> & _). reflexivity.
      + destruct (pool_results cwd cp float_dir cfg' calc' argsort names' _ _ w N2 S2 PM) as (B1 & _ & _ & B4).
        assert (W : forall p, w p = wd_disk s' p).
        { intros p. destruct (in_dec (list_eq_dec string_dec) p (map at_save names')) as [H|H].
          - apply in_map_iff in H as (n & <- & Hn). destruct (B1 eq_refl n Hn) as (d & E1 & E2). destruct (AL n Hn) as (d' & E3 & E4). congruence.
          - rewrite <- ET. apply B4. intros n Hn ->. apply H. now apply in_map. }
        destruct LE as (a & b & EN & HA & HB & HC & HD & HK).
        destruct (in_dec (list_eq_dec string_dec) q (map at_set names')) as [H|H].
        * apply in_map_iff in H as (n & <- & Hn). destruct (HK n Hn) as [K|(c & K1 & K2)]; [rewrite K; apply W|].
          destruct (ST n Hn w) as (c' & C1 & C2 & _); [rewrite W; apply SRC; auto|apply W|]. congruence.
        * rewrite <- W. apply HD. intros n Hn. assert (In n names').
          { rewrite EN. apply in_app_iff in Hn as [Hn|Hn]; apply in_app_iff; [now left|right]. destruct b; [exact Hn|]. cbn in Hn. destruct Hn as [<-|[]]. now left. }
          split; [|now apply Hq]. intros ->. apply H. now apply in_map.
    - intros -> n Hn.
      destruct (script_products cwd cp float_dir cfg' calc' argsort rng fit interp1d interp1d_nan show_bounds plots show_closes same_postfix no_dir _ _ _ _ N2 S2 R2) as (P2 & _).
      destruct (NF n (SUB n Hn)) as (src & rs & F).
      destruct (P1 n (SUB n Hn)) as (src1 & pos & d & c & k & g & g' & A1 & A2 & A3 & A4 & A5 & A6 & A7).
      destruct (P2 n Hn) as (src2 & pos2 & d2 & c2 & k2 & g2 & g2' & B1 & B2 & B3 & B4 & B5 & B6 & B7).
      destruct (AL n Hn) as (d3 & D1 & D2). destruct (ST n Hn (wd_disk t)) as (c3 & C1 & C2 & C3); [rewrite ET; apply SRC; auto|apply ET|].
      rewrite ET, SRC in B1 by auto. pose proof F as ((pos3 & F1) & _ & _ & RE & _).
      assert (src1 = src /\ src2 = src /\ pos2 = pos) as (-> & -> & ->) by (repeat split; congruence).
      assert (d2 = d) as -> by congruence. assert (c2 = c) as -> by congruence. assert (c3 = c) as -> by congruence.
      exists src, pos, k, k2. split; [exact A1|]. split; [exact A7|]. split; [exact B7|].
      exact (same_fit _ _ _ _ _ _ _ _ _ _ _ _ _ _ _ _ _ _ _ _ _ _ RE C3 A4 B4).
  Qed.
End Reals.
