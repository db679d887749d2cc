(* Properties C117-C121: start_with_pycharm.py *)
From Coq Require Import String Ascii.
From Coq Require Import ZArith List Bool Reals.
From Verif Require Import Num Np Utilities Finders Stats FitCond Topo Helper MapProfile Mapping Config Calib Pyplot Plots Dashboard Pipeline DemoNum
  Proofs_MappingEx Proofs_CalibEx Proofs_PlotsEx Spec_Mapping Spec_Config Spec_Calib Spec_Pipeline Spec_Pipeline2
  Proofs_Pipeline Proofs_Pipeline2 Proofs_Pipeline3 Proofs_Pipeline4 Proofs_Pipeline5 Proofs_Pipeline6 Proofs_PipelineEx.
Import ListNotations.
Local Open Scope nat_scope.

(* ---- C117 ---- *)
(* with the default paths the files of floats of different names are different files *)
Theorem C117_separate : forall cwd float_dir names, no_directory float_dir -> (forall n, In n names -> no_slash n) ->
  separate cwd default_paths float_dir names.
Proof. exact default_separate. Qed.
Print Assumptions C117_separate.
Theorem C117_parallel : forall (T : Type) (NT : Num T) cwd cp float_dir map_cfg calc argsort names (w : disk T) w',
  NoDup names -> separate cwd cp float_dir names -> pool_map cwd cp float_dir map_cfg calc argsort names w (Ok tt) w' ->
  fst (in_turn cwd cp float_dir map_cfg calc argsort names w) = Ok tt /\
  forall q, w' q = snd (in_turn cwd cp float_dir map_cfg calc argsort names w) q.
Proof. exact @parallel_sequential. Qed.
Print Assumptions C117_parallel.
Theorem C117_each_float : forall (T : Type) (NT : Num T) cwd cp float_dir map_cfg calc argsort names (w : disk T) r w',
  NoDup names -> separate cwd cp float_dir names -> pool_map cwd cp float_dir map_cfg calc argsort names w r w' ->
  (r = Ok tt -> forall n, In n names -> exists d,
     alone cwd cp float_dir map_cfg calc argsort w n = (Ok tt, Some d) /\ w' (at_save cwd cp n) = Some (CMapped d)) /\
  (forall e, r = Raise e -> exists n, In n names /\ fst (alone cwd cp float_dir map_cfg calc argsort w n) = Raise e) /\
  (forall n, In n names ->
     (exists d, alone cwd cp float_dir map_cfg calc argsort w n = (Ok tt, Some d) /\ w' (at_save cwd cp n) = Some (CMapped d)) \/
     w' (at_save cwd cp n) = w (at_save cwd cp n) /\
     ((exists e, fst (alone cwd cp float_dir map_cfg calc argsort w n) = Raise e) \/
      exists m e, before names m n /\ fst (alone cwd cp float_dir map_cfg calc argsort w m) = Raise e)) /\
  (forall q, (forall n, In n names -> q <> at_save cwd cp n) -> w' q = w q).
Proof. exact @pool_results. Qed.
Print Assumptions C117_each_float.
Theorem C117_succeeds : forall (T : Type) (NT : Num T) cwd cp float_dir map_cfg calc argsort names (w : disk T) r w',
  NoDup names -> separate cwd cp float_dir names -> pool_map cwd cp float_dir map_cfg calc argsort names w r w' ->
  (r = Ok tt <-> forall n, In n names -> fst (alone cwd cp float_dir map_cfg calc argsort w n) = Ok tt).
Proof. exact @pool_succeeds. Qed.
Print Assumptions C117_succeeds.
(* every execution ends, and there is one *)
Theorem C117_terminates : forall (T : Type) (NT : Num T) cwd cp float_dir map_cfg calc argsort chunks (w : disk T) k s,
  takes k (pool_start cwd cp float_dir map_cfg calc argsort chunks w) s ->
  k <= 4 * length (concat chunks) /\ (pool_finished s \/ exists t, pool_step s t).
Proof. exact @pool_terminates. Qed.
Print Assumptions C117_terminates.
Theorem C117_executes : forall (T : Type) (NT : Num T) cwd cp float_dir map_cfg calc argsort names (w : disk T),
  pool_map cwd cp float_dir map_cfg calc argsort names w
    (fst (in_turn cwd cp float_dir map_cfg calc argsort names w)) (snd (in_turn cwd cp float_dir map_cfg calc argsort names w)).
Proof. exact @in_turn_pool. Qed.
Print Assumptions C117_executes.
Example C117_witness : NoDup two_names /\ separate home default_paths "/" two_names /\
  (forall n, In n two_names -> two_disk (at_save home default_paths n) = None) /\
  fst (in_turn home default_paths "/" two_cfg two_calc zargsort two_names two_disk) = Ok tt /\
  forall n, In n two_names -> exists d, snd (in_turn home default_paths "/" two_cfg two_calc zargsort two_names two_disk) (at_save home default_paths n) = Some (CMapped d) /\
    la_profile_no d = map Some [1; 2; 3; 4]%Z.
Proof.
  split; [repeat constructor; cbn; intuition congruence|]. split; [apply two_separate; intros n [<-|[<-|[]]]; repeat split; discriminate|].
  split; [intros n [<-|[<-|[]]]; vm_compute; reflexivity|]. split; [vm_compute; reflexivity|].
  intros n [<-|[<-|[]]]; eexists; split; vm_compute; reflexivity.
Qed.

(* ---- C118 ---- *)
Theorem C118_one_processor : forall (T : Type) (NT : Num T) cwd cp float_dir map_cfg calc argsort rng fit interp1d interp1d_nan show_bounds plots show_closes
    cpus names (s : world T rng) r s',
  cpus <= 1 -> script cwd cp float_dir map_cfg calc argsort rng fit interp1d interp1d_nan show_bounds plots show_closes cpus names s r s' ->
  r = Raise ValueError /\ s' = s.
Proof. exact @script_one_cpu. Qed.
Print Assumptions C118_one_processor.
Theorem C118_not_mapped : forall (T : Type) (NT : Num T) cwd cp float_dir map_cfg calc argsort rng fit interp1d interp1d_nan show_bounds plots show_closes
    cpus names (s : world T rng) r s' n e,
  NoDup names -> separate cwd cp float_dir names -> 1 < cpus -> In n names ->
  fst (alone cwd cp float_dir map_cfg calc argsort (wd_disk s) n) = Raise e ->
  script cwd cp float_dir map_cfg calc argsort rng fit interp1d interp1d_nan show_bounds plots show_closes cpus names s r s' ->
  (exists m e', r = Raise e' /\ In m names /\ fst (alone cwd cp float_dir map_cfg calc argsort (wd_disk s) m) = Raise e') /\
  wd_rng s' = wd_rng s /\ wd_session s' = wd_session s /\
  forall q, (forall m, In m names -> q <> at_save cwd cp m) -> wd_disk s' q = wd_disk s q.
Proof. exact @script_unmapped. Qed.
Print Assumptions C118_not_mapped.
Theorem C118_not_calibrated : forall (T : Type) (NT : Num T) cwd cp float_dir map_cfg calc argsort rng fit interp1d interp1d_nan show_bounds plots show_closes,
  cp_mapped_postfix cp = cp_calib_postfix cp -> no_directory float_dir ->
  forall cpus names (s : world T rng) e s',
  NoDup names -> separate cwd cp float_dir names -> 1 < cpus ->
  (forall n, In n names -> fst (alone cwd cp float_dir map_cfg calc argsort (wd_disk s) n) = Ok tt) ->
  script cwd cp float_dir map_cfg calc argsort rng fit interp1d interp1d_nan show_bounds plots show_closes cpus names s (Raise e) s' ->
  exists a n b, names = (a ++ n :: b)%list /\
    (forall m, In m a -> products cwd cp float_dir map_cfg calc argsort fit (wd_disk s) (wd_disk s') m) /\
    (forall m, In m names -> exists d, alone cwd cp float_dir map_cfg calc argsort (wd_disk s) m = (Ok tt, Some d) /\
       wd_disk s' (at_save cwd cp m) = Some (CMapped d)) /\
    forall m, In m b -> wd_disk s' (at_set cwd cp float_dir m) = wd_disk s (at_set cwd cp float_dir m) /\
       wd_disk s' (at_calib cwd cp float_dir m) = wd_disk s (at_calib cwd cp float_dir m).
Proof. exact @script_stopped. Qed.
Print Assumptions C118_not_calibrated.
Example C118_witness : let names := ["3901960"; "3901962"]%string in
  two_script two_calc 2 names (start two_disk) (Raise FileNotFoundError) (mkWorld (snd (two_turn two_calc names two_disk)) 0%nat (mkSession [] [])) /\
  as_mapped (two_disk (at_save home default_paths "3901960")) = None /\
  option_map la_profile_no (as_mapped (snd (two_turn two_calc names two_disk) (at_save home default_paths "3901960"))) = Some (map Some [1; 2; 3; 4]%Z) /\
  factors (snd (two_turn two_calc names two_disk)) "3901960" = None.
Proof. exact missing_source. Qed.

(* ---- C119 ---- *)
Theorem C119_products : forall (T : Type) (NT : Num T) cwd cp float_dir map_cfg calc argsort rng fit interp1d interp1d_nan show_bounds plots show_closes,
  cp_mapped_postfix cp = cp_calib_postfix cp -> no_directory float_dir ->
  forall cpus names (s s' : world T rng), NoDup names -> separate cwd cp float_dir names ->
  script cwd cp float_dir map_cfg calc argsort rng fit interp1d interp1d_nan show_bounds plots show_closes cpus names s (Ok tt) s' ->
  (forall n, In n names -> products cwd cp float_dir map_cfg calc argsort fit (wd_disk s) (wd_disk s') n) /\
  forall q, (forall n, In n names -> q <> at_save cwd cp n /\ q <> at_set cwd cp float_dir n /\ q <> at_calib cwd cp float_dir n) ->
    wd_disk s' q = wd_disk s q.
Proof. exact @script_products. Qed.
Print Assumptions C119_products.
Theorem C119_independent : forall (T : Type) (NT : Num T) cwd cp float_dir,
  cp_mapped_postfix cp = cp_calib_postfix cp -> no_directory float_dir ->
  forall map_cfg calc argsort rng fit interp1d interp1d_nan show_bounds plots show_closes
    cpus1 names1 (s1 s1' : world T rng) cpus2 names2 s2 s2' n,
  NoDup names1 -> separate cwd cp float_dir names1 ->
  script cwd cp float_dir map_cfg calc argsort rng fit interp1d interp1d_nan show_bounds plots show_closes cpus1 names1 s1 (Ok tt) s1' ->
  NoDup names2 -> separate cwd cp float_dir names2 ->
  script cwd cp float_dir map_cfg calc argsort rng fit interp1d interp1d_nan show_bounds plots show_closes cpus2 names2 s2 (Ok tt) s2' ->
  In n names1 -> In n names2 -> (forall p, In p (own_files cwd cp float_dir n) -> wd_disk s1 p = wd_disk s2 p) ->
  wd_disk s1' (at_save cwd cp n) = wd_disk s2' (at_save cwd cp n) /\
  wd_disk s1' (at_set cwd cp float_dir n) = wd_disk s2' (at_set cwd cp float_dir n) /\
  exists src pos d c g1 g2 h1 h2 k1 k2, wd_disk s1 (at_source cwd cp float_dir n) = Some (CSource src pos) /\
    wd_disk s1' (at_save cwd cp n) = Some (CMapped d) /\ wd_disk s1' (at_set cwd cp float_dir n) = Some (CSeries c) /\
    fit src pos d (Ok c) g1 = (Ok k1, h1) /\ fit src pos d (Ok c) g2 = (Ok k2, h2) /\
    wd_disk s1' (at_calib cwd cp float_dir n) = Some (CCalib k1) /\ wd_disk s2' (at_calib cwd cp float_dir n) = Some (CCalib k2).
Proof. exact @script_independent. Qed.
Print Assumptions C119_independent.
Theorem C119_calibrations : forall det solve inv least_squares rng randn interp1d interp2d tbase c_from_sp sp_from_c cov_cfg cwd cp float_dir,
  cp_mapped_postfix cp = cp_calib_postfix cp -> no_directory float_dir ->
  forall argsort interp1d_nan show_bounds plots show_closes cfg calc cpus1 names1 (s1 s1' : world XR rng) cpus2 names2 s2 s2' n src pos c,
  let fit := piecewisefit det solve inv least_squares rng randn interp1d interp2d tbase c_from_sp sp_from_c cov_cfg in
  NoDup names1 -> separate cwd cp float_dir names1 ->
  script cwd cp float_dir cfg calc argsort rng fit interp1d interp1d_nan show_bounds plots show_closes cpus1 names1 s1 (Ok tt) s1' ->
  NoDup names2 -> separate cwd cp float_dir names2 ->
  script cwd cp float_dir cfg calc argsort rng fit interp1d interp1d_nan show_bounds plots show_closes cpus2 names2 s2 (Ok tt) s2' ->
  In n names1 -> In n names2 -> (forall p, In p (own_files cwd cp float_dir n) -> wd_disk s1 p = wd_disk s2 p) ->
  wd_disk s1 (at_source cwd cp float_dir n) = Some (CSource src pos) -> rectangular src ->
  wd_disk s1' (at_set cwd cp float_dir n) = Some (CSeries c) -> series_file c ->
  exists k1 k2, wd_disk s1' (at_calib cwd cp float_dir n) = Some (CCalib k1) /\ wd_disk s2' (at_calib cwd cp float_dir n) = Some (CCalib k2) /\
    same_calibrations src k1 k2.
Proof. exact script_calibrations. Qed.
Print Assumptions C119_calibrations.
Example C119_witness :
  (two_script two_calc 2 two_names (start two_disk) (Ok tt) two_end /\
   factors (wd_disk two_end) "3901960" = Some (map Some [3; 3; 3; 3]%Z) /\ factors (wd_disk two_end) "3901961" = Some [Some 3; Some 3; None; Some 3]%Z) /\
  (two_script two_calc 2 ["3901961"%string] (start two_disk) (Ok tt) one_end /\
   factors (wd_disk one_end) "3901961" = Some [Some 3; Some 3; None; Some 3]%Z /\ factors (wd_disk one_end) "3901960" = None).
Proof. exact (conj two_runs one_runs). Qed.

(* ---- C120 ---- *)
Theorem C120_first_run : forall det solve inv least_squares rng randn interp1d interp2d tbase c_from_sp sp_from_c cov_cfg cwd cp float_dir,
  cp_mapped_postfix cp = cp_calib_postfix cp -> no_directory float_dir ->
  forall argsort interp1d_nan show_bounds plots show_closes, sorting argsort ->
  forall cfg calc cpus names (s s' : world XR rng) n src rs,
  let fit := piecewisefit det solve inv least_squares rng randn interp1d interp2d tbase c_from_sp sp_from_c cov_cfg in
  NoDup names -> separate cwd cp float_dir names ->
  script cwd cp float_dir cfg calc argsort rng fit interp1d interp1d_nan show_bounds plots show_closes cpus names s (Ok tt) s' ->
  In n names -> new_float cwd cp float_dir (wd_disk s) n src rs ->
  done_float cwd cp float_dir calc c_from_sp sp_from_c (wd_disk s') n src rs.
Proof. exact script_new_float. Qed.
Print Assumptions C120_first_run.
Example C120_witness :
  (new_float home default_paths "/" pair_disk "3901960" pair_src [1; 2]%R /\ has_data (cal_source_of pair_src) 0 /\ ~ has_data (cal_source_of pair_src) 1) /\
  two_script two_calc 2 two_names (start two_disk) (Ok tt) two_end /\
  two_disk (at_save home default_paths "3901960") = None /\ two_disk (at_set home default_paths "/" "3901960") = None /\
  factors (wd_disk two_end) "3901960" = Some (map Some [3; 3; 3; 3]%Z).
Proof. split; [exact pair_new|]. split; [exact (proj1 two_runs)|]. split; [vm_compute; reflexivity|]. split; [vm_compute; reflexivity|]. exact (proj1 (proj2 two_runs)). Qed.

(* ---- C121 ---- *)
Theorem C121_second_run : forall det solve inv least_squares rng randn interp1d interp2d tbase c_from_sp sp_from_c cov_cfg cwd cp float_dir,
  cp_mapped_postfix cp = cp_calib_postfix cp -> no_directory float_dir ->
  forall argsort interp1d_nan show_bounds plots show_closes, sorting argsort ->
  forall cfg calc cpus names (s s' : world XR rng) cfg' calc' cpus' names' t r t',
  let fit := piecewisefit det solve inv least_squares rng randn interp1d interp2d tbase c_from_sp sp_from_c cov_cfg in
  NoDup names -> separate cwd cp float_dir names ->
  script cwd cp float_dir cfg calc argsort rng fit interp1d interp1d_nan show_bounds plots show_closes cpus names s (Ok tt) s' ->
  (forall n, In n names -> exists src rs, new_float cwd cp float_dir (wd_disk s) n src rs) ->
  (forall q, wd_disk t q = wd_disk s' q) -> NoDup names' -> (forall n, In n names' -> In n names) ->
  script cwd cp float_dir cfg' calc' argsort rng fit interp1d interp1d_nan show_bounds plots show_closes cpus' names' t r t' ->
  (forall q, (forall n, In n names' -> q <> at_calib cwd cp float_dir n) -> wd_disk t' q = wd_disk s' q) /\
  (r = Ok tt -> forall n, In n names' -> exists src pos k k', wd_disk s (at_source cwd cp float_dir n) = Some (CSource src pos) /\
     wd_disk s' (at_calib cwd cp float_dir n) = Some (CCalib k) /\ wd_disk t' (at_calib cwd cp float_dir n) = Some (CCalib k') /\
     same_calibrations src k k').
Proof. exact script_again. Qed.
Print Assumptions C121_second_run.
Example C121_witness :
  two_script two_calc 2 two_names (start two_disk) (Ok tt) two_end /\
  two_script gone 2 two_names (start (wd_disk two_end)) (Ok tt) again_end /\
  factors (wd_disk again_end) "3901960" = Some (map Some [3; 3; 3; 3]%Z) /\ factors (wd_disk again_end) "3901961" = Some [Some 3; Some 3; None; Some 3]%Z.
Proof. exact (conj (proj1 two_runs) two_again). Qed.
