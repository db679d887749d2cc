(* C148 *)
From Coq Require Import String Ascii.
From Coq Require Import ZArith List Bool Reals Lra Lia.
From Verif Require Import Num Np Utilities Finders Stats FitCond Topo MapProfile Mapping Config Calib DemoNum
  Spec_Calib Spec_Breaks Proofs_CalibEx Proofs_Breaks.
Import ListNotations.
Local Open Scope R_scope.

(* break points in the settings: too few rows raise, a wrong number of rows or too many breaks give a
   file in which everything is missing, and breaks that fit raise *)
Theorem C148_breaks : forall det solve inv least_squares rng randn interp1d interp2d tbase c_from_sp sp_from_c cfg src pos d c flags us per m (g : rng),
  c_from_sp NaN NaN (Fin 0) = NaN ->
  (selected_hist d = [] \/ exists l, float_coords interp2d tbase pos = Ok l) -> cf_percent c = Some [[per]] -> cf_breaks c <> [] ->
  cf_calseries c = map Fin flags -> NoDup us -> (forall v, In v us <-> In v flags /\ v <> 0) -> us <> [] ->
  (forall i, (i < length us)%nat -> limit_of (length us) (cf_max_breaks c) i (m i)) ->
  let run := piecewisefit det solve inv least_squares rng randn interp1d interp2d tbase c_from_sp sp_from_c cfg src pos d (Ok c) g in
  ((length (cf_breaks c) < length us)%nat -> run = (Raise IndexError, g)) /\
  ((length us <= length (cf_breaks c))%nat -> ~ breaks_fit (length us) (cf_breaks c) (cf_max_breaks c) m ->
     exists r, run = (Ok r, g) /\ (forall j, missing r j) /\ k_no r = src_no src /\ k_coef r = [] /\ k_breaks r = []) /\
  (breaks_fit (length us) (cf_breaks c) (cf_max_breaks c) m -> exists e g', run = (Raise e, g')).
Proof. exact breaks_outcome. Qed.
Print Assumptions C148_breaks.
(* two series, the second with two breaks: one more than a limit of one, and none too many for two *)
Example C148_witness : let breaks := [[Fin 2; NaN]; [Fin 3; Fin 4]] in
  (forall v, In v [1; 2] <-> In v [1; 1; 2; 0] /\ v <> 0) /\
  (forall k i, (i < 2)%nat -> limit_of 2 [[Fin k]] i k) /\
  ~ breaks_fit 2 breaks [[Fin 1]] (fun _ => 1) /\ breaks_fit 2 breaks [[Fin 2]] (fun _ => 2) /\
  ~ breaks_fit 2 (breaks ++ [[NaN]]) [[Fin 2]] (fun _ => 2).
Proof.
  cbv zeta. split; [intros v; cbn; split; [intros [<-|[<-|[]]]; split; auto; lra|intros ([<-|[<-|[<-|[<-|[]]]]] & N); auto; lra]|].
  split; [intros k i _; left; split; [lia|reflexivity]|].
  split; [intros (_ & _ & C); specialize (C 1%nat _ eq_refl); cbn in C; lra|].
  split; [|intros (C & _); discriminate C].
  split; [reflexivity|]. split; [auto|]. intros [|[|[|i]]] row E; cbn in E; try discriminate; injection E as <-; cbn; lra.
Qed.
(* the three outcomes in runs: one row for two series, too many breaks, breaks that fit *)
Example C148_runs_witness :
  cal_run cal_src (with_flags [1; 1; 2; 2]%Z [[Some 2]%Z] [[Some 1%Z]]) cal_map = (Raise IndexError, 0%nat) /\
  cal_run cal_src (with_flags [1; 1; 0; 1]%Z [[Some 2; Some 3]%Z] [[Some 1%Z]]) cal_map = (Ok (blank_calib cal_src), 0%nat) /\
  cal_run cal_src (with_flags [1; 1; 0; 1]%Z [[Some 2%Z]] [[Some 1%Z]]) cal_map = (Raise ValueError, 200%nat).
Proof. split; [vm_compute; reflexivity|]. split; [vm_compute; reflexivity|exact (proj1 (proj2 (proj2 cal_failures)))]. Qed.
