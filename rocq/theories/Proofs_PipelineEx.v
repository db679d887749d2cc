(* Two floats that go through the whole script *)
From Coq Require Import String Ascii.
From Coq Require Import ZArith List Bool Lia.
From Verif Require Import Num Np Utilities Stats FitCond Topo Fetchers Helper MapProfile Mapping Config Calib Pyplot Plots Dashboard Pipeline DemoNum
  Spec_Mapping Proofs_MappingEx Proofs_CalibEx Proofs_PlotsEx Spec_Pipeline Proofs_Pipeline Proofs_Pipeline2 Proofs_Pipeline3 Proofs_Pipeline4.
Import ListNotations.
Local Open Scope string_scope.

Definition fresh_sal : list (list ZN) := map (fun j => map (fun k => Some (8 + Z.of_nat k + j)%Z) (seq 0 14)) [0; 1; 2; 0]%Z.
Definition two_src : source ZN := mkSource (zs [1; 2; 3; 4]%Z) (zs [50;50;50;50]%Z) (zs [20; 20; 20; 20]%Z) (zs [2000; 2000; 2000;2000]%Z) fresh_sal cal_ptmp cal_ptmp cal_pres 14.
Definition two_calc (name : string) (s : source ZN) (p : nat) : res (nat -> res (option (level_out ZN))) :=
  Ok (fun k => Ok (Some (mkLevelOut (nth k (nth p (src_ptmp s) []) None)
    (if Nat.eqb k 3 then nmul (Some 3%Z) (nth k (nth p (src_sal s) []) None) else None) (Some 1000%Z) (Some 0%Z) (Some 0%Z) [(Some 20%Z, Some 50%Z)]))).
Definition two_cfg : map_config ZN :=
  mkMapConfig [] 300 0 0 (Some 8%Z) (Some 4%Z) (Some 4%Z) (Some 2%Z) (Some 1%Z) (Some 1%Z) (Some 10%Z) (Some 5%Z) (Some 250%Z) (Some 0%Z)
    no_saf (mkDbConfig ZN "" "" "" "" (Some 250%Z)).
Definition two_fit (src : source ZN) (pos : positions ZN) (d : Mapping.mapped ZN) (c : res (calfile ZN)) (g : nat) :=
  piecewisefit (H0 := unit_exp) zdet zsolve zinv zls nat zrandn zinterp1d (fun _ _ _ _ _ => Ok (Some (-3000)%Z)) (fun p => Some (p mod 256)%Z)
    (fun s t p => s) (fun c t p => c) (mkCovConfig (Some 4%Z) (Some 8%Z) (Some 1%Z) false) src pos d c g.
Definition home : list string := ["home"].
Definition two_names : list string := ["3901960"; "3901961"].
(* the second float has a file of settings *)
Definition two_disk : disk ZN :=
  put_file (put_file (put_file (fun _ => None) (at_source home default_paths "/" "3901960") (CSource two_src cal_pos))
    (at_source home default_paths "/" "3901961") (CSource two_src cal_pos)) (at_set home default_paths "/" "3901961") (CSeries cal_set).
Lemma two_separate names : (forall n, In n names -> no_slash n) -> separate home default_paths "/" names.
Proof. apply default_separate. repeat constructor. Qed.
Notation two_script calc := (script home default_paths "/" two_cfg calc zargsort nat two_fit zinterp1d (fun _ ys _ => hd None ys) zbounds plots_here true).
Notation two_loop names s := (float_loop home default_paths "/" zargsort nat two_fit zinterp1d (fun _ ys _ => hd None ys) zbounds plots_here true names s).
Notation two_turn calc names w := (in_turn home default_paths "/" two_cfg calc zargsort names w).
Definition start (w : disk ZN) : world ZN nat := mkWorld w 0%nat (mkSession [] []).
Definition factors (w : disk ZN) (n : string) : option (list ZN) := option_map k_factor (as_calib (w (at_calib home default_paths "/" n))).

Lemma script_ok calc names w : fst (two_turn calc names w) = Ok tt -> fst (two_loop names (start (snd (two_turn calc names w)))) = Ok tt ->
  two_script calc 2 names (start w) (Ok tt) (snd (two_loop names (start (snd (two_turn calc names w))))).
Proof.
  intros E1 E2. apply (script_loop _ _ _ _ _ _ _ _ _ _ _ _ _ 2 names (start w) (snd (two_turn calc names w))); [lia| |].
  - rewrite <- E1. apply in_turn_pool.
  - change (mkWorld (snd (two_turn calc names w)) (wd_rng (start w)) (wd_session (start w))) with (start (snd (two_turn calc names w))).
    rewrite <- E2. apply surjective_pairing.
Qed.
Definition two_end : world ZN nat := snd (two_loop two_names (start (snd (two_turn two_calc two_names two_disk)))).
Lemma two_runs : two_script two_calc 2 two_names (start two_disk) (Ok tt) two_end /\
  factors (wd_disk two_end) "3901960" = Some (map Some [3; 3; 3; 3]%Z) /\ factors (wd_disk two_end) "3901961" = Some [Some 3; Some 3; None; Some 3]%Z.
Proof.
  split; [|vm_compute; split; reflexivity].
  unfold two_end. apply script_ok; vm_compute; reflexivity.
Qed.
(* the second float alone *)
Definition one_end : world ZN nat := snd (two_loop ["3901961"] (start (snd (two_turn two_calc ["3901961"] two_disk)))).
Lemma one_runs : two_script two_calc 2 ["3901961"] (start two_disk) (Ok tt) one_end /\ factors (wd_disk one_end) "3901961" = Some [Some 3; Some 3; None; Some 3]%Z /\
  factors (wd_disk one_end) "3901960" = None.
Proof.
  split; [|vm_compute; split; reflexivity].
  unfold one_end. apply script_ok; vm_compute; reflexivity.
Qed.
(* both again, although the reference data have disappeared *)
Definition gone (name : string) (s : source ZN) (p : nat) : res (nat -> res (option (level_out ZN))) := Raise FileNotFoundError.
Definition again_end : world ZN nat := snd (two_loop two_names (start (snd (two_turn gone two_names (wd_disk two_end))))).
Lemma two_again : two_script gone 2 two_names (start (wd_disk two_end)) (Ok tt) again_end /\
  factors (wd_disk again_end) "3901960" = Some (map Some [3; 3; 3; 3]%Z) /\ factors (wd_disk again_end) "3901961" = Some [Some 3; Some 3; None; Some 3]%Z.
Proof.
  split; [|vm_compute; split; reflexivity].
  unfold again_end. apply script_ok; vm_compute; reflexivity.
Qed.
(* a float without source file *)
Lemma missing_source : let names := ["3901960"; "3901962"] in
  two_script two_calc 2 names (start two_disk) (Raise FileNotFoundError) (mkWorld (snd (two_turn two_calc names two_disk)) 0%nat (mkSession [] [])) /\
  as_mapped (two_disk (at_save home default_paths "3901960")) = None /\
  option_map la_profile_no (as_mapped (snd (two_turn two_calc names two_disk) (at_save home default_paths "3901960"))) = Some (map Some [1; 2; 3; 4]%Z) /\
  factors (snd (two_turn two_calc names two_disk)) "3901960" = None.
Proof.
  intros names. split; [|vm_compute; repeat split; reflexivity].
  assert (E : fst (two_turn two_calc names two_disk) = Raise FileNotFoundError) by (vm_compute; reflexivity).
  apply script_mapping; [lia|]. rewrite <- E. apply in_turn_pool.
Qed.

(* over the reals: two profiles, the second without salinity *)
From Coq Require Import Reals Lra.
From Verif Require Import Spec_Config Spec_Calib Spec_Pipeline2.
Definition pair_src : source XR := mkSource (map Fin [1; 2]%R) [Fin 50; Fin 50] [Fin 20; Fin 20] [Fin 2000; Fin 2000]
  [[Fin 35]; [NaN]] [[Fin 10]; [Fin 10]] [[Fin 10]; [Fin 10]] [[Fin 100]; [Fin 100]] 1.
Definition pair_disk : disk XR := put_file (fun _ => None) (at_source home default_paths "/" "3901960") (CSource pair_src (mkPositions [] [])).
Lemma pair_new : new_float home default_paths "/" pair_disk "3901960" pair_src [1; 2]%R /\
  has_data (cal_source_of pair_src) 0 /\ ~ has_data (cal_source_of pair_src) 1.
Proof.
  split; [|split].
  - split; [exists (mkPositions [] []); unfold pair_disk, put_file; now rewrite Proofs_Mapping4.path_eqb_refl|]. split; [reflexivity|]. split.
    { intros i j [H1 H2]. cbn in H2. destruct i, j as [|[|j]]; try lia. cbn. lra. }
    split; [intros cols H; cbn [In] in H; repeat (destruct H as [<-|H]); try contradiction; (split; [reflexivity|]); intros c Hc; cbn [In] in Hc; repeat (destruct Hc as [<-|Hc]); try contradiction; reflexivity|].
    split; [reflexivity|]. unfold pair_disk, put_file. split; rewrite Proofs_Mapping4.path_eqb_neq by (vm_compute; discriminate); reflexivity.
  - repeat split; [exists (Fin 35)|exists (Fin 10)|exists (Fin 100)]; (split; [left; reflexivity|reflexivity]).
  - intros ((x & [<-|[]] & E) & _). discriminate.
Qed.
