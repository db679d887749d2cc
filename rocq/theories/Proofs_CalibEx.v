(* A calibration over the integers: profiles 1, 2 and 4 form a series, profile 3 is left out.  The mapped
   conductivities are three times the measured ones.  The oracles are stand-ins. *)
From Coq Require Import String Ascii.
From Coq Require Import ZArith List Bool Lia.
From Verif Require Import Num Np Utilities Finders Stats FitCond Topo Helper MapProfile Mapping Config Calib DemoNum Proofs_MappingEx Spec_Calib Proofs_Calib.
Import ListNotations.
Local Open Scope Z_scope.
Definition zdet (n : nat) (m : nat -> nat -> ZN) : ZN := Some 1.
Definition zsolve (n k : nat) (a b : nat -> nat -> ZN) : res (nat -> nat -> ZN) := Ok (fun i j => b i j).
Definition zinv (n : nat) (m : nat -> nat -> ZN) : res (nat -> nat -> ZN) := Ok m.
Definition zls (f : list ZN -> res (list ZN)) (x : list ZN) : res (list (list ZN) * list ZN) := Ok ([], x).
Definition zrandn (n : nat) (g : nat) : list ZN * nat := (repeat (Some 0) n, S g).
Definition zinterp1d (x y : list ZN) (v : ZN) : res ZN := Ok (match argwhere (fun a => neqb a v) x with i :: _ => nth i y None | [] => hd None y end).
Definition cal_ptmp : list (list ZN) := repeat (map (fun k => Some (30 - 2 * Z.of_nat k)) (seq 0 14)) 4.
Definition cal_pres : list (list ZN) := repeat (map (fun k => Some (100 + 100 * Z.of_nat k)) (seq 0 14)) 4.
Definition cal_sal : list (list ZN) := map (fun j => map (fun k => Some (1000 + 10 * Z.of_nat k + j)) (seq 0 14)) [0; 2; 4; 8].
Definition cal_mapped_sal : list (list ZN) := map (fun j => map (fun k => if Nat.eqb k 3 then Some (3090 + 3 * j) else None) (seq 0 14)) [0; 2; 4; 8].
Definition cal_src : source ZN := mkSource (zs [1; 2; 3; 4]) (zs [50;50;50;50]) (zs [20; 20; 20; 20]) (zs [2000; 2000; 2000;2000]) cal_sal cal_ptmp cal_ptmp cal_pres 14.
Definition cal_pos : positions ZN := mkPositions [zs [20; 21; 20; 21]] [zs [50; 50; 51; 51]].
Definition cal_map : mapped ZN := mkMapped (mkMatrix 14 cal_ptmp) (mkMatrix 14 cal_mapped_sal) (mkMatrix 14 (map (map (fun _ => Some 1000)) cal_sal)) (mkMatrix 0 []) (mkMatrix 0 [])
  (zs [1;2;3;4]) [] [(Some 20, Some 50, Some 1)].
Definition cal_set : calfile ZN := mkCal [] [[Some (-1)]] (zs [1; 1; 0; 1]) (zs [1; 2; 3; 4]) [] [] [] [] (Some [[Some 0]]).
Definition unit_exp : NumT ZN := {| nexp := fun x => match x with Some 0 => Some 1 | Some _ => Some 0 | None => None end; nlog := fun x => x; nsin := fun x => x; npi := Some 3 |}.
Definition renumbered (nos : list Z) : source ZN := mkSource (zs nos) (src_lat cal_src) (src_long cal_src) (src_dates cal_src) cal_sal cal_ptmp cal_ptmp cal_pres 14.
Definition cal_run (src : source ZN) (c : calfile ZN) (d : mapped ZN) := piecewisefit (H0 := unit_exp) zdet zsolve zinv zls nat zrandn zinterp1d (fun _ _ _ _ _ => Ok (Some (-3000))) (fun p => Some (p mod 256))
  (fun s t p => s) (fun c t p => c) (mkCovConfig (Some 4) (Some 8) (Some 1) false) src cal_pos d (Ok c) 0%nat.

Lemma cal_run_ok : exists r, cal_run cal_src cal_set cal_map = (Ok r, 0%nat) /\ k_factor r = [Some 3; Some 3; None; Some 3] /\
  entry2 (k_sal r) 1 3 = Some 3096 /\ entry2 (src_sal cal_src) 1 3 = Some 1032 /\ k_breaks r = [].
Proof. eexists. split; [vm_compute; reflexivity|]. cbn. auto. Qed.
Lemma cal_rectangular : rectangular cal_src.
Proof. intros cols [<-|[<-|[<-|[]]]]; (split; [reflexivity|]); intros c Hc; cbn in Hc; repeat (destruct Hc as [<-|Hc]; [reflexivity|]); destruct Hc. Qed.
Lemma cal_accepted : accepted cal_set.
Proof. unfold accepted. right. left. reflexivity. Qed.
(* numbers that descend *)
Lemma cal_descending : exists r, cal_run (renumbered [4; 3; 2; 1]) cal_set cal_map = (Ok r, 0%nat) /\ k_factor r = [Some 3; Some 3; None; Some 3].
Proof. eexists. split; [vm_compute; reflexivity|]. reflexivity. Qed.
(* a repeated number; a series of one profile; given breaks; no history; too many rows *)
Definition with_flags (l : list Z) (breaks rows : list (list ZN)) : calfile ZN := mkCal breaks rows (zs l) (zs [1; 2; 3; 4]) [] [] [] [] (Some [[Some 0]]).
Definition one_row : list (list ZN) := [[Some (-1)]].
Lemma cal_failures :
  cal_run (renumbered [1; 1; 3; 4]) cal_set cal_map = (Raise ValueError, 0%nat) /\
  cal_run cal_src (with_flags [1; 1; 2; 1] [] one_row) cal_map = (Raise AttributeError, 0%nat) /\
  cal_run cal_src (with_flags [1; 1; 0; 1] [[Some 2]] [[Some 1]]) cal_map = (Raise ValueError, 200%nat) /\
  cal_run cal_src cal_set (mkMapped (la_ptmp cal_map) (la_mapped_sal cal_map) (la_map_sal_errors cal_map) (la_noise_sal cal_map) (la_signal_sal cal_map) [] [] [])
    = (Raise UnboundLocalError, 0%nat) /\
  cal_run cal_src (with_flags [1; 1; 2; 2] [] (one_row ++ one_row ++ one_row)) cal_map = (Ok (blank_calib cal_src), 0%nat).
Proof. repeat split; vm_compute; reflexivity. Qed.
