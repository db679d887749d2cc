(* What a run over several floats should leave on the disk *)
From Coq Require Import String Ascii.
From Coq Require Import ZArith List Bool.
From Verif Require Import Num Np Helper MapProfile Mapping Config Calib Pipeline Spec_Mapping.
Import ListNotations.

Section Spec.
  Context {T : Type} {NT : Num T}.
  Variable cwd : list string.
  Variable cp : cal_paths.
  Variable float_dir : string.

  (* the files of a float: its source, the mapped file as it is read and as it is written, the settings
     as set_calseries writes and as calc_piecewisefit reads them, the calibration *)
  Definition at_source (n : string) := abspath cwd (source_path cp float_dir n).
  Definition at_load (n : string) := load_path cwd (mapping_paths cp) float_dir n.
  Definition at_save (n : string) := save_path cwd (mapping_paths cp) n.
  Definition at_set (n : string) := abspath cwd (set_calseries_path cp float_dir n).
  Definition at_series (n : string) := abspath cwd (calseries_path cp float_dir n).
  Definition at_calib (n : string) := abspath cwd (calib_path cp float_dir n).

  (* what is written for one float is nothing that is read or written for another, and nothing of
     another kind *)
  Definition separate (names : list string) : Prop :=
    forall n m, In n names -> In m names ->
      (forall p, In p [at_save n; at_set n; at_calib n] -> p <> at_source m) /\
      (forall p, In p [at_load m; at_save m] -> at_set n <> p /\ at_calib n <> p) /\
      at_save n <> at_series m /\
      (forall p, In p [at_set m; at_series m] -> at_calib n <> p) /\
      (n <> m -> at_save n <> at_save m /\ at_save n <> at_load m /\
                 at_set n <> at_set m /\ at_set n <> at_series m /\ at_calib n <> at_calib m).

  Definition mapped_files (w : disk T) : store T := fun q => as_mapped (w q).

  Variable map_cfg : map_config T.
  Variable calc : string -> source T -> nat -> res (nat -> res (option (level_out T))).
  Variable argsort : list T -> list nat.
  (* update_salinity_mapping for float n and nothing else: the outcome and the mapped file afterwards *)
  Definition alone (w : disk T) (n : string) : res unit * option (Mapping.mapped T) :=
    match as_source (w (at_source n)) with
    | None => (Raise FileNotFoundError, mapped_files w (at_save n))
    | Some (src, _) =>
        let (r, st) := update_salinity_mapping argsort (calc n) cwd (mapping_paths cp) map_cfg src float_dir n (mapped_files w) in
        (r, st (at_save n))
    end.
  (* the floats in turn, until one fails *)
  Fixpoint in_turn (names : list string) (w : disk T) : res unit * disk T :=
    match names with
    | [] => (Ok tt, w)
    | n :: l => match alone w n with
                | (Ok _, Some d) => in_turn l (put_file w (at_save n) (CMapped d))
                | (Ok _, None) => in_turn l w
                | (Raise e, _) => (Raise e, w)
                end
    end.

  (* set_calseries for float n: the settings it writes *)
  Definition cal_source_of (src : source T) : cal_source T := mkCalSource (src_no src) (src_sal src) (src_tmp src) (src_pres src).
  Definition settings_of (w : disk T) (n : string) : res (calfile T) :=
    match as_source (w (at_source n)) with
    | None => Raise FileNotFoundError
    | Some (src, _) => set_calseries argsort (cal_source_of src) (as_series (w (at_set n)))
    end.
  (* the files of float n on the disk w' are those of its own three stages on the disk w: the mapped file
     of mapping it alone, the settings, and a fit to the source, this mapped file and these settings *)
  Definition products {rng} (fit : source T -> positions T -> Mapping.mapped T -> res (calfile T) -> rng -> res (calib T) * rng)
      (w w' : disk T) (n : string) : Prop :=
    exists src pos d c k g g', w (at_source n) = Some (CSource src pos) /\ alone w n = (Ok tt, Some d) /\ settings_of w n = Ok c /\
      fit src pos d (Ok c) g = (Ok k, g') /\
      w' (at_save n) = Some (CMapped d) /\ w' (at_set n) = Some (CSeries c) /\ w' (at_calib n) = Some (CCalib k).
  (* the files of float n which the script reads before it writes them *)
  Definition own_files (n : string) : list (list string) := [at_source n; at_load n; at_save n; at_set n].
End Spec.
(* m comes before n *)
Definition before (names : list string) (m n : string) : Prop := exists a b c, names = a ++ m :: b ++ n :: c.
(* a pool takes k steps *)
Inductive takes {T} : nat -> pool T -> pool T -> Prop :=
  | takes_none s : takes 0 s s
  | takes_more k s t u : pool_step s t -> takes k t u -> takes (S k) s u.
(* a name of a file, not of a path *)
Fixpoint no_slash (s : string) : Prop := match s with EmptyString => True | String c s => c <> "/"%char /\ no_slash s end.
(* the paths of the configuration that load returns (C71) *)
Definition default_paths : cal_paths :=
  mkCalPaths "data/float_source/" ".mat" "data/float_mapped/" "map_" ".mat" "data/float_calib" "cal_" ".mat" "calseries_".
