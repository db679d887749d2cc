(* A float that the script meets for the first time, and its files after a complete run *)
From Coq Require Import String.
From Coq Require Import ZArith List Bool Reals.
From Verif Require Import Num Np Helper MapProfile Mapping Config Calib Pipeline Spec_Mapping Spec_Config Spec_Calib Spec_Pipeline.
Import ListNotations.
Local Open Scope nat_scope.

Section Spec.
  Variable cwd : list string.
  Variable cp : cal_paths.
  Variable float_dir : string.
  Notation at_source := (at_source cwd cp float_dir).
  Notation at_load := (at_load cwd cp float_dir).
  Notation at_save := (at_save cwd cp).
  Notation at_set := (at_set cwd cp float_dir).
  Notation at_calib := (at_calib cwd cp float_dir).

  (* the source of the float has ascending profile numbers and matrices of one shape; there is neither a
     mapped file nor a file of settings *)
  Definition new_float (w : disk XR) (n : string) (src : source XR) (rs : list R) : Prop :=
    (exists pos, w (at_source n) = Some (CSource src pos)) /\ src_no src = map Fin rs /\ increasing rs /\
    rectangular src /\ length (src_tmp src) = length rs /\
    as_mapped (w (at_load n)) = None /\ as_series (w (at_set n)) = None.

  (* the settings in which every profile belongs to at most one series *)
  Definition series_file (c : calfile XR) : Prop :=
    exists flags, cf_breaks c = [] /\ cf_calseries c = map Fin flags /\ right_rows flags (cf_max_breaks c).

  (* two files of calibrations agree in everything but the random errors *)
  Definition same_calibrations (src : source XR) (k k' : calib XR) : Prop :=
    forall j, j < length (src_no src) -> same_calibration (src_levels src) k k' j \/ (missing k j /\ missing k' j).

  Variable calc : string -> source XR -> nat -> res (nat -> res (option (level_out XR))).
  Variable c_from_sp : XR -> XR -> XR -> XR.
  Variable sp_from_c : XR -> XR -> XR -> XR.
  (* the three files of the float: all carry the profile numbers of the source, the mapped file has the
     levels calculated for each profile, and a profile is calibrated when it has data and missing otherwise *)
  Definition done_float (w : disk XR) (n : string) (src : source XR) (rs : list R) : Prop :=
    exists d c k, w (at_save n) = Some (CMapped d) /\ w (at_set n) = Some (CSeries c) /\ w (at_calib n) = Some (CCalib k) /\
      la_profile_no d = map Fin rs /\ cf_no c = map Fin rs /\ k_no k = map Fin rs /\
      complete_columns (src_levels src) (length rs) d /\ shaped src k /\
      (forall m f j, In (m, f) (contents d) -> j < length rs -> nth j (m_cols m) [] = profile_column (src_levels src) (calc n src) f j) /\
      forall j, j < length rs ->
        (has_data (cal_source_of src) j -> entry1 (cf_calseries c) j = Fin 1 /\ calibrated c_from_sp sp_from_c src k j) /\
        (~ has_data (cal_source_of src) j -> entry1 (cf_calseries c) j = Fin 0 /\ missing k j).
End Spec.
