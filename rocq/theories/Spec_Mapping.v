(* What a run of update_salinity_mapping should leave in the mapped file *)
From Coq Require Import String Ascii.
From Coq Require Import ZArith List Bool Reals Permutation.
From Verif Require Import Num Np Helper MapProfile Mapping.
Import ListNotations.

Section Spec.
  Context {T : Type} `{Num T}.

  (* an argsort: a permutation of the positions along which nothing is followed by a smaller value *)
  Definition ascending (l : list T) : Prop :=
    forall i j, i < j < length l -> slt (nth j l nnan) (nth i l nnan) = false.
  Definition sorting (f : list T -> list nat) : Prop :=
    forall l, Permutation (f l) (seq 0 (length l)) /\ ascending (map (fun i => nth i l nnan) (f l)).

  Variable levels : nat.
  Variable calc : nat -> res (nat -> res (option (level_out T))).
  Variable profile_no : list T.
  Notation n_profiles := (length profile_no).

  (* every level of every profile is calculated without an exception *)
  Definition calculated : Prop :=
    forall p, p < n_profiles -> exists lev, calc p = Ok lev /\ forall n, n < levels -> exists o, lev n = Ok o.
  (* what was calculated for level n of profile p *)
  Definition outcome (p n : nat) : option (level_out T) :=
    match calc p with Ok lev => match lev n with Ok o => o | Raise _ => None end | Raise _ => None end.
  (* the column of profile p: NaN where nothing was calculated *)
  Definition profile_column (f : level_out T -> T) (p : nat) : list T :=
    map (fun n => match outcome p n with Some o => f o | None => nnan end) (seq 0 levels).
  Definition columns (f : level_out T -> T) : list (list T) := map (profile_column f) (seq 0 n_profiles).
  (* the settings are recorded for the profiles with at least one level calculated *)
  Definition has_levels (p : nat) : bool :=
    existsb (fun n => match outcome p n with Some _ => true | None => false end) (seq 0 levels).
  Definition setting_column (v : T) : list T := map (fun p => if has_levels p then v else nnan) (seq 0 n_profiles).
  (* the points used, with the numbers of the profiles, in the order of the calculation *)
  Definition points_used : list (T * list (T * T)) :=
    flat_map (fun p => flat_map (fun n => match outcome p n with
                                          | Some o => [(nth p profile_no nnan, lo_points o)] | None => [] end)
                                (seq 0 levels)) (seq 0 n_profiles).
  Fixpoint recorded (h : list (T * list (T * T))) (start : list (record T)) : res (list (record T)) :=
    match h with
    | [] => Ok start
    | (no, pts) :: h => let* s := selected_historical_points start pts no in recorded h s
    end.

  Definition in_range (x : T) : T := if nltb x (nofZ 30) || nltb (nofZ 40) x then nnan else x.
  Definition rearranged {A} (d : A) (index : list nat) (l : list A) : list A := map (fun i => nth i l d) index.

  (* the file as it is saved by a run without mapped file: the matrices are rearranged twice *)
  Definition saved_file (values : list T) (index : list nat) (sel : list (record T)) (d : mapped T) : Prop :=
    let twice f := mkMatrix levels (rearranged [] index (rearranged [] index f)) in
    la_ptmp d = twice (columns lo_ptmp) /\
    la_mapped_sal d = twice (columns (fun o => in_range (lo_sal o))) /\
    la_map_sal_errors d = twice (columns lo_err) /\
    la_noise_sal d = twice (columns lo_noise) /\
    la_signal_sal d = twice (columns lo_signal) /\
    la_profile_no d = rearranged nnan index profile_no /\
    settings d = combine setting_names (map (fun v => rearranged nnan index (setting_column v)) values) /\
    selected_hist d = sort_by (fun a b => nltb (snd a) (snd b)) sel.
End Spec.

(* a mapped file as the program writes it: the settings are there, as many columns as profile numbers *)
Definition well_formed {T} `{Num T} (d : mapped T) : Prop :=
  (forall k, In k setting_names -> exists v, lookup k (settings d) = Some v) /\
  length (m_cols (la_ptmp d)) = length (la_profile_no d) /\
  length (m_cols (la_mapped_sal d)) = length (la_profile_no d) /\
  length (m_cols (la_map_sal_errors d)) = length (la_profile_no d) /\
  length (m_cols (la_noise_sal d)) = length (la_profile_no d) /\
  length (m_cols (la_signal_sal d)) = length (la_profile_no d).

(* k rows of missing values below *)
Definition padded {T} `{Num T} (k : nat) (m m' : matrix T) : Prop :=
  m_rows m' = m_rows m + k /\ length (m_cols m') = length (m_cols m) /\
  forall j, j < length (m_cols m) -> nth j (m_cols m') [] = nth j (m_cols m) [] ++ repeat nnan k.

(* a directory argument that contributes nothing, such as "/" *)
Definition no_directory (s : string) : Prop := Forall (fun c => c = ""%string \/ c = "."%string) (split_slash "" s).
(* a plain name: one component *)
Definition plain_name (s : string) : Prop := split_slash "" s = [s] /\ s <> ""%string /\ s <> "."%string /\ s <> ".."%string.

(* a mapped file over R is right when every column belongs to the profile whose number labels it *)
Definition labelled {A} (rs : list R) (numbers : list XR) (column : nat -> A) (stored : nat -> A) : Prop :=
  forall j p, j < length rs -> p < length rs -> nth j numbers NaN = Fin (nth p rs 0%R) -> stored j = column p.
Definition increasing (rs : list R) : Prop := forall i j, i < j < length rs -> (nth i rs 0 < nth j rs 0)%R.
(* the five matrices with what they hold *)
Definition contents (d : mapped XR) : list (matrix XR * (level_out XR -> XR)) :=
  [(la_ptmp d, lo_ptmp); (la_map_sal_errors d, lo_err); (la_noise_sal d, lo_noise); (la_signal_sal d, lo_signal);
   (la_mapped_sal d, fun o => in_range (lo_sal o))].
(* missing, or a salinity between 30 and 40 *)
Definition salinity_ok (x : XR) : Prop := x = NaN \/ exists r, x = Fin r /\ (30 <= r <= 40)%R.
(* the files are the same *)
Definition same_store {T} (a b : store T) : Prop := forall p, a p = b p.
(* every matrix has one column of [levels] entries for each of n profiles *)
Definition complete_columns (levels n : nat) (d : mapped XR) : Prop :=
  Forall (fun m => m_rows m = levels /\ length (m_cols m) = n /\ Forall (fun c => length c = levels) (m_cols m))
    [la_ptmp d; la_mapped_sal d; la_map_sal_errors d; la_noise_sal d; la_signal_sal d] /\
  map fst (settings d) = setting_names /\ Forall (fun e => length (snd e) = n) (settings d).
