(* dashboard.py 15-41 and 45-136: the files plot_diagnostics reads, and what it makes of them *)
From Coq Require Import String List.
From Verif Require Import Num Np MapProfile Mapping Config Calib Pyplot Plots.
Import ListNotations.
Local Open Scope string_scope.

(* dashboard.py 30-31, 32-33, 34-35 and 36-37 *)
Definition dash_grid_path (p : cal_paths) (name : string) : string :=
  path_join [cp_mapped_dir p; cp_mapped_prefix p ++ name ++ cp_mapped_postfix p].
Definition dash_source_path (p : cal_paths) (dir name : string) : string := path_join [cp_source_dir p; dir; name ++ cp_source_postfix p].
Definition dash_cal_path (p : cal_paths) (dir name : string) : string :=
  path_join [cp_calib_dir p; dir; cp_calib_prefix p ++ name ++ cp_source_postfix p].
Definition dash_series_path (p : cal_paths) (dir name : string) : string :=
  path_join [cp_calib_dir p; dir; cp_calseries_prefix p ++ name ++ cp_source_postfix p].

Section Dashboard.
  Context {T : Type} {NT : Num T}.
  (* as in Plots.v *)
  Variable interp1d : list T -> list T -> T -> res T.
  Variable interp1d_nan : list T -> list T -> T -> T.
  Variable argsort : list T -> list nat.
  Variable show_bounds : T * T -> string.
  (* dashboard.py 39-42: the four files are read before anything is drawn.  A file is known by the text of
     its path. *)
  Definition dashboard (fl : Calib.files T) (p : cal_paths) (dir name : string) (levels : nat) (pp : plot_paths) : prog (item T) :=
    pbind (let* d := found (fl_mapped fl (dash_grid_path p name)) in
           let* s := found (fl_source fl (dash_source_path p dir name)) in
           let* k := found (fl_calib fl (dash_cal_path p dir name)) in
           let* c := found (fl_calseries fl (dash_series_path p dir name)) in
           Ok (d, s, k, c)) (fun q =>
      let '(d, s, k, c) := q in
      plot_diagnostics interp1d interp1d_nan argsort show_bounds (fst s) (snd s) d c k levels pp name).
End Dashboard.
