(* Model of start_with_pycharm.py: several floats are mapped by a pool of processes, then calibrated and
   plotted one after another *)
From Coq Require Import String Ascii.
From Coq Require Import ZArith List Bool.
From Verif Require Import Num Np Helper MapProfile Mapping Config Calib Pyplot Plots Dashboard.
Import ListNotations.

Section Pipeline.
  Context {T : Type} {NT : Num T} {NTT : NumT T}.

  (* ---- the files ---- *)
  (* a .mat file of one of the four kinds.  Simplification: a file of another kind than the expected one
     counts as missing (the code would raise KeyError). *)
  Inductive content : Type :=
    | CSource (s : source T) (p : positions T) | CMapped (d : Mapping.mapped T) | CSeries (c : calfile T) | CCalib (k : calib T).
  (* by normalised path *)
  Definition disk := list string -> option content.
  Definition put_file (w : disk) (p : list string) (c : content) : disk := fun q => if path_eqb q p then Some c else w q.
  Definition as_source (o : option content) : option (source T * positions T) :=
    match o with Some (CSource s p) => Some (s, p) | _ => None end.
  Definition as_mapped (o : option content) : option (Mapping.mapped T) := match o with Some (CMapped d) => Some d | _ => None end.
  Definition as_series (o : option content) : option (calfile T) := match o with Some (CSeries c) => Some c | _ => None end.
  Definition as_calib (o : option content) : option (calib T) := match o with Some (CCalib k) => Some k | _ => None end.

  Variable cwd : list string.
  Variable cp : cal_paths.
  Variable float_dir : string.            (* "/" in the script *)
  (* the files as calc_piecewisefit and the dashboard see them *)
  Definition view (w : disk) : Calib.files T :=
    mkFiles (fun p => as_source (w (abspath cwd p))) (fun p => as_mapped (w (abspath cwd p)))
            (fun p => as_series (w (abspath cwd p))) (fun p => as_calib (w (abspath cwd p))).
  Definition mapping_paths : map_paths := mkMapPaths (cp_mapped_dir cp) (cp_mapped_prefix cp) (cp_mapped_postfix cp).

  (* ---- a process: what it does with the files, one at a time ---- *)
  Inductive act : Type :=
    | Done (r : res unit)
    | ReadFile (p : list string) (k : option content -> act)
    | WriteFile (p : list string) (c : content) (k : act).

  (* the settings and the calculation of a profile (profile_levels of MapProfile.v; it knows the float's
     name and reads the files of the configuration and of the reference data, which nothing writes) *)
  Variable map_cfg : map_config T.
  Variable calc : string -> source T -> nat -> res (nat -> res (option (level_out T))).
  Variable argsort : list T -> list nat.

  (* calibration.py 31-370, update_salinity_mapping: the source file is read (57-61), the mapped file
     (107-114), and the new mapped file is written (365-370) *)
  Definition mapping_act (name : string) : act :=
    ReadFile (abspath cwd (source_path cp float_dir name)) (fun o =>
      match as_source o with
      | None => Done (Raise FileNotFoundError)
      | Some (s, _) =>
          ReadFile (load_path cwd mapping_paths float_dir name) (fun o =>
            match Mapping.run (map_values map_cfg) (src_levels s) (calc name s) argsort (as_mapped o) (src_no s) with
            | Raise e => Done (Raise e)
            | Ok d => WriteFile (save_path cwd mapping_paths name) (CMapped d) (Done (Ok tt))
            end)
      end).

  (* ---- multiprocessing.Pool.map, start_with_pycharm.py 19-23 ---- *)
  (* A chunk is a part of the list which one process works through; an exception ends the chunk.  The
     processes take their steps in any order; that no more chunks are worked on at a time than there are
     processes is not required here.  Reading and writing a file are single steps.  map waits for all
     chunks, also after an exception (Python 3.6 and later). *)
  Record chunk : Type := mkChunk { ch_todo : list act; ch_failed : option exc }.
  Record pool : Type := mkPool { pl_chunks : list chunk; pl_disk : disk }.
  Inductive chunk_step (w : disk) : list act -> chunk -> disk -> Prop :=
    | step_read p k l : chunk_step w (ReadFile p k :: l) (mkChunk (k (w p) :: l) None) w
    | step_write p c k l : chunk_step w (WriteFile p c k :: l) (mkChunk (k :: l) None) (put_file w p c)
    | step_done l : chunk_step w (Done (Ok tt) :: l) (mkChunk l None) w
    | step_fail e l : chunk_step w (Done (Raise e) :: l) (mkChunk [] (Some e)) w.
  Inductive pool_step : pool -> pool -> Prop :=
    | pool_one a l b w c w' : chunk_step w l c w' ->
        pool_step (mkPool (a ++ mkChunk l None :: b) w) (mkPool (a ++ c :: b) w').
  Inductive pool_steps : pool -> pool -> Prop :=
    | steps_none s : pool_steps s s
    | steps_more s t u : pool_step s t -> pool_steps t u -> pool_steps s u.
  Definition pool_finished (s : pool) : Prop := Forall (fun c => ch_todo c = []) (pl_chunks s).
  Definition pool_start (chunks : list (list string)) (w : disk) : pool :=
    mkPool (map (fun l => mkChunk (map mapping_act l) None) chunks) w.
  (* the exception is that of one of the chunks that failed *)
  Definition pool_outcome (s : pool) (r : res unit) : Prop :=
    match r with
    | Ok _ => forall c, In c (pl_chunks s) -> ch_failed c = None
    | Raise e => exists c, In c (pl_chunks s) /\ ch_failed c = Some e
    end.
  Definition pool_map (names : list string) (w : disk) (r : res unit) (w' : disk) : Prop :=
    exists chunks s, concat chunks = names /\ pool_steps (pool_start chunks w) s /\ pool_finished s /\ pool_outcome s r /\ pl_disk s = w'.

  (* ---- the loop, start_with_pycharm.py 30-35 ---- *)
  Variable rng : Type.
  (* piecewisefit of Calib.v with its oracles *)
  Variable fit : source T -> positions T -> Mapping.mapped T -> res (calfile T) -> rng -> res (calib T) * rng.
  (* the plots, as in Dashboard.v *)
  Variable interp1d : list T -> list T -> T -> res T.
  Variable interp1d_nan : list T -> list T -> T -> T.
  Variable show_bounds : T * T -> string.
  Variable plots : @plot_paths T.
  Variable show_closes : bool.

  Record world : Type := mkWorld { wd_disk : disk; wd_rng : rng; wd_session : session (item T) }.

  (* configuration.py 147-268, set_calseries with its files *)
  Definition set_step (name : string) (s : world) : res unit * world :=
    match (let* q := found (as_source (wd_disk s (abspath cwd (source_path cp float_dir name)))) in
           let src := fst q in
           Config.set_calseries argsort (mkCalSource (src_no src) (src_sal src) (src_tmp src) (src_pres src))
             (as_series (wd_disk s (abspath cwd (set_calseries_path cp float_dir name))))) with
    | Raise e => (Raise e, s)
    | Ok c => (Ok tt, mkWorld (put_file (wd_disk s) (abspath cwd (set_calseries_path cp float_dir name)) (CSeries c)) (wd_rng s) (wd_session s))
    end.
  (* calibration.py 378-743 *)
  Definition calib_step (name : string) (s : world) : res unit * world :=
    let '(out, fl, g) := calc_piecewisefit fit cp float_dir name (view (wd_disk s)) (wd_rng s) in
    (out, mkWorld (match out, fl_calib fl (calib_path cp float_dir name) with
                   | Ok _, Some k => put_file (wd_disk s) (abspath cwd (calib_path cp float_dir name)) (CCalib k)
                   | _, _ => wd_disk s
                   end) g (wd_session s)).
  (* dashboard.py 15-136 with levels=2; the plots are no .mat files *)
  Definition dash_step (name : string) (s : world) : res unit * world :=
    let '(out, ses) := prun show_closes (dashboard interp1d interp1d_nan argsort show_bounds (view (wd_disk s)) cp float_dir name 2 plots)
                            (wd_session s) in
    (out, mkWorld (wd_disk s) (wd_rng s) ses).
  Definition andthen (a : res unit * world) (k : world -> res unit * world) : res unit * world :=
    match a with (Ok _, s) => k s | (Raise e, s) => (Raise e, s) end.
  Definition float_step (name : string) (s : world) : res unit * world :=
    andthen (andthen (set_step name s) (calib_step name)) (dash_step name).
  Fixpoint float_loop (names : list string) (s : world) : res unit * world :=
    match names with
    | [] => (Ok tt, s)
    | name :: l => andthen (float_step name s) (float_loop l)
    end.

  (* start_with_pycharm.py 13-35.  Pool(0), on a machine with a single processor, is a ValueError. *)
  Inductive script (cpus : nat) (names : list string) (s : world) : res unit -> world -> Prop :=
    | script_no_pool : cpus <= 1 -> script cpus names s (Raise ValueError) s
    | script_mapping e w : 1 < cpus -> pool_map names (wd_disk s) (Raise e) w ->
        script cpus names s (Raise e) (mkWorld w (wd_rng s) (wd_session s))
    | script_loop w r s' : 1 < cpus -> pool_map names (wd_disk s) (Ok tt) w ->
        float_loop names (mkWorld w (wd_rng s) (wd_session s)) = (r, s') ->
        script cpus names s r s'.
End Pipeline.
Arguments content T : clear implicits.
Arguments disk T : clear implicits.
Arguments act T : clear implicits.
Arguments chunk T : clear implicits.
Arguments pool T : clear implicits.
Arguments world T rng : clear implicits.
Arguments mkWorld {T rng} wd_disk wd_rng wd_session.
Arguments wd_disk {T rng} w.
Arguments wd_rng {T rng} w.
Arguments wd_session {T rng} w.
