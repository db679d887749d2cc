(* Model of pyowc/configuration.py *)
From Coq Require Import String Ascii.
From Coq Require Import ZArith List Bool Lia.
From Verif Require Import Num Np Helper.
Import ListNotations.

(* ---- Python objects: dictionaries and lists live at addresses, the rest are values ---- *)
Definition addr := nat.
(* VDec a b is the float literal a/b *)
Inductive value : Type := VInt (z : Z) | VDec (a b : Z) | VStr (s : string) | VRef (a : addr).
Inductive object : Type := OList (l : list value) | ODict (l : list (string * value)).
(* objects are never freed *)
Definition heap := list object.
Definition alloc (h : heap) (o : object) : heap * value := ((h ++ [o])%list, VRef (length h)).
(* cfg.items() *)
Definition items (h : heap) (v : value) : list (string * value) :=
  match v with
  | VRef a => match nth_error h a with Some (ODict l) => l | _ => [] end
  | _ => []
  end.

Local Open Scope string_scope.
(* configuration.py 18-122, load: the literal, then collections.OrderedDict(sorted(cfg.items())).
   The tuples are compared by their keys, which differ; strings by code points. *)
Definition load (h : heap) : heap * value :=
  let (h, b1) := alloc h (OList [VInt 0; VInt 5]) in
  let (h, b2) := alloc h (OList [VInt 5; VInt 20]) in
  let (h, bounds) := alloc h (OList [b1; b2]) in
  let (h, cfg) := alloc h (ODict
    [("HISTORICAL_DIRECTORY", VStr "data/climatology/");
     ("HISTORICAL_CTD_PREFIX", VStr "/historical_ctd/ctd_");
     ("HISTORICAL_BOTTLE_PREFIX", VStr "/historical_bot/bot_");
     ("HISTORICAL_ARGO_PREFIX", VStr "/historical_argo/argo_");
     ("FLOAT_SOURCE_DIRECTORY", VStr "data/float_source/");
     ("FLOAT_SOURCE_POSTFIX", VStr ".mat");
     ("FLOAT_MAPPED_DIRECTORY", VStr "data/float_mapped/");
     ("FLOAT_MAPPED_PREFIX", VStr "map_");
     ("FLOAT_MAPPED_POSTFIX", VStr ".mat");
     ("FLOAT_CALIB_DIRECTORY", VStr "data/float_calib");
     ("FLOAT_CALIB_PREFIX", VStr "cal_");
     ("FLOAT_CALSERIES_PREFIX", VStr "calseries_");
     ("FLOAT_CALIB_POSTFIX", VStr ".mat");
     ("FLOAT_PLOTS_DIRECTORY", VStr "data/float_plots/");
     ("FLOAT_PLOTS_FORMAT", VStr "eps");
     ("CONFIG_DIRECTORY", VStr "data/constants/");
     ("CONFIG_COASTLINES", VStr "coastdat.mat");
     ("CONFIG_WMO_BOXES", VStr "wmo_boxes.mat");
     ("CONFIG_SAF", VStr "TypicalProfileAroundSAF.mat");
     ("CONFIG_MAX_CASTS", VInt 300);
     ("MAP_USE_PV", VInt 0);
     ("MAP_USE_SAF", VInt 0);
     ("MAPSCALE_LONGITUDE_LARGE", VInt 8);
     ("MAPSCALE_LONGITUDE_SMALL", VInt 4);
     ("MAPSCALE_LATITUDE_LARGE", VInt 4);
     ("MAPSCALE_LATITUDE_SMALL", VInt 2);
     ("MAPSCALE_PHI_LARGE", VDec 1 10);
     ("MAPSCALE_PHI_SMALL", VDec 2 100);
     ("MAPSCALE_AGE_LARGE", VInt 20);
     ("MAPSCALE_AGE_SMALL", VInt 10);
     ("MAP_P_EXCLUDE", VInt 100);
     ("MAP_P_DELTA", VInt 250);
     ("THETA_BOUNDS", bounds)]) in
  alloc h (ODict (sort_by (fun a b => String.ltb (fst a) (fst b)) (items h cfg))).

(* a program using load: calls, and assignments of new contents to existing objects *)
Inductive op : Type := Load | Assign (a : addr) (o : object).
Definition step (h : heap) (o : op) : heap :=
  match o with Load => fst (load h) | Assign a o => set_nth a o h end.
Definition execute (ops : list op) (h : heap) : heap := fold_left step ops h.

(* configuration.py 10-15, print_cfg; show is the conversion of a value to a string.
   f"{k:>30}" pads on the left to 30 characters. *)
Fixpoint spaces (n : nat) : string := match n with O => "" | S k => String " " (spaces k) end.
Definition pad_left (n : nat) (s : string) : string := spaces (n - String.length s) ++ s.
Definition newline : string := String "010" "".
Definition print_cfg {V} (show : V -> string) (config : list (string * V)) : string :=
  newline ++ fold_right append "" (map (fun e => pad_left 30 (fst e) ++ ": " ++ show (snd e) ++ newline) config).
Local Close Scope string_scope.

(* ---- set_calseries ---- *)
Section Calseries.
  Context {T : Type} `{Num T}.

  (* the content of a calseries file.  Two-dimensional arrays are lists of rows; calseries and
     calib_profile_no are flattened on reading.  use_percent_gt may be absent. *)
  Record calfile : Type := mkCal {
    cf_breaks : list (list T); cf_max_breaks : list (list T); cf_calseries : list T; cf_no : list T;
    cf_theta_lt : list (list T); cf_theta_gt : list (list T); cf_pres_lt : list (list T); cf_pres_gt : list (list T);
    cf_percent : option (list (list T)) }.
  (* the float source: profile numbers, and one column per profile *)
  Record cal_source : Type := mkCalSource {
    cs_no : list T; cs_sal : list (list T); cs_temp : list (list T); cs_pres : list (list T) }.

  (* np.argsort with the default, unstable, algorithm *)
  Variable unstable_argsort : list T -> list nat.

  (* configuration.py 205-219: len is the number of rows *)
  Definition check_bound (b : list (list T)) : list (list T) := if Nat.ltb 1 (length b) then [] else b.

  Definition column (a : list (list T)) (i : nat) : res (list T) :=
    match nth_error a i with Some c => Ok c | None => Raise IndexError end.
  Definition no_values (c : list T) : bool := Nat.eqb (length (argwhere (fun x => negb (nisnan x)) c)) 0.

  (* configuration.py 243-258: one profile *)
  Definition flag_profile (src : cal_source) (calseries : list T) (i : nat) : res (list T) :=
    let* sal := column (cs_sal src) i in
    let* temp := column (cs_temp src) i in
    let* pres := column (cs_pres src) i in
    if no_values sal || no_values temp || no_values pres then
      if Nat.ltb i (length calseries) then Ok (set_nth i (nofZ 0) calseries) else Raise IndexError
    else Ok calseries.
  Fixpoint flag_profiles (src : cal_source) (calseries : list T) (l : list nat) : res (list T) :=
    match l with
    | [] => Ok calseries
    | i :: l => let* c := flag_profile src calseries i in flag_profiles src c l
    end.

  (* configuration.py 131-268, from what is in the calseries file (None: no file) to what is saved.
     The test for a missing use_percent_gt (175-180) catches another exception than the one raised.
     Arrays have no append (233).  savemat writes one-dimensional arrays as rows and scalars as 1x1
     arrays, and an empty list as an array without rows. *)
  Definition set_calseries (src : cal_source) (file : option calfile) : res calfile :=
    let* c := match file with
              | Some c => match cf_percent c with Some _ => Ok c | None => Raise KeyError end
              | None => Ok (mkCal [] [[nofZ 4]] (map (fun _ => nofZ 1) (cs_no src)) (cs_no src) [] [] [] []
                                  (Some [[nq 1 2]]))
              end in
    let theta_lt := check_bound (cf_theta_lt c) in
    let theta_gt := check_bound (cf_theta_gt c) in
    let pres_lt := check_bound (cf_pres_lt c) in
    let pres_gt := check_bound (cf_pres_gt c) in
    let missing := argwhere (fun p => negb (existsb (fun q => neqb q p) (cf_no c))) (cs_no src) in
    if negb (Nat.eqb (length missing) 0) then Raise AttributeError
    else
      let sorted := unstable_argsort (cf_no c) in
      let* no := index_array nnan (cf_no c) sorted in
      let* calseries := index_array nnan (cf_calseries c) sorted in
      let* calseries := flag_profiles src calseries (seq 0 (length (cs_no src))) in
      Ok (mkCal (cf_breaks c) (cf_max_breaks c) calseries no theta_lt theta_gt pres_lt pres_gt (cf_percent c)).
End Calseries.
Arguments calfile T : clear implicits.
Arguments cal_source T : clear implicits.
