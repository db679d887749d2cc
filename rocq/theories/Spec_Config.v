(* What load and set_calseries of pyowc/configuration.py should do *)
From Coq Require Import String Ascii.
From Coq Require Import ZArith List Bool Reals Permutation.
From Verif Require Import Num Np Config.
Import ListNotations.

(* ---- load ---- *)
(* the contents of a value, all references followed *)
Inductive tree : Type := TInt (z : Z) | TDec (a b : Z) | TStr (s : string) | TList (l : list tree) | TDict (l : list (string * tree)).
Inductive reads (h : heap) : value -> tree -> Prop :=
  | reads_int z : reads h (VInt z) (TInt z)
  | reads_dec a b : reads h (VDec a b) (TDec a b)
  | reads_str s : reads h (VStr s) (TStr s)
  | reads_list a l ts : nth_error h a = Some (OList l) -> Forall2 (reads h) l ts -> reads h (VRef a) (TList ts)
  | reads_dict a l ts : nth_error h a = Some (ODict l) -> Forall2 (fun e t => fst e = fst t /\ reads h (snd e) (snd t)) l ts ->
      reads h (VRef a) (TDict ts).

Local Open Scope string_scope.
(* the documented configuration *)
Definition parameters : list (string * tree) :=
  [("CONFIG_COASTLINES", TStr "coastdat.mat"); ("CONFIG_DIRECTORY", TStr "data/constants/"); ("CONFIG_MAX_CASTS", TInt 300);
   ("CONFIG_SAF", TStr "TypicalProfileAroundSAF.mat"); ("CONFIG_WMO_BOXES", TStr "wmo_boxes.mat");
   ("FLOAT_CALIB_DIRECTORY", TStr "data/float_calib"); ("FLOAT_CALIB_POSTFIX", TStr ".mat"); ("FLOAT_CALIB_PREFIX", TStr "cal_");
   ("FLOAT_CALSERIES_PREFIX", TStr "calseries_"); ("FLOAT_MAPPED_DIRECTORY", TStr "data/float_mapped/");
   ("FLOAT_MAPPED_POSTFIX", TStr ".mat"); ("FLOAT_MAPPED_PREFIX", TStr "map_"); ("FLOAT_PLOTS_DIRECTORY", TStr "data/float_plots/");
   ("FLOAT_PLOTS_FORMAT", TStr "eps"); ("FLOAT_SOURCE_DIRECTORY", TStr "data/float_source/"); ("FLOAT_SOURCE_POSTFIX", TStr ".mat");
   ("HISTORICAL_ARGO_PREFIX", TStr "/historical_argo/argo_"); ("HISTORICAL_BOTTLE_PREFIX", TStr "/historical_bot/bot_");
   ("HISTORICAL_CTD_PREFIX", TStr "/historical_ctd/ctd_"); ("HISTORICAL_DIRECTORY", TStr "data/climatology/");
   ("MAPSCALE_AGE_LARGE", TInt 20); ("MAPSCALE_AGE_SMALL", TInt 10);
   ("MAPSCALE_LATITUDE_LARGE", TInt 4); ("MAPSCALE_LATITUDE_SMALL", TInt 2);
   ("MAPSCALE_LONGITUDE_LARGE", TInt 8); ("MAPSCALE_LONGITUDE_SMALL", TInt 4);
   ("MAPSCALE_PHI_LARGE", TDec 1 10); ("MAPSCALE_PHI_SMALL", TDec 2 100);
   ("MAP_P_DELTA", TInt 250); ("MAP_P_EXCLUDE", TInt 100); ("MAP_USE_PV", TInt 0); ("MAP_USE_SAF", TInt 0);
   ("THETA_BOUNDS", TList [TList [TInt 0; TInt 5]; TList [TInt 5; TInt 20]])].
Local Close Scope string_scope.
Definition key_lt (a b : string * tree) : Prop := String.ltb (fst a) (fst b) = true.

(* the assignments do not touch the objects at addresses from a up to b *)
Definition leaves (a b : addr) (ops : list op) : Prop :=
  forall x o, In (Assign x o) ops -> ~ (a <= x < b).

(* ---- set_calseries ---- *)
Definition has_value {T} `{Num T} (c : list T) : Prop := exists x, In x c /\ nisnan x = false.
(* profile i of the source has salinity, temperature and pressure *)
Definition has_data {T} `{Num T} (src : cal_source T) (i : nat) : Prop :=
  has_value (nth i (cs_sal src) []) /\ has_value (nth i (cs_temp src) []) /\ has_value (nth i (cs_pres src) []).
(* one column per profile *)
Definition complete {T} (src : cal_source T) : Prop :=
  length (cs_sal src) = length (cs_no src) /\ length (cs_temp src) = length (cs_no src) /\ length (cs_pres src) = length (cs_no src).

Local Open Scope R_scope.
(* a calseries file with its (profile number, flag) entries and the other settings *)
Record others : Type := mkOthers {
  o_breaks : list (list XR); o_max : list (list XR); o_tlt : list (list XR); o_tgt : list (list XR);
  o_plt : list (list XR); o_pgt : list (list XR); o_percent : list (list XR) }.
Definition file_of (es : list (R * R)) (o : others) : calfile XR :=
  mkCal (o_breaks o) (o_max o) (map (fun e => Fin (snd e)) es) (map (fun e => Fin (fst e)) es)
        (o_tlt o) (o_tgt o) (o_plt o) (o_pgt o) (Some (o_percent o)).
(* no boundary of several rows *)
Definition single (b : list (list XR)) : Prop := (length b <= 1)%nat.
Definition bounds_single (o : others) : Prop := single (o_tlt o) /\ single (o_tgt o) /\ single (o_plt o) /\ single (o_pgt o).
Definition default_settings : others := mkOthers [] [[Fin 4]] [] [] [] [] [[Fin (1 / 2)]].
Definition ascends (rs : list R) : Prop := forall i j, (i < j < length rs)%nat -> nth i rs 0 < nth j rs 0.
(* the number of profiles with a smaller number *)
Definition rank (rs : list R) (r : R) : nat := length (filter (fun x => if Rlt_dec x r then true else false) rs).
(* boundaries of several rows are dropped *)
Definition one_row (b : list (list XR)) : list (list XR) := match b with _ :: _ :: _ => [] | _ => b end.
Definition reset (o : others) : others :=
  mkOthers (o_breaks o) (o_max o) (one_row (o_tlt o)) (one_row (o_tgt o)) (one_row (o_plt o)) (one_row (o_pgt o)) (o_percent o).
(* k calls, each one reading the file the last one wrote *)
Fixpoint calls (qs : list XR -> list nat) (src : cal_source XR) (k : nat) (f : option (calfile XR)) : res (option (calfile XR)) :=
  match k with
  | O => Ok f
  | S k => match set_calseries qs src f with Ok f' => calls qs src k (Some f') | Raise e => Raise e end
  end.
Local Close Scope R_scope.

(* ---- print_cfg ---- *)
Definition is_newline (c : ascii) : bool := Ascii.eqb c "010".
Fixpoint one_line (s : string) : bool := match s with EmptyString => true | String c s => negb (is_newline c) && one_line s end.
(* the text cut at its newlines *)
Fixpoint lines (s : string) : list string :=
  match s with
  | EmptyString => [EmptyString]
  | String c s => if is_newline c then EmptyString :: lines s
                  else match lines s with l :: r => String c l :: r | [] => [String c EmptyString] end
  end.
Fixpoint all_blank (s : string) : bool := match s with EmptyString => true | String c s => Ascii.eqb c " " && all_blank s end.
