(* A reference database with the same constant added to all its salinities *)
From Coq Require Import String Ascii.
From Coq Require Import ZArith List Bool Reals.
From Verif Require Import Num Np Fetchers MapProfile Mapping Spec_Stats Spec_Mapping.
Import ListNotations.
Local Open Scope R_scope.

Definition raised (c : R) (x : XR) : XR := nadd x (Fin c).
Definition raised_mat (c : R) (m : mat XR) : mat XR :=
  match m with
  | MScal x => MScal (raised c x)
  | MVec l => MVec (map (raised c) l)
  | Mat cols => Mat (map (map (raised c)) cols)
  end.
Definition biased (c : R) (d : ref_data XR) : ref_data XR :=
  mkRef (d_lat d) (d_long d) (d_dates d) (d_pres d) (raised_mat c (d_sal d)) (d_ptmp d) (d_source d).
(* every file *)
Definition biased_database (c : R) (read_mat : string -> res (ref_data XR)) : string -> res (ref_data XR) :=
  fun path => match read_mat path with Ok d => Ok (biased c d) | Raise e => Raise e end.

(* the positions in the database are numbers *)
Definition number (x : XR) : Prop := exists r, x = Fin r.
Definition entries (v : vec XR) : list XR := match v with Scal x => [x] | Vec l => l end.
Definition positions_known (read_mat : string -> res (ref_data XR)) : Prop :=
  forall path d, read_mat path = Ok d -> Forall number (entries (d_lat d)) /\ Forall number (entries (d_long d)).
(* so are those of the float *)
Definition float_known (s : source XR) : Prop :=
  forall i fd, get_float_data s i = Ok fd -> number (fd_lat fd) /\ number (fd_long fd) /\ number (fd_date fd).
(* the depths are numbers, and not zero if they are used *)
Definition soundings (interp2d : list XR -> list XR -> list (list Z) -> XR -> XR -> res XR) (used : bool) : Prop :=
  forall x y e a b v, interp2d x y e a b = Ok v -> exists r, v = Fin r /\ (used = true -> r <> 0).

(* a level mapped with the same constant in its salinity *)
Definition raised_level (c : R) (o : level_out XR) : level_out XR :=
  mkLevelOut (lo_ptmp o) (raised c (lo_sal o)) (lo_err o) (lo_noise o) (lo_signal o) (lo_points o).
(* two outcomes of one level, from the database and from the biased one: mapped both or not at all,
   the noise of a mapped level is a number, and if it is positive the bias is in the salinity only *)
Definition same_level (c : R) (r r' : res (option (level_out XR))) : Prop :=
  (r = Ok None <-> r' = Ok None) /\
  (forall o, r = Ok (Some o) -> number (lo_noise o)) /\
  forall o nv, r = Ok (Some o) -> lo_noise o = Fin nv -> 0 < nv -> r' = Ok (Some (raised_level c o)) /\ number (lo_sal o).
(* every noise in the file is positive, where there is one *)
Definition positive_noise (d : mapped XR) : Prop :=
  forall j l, match nth l (nth j (m_cols (la_noise_sal d)) []) NaN with Fin nv => 0 < nv | NaN => True | _ => False end.
(* the second file differs from the first only in the mapped salinities *)
Definition same_but_salinity (d d' : mapped XR) : Prop :=
  la_ptmp d' = la_ptmp d /\ la_map_sal_errors d' = la_map_sal_errors d /\ la_noise_sal d' = la_noise_sal d /\
  la_signal_sal d' = la_signal_sal d /\ la_profile_no d' = la_profile_no d /\ settings d' = settings d /\
  selected_hist d' = selected_hist d.
