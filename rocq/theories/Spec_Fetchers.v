(* What the reference database functions are meant to return.  A cast is a position, a date and a
   list of levels; a file of the database is a list of casts. *)
From Coq Require Import String Ascii ZArith List Bool.
From Verif Require Import Num Utilities Topo Fetchers.
Import ListNotations.

(* [sub] occurs in [s] *)
Definition occurs (sub s : string) : Prop := exists a b, s = (a ++ sub ++ b)%string.
(* [other] recognises the sources that are not the float under study *)
Definition excludes (name : string) (other : string -> bool) : Prop := forall s, other s = true <-> ~ occurs name s.

Section Spec.
  Context {T : Type} `{Num T}.

  (* one level: pressure, salinity, potential temperature *)
  Record level : Type := mkLevel { l_pres : T; l_sal : T; l_ptmp : T }.
  Record cast : Type := mkCast { c_lat : T; c_long : T; c_date : T; c_levels : list level; c_source : string }.

  (* the dictionary read for a file that holds a list of casts *)
  Definition stored (cs : list cast) : ref_data T :=
    mkRef (squeeze_row (map c_lat cs)) (squeeze_row (map c_long cs)) (squeeze_row (map c_date cs))
          (squeeze (map (fun c => map l_pres (c_levels c)) cs)) (squeeze (map (fun c => map l_sal (c_levels c)) cs))
          (squeeze (map (fun c => map l_ptmp (c_levels c)) cs)) (map c_source cs).

  (* a database: for every file name, the casts, if the file is there and readable.  The casts of a
     file have the same number of levels (missing ones are NaN). *)
  Definition database := string -> option (list cast).
  Definition matrix (cs : list cast) : Prop := exists m, forall c, In c cs -> length (c_levels c) = m.
  Definition reads (db : database) (read_mat : string -> res (ref_data T)) : Prop :=
    forall path, match db path with
                 | Some cs => matrix cs /\ read_mat path = Ok (stored cs)
                 | None => exists e, read_mat path = Raise e
                 end.
  (* the same database without the files that hold a single cast *)
  Definition without_single (db : database) : database := fun path =>
    match db path with Some [_] => None | x => x end.
  (* two-dimensional arrays of the casts [cs] *)
  Definition arrays (d : ref_data T) (cs : list cast) : Prop :=
    d_lat d = Vec (map c_lat cs) /\ d_long d = Vec (map c_long cs) /\ d_dates d = Vec (map c_date cs) /\
    d_pres d = Mat (map (fun c => map l_pres (c_levels c)) cs) /\
    d_sal d = Mat (map (fun c => map l_sal (c_levels c)) cs) /\
    d_ptmp d = Mat (map (fun c => map l_ptmp (c_levels c)) cs).

  Definition of_file (db : database) (path : string) : list cast :=
    match db path with Some cs => cs | None => [] end.
  (* a file with a single cast is not used *)
  Definition several (cs : list cast) : list cast := match cs with [_] => [] | _ => cs end.
  (* the levels of a cast can be read if there are at least two of them *)
  Definition loadable (c : cast) : bool := Nat.leb 2 (length (c_levels c)).
  Definition one_level (c : cast) : bool := Nat.eqb (length (c_levels c)) 1.
  Definition if_used (flag : T) (cs : list cast) : list cast := if neqb flag (nofZ 1) then cs else [].
  (* the casts of one box: CTD, bottle unless they have one level, Argo without the float under study
     and with at least two levels *)
  Definition box_casts (db : database) (cfg : db_config T) (other_float : string -> bool) (row : list T) : list cast :=
    match row with
    | n :: ctd :: bottle :: argo :: _ =>
        match int_of_float n with
        | Ok box =>
            let file pre := several (of_file db (box_file (historical_directory cfg) pre box)) in
            if_used ctd (file (ctd_prefix cfg)) ++
            if_used bottle (filter (fun c => negb (one_level c)) (file (bottle_prefix cfg))) ++
            if_used argo (filter (fun c => other_float (c_source c) && loadable c) (file (argo_prefix cfg)))
        | Raise _ => []
        end
    | _ => []
    end.
  Definition region_casts db cfg other_float (boxes : list (list T)) : list cast :=
    flat_map (box_casts db cfg other_float) boxes.
  Definition four_columns (boxes : list (list T)) : Prop := forall row, In row boxes -> (4 <= length row)%nat.

  (* the casts numbered by [index], in ascending order *)
  Definition numbered (index : list nat) (cs : list cast) : list cast :=
    map snd (filter (fun p => existsb (Nat.eqb (fst p)) index) (combine (seq 0 (length cs)) cs)).
  (* those of them that are loaded *)
  Definition selected (index : list nat) (cs : list cast) : list cast := filter loadable (numbered index cs).

  (* the levels used of a cast: those with a pressure, no deeper than the limit *)
  Definition levels (limit : T) (c : cast) : list level :=
    filter (fun l => negb (nisnan (l_pres l)) && negb (nltb limit (l_pres l))) (c_levels c).
  Definition complete (l : level) : bool :=
    negb (nisnan (l_pres l)) && negb (nisnan (l_sal l)) && negb (nisnan (l_ptmp l)).
  (* an incomplete level is blanked *)
  Definition blank (l : level) : level := if complete l then l else mkLevel nnan nnan nnan.
  Definition has_data (limit : T) (c : cast) : bool := existsb complete (levels limit c).
  Definition depth (limit : T) (cs : list cast) : nat := list_max (map (fun c => length (levels limit c)) cs).
  (* the column stored for a cast: its levels, then NaN *)
  Definition col (limit : T) (d : nat) (c : cast) : list level :=
    map blank (levels limit c) ++ repeat (mkLevel nnan nnan nnan) (d - length (levels limit c)).
End Spec.
Arguments level T : clear implicits.
Arguments cast T : clear implicits.
Arguments database T : clear implicits.

(* numbers with a single NaN, recognised as one *)
Class NumNan (T : Type) `{Num T} : Prop := {
  nan_isnan : nisnan (nnan : T) = true;
  nan_unique : forall x : T, nisnan x = true -> x = nnan }.
#[global] Instance XR_NumNan : NumNan XR.
Proof. constructor; [reflexivity|]. intros [r| | |]; cbn; intros E; try discriminate; reflexivity. Qed.
