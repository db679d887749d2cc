(* Model of the reference-database part of pyowc/data/fetchers.py (22-60, 162-474) *)
From Coq Require Import String Ascii.
From Coq Require Import ZArith List Bool Lia.
From Verif Require Import Num Np Utilities Topo.
Import ListNotations.
Local Open Scope num_scope.

(* The arrays of a file of the reference database.  The file holds lat, long and dates with one row
   and one column per cast, and pres, sal and ptmp with one row per level and one column per cast.
   pymatreader.read_mat reads it with squeeze_me=True: dimensions of length one are dropped, an
   array with one entry becomes a number, an array without entries a 1-d array. *)
Inductive vec (T : Type) : Type := Scal (x : T) | Vec (l : list T).
Inductive mat (T : Type) : Type := MScal (x : T) | MVec (l : list T) | Mat (cols : list (list T)).
Arguments Scal {T}. Arguments Vec {T}. Arguments MScal {T}. Arguments MVec {T}. Arguments Mat {T}.
Definition squeeze_row {T} (l : list T) : vec T := match l with [x] => Scal x | _ => Vec l end.
(* the columns have the same length *)
Definition squeeze {T} (cols : list (list T)) : mat T :=
  match cols with
  | [] => MVec []
  | [[x]] => MScal x
  | [c] => MVec c
  | c :: _ => if Nat.leb (length c) 1 then MVec (concat cols) else Mat cols
  end.

(* The dictionary read_mat returns for one file.  All keys are present and lat, long and dates have
   at most one dimension.  The lengths are arbitrary. *)
Record ref_data {T : Type} : Type := mkRef {
  d_lat : vec T; d_long : vec T; d_dates : vec T;
  d_pres : mat T; d_sal : mat T; d_ptmp : mat T;
  d_source : list string }.
Arguments ref_data T : clear implicits.
Arguments mkRef {T}.

(* The entries of the configuration used here. *)
Record db_config {T : Type} : Type := mkDbConfig {
  historical_directory : string;
  ctd_prefix : string; bottle_prefix : string; argo_prefix : string;
  map_p_delta : T }.
Arguments db_config T : clear implicits.

(* str.find(sub) != -1 *)
Fixpoint str_contains (sub s : string) : bool :=
  prefix sub s || match s with EmptyString => false | String _ r => str_contains sub r end.

Definition box_file (dir pre : string) (box : Z) : string :=
  (dir ++ "/" ++ pre ++ string_of_list_ascii (str_Z box) ++ ".mat")%string.

Section Readers.
  Context {T : Type} `{Num T}.

  (* fetchers.py 28-40, read_mat_bottle on the data read.  A number has no .size.  lat is 1-d, so
     .shape[1] raises when it is evaluated, that is when the two sizes agree; the transposition is
     never reached. *)
  Definition mat_size (m : mat T) : res nat :=
    match m with MScal _ => Raise AttributeError | MVec l => Ok (length l) | Mat cols => Ok (length (concat cols)) end.
  Definition fix_bottle (d : ref_data T) : res (ref_data T) :=
    match d_lat d with
    | Scal _ => Raise AttributeError
    | Vec l => let* n := mat_size (d_pres d) in
               if Nat.eqb (length l) n then Raise IndexError else Ok d
    end.

  (* fetchers.py 43-60, read_mat_argo on the data read: the float under study is removed.
     data['source'] is indexed up to len(lat) and can be shorter; np.delete raises IndexError for
     indices past the end; without axis it flattens its array, with axis=1 it needs two
     dimensions (AxisError, a ValueError). *)
  Definition not_use (pa_float_name : string) (n : nat) (source : list string) : list nat :=
    argwhere (str_contains pa_float_name) (firstn n source).
  Definition del {A} (l : list A) (idx : list nat) : res (list A) :=
    if forallb (fun i => Nat.ltb i (length l)) idx then Ok (np_delete l idx) else Raise IndexError.
  Definition del_row (v : vec T) (idx : list nat) : res (vec T) :=
    let* l := del (match v with Scal x => [x] | Vec l => l end) idx in Ok (Vec l).
  Definition del_cols (m : mat T) (idx : list nat) : res (mat T) :=
    match m with Mat cols => let* c := del cols idx in Ok (Mat c) | _ => Raise ValueError end.
  Definition remove_float (pa_float_name : string) (d : ref_data T) : res (ref_data T) :=
    match d_lat d with
    | Scal _ => Raise AttributeError
    | Vec l =>
        if Nat.ltb (length (d_source d)) (length l) then Raise IndexError
        else
          let nu := not_use pa_float_name (length l) (d_source d) in
          let* lat := del_row (d_lat d) nu in
          let* long := del_row (d_long d) nu in
          let* dates := del_row (d_dates d) nu in
          let* sal := del_cols (d_sal d) nu in
          let* ptmp := del_cols (d_ptmp d) nu in
          let* pres := del_cols (d_pres d) nu in
          Ok (mkRef lat long dates pres sal ptmp (d_source d))
    end.

  (* The content of the disk: what read_mat(filepath) returns or raises. *)
  Variable read_mat : string -> res (ref_data T).

  (* fetchers.py 162-208, get_data; None stands for the empty list.  The readers are cached
     (lru_cache), see Cache below; here each call reads the file.  wmo_box = [number, use ctd,
     use bottle, use argo]. *)
  Definition get_data (config : db_config T) (pa_float_name : string) (wmo_box : list T)
      (data_type : nat) : res (option (ref_data T)) :=
    match nth_error wmo_box 0 with
    | None => Raise IndexError
    | Some n =>
        let* box := int_of_float n in
        match nth_error wmo_box data_type with
        | None => Raise IndexError
        | Some flag =>
            if flag =? 1 then
              match data_type with
              | 1%nat =>
                  let* d := read_mat (box_file (historical_directory config) (ctd_prefix config) box) in
                  Ok (Some d)
              | 2%nat =>
                  let* d := read_mat (box_file (historical_directory config) (bottle_prefix config) box) in
                  let* d := fix_bottle d in
                  Ok (Some d)
              | 3%nat =>
                  let* d := read_mat (box_file (historical_directory config) (argo_prefix config) box) in
                  let* d := remove_float pa_float_name d in
                  Ok (Some d)
              | _ => Ok None
              end
            else Ok None
        end
    end.

  (* The (box, data type) pairs in the order of the two nested loops, fetchers.py 241-244, 324-327 *)
  Definition requests (pa_wmo_numbers : list (list T)) : list (list T * nat) :=
    flat_map (fun box => map (fun t => (box, t)) [1; 2; 3]%nat) pa_wmo_numbers.

  (* str() of a date, used by change_dates *)
  Variable date_str : T -> list ascii.

  (* fetchers.py 212-267, get_region_hist_locations.  Every exception of a file is swallowed
     (bare except), so the file is skipped. *)
  (* np.concatenate refuses a number; the arrays extended before stay extended *)
  Definition get_region_hist_locations (pa_wmo_numbers : list (list T)) (pa_float_name : string)
      (config : db_config T) : res (list T * list T * list T) :=
    let '(grid_lat, grid_long, grid_dates) :=
      fold_left (fun acc req =>
        let '(grid_lat, grid_long, grid_dates) := acc in
        match get_data config pa_float_name (fst req) (snd req) with
        | Ok (Some data) =>
            match d_lat data with Scal _ => acc | Vec la =>
            match d_long data with Scal _ => (grid_lat ++ la, grid_long, grid_dates) | Vec lo =>
            match d_dates data with Scal _ => (grid_lat ++ la, grid_long ++ lo, grid_dates) | Vec da =>
              (grid_lat ++ la, grid_long ++ lo, grid_dates ++ da)
            end end end%list
        | _ => acc
        end) (requests pa_wmo_numbers) ([], [], []) in
    match grid_lat with
    | [] => Raise ValueError
    | _ => Ok (grid_lat, wrap_longitude grid_long, change_dates (map date_str grid_dates))
    end.

  (* ---------------------------------------------------------------- *)
  (* fetchers.py 276-458, get_region_data *)

  (* the growing arrays; a grid is the list of its rows, one per cast (transposed at the end) *)
  Record region : Type := mkRegion {
    g_sal : list (list T); g_ptmp : list (list T); g_pres : list (list T);
    g_lat : list T; g_long : list T; g_dates : list T;
    g_max_depth : nat; g_cols : nat }.
  Definition region0 : region := mkRegion [] [] [] [] [] [] 0 0.

  (* a.reshape(rows, cols): ValueError when the size does not fit *)
  Fixpoint chunks {A} (rows cols : nat) (l : list A) : list (list A) :=
    match rows with
    | O => []
    | S r => firstn cols l :: chunks r cols (skipn cols l)
    end.
  Definition reshape {A} (rows cols : nat) (l : list A) : option (list (list A)) :=
    if Nat.eqb (length l) (rows * cols) then Some (chunks rows cols l) else None.

  (* a[idx] with bounds check *)
  Definition gather {A} (l : list A) (idx : list nat) : option (list A) :=
    if forallb (fun i => Nat.ltb i (length l)) idx
    then match l with [] => Some [] | d :: _ => Some (take d l idx) end else None.

  (* a[:, i] and a[i] *)
  Definition mat_col (m : mat T) (i : nat) : option (list T) :=
    match m with Mat cols => nth_error cols i | _ => None end.
  Definition vec_at (v : vec T) (i : nat) : option T :=
    match v with Vec l => nth_error l i | Scal _ => None end.

  (* fetchers.py 356-369: the levels of cast i that are used *)
  Definition cast_levels (max_pres : T) (d : ref_data T) (i : nat) : option (list T * list T * list T) :=
    match mat_col (d_pres d) i, mat_col (d_sal d) i, mat_col (d_ptmp d) i with
    | Some pc, Some sc, Some tc =>
        let not_nan := argwhere (fun x => negb (nisnan x)) pc in
        match gather pc not_nan, gather sc not_nan, gather tc not_nan with
        | Some pres, Some sal, Some ptmp =>
            let too_deep := argwhere (fun x => x >? max_pres) pres in
            Some (np_delete pres too_deep, np_delete sal too_deep, np_delete ptmp too_deep)
        | _, _, _ => None
        end
    | _, _, _ => None
    end.

  (* np.append(grid, NaN block, axis=1) *)
  Definition widen (k : nat) (g : list (list T)) : list (list T) :=
    map (fun r => r ++ repeat nnan k)%list g.

  (* fetchers.py 356-419: cast i of the file is added; false = an exception ended the try block,
     with the state as it was left. *)
  Definition add_cast (max_pres : T) (d : ref_data T) (i : nat) (s : region) : region * bool :=
    match cast_levels max_pres d i with
    | None => (s, false)
    | Some (pres, sal, ptmp) =>
        let max_depth := g_max_depth s in
        let new_depth := length pres in
        let rows := Nat.max new_depth max_depth in
        let grow := Nat.ltb max_depth new_depth && negb (Nat.eqb max_depth 0) in
        let w g := if grow then widen (new_depth - max_depth) g else g in
        let p l := if negb grow && Nat.ltb new_depth max_depth
                   then (l ++ repeat nnan (max_depth - new_depth))%list else l in
        let s1 := mkRegion (w (g_sal s)) (w (g_ptmp s)) (w (g_pres s)) (g_lat s) (g_long s)
                           (g_dates s) max_depth (g_cols s) in
        let put g l := if Nat.eqb (length (g_pres s)) 0 then reshape 1 (length (p pres)) (p l)
                       else reshape (g_cols s + 1) rows (concat g ++ p l)%list in
        match put (g_pres s1) pres with
        | None => (s1, false)
        | Some gp =>
        match put (g_ptmp s1) ptmp with
        | None => (mkRegion (g_sal s1) (g_ptmp s1) gp (g_lat s) (g_long s) (g_dates s) max_depth (g_cols s), false)
        | Some gt =>
        match put (g_sal s1) sal with
        | None => (mkRegion (g_sal s1) gt gp (g_lat s) (g_long s) (g_dates s) max_depth (g_cols s), false)
        | Some gs =>
        match vec_at (d_lat d) i with
        | None => (mkRegion gs gt gp (g_lat s) (g_long s) (g_dates s) max_depth (g_cols s), false)
        | Some la =>
        match vec_at (d_long d) i with
        | None => (mkRegion gs gt gp (g_lat s ++ [la]) (g_long s) (g_dates s) max_depth (g_cols s), false)%list
        | Some lo =>
        match vec_at (d_dates d) i with
        | None => (mkRegion gs gt gp (g_lat s ++ [la]) (g_long s ++ [lo]) (g_dates s) max_depth (g_cols s), false)%list
        | Some da =>
            (mkRegion gs gt gp (g_lat s ++ [la]) (g_long s ++ [lo]) (g_dates s ++ [da])
                      (length (hd [] gp)) (length gp), true)%list
        end end end end end end
    end.

  (* fetchers.py 351-419: casts i, i+1, ... (n of them) of the file; number = data_indices[i] *)
  Fixpoint add_casts (index : list nat) (max_pres : T) (d : ref_data T) (start i n : nat) (s : region) : region :=
    match n with
    | O => s
    | S k => if existsb (Nat.eqb (start + i)) index then
               let '(s', go) := add_cast max_pres d i s in
               if go then add_casts index max_pres d start (S i) k s' else s'
             else add_casts index max_pres d start (S i) k s
    end.

  (* fetchers.py 324-422.  len(pres) is the number of levels; the unwrapping of arrays of length one
     (335-341) is not modelled, the file is skipped: read_mat never returns such arrays. *)
  Definition mat_len (m : mat T) : option nat :=
    match m with MScal _ => None | MVec l => Some (length l) | Mat cols => Some (length (hd [] cols)) end.
  Definition add_file (index : list nat) (max_pres : T) (acc : region * nat) (f : res (option (ref_data T)))
      : region * nat :=
    let '(s, start) := acc in
    match f with
    | Ok (Some d) =>
        match mat_len (d_pres d), d_lat d with
        | Some 1%nat, _ | None, _ | _, Scal _ => acc
        | Some _, Vec lat => (add_casts index max_pres d start 0 (length lat) s, (start + length lat)%nat)
        end
    | _ => acc
    end.

  (* fetchers.py 461-474, _sync_nans on three rows of the same cast *)
  Definition sync3 (q : T * T * T) : T * T * T :=
    let '(sal, pres, ptmp) := q in
    let nan_if (m x : T) := if nisnan m then nnan else x in
    let pres := nan_if sal pres in
    let ptmp := nan_if sal ptmp in
    let sal' := nan_if pres sal in
    let ptmp := nan_if pres ptmp in
    let sal'' := nan_if ptmp sal' in
    let pres := nan_if ptmp pres in
    (sal'', pres, ptmp).
  Definition zip3 {A} (a b c : list A) : list (A * A * A) := combine (combine a b) c.
  Definition sync_rows (a b c : list T) : list (T * T * T) := map sync3 (zip3 a b c).
  Definition sync_nans (sal pres ptmp : list (list T)) : list (list (T * T * T)) :=
    map (fun q => sync_rows (fst (fst q)) (snd (fst q)) (snd q)) (combine (combine sal pres) ptmp).

  (* boolean masks only apply to arrays of the same shape *)
  Definition same_shape (a b : list (list T)) : bool :=
    Nat.eqb (length a) (length b) && Nat.eqb (length (hd [] a)) (length (hd [] b)).

  (* fetchers.py 440-451: the columns that are all NaN in salinity or pressure are deleted one by
     one; [n] columns are still to be visited, [column] is the current one, [nans] the number of
     deletions so far. *)
  Record out : Type := mkOut {
    o_sal : list (list T); o_ptmp : list (list T); o_pres : list (list T);
    o_lat : list T; o_long : list T; o_dates : list T }.
  Fixpoint drop_nan_cols (n column nans : nat) (o : out) : out :=
    match n with
    | O => o
    | S k =>
        let j := (column - nans)%nat in
        if forallb nisnan (nth j (o_sal o) []) || forallb nisnan (nth j (o_pres o) [])
        then drop_nan_cols k (S column) (S nans)
               (mkOut (np_delete (o_sal o) [j]) (np_delete (o_ptmp o) [j]) (np_delete (o_pres o) [j])
                      (np_delete (o_lat o) [j]) (np_delete (o_long o) [j]) (np_delete (o_dates o) [j]))
        else drop_nan_cols k (S column) nans o
    end.

  (* fetchers.py 276-458.  The result lists one column per cast.  An exception inside the second
     try block is turned into RuntimeError; it occurs when nothing was selected (grid_long is then
     still a Python list, which cannot be compared with a number) or when the three grids differ
     in shape. *)
  Definition get_region_data (pa_wmo_numbers : list (list T)) (pa_float_name : string)
      (config : db_config T) (index : list nat) (pa_float_pres : list T) : res out :=
    match pa_float_pres with
    | [] => Raise ValueError                      (* np.nanmax of a zero-size array *)
    | _ =>
    let max_pres := nanmax pa_float_pres + map_p_delta config in
    let '(s, _) := fold_left (add_file index max_pres)
                     (map (fun r => get_data config pa_float_name (fst r) (snd r)) (requests pa_wmo_numbers))
                     (region0, 0%nat) in
    match g_long s with
    | [] => Raise RuntimeError
    | _ =>
    if same_shape (g_sal s) (g_pres s) && same_shape (g_sal s) (g_ptmp s) then
      let grid := sync_nans (g_sal s) (g_pres s) (g_ptmp s) in
      Ok (drop_nan_cols (length grid) 0 0
           (mkOut (map (map (fun q => fst (fst q))) grid) (map (map snd) grid)
                  (map (map (fun q => snd (fst q))) grid)
                  (g_lat s) (wrap_longitude (g_long s)) (change_dates (map date_str (g_dates s)))))
    else Raise RuntimeError
    end
    end.
End Readers.

(* ------------------------------------------------------------------ *)
(* functools.lru_cache() with its default maxsize of 128 (fetchers.py 22, 28, 43): the most recent
   entries first; exceptions are not cached. *)
Section Cache.
  Context {K V : Type}.
  Variable eqb : K -> K -> bool.
  Definition cache := list (K * V).
  Definition maxsize : nat := 128.
  Definition cached_read (read : K -> res V) (k : K) (c : cache) : res V * cache :=
    match find (fun e => eqb k (fst e)) c with
    | Some (_, v) => (Ok v, (k, v) :: filter (fun e => negb (eqb k (fst e))) c)
    | None => match read k with
              | Ok v => (Ok v, firstn maxsize ((k, v) :: c))
              | Raise e => (Raise e, c)
              end
    end.
End Cache.
