(* Model of update_salinity_mapping, pyowc/calibration.py 31-370, around the calculation of a profile
   (MapProfile.v), and of load_varibales_from_file, process_profiles_la_variables,
   check_and_make_numpy_arry and sort_numpy_array of pyowc/helper.py. *)
From Coq Require Import String Ascii.
From Coq Require Import ZArith List Bool Lia.
From Verif Require Import Num Np Helper MapProfile.
Import ListNotations.
Local Open Scope num_scope.

(* ---- paths ---- *)
(* os.path.sep.join *)
Fixpoint path_join (l : list string) : string :=
  match l with
  | [] => EmptyString
  | [a] => a
  | a :: r => (a ++ "/" ++ path_join r)%string
  end.
(* the components of a path *)
Fixpoint split_slash (cur : string) (s : string) : list string :=
  match s with
  | EmptyString => [cur]
  | String c r => if Ascii.eqb c "/" then cur :: split_slash EmptyString r else split_slash (cur ++ String c EmptyString) r
  end.
(* os.path.abspath, as the list of components: '' and '.' are dropped, '..' goes up *)
Definition norm_step (acc : list string) (c : string) : list string :=
  if (String.eqb c "" || String.eqb c ".")%bool then acc
  else if String.eqb c ".." then removelast acc else acc ++ [c].
Definition abspath (cwd : list string) (p : string) : list string :=
  let start := match p with String "/" _ => [] | _ => cwd end in
  fold_left norm_step (split_slash EmptyString p) start.

(* calibration.py 107-111 and 365-366.  A file is identified by its normalised components (no symbolic
   links). *)
Record map_paths : Type := mkMapPaths { mp_directory : string; mp_prefix : string; mp_postfix : string }.
Definition load_path (cwd : list string) (p : map_paths) (float_dir float_name : string) : list string :=
  abspath cwd (path_join [mp_directory p; float_dir; mp_prefix p ++ float_name ++ mp_postfix p])%string.
Definition save_path (cwd : list string) (p : map_paths) (float_name : string) : list string :=
  abspath cwd (path_join [mp_directory p; mp_prefix p ++ float_name ++ mp_postfix p])%string.

Definition path_eqb (a b : list string) : bool := if list_eq_dec string_dec a b then true else false.

(* the twelve settings, in the order of the code *)
Definition setting_names : list string :=
  ["scale_long_large"; "scale_lat_large"; "scale_long_small"; "scale_lat_small"; "scale_phi_large";
   "scale_phi_small"; "scale_age_large"; "scale_age_small"; "use_pv"; "use_saf"; "p_delta"; "p_exclude"]%string.

Section Mapping.
  Context {T : Type} `{Num T}.

  (* a 2-d array: number of rows and the list of the columns, one per profile *)
  Record matrix : Type := mkMatrix { m_rows : nat; m_cols : list (list T) }.

  (* the dictionary data, and the content of a mapped file (key la_mapsalerrors for
     la_map_sal_errors).  A file need not have all settings; selected_hist is present. *)
  Record mapped : Type := mkMapped {
    la_ptmp : matrix; la_mapped_sal : matrix; la_map_sal_errors : matrix; la_noise_sal : matrix; la_signal_sal : matrix;
    la_profile_no : list T; settings : list (string * list T); selected_hist : list (record T) }.

  Definition lookup (k : string) (d : list (string * list T)) : option (list T) :=
    option_map snd (find (fun e => String.eqb k (fst e)) d).

  (* helper.py 65-85: np.insert of NaN rows at the end.  ValueError when the number of columns is not
     that of la_mapped_sal (numpy also accepts a single column). *)
  Definition pad_rows (k cols : nat) (m : matrix) : res matrix :=
    if Nat.eqb (length (m_cols m)) cols
    then Ok (mkMatrix (m_rows m + k) (map (fun c => c ++ repeat nnan k)%list (m_cols m)))
    else Raise ValueError.

  (* the working state: the dictionary, whether the settings are arrays (a file was read) or Python
     lists, and profile_index *)
  Record state : Type := mkState { st_data : mapped; st_arrays : bool; st_index : nat }.

  (* helper.py 15-118, load_varibales_from_file.  The test for a missing use_saf (53-54) comes after
     data['use_saf'] was read. *)
  Definition load_variables (file : option mapped) (float_level_count : nat) : res state :=
    match file with
    | Some d =>
        let* flat := mapM (fun k => match lookup k (settings d) with
                                    | Some v => Ok (k, v) | None => Raise KeyError end) setting_names in
        let max_depth := m_rows (la_mapped_sal d) in
        let how_many_cols := length (m_cols (la_mapped_sal d)) in
        let* d' :=
          if Nat.ltb max_depth float_level_count && negb (Nat.eqb max_depth 0) then
            let pad := pad_rows (float_level_count - max_depth) how_many_cols in
            let* sal := pad (la_mapped_sal d) in
            let* err := pad (la_map_sal_errors d) in
            let* noise := pad (la_noise_sal d) in
            let* signal := pad (la_signal_sal d) in
            let* ptmp := pad (la_ptmp d) in
            Ok (mkMapped ptmp sal err noise signal (la_profile_no d) [] (selected_hist d))
          else Ok d in
        Ok (mkState (mkMapped (la_ptmp d') (la_mapped_sal d') (la_map_sal_errors d') (la_noise_sal d') (la_signal_sal d')
              (la_profile_no d') flat (selected_hist d')) true how_many_cols)
    | None =>
        let empty := mkMatrix float_level_count [] in
        Ok (mkState (mkMapped empty empty empty empty empty [] (map (fun k => (k, [])) setting_names) []) false 0)
    end.

  (* calibration.py 120-123 *)
  Definition missing_profile_index (no : list T) (profile_no : list T) : list nat :=
    argwhere (fun p => negb (existsb (fun q => neqb q p) no)) profile_no.

  (* np.insert(a, i, x) of a 1-d array: IndexError past the end *)
  Definition np_insert {A} (l : list A) (i : nat) (x : A) : res (list A) :=
    if Nat.leb i (length l) then Ok (firstn i l ++ x :: skipn i l)%list else Raise IndexError.

  (* helper.py 146-179, process_profiles_la_variables, one matrix *)
  Definition new_column (levels i : nat) (m : matrix) : res matrix :=
    if Nat.eqb levels (m_rows m) then
      Ok (mkMatrix (m_rows m)
            (if Nat.ltb i (length (m_cols m)) then set_nth i (repeat nnan levels) (m_cols m)
             else m_cols m ++ [repeat nnan levels])%list)
    else Raise ValueError.

  (* m[n, i] = x: IndexError when out of range *)
  Definition set_entry (n i : nat) (x : T) (m : matrix) : res matrix :=
    if Nat.ltb n (m_rows m) && Nat.ltb i (length (m_cols m))
    then Ok (mkMatrix (m_rows m) (set_nth i (set_nth n x (nth i (m_cols m) [])) (m_cols m)))
    else Raise IndexError.

  Variable values : list T.            (* the twelve settings of the configuration *)
  Variable levels : nat.               (* float_level_count *)

  (* calibration.py 305-330: the results of level n are stored *)
  Definition store_level (i : nat) (d : mapped) (n : nat) (o : level_out T) : res mapped :=
    let* ptmp := set_entry n i (lo_ptmp o) (la_ptmp d) in
    let* sal := set_entry n i (lo_sal o) (la_mapped_sal d) in
    let* err := set_entry n i (lo_err o) (la_map_sal_errors d) in
    let* noise := set_entry n i (lo_noise o) (la_noise_sal d) in
    let* signal := set_entry n i (lo_signal o) (la_signal_sal d) in
    let* set := mapM (fun q => if Nat.ltb i (length (snd (fst q)))
                               then Ok (fst (fst q), set_nth i (snd q) (snd (fst q))) else Raise IndexError)
                     (combine (settings d) values) in
    let* no := match nth_error (la_profile_no d) i with Some x => Ok x | None => Raise IndexError end in
    let* sel := selected_historical_points (selected_hist d) (lo_points o) no in
    Ok (mkMapped ptmp sal err noise signal (la_profile_no d) set sel).

  Fixpoint foldM {A B} (f : A -> B -> res A) (a : A) (l : list B) : res A :=
    match l with
    | [] => Ok a
    | b :: r => let* a := f a b in foldM f a r
    end.

  (* the calculation of a profile: for each level, None or what is stored *)
  Variable calc : nat -> res (nat -> res (option (level_out T))).

  (* calibration.py 127-333: one missing profile *)
  Definition add_profile (profile_no : list T) (s : state) (p : nat) : res state :=
    let d := st_data s in
    let i := st_index s in
    let* no := np_insert (la_profile_no d) i (nth p profile_no nnan) in
    (* the settings' append *)
    let* set := if st_arrays s then Raise AttributeError
                else Ok (map (fun e => (fst e, snd e ++ [nnan])%list) (settings d)) in
    let* ptmp := new_column levels i (la_ptmp d) in
    let* sal := new_column levels i (la_mapped_sal d) in
    let* err := new_column levels i (la_map_sal_errors d) in
    let* noise := new_column levels i (la_noise_sal d) in
    let* signal := new_column levels i (la_signal_sal d) in
    let* level := calc p in
    let* d := foldM (fun d n => let* o := level n in
                                match o with None => Ok d | Some o => store_level i d n o end)
                    (mkMapped ptmp sal err noise signal no set (selected_hist d)) (seq 0 levels) in
    Ok (mkState d false (S i)).

  (* calibration.py 335-341: the range check *)
  Definition qc (m : matrix) : matrix :=
    mkMatrix (m_rows m) (map (map (fun x => if (x <? nofZ 30) || (x >? nofZ 40) then nnan else x)) (m_cols m)).

  (* ndarray.argsort() with the default, unstable, algorithm *)
  Variable unstable_argsort : list T -> list nat.

  (* m[:, index] *)
  Definition permute (index : list nat) (m : matrix) : res matrix :=
    let* c := index_array [] (m_cols m) index in Ok (mkMatrix (m_rows m) c).
  (* helper.py 304-331, sort_numpy_array without keys: arrays of more than one element *)
  Definition sort_matrix (index : list nat) (m : matrix) : res matrix :=
    if Nat.ltb 1 (m_rows m * length (m_cols m)) then permute index m else Ok m.
  Definition sort_vector (index : list nat) (v : list T) : res (list T) :=
    if Nat.ltb 1 (length v) then index_array nnan v index else Ok v.

  (* calibration.py 343-370: the dictionary that is saved *)
  Definition finish (d : mapped) : res mapped :=
    let index := unstable_argsort (la_profile_no d) in
    let* ptmp := permute index (la_ptmp d) in
    let* sal := permute index (qc (la_mapped_sal d)) in
    let* err := permute index (la_map_sal_errors d) in
    let* noise := permute index (la_noise_sal d) in
    let* signal := permute index (la_signal_sal d) in
    (* sort_numpy_array(data, index): everything once more *)
    let* ptmp := sort_matrix index ptmp in
    let* sal := sort_matrix index sal in
    let* err := sort_matrix index err in
    let* noise := sort_matrix index noise in
    let* signal := sort_matrix index signal in
    let* no := sort_vector index (la_profile_no d) in
    let* set := mapM (fun e => let* v := sort_vector index (snd e) in Ok (fst e, v)) (settings d) in
    (* selected_hist_1 is bound only when there is a record *)
    match selected_hist d with
    | [] => Raise UnboundLocalError
    | l => Ok (mkMapped ptmp sal err noise signal no set (sort_by (fun a b => nltb (snd a) (snd b)) l))
    end.

  Definition run (file : option mapped) (profile_no : list T) : res mapped :=
    let* s := load_variables file levels in
    let* s := foldM (add_profile profile_no) s (missing_profile_index (la_profile_no (st_data s)) profile_no) in
    finish (st_data s).

  (* calibration.py 31-370 on a store of mapped files: the outcome and the store afterwards *)
  Definition store := list string -> option mapped.
  Definition update (st : store) (loading saving : list string) (profile_no : list T) : res unit * store :=
    match run (st loading) profile_no with
    | Ok d => (Ok tt, fun p => if path_eqb p saving then Some d else st p)
    | Raise e => (Raise e, st)
    end.
End Mapping.
Arguments matrix T : clear implicits.
Arguments mapped T : clear implicits.
Arguments state T : clear implicits.
Arguments store T : clear implicits.

Section Whole.
  Context {T : Type} `{Num T}.
  Definition map_values (cfg : map_config T) : list T :=
    [mc_long_large cfg; mc_lat_large cfg; mc_long_small cfg; mc_lat_small cfg; mc_phi_large cfg; mc_phi_small cfg;
     mc_age_large cfg; mc_age_small cfg; nofZ (mc_use_pv cfg); nofZ (mc_use_saf cfg); mc_p_delta cfg; mc_p_exclude cfg].
  (* calibration.py 31-370; calc is profile_levels of MapProfile.v applied to the files *)
  Definition update_salinity_mapping (unstable_argsort : list T -> list nat)
      (calc : source T -> nat -> res (nat -> res (option (level_out T))))
      (cwd : list string) (paths : map_paths) (cfg : map_config T) (src : source T) (float_dir float_name : string)
      (st : store T) : res unit * store T :=
    update (map_values cfg) (src_levels src) (calc src) unstable_argsort st
      (load_path cwd paths float_dir float_name) (save_path cwd paths float_name) (src_no src).
End Whole.
