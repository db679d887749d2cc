(* The reference data under a map of the salinities that keeps missing values *)
From Coq Require Import String Ascii.
From Coq Require Import ZArith List Bool Reals Lra Lia.
From Verif Require Import Num Np Utilities Topo Fetchers.
Import ListNotations.
Local Open Scope nat_scope.

Lemma argwhere_from_map {A B} (f : A -> B) p l : forall i, argwhere_from i p (map f l) = argwhere_from i (fun x => p (f x)) l.
Proof. induction l as [|a l IH]; intros i; cbn; [reflexivity|]. now rewrite IH. Qed.
Lemma argwhere_from_ext {A} (p q : A -> bool) l : (forall x, p x = q x) -> forall i, argwhere_from i p l = argwhere_from i q l.
Proof. intros H. induction l as [|a l IH]; intros i; cbn; [reflexivity|]. now rewrite H, IH. Qed.
Lemma argwhere_map {A B} (f : A -> B) p q l : (forall x, p (f x) = q x) -> argwhere p (map f l) = argwhere q l.
Proof. intros H. unfold argwhere. rewrite argwhere_from_map. now apply argwhere_from_ext. Qed.
Lemma delete_from_map {A B} (f : A -> B) idx l : forall i, delete_from i idx (map f l) = map f (delete_from i idx l).
Proof. induction l as [|a l IH]; intros i; cbn; [reflexivity|]. rewrite IH. now destruct (existsb _ idx). Qed.
Lemma np_delete_map {A B} (f : A -> B) l idx : np_delete (map f l) idx = map f (np_delete l idx).
Proof. apply delete_from_map. Qed.
Lemma take_map {A B} (f : A -> B) d l idx : take (f d) (map f l) idx = map f (take d l idx).
Proof. unfold take. rewrite map_map. apply map_ext. intros i. apply map_nth. Qed.
Lemma gather_map {A B} (f : A -> B) l idx : gather (map f l) idx = option_map (map f) (gather l idx).
Proof.
  unfold gather. rewrite map_length. destruct (forallb _ idx); [|reflexivity]. destruct l as [|d l]; [reflexivity|].
  cbn [map]. cbn [option_map]. now rewrite <- take_map.
Qed.
Lemma chunks_map {A B} (f : A -> B) rows cols : forall l, chunks rows cols (map f l) = map (map f) (chunks rows cols l).
Proof. induction rows as [|r IH]; intros l; cbn; [reflexivity|]. now rewrite firstn_map, skipn_map, IH. Qed.
Lemma reshape_map {A B} (f : A -> B) rows cols l : reshape rows cols (map f l) = option_map (map (map f)) (reshape rows cols l).
Proof. unfold reshape. rewrite map_length. destruct (Nat.eqb _ _); [|reflexivity]. cbn. now rewrite chunks_map. Qed.
Lemma nth_error_map' {A B} (f : A -> B) l i : nth_error (map f l) i = option_map f (nth_error l i).
Proof. revert i. induction l as [|a l IH]; intros [|i]; cbn; auto. Qed.
Lemma concat_map2 {A B} (f : A -> B) ll : concat (map (map f) ll) = map f (concat ll).
Proof. symmetry. apply concat_map. Qed.
Lemma combine_map_l {A B C} (f : A -> B) (l : list A) : forall (m : list C), combine (map f l) m = map (fun q => (f (fst q), snd q)) (combine l m).
Proof. induction l as [|a l IH]; intros [|b m]; cbn; [reflexivity..|]. now rewrite IH. Qed.
Lemma hd_map {A B} (f : A -> B) d l : hd (f d) (map f l) = f (hd d l).
Proof. now destruct l. Qed.

Section Region.
  Context {T : Type} {N : Num T}.
  Variable f : T -> T.
  Hypothesis f_nan : f nnan = nnan.
  Hypothesis f_isnan : forall x, nisnan (f x) = nisnan x.
  Notation ff := (map (map f)).

  Definition fmat (m : mat T) : mat T :=
    match m with MScal x => MScal (f x) | MVec l => MVec (map f l) | Mat cols => Mat (ff cols) end.
  Definition fref (d : ref_data T) : ref_data T :=
    mkRef (d_lat d) (d_long d) (d_dates d) (d_pres d) (fmat (d_sal d)) (d_ptmp d) (d_source d).
  Definition fres (r : res (ref_data T)) : res (ref_data T) := match r with Ok d => Ok (fref d) | Raise e => Raise e end.
  Definition fopt (r : res (option (ref_data T))) : res (option (ref_data T)) :=
    match r with Ok o => Ok (option_map fref o) | Raise e => Raise e end.

  Lemma del_map {A B} (h : A -> B) l idx : del (map h l) idx = match del l idx with Ok c => Ok (map h c) | Raise e => Raise e end.
  Proof. unfold del. rewrite map_length. destruct (forallb _ idx); [|reflexivity]. now rewrite np_delete_map. Qed.
  Lemma remove_f name d : remove_float name (fref d) = fres (remove_float name d).
  Proof.
    unfold remove_float. cbn [fref d_lat d_long d_dates d_pres d_sal d_ptmp d_source].
    destruct (d_lat d) as [x|l]; [reflexivity|]. destruct (Nat.ltb _ _); [reflexivity|].
    set (nu := not_use _ _ _). destruct (del_row (Vec l) nu) as [a|]; [|reflexivity]. cbn [bind].
    destruct (del_row (d_long d) nu) as [b|]; [|reflexivity]. cbn [bind]. destruct (del_row (d_dates d) nu) as [e|]; [|reflexivity]. cbn [bind].
    destruct (d_sal d) as [y|m|cols]; cbn [fmat del_cols]; [reflexivity..|]. rewrite (del_map (map f)).
    destruct (del cols nu) as [cs|]; [|reflexivity]. cbn [bind]. destruct (del_cols (d_ptmp d) nu); [|reflexivity]. cbn [bind].
    destruct (del_cols (d_pres d) nu); reflexivity.
  Qed.
  Lemma bottle_f d : fix_bottle (fref d) = fres (fix_bottle d).
  Proof. unfold fix_bottle. cbn [fref d_lat d_pres]. destruct (d_lat d); [reflexivity|]. destruct (mat_size _); [|reflexivity]. cbn [bind]. now destruct (Nat.eqb _ _). Qed.

  Variable read_mat : string -> res (ref_data T).
  Definition fread : string -> res (ref_data T) := fun p => fres (read_mat p).

  Lemma get_data_f config name box t : get_data fread config name box t = fopt (get_data read_mat config name box t).
  Proof.
    unfold get_data. destruct (nth_error box 0) as [n|]; [|reflexivity]. destruct (int_of_float n) as [b|]; [|reflexivity]. cbn [bind].
    destruct (nth_error box t) as [flag|]; [|reflexivity]. destruct (neqb flag (nofZ 1)); [|reflexivity].
    destruct t as [|[|[|[|t]]]]; [reflexivity| | | |reflexivity]; unfold fread.
    - now destruct (read_mat _).
    - destruct (read_mat _) as [d|]; [|reflexivity]. cbn [fres bind]. rewrite bottle_f. now destruct (fix_bottle d).
    - destruct (read_mat _) as [d|]; [|reflexivity]. cbn [fres bind]. rewrite remove_f. now destruct (remove_float name d).
  Qed.

  Variable date_str : T -> list ascii.
  Lemma fold_ext {A B} (h k : A -> B -> A) l : (forall a b, h a b = k a b) -> forall a, fold_left h l a = fold_left k l a.
  Proof. intros E. induction l as [|b l IH]; intros a; cbn; [reflexivity|]. now rewrite E, IH. Qed.
  Lemma locations_f boxes name config :
    get_region_hist_locations fread date_str boxes name config = get_region_hist_locations read_mat date_str boxes name config.
  Proof.
    unfold get_region_hist_locations.
    rewrite (fold_ext _ (fun acc req =>
        let '(grid_lat, grid_long, grid_dates) := acc in
        match get_data read_mat config name (fst req) (snd req) with
        | Ok (Some data) =>
            match d_lat data with Scal _ => acc | Vec la =>
            match d_long data with Scal _ => (grid_lat ++ la, grid_long, grid_dates) | Vec lo =>
            match d_dates data with Scal _ => (grid_lat ++ la, grid_long ++ lo, grid_dates) | Vec da =>
              (grid_lat ++ la, grid_long ++ lo, grid_dates ++ da)
            end end end%list
        | _ => acc
        end)); [reflexivity|].
    intros [[a b] c] req. rewrite get_data_f. destruct (get_data read_mat config name (fst req) (snd req)) as [[d|]|]; reflexivity.
  Qed.

  (* ---- the selected casts ---- *)
  Definition fregion (s : region (T := T)) : region (T := T) :=
    mkRegion (ff (g_sal s)) (g_ptmp s) (g_pres s) (g_lat s) (g_long s) (g_dates s) (g_max_depth s) (g_cols s).
  Lemma levels_f mp d i : cast_levels mp (fref d) i
    = match cast_levels mp d i with Some (p, s, t) => Some (p, map f s, t) | None => None end.
  Proof.
    unfold cast_levels. cbn [fref d_pres d_sal d_ptmp]. destruct (mat_col (d_pres d) i) as [pc|]; [|reflexivity].
    assert (E : mat_col (fmat (d_sal d)) i = option_map (map f) (mat_col (d_sal d) i)).
    { destruct (d_sal d); [reflexivity..|]. cbn [fmat mat_col]. apply nth_error_map'. }
    rewrite E. destruct (mat_col (d_sal d) i) as [sc|]; [|reflexivity]. cbn [option_map].
    destruct (mat_col (d_ptmp d) i) as [tc|]; [|reflexivity].
    destruct (gather pc _) as [p|]; [|reflexivity]. rewrite gather_map. destruct (gather sc _) as [s|]; [|reflexivity]. cbn [option_map].
    destruct (gather tc _) as [t|]; [|reflexivity]. now rewrite np_delete_map.
  Qed.
  Lemma map_nans k : map f (repeat nnan k) = repeat nnan k.
  Proof. induction k; cbn; congruence. Qed.
  Lemma widen_f k g : widen k (ff g) = ff (widen k g).
  Proof. unfold widen. rewrite !map_map. apply map_ext. intros r. now rewrite map_app, map_nans. Qed.

  Lemma app_nans l k : map f l ++ repeat nnan k = map f (l ++ repeat nnan k).
  Proof. now rewrite map_app, map_nans. Qed.
  Lemma add_cast_f mp d i s : add_cast mp (fref d) i (fregion s) = (fregion (fst (add_cast mp d i s)), snd (add_cast mp d i s)).
  Proof.
    unfold add_cast. rewrite levels_f. destruct (cast_levels mp d i) as [[[p sl] t]|]; [|reflexivity].
    cbn [fref d_lat d_long d_dates]. cbn [fregion g_sal g_ptmp g_pres g_lat g_long g_dates g_max_depth g_cols]. cbv zeta.
    destruct (Nat.ltb (g_max_depth s) (length p) && negb (Nat.eqb (g_max_depth s) 0)); destruct (Nat.ltb (length p) (g_max_depth s));
      destruct (Nat.eqb (length (g_pres s)) 0); cbn [negb andb];
      rewrite ?app_nans, ?widen_f, ?concat_map2, <- ?map_app, ?reshape_map;
      (destruct (reshape _ _ _) as [gp|] eqn:E1; [|reflexivity]);
      repeat (match goal with |- context [match ?x with Some _ => _ | None => _ end] =>
        lazymatch x with option_map _ _ => fail | _ => destruct x; cbn [option_map fst snd]; [|reflexivity] end end); reflexivity.
  Qed.
  Lemma add_casts_f index mp d start n : forall i s, add_casts index mp (fref d) start i n (fregion s) = fregion (add_casts index mp d start i n s).
  Proof.
    induction n as [|n IH]; intros i s; cbn [add_casts]; [reflexivity|]. destruct (existsb _ index); [|apply IH].
    rewrite add_cast_f. destruct (add_cast mp d i s) as [s' go]. cbn [fst snd]. destruct go; [apply IH|reflexivity].
  Qed.
  Lemma add_file_f index mp acc r : add_file index mp (fregion (fst acc), snd acc) (fopt r)
    = (fregion (fst (add_file index mp acc r)), snd (add_file index mp acc r)).
  Proof.
    destruct acc as [s start]. cbn [fst snd]. unfold add_file. destruct r as [[d|]|]; cbn [fopt option_map]; [|reflexivity..].
    change (d_pres (fref d)) with (d_pres d). change (d_lat (fref d)) with (d_lat d).
    destruct (mat_len (d_pres d)) as [[|[|k]]|]; [|reflexivity| |reflexivity];
      (destruct (d_lat d); [reflexivity|]; cbn [fst snd]; now rewrite add_casts_f).
  Qed.
  Lemma add_files_f index mp l : forall acc, fold_left (add_file index mp) (map fopt l) (fregion (fst acc), snd acc)
    = (fregion (fst (fold_left (add_file index mp) l acc)), snd (fold_left (add_file index mp) l acc)).
  Proof. induction l as [|r l IH]; intros acc; cbn [map fold_left]; [reflexivity|]. now rewrite add_file_f, IH. Qed.

  Lemma sync3_f s p t : sync3 (f s, p, t) = (f (fst (fst (sync3 (s, p, t)))), snd (fst (sync3 (s, p, t))), snd (sync3 (s, p, t))).
  Proof.
    unfold sync3. cbn [fst snd]. rewrite f_isnan. destruct (nisnan s);
    repeat match goal with |- context [if ?b then _ else _] => destruct b end; rewrite ?f_nan; reflexivity.
  Qed.
  Definition fout (o : out (T := T)) : out (T := T) := mkOut (ff (o_sal o)) (o_ptmp o) (o_pres o) (o_lat o) (o_long o) (o_dates o).
  Definition f3 (q : T * T * T) : T * T * T := (f (fst (fst q)), snd (fst q), snd q).
  Lemma sync_rows_f a b c : sync_rows (map f a) b c = map f3 (sync_rows a b c).
  Proof.
    unfold sync_rows, zip3. rewrite !map_map. revert b c. induction a as [|x a IH]; intros [|y b] [|z c]; cbn [map combine]; [reflexivity..|].
    rewrite IH. f_equal. unfold f3. now rewrite sync3_f.
  Qed.
  Lemma sync_nans_f a b c : sync_nans (ff a) b c = map (map f3) (sync_nans a b c).
  Proof.
    unfold sync_nans. rewrite !map_map. revert b c. induction a as [|x a IH]; intros [|y b] [|z c]; cbn [map combine]; [reflexivity..|].
    rewrite IH. f_equal. cbn [fst snd]. apply sync_rows_f.
  Qed.
  Lemma allnan_f l : forallb nisnan (map f l) = forallb nisnan l.
  Proof. induction l as [|x l IH]; cbn [map forallb]; [reflexivity|]. now rewrite f_isnan, IH. Qed.
  Lemma drop_f n : forall column nans o, drop_nan_cols n column nans (fout o) = fout (drop_nan_cols n column nans o).
  Proof.
    induction n as [|n IH]; intros column nans o; cbn [drop_nan_cols]; [reflexivity|]. cbv zeta.
    cbn [fout o_sal o_ptmp o_pres o_lat o_long o_dates].
    assert (E : nth (column - nans) (ff (o_sal o)) [] = map f (nth (column - nans) (o_sal o) [])) by exact (map_nth (map f) _ [] _).
    rewrite E, allnan_f. destruct (_ || _).
    - rewrite np_delete_map. rewrite <- IH. reflexivity.
    - rewrite <- IH. reflexivity.
  Qed.
  Lemma shape_f a b : same_shape (ff a) b = same_shape a b.
  Proof. unfold same_shape. rewrite map_length. f_equal. change (@nil T) with (map f []) at 1. rewrite hd_map. now rewrite map_length. Qed.

  Theorem region_f boxes name config index pres :
    get_region_data fread date_str boxes name config index pres
    = match get_region_data read_mat date_str boxes name config index pres with Ok o => Ok (fout o) | Raise e => Raise e end.
  Proof.
    unfold get_region_data. destruct pres as [|p0 pr]; [reflexivity|]. cbv zeta. set (mp := nadd _ _).
    assert (E : map (fun r => get_data fread config name (fst r) (snd r)) (requests boxes)
                = map fopt (map (fun r => get_data read_mat config name (fst r) (snd r)) (requests boxes))).
    { rewrite map_map. apply map_ext. intros r. apply get_data_f. }
    rewrite E. change (region0, 0) with (fregion (fst (@region0 T, 0)), snd (@region0 T, 0)) at 1. rewrite add_files_f. cbn [fst snd].
    destruct (fold_left (add_file index mp) (map (fun r => get_data read_mat config name (fst r) (snd r)) (requests boxes)) (region0, 0)) as [s k].
    cbn [fst snd]. cbn [fregion g_sal g_ptmp g_pres g_lat g_long g_dates]. destruct (g_long s) as [|l0 lr]; [reflexivity|].
    rewrite !shape_f. destruct (_ && _); [|reflexivity]. rewrite sync_nans_f, map_length. rewrite <- drop_f. unfold fout. cbn [o_sal o_ptmp o_pres o_lat o_long o_dates].
    do 2 f_equal. f_equal; rewrite !map_map; apply map_ext; intros r; now rewrite !map_map.
  Qed.

  (* ---- every position comes from a file ---- *)
  Variable P : T -> Prop.
  Definition vec_all (v : vec T) : Prop := match v with Scal x => P x | Vec l => Forall P l end.
  Definition file_all (d : ref_data T) : Prop := vec_all (d_lat d) /\ vec_all (d_long d).
  Hypothesis files : forall path d, read_mat path = Ok d -> file_all d.
  Lemma delete_from_in {A} (l : list A) idx x : forall i, In x (delete_from i idx l) -> In x l.
  Proof.
    induction l as [|a l IH]; intros i; cbn; [tauto|]. destruct (existsb _ idx); [right; now apply (IH (S i))|].
    intros [->|H]; [now left|right; now apply (IH (S i))].
  Qed.
  Lemma del_row_all v idx w : vec_all v -> del_row v idx = Ok w -> vec_all w.
  Proof.
    unfold del_row, del. intros H E. destruct (forallb _ idx); [|discriminate]. cbn [bind] in E. injection E as <-. cbn [vec_all].
    apply Forall_forall. intros x Hx. apply delete_from_in in Hx. destruct v; cbn in H; [destruct Hx as [<-|[]]; exact H|].
    now apply (proj1 (Forall_forall _ _) H).
  Qed.
  Lemma get_data_all config name box t d : get_data read_mat config name box t = Ok (Some d) -> file_all d.
  Proof.
    unfold get_data. destruct (nth_error box 0) as [n|]; [|discriminate]. destruct (int_of_float n) as [b|]; [|discriminate]. cbn [bind].
    destruct (nth_error box t) as [flag|]; [|discriminate]. destruct (neqb flag (nofZ 1)); [|discriminate].
    destruct t as [|[|[|[|t]]]]; [discriminate| | | |discriminate]; (destruct (read_mat _) as [d0|] eqn:ER; [|discriminate]; cbn [bind]; apply files in ER).
    - intros E. injection E as <-. exact ER.
    - unfold fix_bottle. destruct (d_lat d0); [discriminate|]. destruct (mat_size _); [|discriminate]. cbn [bind]. destruct (Nat.eqb _ _); [discriminate|].
      cbn [bind]. intros E. injection E as <-. exact ER.
    - destruct ER as [RA RB]. unfold remove_float. destruct (d_lat d0) as [x|l]; [discriminate|]. destruct (Nat.ltb _ _); [discriminate|]. set (nu := not_use _ _ _).
      destruct (del_row (Vec l) nu) as [v1|] eqn:E1; [|discriminate]. cbn [bind].
      destruct (del_row (d_long d0) nu) as [v2|] eqn:E2; [|discriminate]. cbn [bind].
      destruct (del_row (d_dates d0) nu); [|discriminate]. cbn [bind]. destruct (del_cols (d_sal d0) nu); [|discriminate]. cbn [bind].
      destruct (del_cols (d_ptmp d0) nu); [|discriminate]. cbn [bind]. destruct (del_cols (d_pres d0) nu); [|discriminate]. cbn [bind].
      intros E. injection E as <-. split; cbn [d_lat d_long]; [exact (del_row_all _ _ _ RA E1)|exact (del_row_all _ _ _ RB E2)].
  Qed.
  Definition region_all (s : region (T := T)) : Prop := Forall P (g_lat s) /\ Forall P (g_long s).
  Lemma vec_at_all v i x : vec_all v -> vec_at v i = Some x -> P x.
  Proof. destruct v; cbn; [discriminate|]. intros F E. apply nth_error_In in E. now apply (proj1 (Forall_forall _ _) F). Qed.
  Lemma Forall_snoc l (x : T) : Forall P l -> P x -> Forall P (l ++ [x]).
  Proof. intros F H. apply Forall_app. split; [exact F|now constructor]. Qed.
  Lemma add_cast_all mp d i s : file_all d -> region_all s -> region_all (fst (add_cast mp d i s)).
  Proof.
    intros [FA FB] RS. pose proof RS as [RA RB]. unfold add_cast. destruct (cast_levels mp d i) as [[[p sl] t]|]; [|exact RS]. cbv zeta.
    repeat match goal with |- context [match ?x with Some _ => _ | None => _ end] =>
      lazymatch x with
      | vec_at (d_lat d) i => let E := fresh "E" in destruct x eqn:E; [apply (vec_at_all _ _ _ FA) in E|split; cbn; assumption]
      | vec_at (d_long d) i => let E := fresh "E" in destruct x eqn:E; [apply (vec_at_all _ _ _ FB) in E|split; cbn; auto using Forall_snoc]
      | vec_at (d_dates d) i => destruct x; split; cbn; auto using Forall_snoc
      | _ => destruct x; [|split; cbn; assumption]
      end end.
  Qed.
  Lemma add_casts_all index mp d start n : file_all d -> forall i s, region_all s -> region_all (add_casts index mp d start i n s).
  Proof.
    intros FD. induction n as [|n IH]; intros i s RS; cbn [add_casts]; [exact RS|]. destruct (existsb _ index); [|now apply IH].
    pose proof (add_cast_all mp d i s FD RS) as RA. destruct (add_cast mp d i s) as [s' go]. cbn [fst] in RA. destruct go; [now apply IH|exact RA].
  Qed.
  Lemma add_files_all index mp config name rs : forall acc, region_all (fst acc) ->
    region_all (fst (fold_left (add_file index mp) (map (fun r => get_data read_mat config name (fst r) (snd r)) rs) acc)).
  Proof.
    induction rs as [|r rs IH]; intros acc RS; cbn [map fold_left]; [exact RS|]. apply IH. unfold add_file. destruct acc as [s start]. cbn [fst] in *.
    destruct (get_data read_mat config name (fst r) (snd r)) as [[d|]|] eqn:EG; [|exact RS..]. apply get_data_all in EG.
    destruct (mat_len (d_pres d)) as [[|[|k]]|]; [|exact RS| |exact RS]; (destruct (d_lat d) eqn:EL; [exact RS|]; cbn [fst]; now apply add_casts_all).
  Qed.
  Definition out_all (o : out (T := T)) (Q : T -> Prop) : Prop := Forall P (o_lat o) /\ Forall Q (o_long o).
  Lemma np_delete_all {A} (Q : A -> Prop) l idx : Forall Q l -> Forall Q (np_delete l idx).
  Proof. intros F. apply Forall_forall. intros x Hx. apply delete_from_in in Hx. now apply (proj1 (Forall_forall _ _) F). Qed.
  Lemma drop_all Q n : forall column nans o, out_all o Q -> out_all (drop_nan_cols n column nans o) Q.
  Proof.
    induction n as [|n IH]; intros column nans o OA; cbn [drop_nan_cols]; [exact OA|]. cbv zeta. destruct (_ || _); [|now apply IH].
    apply IH. destruct OA as [A B]. split; cbn; now apply np_delete_all.
  Qed.
  Theorem region_positions Q boxes name config index pres o : (forall l, Forall P l -> Forall Q (wrap_longitude l)) ->
    get_region_data read_mat date_str boxes name config index pres = Ok o -> out_all o Q.
  Proof.
    intros HW. unfold get_region_data. destruct pres as [|p0 pr]; [discriminate|]. cbv zeta. set (mp := nadd _ _).
    pose proof (add_files_all index mp config name (requests boxes) (region0, 0)) as RA.
    destruct (fold_left _ _ _) as [s k]. cbn [fst] in RA. specialize (RA (conj (Forall_nil _) (Forall_nil _))). destruct RA as [RA RB].
    intros E. destruct (g_long s) eqn:EL; [discriminate|]. rewrite <- EL in *. destruct (_ && _); [|discriminate]. injection E as <-.
    apply drop_all. split; cbn; [exact RA|now apply HW].
  Qed.
  (* the dates *)
  Lemma dates_drop (D : T -> Prop) n : forall column nans o, Forall D (o_dates o) -> Forall D (o_dates (drop_nan_cols n column nans o)).
  Proof.
    induction n as [|n IH]; intros column nans o OA; cbn [drop_nan_cols]; [exact OA|]. cbv zeta. destruct (_ || _); [|now apply IH].
    apply IH. cbn. now apply np_delete_all.
  Qed.
  Theorem region_dates (D : T -> Prop) boxes name config index pres o : (forall s, D (change_date s)) ->
    get_region_data read_mat date_str boxes name config index pres = Ok o -> Forall D (o_dates o).
  Proof.
    intros HD. unfold get_region_data. destruct pres as [|p0 pr]; [discriminate|]. cbv zeta. destruct (fold_left _ _ _) as [s k].
    intros E. destruct (g_long s) eqn:EL; [discriminate|]. rewrite <- EL in *. destruct (_ && _); [|discriminate]. injection E as <-.
    apply dates_drop. cbn. unfold change_dates. apply Forall_forall. intros x Hx. apply in_map_iff in Hx as (y & <- & _). apply HD.
  Qed.
End Region.
