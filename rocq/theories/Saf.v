(* Model of frontal_constraint_saf, pyowc/data/fetchers.py 477-667 *)
From Coq Require Import ZArith List Bool Lia.
From Verif Require Import Num Np Fetchers.
Import ListNotations.
Local Open Scope num_scope.

Section Saf.
  Context {T : Type} `{Num T}.
  (* np.interp(x, xp, fp, left=nan, right=nan), unspecified *)
  Variable np_interp : T -> list T -> list T -> T.
  (* gsw conversions (lines 622-624), pointwise and unspecified *)
  Variable sa_from_sp : T -> T -> T -> T -> T.
  Variable ct_from_pt : T -> T -> T.
  Variable t_from_ct : T -> T -> T -> T.

  (* grid_data: one column per cast, as get_region_data returns it, and the depths grid_z *)
  Record grid : Type := mkGrid {
    gr_sal : list (list T); gr_ptmp : list (list T); gr_pres : list (list T);
    gr_lat : list T; gr_long : list T; gr_dates : list T; gr_z : list T }.
  (* the part of float_data used *)
  Record float_profile : Type := mkFloat { fl_lat : T; fl_pres : list T; fl_tmp : list T; fl_sal : list T }.
  (* CONFIG_SAF: the typical profiles on the two sides of the front *)
  Record saf_profile : Type := mkSaf {
    s_mean_s : list T; s_mean_n : list T; s_std_s : list T; t_std_s : list T; s_std_n : list T;
    t_std_n : list T; t_mean_s : list T; t_mean_n : list T; deph : list T }.

  (* lines 534-542: np.delete(a, [0, 1], 1) on a one-row matrix with at least two columns *)
  Definition below_100m (a : list T) : list T := skipn 2 a.

  Definition np_diff (l : list T) : list T := map (fun p => snd p - fst p) (combine l (tl l)).
  Definition np_min (l : list T) : T := match l with [] => nnan | x :: r => min_from x r end.
  Definition np_max (l : list T) : T := match l with [] => nnan | x :: r => max_from x r end.
  Definition zip_with (f : T -> T -> T) (a b : list T) : list T := map (fun p => f (fst p) (snd p)) (combine a b).

  (* the test 300 is inside the range of the pressures, lines 551, 633 *)
  Definition around_300 (p : list T) : bool := (np_min p <? nofZ 300) && (nofZ 300 <? np_max p).

  Definition side_of_t300 (t300 : T) : Z :=
    if t300 >? nofZ 5 then 1%Z else if t300 <? nofZ 3 then (-1)%Z else 0%Z.

  (* lines 567-615: the envelope test.  s and t are the salinity and temperature of the float at
     its usable levels p. *)
  Definition envelope (saf : saf_profile) (p s t : list T) : Z :=
    let dp := below_100m (deph saf) in
    let tmn := below_100m (t_mean_n saf) in let tsn := below_100m (t_std_n saf) in
    let smn := below_100m (s_mean_n saf) in let ssn := below_100m (s_std_n saf) in
    let tms := below_100m (t_mean_s saf) in let tss := below_100m (t_std_s saf) in
    let sms := below_100m (s_mean_s saf) in let sss := below_100m (s_std_s saf) in
    let sal_int := map (fun x => np_interp x p s) dp in
    let temp_int := map (fun x => np_interp x p t) dp in
    let northinf := map (fun x => np_interp x (rev (zip_with nsub tmn tsn)) (rev (zip_with nsub smn ssn))) temp_int in
    let northsup := map (fun x => np_interp x (rev (zip_with nadd tmn tsn)) (rev (zip_with nadd smn ssn))) temp_int in
    let southinf := map (fun x => np_interp x (zip_with nsub sms sss) (zip_with nsub tms tss)) sal_int in
    let southsup := map (fun x => np_interp x (zip_with nadd sms sss) (zip_with nadd tms tss)) sal_int in
    let at_ l k := nth k l nnan in
    let ok k := (at_ dp k >? nofZ 150) && (at_ dp k <? nofZ 1700) && negb (nisnan (at_ sal_int k)) &&
                negb (nisnan (at_ southinf k)) && negb (nisnan (at_ southsup k)) &&
                negb (nisnan (at_ northinf k)) && negb (nisnan (at_ northsup k)) in
    let isok2 := filter ok (seq 0 (length dp)) in
    match isok2 with
    | [] => 0%Z
    | _ =>
        let pt_south := filter (fun k => (at_ temp_int k >? at_ southinf k) && (at_ temp_int k <? at_ southsup k)) isok2 in
        let pt_north := filter (fun k => (at_ sal_int k >? at_ northinf k) && (at_ sal_int k <? at_ northsup k)) isok2 in
        let is_south := Nat.eqb (length pt_south) (length isok2) in
        let is_north := Nat.eqb (length pt_north) (length isok2) in
        if is_south && is_north then 0%Z
        else if is_south then (-1)%Z
        else if is_north then 1%Z else 0%Z
    end.

  (* lines 548-617: on which side of the front the float is.  np.argwhere of the 2-d array of zero
     differences has two columns, so its truth value is defined only when it is empty.  The test
     "if t300 or t300 == 0" (556) holds for every number, NaN included. *)
  Definition crit_saf (saf : saf_profile) (fl : float_profile) : res Z :=
    let isok := filter (fun k => negb (nisnan (nth k (fl_pres fl) nnan)) && negb (nisnan (nth k (fl_tmp fl) nnan)))
                       (seq 0 (length (fl_pres fl))) in
    let p := take nnan (fl_pres fl) isok in
    let t := take nnan (fl_tmp fl) isok in
    let s := take nnan (fl_sal fl) isok in
    match argwhere (fun d => d =? 0) (np_diff p) with
    | _ :: _ => Raise ValueError
    | [] =>
        if (2 <? length isok)%nat && around_300 p then
          let c := side_of_t300 (np_interp (nofZ 300) p t) in
          Ok (if Z.eqb c 0 then envelope saf p s t else c)
        else Ok 0%Z
    end.

  (* lines 627-641: on which side a historical cast is.  Here the array of zero differences is 1-d
     (argwhere has one column): a single entry has the truth value of that entry. *)
  Definition cast_saf (pres sal ptmp : list T) (long lat : T) : res Z :=
    let tmp := map (fun q => let '(s, pt, p) := q in
                     let sa := sa_from_sp s p long lat in t_from_ct sa (ct_from_pt sa pt) p)
                   (combine (combine sal ptmp) pres) in
    let step := np_diff pres in
    let isok := filter (fun k => negb (nisnan (nth k pres nnan)) && negb (nisnan (nth k sal nnan)) &&
                                 negb (nisnan (nth k ptmp nnan)) &&
                                 (Nat.ltb k (length step) && negb (nth k step nnan =? 0)))
                       (seq 0 (length pres)) in
    let p := take nnan pres isok in
    let inner :=
      if (2 <? length isok)%nat && around_300 p
      then Ok (side_of_t300 (np_interp (nofZ 300) p (take nnan tmp isok))) else Ok 0%Z in
    match argwhere (fun d => d =? 0) (np_diff p) with
    | [] => inner
    | [k] => if Nat.eqb k 0 then inner else Ok 0%Z
    | _ => Raise ValueError
    end.

  (* lines 477-667.  The file of typical profiles is read first, whatever the latitude; its content is
     the argument saf.  The truth value of an empty array is taken to be False, as it was before
     NumPy 2.2, which raises instead. *)
  Definition frontal_constraint_saf (saf : saf_profile) (g : grid) (fl : float_profile) : res grid :=
    if fl_lat fl <? nofZ (-30) then
      let* crit := crit_saf saf fl in
      let n := length (gr_long g) in
      let* grid_crit :=
        if Z.eqb crit 0 then Ok (repeat 0%Z n)
        else mapM (fun i => cast_saf (nth i (gr_pres g) []) (nth i (gr_sal g) []) (nth i (gr_ptmp g) [])
                                     (nth i (gr_long g) nnan) (nth i (gr_lat g) nnan)) (seq 0 n) in
      let is_select := argwhere (Z.eqb crit) grid_crit in
      Ok (mkGrid (take [] (gr_sal g) is_select) (take [] (gr_ptmp g) is_select) (take [] (gr_pres g) is_select)
                 (take nnan (gr_lat g) is_select) (take nnan (gr_long g) is_select)
                 (take nnan (gr_dates g) is_select) (take nnan (gr_z g) is_select))
    else Ok g.
End Saf.
Arguments grid T : clear implicits.
Arguments float_profile T : clear implicits.
Arguments saf_profile T : clear implicits.
