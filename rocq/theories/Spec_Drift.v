(* A float whose conductivity sensor is off by a factor that is the same for, or changes linearly with,
   the profiles. *)
From Coq Require Import ZArith List Bool Reals.
From Verif Require Import Num Np Finders Stats FitCond MapProfile Mapping Calib Spec_Utilities Spec_Finders Spec_FitCond Spec_Calib.
Import ListNotations.
Local Open Scope R_scope.

(* the levels chosen for the p-th profile of a series, in their order *)
Fixpoint levels_in (rows : list (list (option nat))) (p : nat) : list nat :=
  match rows with
  | [] => []
  | row :: rest => match nth_error row p with Some (Some l) => l :: levels_in rest p | _ => levels_in rest p end
  end.
Definition levels_of (th : @thetas XR) (p : nat) : list nat := levels_in (th_index th) p.

Section Ratio.
  Variable c_from_sp : XR -> XR -> XR -> XR.
  Variables (src : source XR) (d : mapped XR).
  (* conductivity of the mapped over that of the measured salinity at level l of profile j *)
  Definition ratio (j l : nat) : XR :=
    let t := entry2 (src_ptmp src) j l in
    ndiv (c_from_sp (entry2 (m_cols (la_mapped_sal d)) j l) t (Fin 0)) (c_from_sp (entry2 (src_sal src) j l) t (Fin 0)).
  (* error belonging to the error of the mapped salinity, by a difference quotient *)
  Definition ratio_error (j l : nat) : XR :=
    let t := entry2 (src_ptmp src) j l in
    let s := entry2 (m_cols (la_mapped_sal d)) j l in
    let e := entry2 (m_cols (la_map_sal_errors d)) j l in
    ndiv (nmul (Fin 100) (nabs (nsub (c_from_sp s t (Fin 0)) (c_from_sp (nadd s (ndiv e (Fin 100))) t (Fin 0)))))
         (c_from_sp (entry2 (src_sal src) j l) t (Fin 0)).
  (* wherever the ratio is known in the profiles idx it has an error *)
  Definition errors_given (idx : list nat) : Prop :=
    forall j l y, In j idx -> ratio j l = Fin y -> exists e, ratio_error j l = Fin e /\ e <> 0.
  (* wherever the ratio is known in the profiles idx it is the value of k at the number of the profile,
     and has an error *)
  Definition follows (nos : list R) (idx : list nat) (k : R -> R) : Prop :=
    forall j l y, In j idx -> ratio j l = Fin y -> y = k (nth j nos 0) /\ exists e, ratio_error j l = Fin e /\ e <> 0.

  (* the ten samples of the p-th profile of a series given to the fit: the levels chosen for it, and
     nothing in the remaining places *)
  Definition sample (nos : list R) (j : nat) (o : option nat) : row :=
    (nth j nos 0, match o with
                  | Some l => match ratio j l, ratio_error j l with Fin y, Fin e => Some (y, e) | _, _ => None end
                  | None => None
                  end).
  Definition places (th : @thetas XR) (p : nat) : list (option nat) :=
    map Some (levels_of th p) ++ repeat None (10 - length (levels_of th p)).
  Definition samples (nos : list R) (idx : list nat) (th : @thetas XR) : list row :=
    flat_map (fun p => map (sample nos (nth p idx 0%nat)) (places th p)) (seq 0 (length idx)).
  (* the number of the first profile with a sample *)
  Definition first_used (nos : list R) (idx : list nat) (th : @thetas XR) (x : R) : Prop :=
    exists p l y, (p < length idx)%nat /\ In l (levels_of th p) /\ ratio (nth p idx 0%nat) l = Fin y /\ x = nth (nth p idx 0%nat) nos 0 /\
      forall p' l' y', (p' < p)%nat -> In l' (levels_of th p') -> ratio (nth p' idx 0%nat) l' <> Fin y'.
End Ratio.

(* temperatures are numbers or missing *)
Definition temperatures (src : source XR) : Prop := forall j l, exists o, entry2 (src_ptmp src) j l = oX o.
(* no profile is on land's edge: the depths are numbers other than zero *)
Definition depths_given (interp2d : list XR -> list XR -> list (list Z) -> XR -> XR -> res XR) tbase (longs lats : list R) : Prop :=
  forall l, float_coords interp2d tbase (mkPositions [map Fin longs] [map Fin lats]) = Ok l ->
  forall j, (j < length longs)%nat -> exists z, c_2 (nth j l (mkCoord NaN NaN NaN)) = Fin z /\ z <> 0.

(* ---- when the calibration completes ---- *)
(* the readings of the profiles idx, by level and place in idx *)
Definition picked (f : nat -> nat -> option R) (idx : list nat) : nat -> nat -> option R :=
  fun l p => match nth_error idx p with Some j => f l j | None => None end.
Definition series_of (sal tmp pre la : nat -> nat -> option R) (tlt tgt plt pgt : option R) (idx : list nat) : series :=
  mkSeries (picked sal idx) (picked tmp idx) (picked pre idx) (picked la idx) tlt tgt plt pgt.
(* a window bound as it is in the calseries file *)
Definition bound (o : option R) : list (list XR) := match o with Some x => [[Fin x]] | None => [] end.
(* the p-th profile of the series has a sample at a level chosen *)
Definition sampled c_from_sp (src : source XR) (d : mapped XR) (idx : list nat) (th : @thetas XR) (p : nat) : Prop :=
  (p < length idx)%nat /\ exists l y, In l (levels_of th p) /\ ratio c_from_sp src d (nth p idx 0%nat) l = Fin y.

(* what is required of the series v: its profiles have different numbers; the ratios have errors; the
   temperatures lie between -2 and 30, reach across a tenth of a degree, and differ between levels two
   apart; the pressures reach across 10; and some of the levels chosen have a ratio, in two profiles
   if a line is allowed (mx = 0) *)
Definition ready interp1d c_from_sp (src : source XR) (d : mapped XR) (nos flags : list R) (sal tmp pre la : nat -> nat -> option R) (tlt tgt plt pgt : option R)
    (pct : R) (mx : Z) (v : R) : Prop :=
  forall idx, lists_series flags v idx -> idx <> [] ->
    let data := series_of sal tmp pre la tlt tgt plt pgt idx in
    NoDup (numbers_of nos idx) /\ errors_given c_from_sp src d idx /\ wide_range data (src_levels src) (length idx) /\
    (exists lo hi, pressure_range data (src_levels src) (length idx) lo hi /\ 10 <= hi - lo) /\ no_ties data (src_levels src) (length idx) /\
    (forall j i x, In j idx -> tmp i j = Some x -> -2 <= x <= 30) /\
    forall th mats, thetas_run interp1d data (src_levels src) (length idx) pct = Ok (th, mats) ->
      (exists p, sampled c_from_sp src d idx th p) /\ (mx = 0%Z -> exists p q, p <> q /\ sampled c_from_sp src d idx th p /\ sampled c_from_sp src d idx th q).
