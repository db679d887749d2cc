(* What the plots are expected to show. *)
From Coq Require Import String ZArith List Bool Reals Sorting.Permutation.
From Verif Require Import Num Np Finders Pyplot Plots.
Import ListNotations.
Local Open Scope R_scope.

(* ---- what a function draws and saves ---- *)
Section Trace.
  Context {D : Type}.
  Definition drawn (p : prog D) : list D := flat_map (fun c => match c with Draw d => [d] | _ => [] end) (fst p).
  Definition saved_names (p : prog D) : list string := flat_map (fun c => match c with Savefig f => [f] | _ => [] end) (fst p).
  Definition completes (p : prog D) : Prop := snd p = None.
  Definition fails (p : prog D) (e : exc) : Prop := snd p = Some e.
End Trace.

(* ---- theta_sal_plot ---- *)
Section Legend.
  Context {T : Type}.
  Definition is_curve (d : item T) : bool := match d with Curve _ _ _ => true | _ => false end.
  Definition is_bar (d : item T) : bool := match d with Bars _ _ _ _ => true | _ => false end.
  (* the profile numbers in the legend *)
  Definition legend_numbers (l : list (item T)) : list T :=
    flat_map (fun d => match d with Curve _ _ (Number k) => [k] | _ => [] end) l.
End Legend.
(* every how many profiles one is in the legend, so that at most 30 of n are *)
Definition stride (n : nat) : nat := (n + 29) / 30.
Definition in_legend (n : nat) (z : Z) (i : nat) : bool := Nat.eqb (i mod stride n) 0 && Z.ltb (Z.of_nat i) z.

(* ---- sal_var_plot ---- *)
From Verif Require Import Spec_Finders.
(* a float with its mapped and calibrated salinities *)
Record variance_data : Type := mkVarianceData {
  w_float : series; w_map : nat -> nat -> option R; w_map_err : nat -> nat -> option R;
  w_cal : nat -> nat -> option R; w_cal_err : nat -> nat -> option R }.
Definition oXm (m : nat -> nat -> option R) : nat -> nat -> XR := fun i j => oX (m i j).
Definition sal_var_run interp1d (w : variance_data) (levels nr nc : nat) (pct : R) (nos : list XR) (p : @plot_paths XR) (name : string) :=
  let d := w_float w in
  sal_var_plot interp1d levels nr nc (oXm (d_la d)) (option_map Fin (d_tlt d)) (option_map Fin (d_tgt d)) (option_map Fin (d_plt d)) (option_map Fin (d_pgt d))
    (Fin pct) (mkSeven (oXm (d_pres d)) (oXm (d_sal d)) (oXm (d_ptmp d)) (oXm (w_map w)) (oXm (w_map_err w)) (oXm (w_cal w)) (oXm (w_cal_err w))) nos p name.

Section Hidden.
  Variables (d : series) (nr nc : nat).
  Definition outside (lt gt : option R) (o : option R) : Prop := exists x, o = Some x /\ ~ window_ok lt gt x.
  Definition theta_out (i j : nat) : Prop := d_la d i j <> None /\ outside (d_tlt d) (d_tgt d) (d_ptmp d i j).
  (* an upper bound alone hides the samples above it; otherwise a sample outside the window, in row i and
     column j, hides row i and row j of all profiles *)
  Definition upper_only : Prop := d_tlt d <> None /\ d_tgt d = None.
  Definition hidden_theta (i j : nat) : Prop :=
    (upper_only /\ theta_out i j) \/
    (~ upper_only /\ exists i' j', (i' < nr)%nat /\ (j' < nc)%nat /\ theta_out i' j' /\ (i = i' \/ i = j')).
  Definition pres_out (i j : nat) : Prop := d_la d i j <> None /\ ~ hidden_theta i j /\ outside (d_plt d) (d_pgt d) (d_pres d i j).
  Definition hidden_pres (i : nat) : Prop :=
    exists i' j', (i' < nr)%nat /\ (j' < nc)%nat /\ pres_out i' j' /\ (i = i' \/ i = j').
  Definition shown (i j : nat) : Prop := d_la d i j <> None /\ ~ hidden_theta i j /\ ~ hidden_pres i.
  (* a sample to be hidden lies in a column without a row of the same number *)
  Definition no_such_row : Prop :=
    exists i' j', (i' < nr)%nat /\ (nr <= j' < nc)%nat /\ ((~ upper_only /\ theta_out i' j') \/ pres_out i' j').
End Hidden.

(* value of val on level theta in profile j, between the samples where test is known.  The samples used
   are those kept in d. *)
Inductive level_value (d : series) (test val : nat -> nat -> option R) (nr : nat) (theta : XR) (j : nat) : XR -> Prop :=
| lv_none : (forall th, theta = Fin th -> ~ straddles d nr th j) -> level_value d test val nr theta j NaN
| lv_nearest th k x : theta = Fin th -> straddles d nr th j -> nearest_row d nr th j k x ->
    (forall k' x', ~ far_side d nr th j k x k' x') \/ test k j = None
      \/ (exists k' x', partner d nr th j k x k' x' /\ test k' j = None) ->
    level_value d test val nr theta j (oX (val k j))
| lv_between th k x k' x' s s' : theta = Fin th -> straddles d nr th j -> nearest_row d nr th j k x ->
    partner d nr th j k x k' x' -> (x < th < x' \/ x' < th < x) ->
    test k j <> None -> test k' j <> None -> val k j = Some s -> val k' j = Some s' ->
    level_value d test val nr theta j (Fin (s + (s' - s) * (th - x) / (x' - x))).

(* the ordinates of the curves with a given label *)
Definition curves_labelled {T} (s : string) (l : list (item T)) : list (list T) :=
  flat_map (fun i => match i with Curve _ ys (Text t) => if String.eqb s t then [ys] else [] | _ => [] end) l.
(* error bars and bands *)
Definition error_bars {T} (l : list (item T)) : list (list T * list T) :=
  flat_map (fun i => match i with Bars false _ ys es => [(ys, es)] | _ => [] end) l.
Definition bands {T} (l : list (item T)) : list (list T * list T * list T) :=
  flat_map (fun i => match i with Band xs hi lo => [(xs, hi, lo)] | _ => [] end) l.
(* the samples shown, as a series of their own *)
Definition visible (d : series) (nr nc : nat) (v : series) : Prop :=
  d_ptmp v = d_ptmp d /\ d_tlt v = None /\ d_tgt v = None /\ d_plt v = None /\ d_pgt v = None
  /\ forall i j, d_la v i j <> None <-> shown d nr nc i j.
(* errors are known where the value is *)
Definition errors_known (w : variance_data) : Prop :=
  (forall i j, w_map w i j <> None -> w_map_err w i j <> None) /\ (forall i j, w_cal w i j <> None -> w_cal_err w i j <> None).
(* the shaded band around the calibrated salinities that are known *)
Definition error_band (nos ys es : list XR) : list XR * list XR * list XR :=
  let q := filter (fun q => nisfin (fst (snd q))) (combine nos (combine ys es)) in
  (map fst q, map (fun q => nadd (fst (snd q)) (snd (snd q))) q, map (fun q => nsub (fst (snd q)) (snd (snd q))) q).
(* F has a row per level and an entry per profile, of values of val *)
Definition rows_of (v : series) (test val : nat -> nat -> option R) (levels nr nc : nat) (ths : list XR) (F : list (list XR)) : Prop :=
  length F = levels /\ forall l, (l < levels)%nat -> length (nth l F []) = nc /\
    forall j, (j < nc)%nat -> level_value v test val nr (nth l ths NaN) j (nth j (nth l F []) NaN).

(* ---- the files of a whole run ---- *)
Definition empty_session {D} : session D := mkSession [] [].
(* what a program saves as file, run on its own *)
Definition alone {D} (show_closes : bool) (p : prog D) (file : string) : option (list (nat * D)) :=
  file_content (execs show_closes (fst p) empty_session) file.
