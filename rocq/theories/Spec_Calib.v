(* What a calibration file says about the profiles of a float. *)
From Coq Require Import ZArith List Bool Reals Sorted.
From Verif Require Import Num Np Stats FitCond MapProfile Mapping Calib.
Import ListNotations.
Local Open Scope num_scope.

Section Spec.
  Context {T : Type} `{Num T}.
  Variable c_from_sp : T -> T -> T -> T.
  Variable sp_from_c : T -> T -> T -> T.

  (* level l of profile j; the entry of profile j *)
  Definition entry2 (m : list (list T)) (j l : nat) : T := nth l (nth j m []) nnan.
  Definition entry1 (m : list T) (j : nat) : T := nth j m nnan.

  (* nothing is known about profile j *)
  Definition missing (r : calib T) (j : nat) : Prop :=
    entry1 (k_factor r) j = nnan /\ entry1 (k_factor_err r) j = nnan /\
    entry1 (k_deriv r) j = nnan /\ entry1 (k_deriv_err r) j = nnan /\
    entry1 (k_sta_mean r) j = nnan /\ entry1 (k_sta_rms r) j = nnan /\
    forall l, entry2 (k_sal r) j l = nnan /\ entry2 (k_sal_err r) j l = nnan /\
              entry2 (k_cond r) j l = nnan /\ entry2 (k_cond_err r) j l = nnan /\
              entry2 (k_sta_sal r) j l = nnan /\ entry2 (k_sta_sal_err r) j l = nnan.

  (* every level of profile j is calibrated with the factor saved for the profile, and its errors
     are those belonging to the saved errors *)
  Definition calibrated (src : source T) (r : calib T) (j : nat) : Prop :=
    forall l, (l < src_levels src)%nat ->
    let t := entry2 (src_ptmp src) j l in
    let cond := c_from_sp (entry2 (src_sal src) j l) t 0 in
    let f := entry1 (k_factor r) j in
    let e := entry1 (k_factor_err r) j in
    let m := entry1 (k_sta_mean r) j in
    let s := entry1 (k_sta_rms r) j in
    entry2 (k_cond r) j l = f * cond /\
    entry2 (k_cond_err r) j l = e * cond /\
    entry2 (k_sal r) j l = sp_from_c (f * cond) t 0 /\
    entry2 (k_sal_err r) j l = nabs (sp_from_c (f * cond) t 0 - sp_from_c (f * cond + e * cond) t 0) /\
    entry2 (k_sta_sal r) j l = sp_from_c (m * cond) t 0 /\
    entry2 (k_sta_sal_err r) j l = nabs (sp_from_c (m * cond) t 0 - sp_from_c (m * cond + s * cond) t 0).

  (* the matrices of the source file have the same shape *)
  Definition rectangular (src : source T) : Prop :=
    forall cols, In cols [src_sal src; src_ptmp src; src_pres src] ->
    length cols = length (src_no src) /\ forall c, In c cols -> length c = src_levels src.

  (* the saved arrays have the shape of the source's *)
  Definition shaped (src : source T) (r : calib T) : Prop :=
    (forall m, In m [k_factor r; k_factor_err r; k_deriv r; k_deriv_err r; k_sta_mean r; k_sta_rms r] ->
       length m = length (src_no src)) /\
    (forall m, In m [k_sal r; k_sal_err r; k_cond r; k_cond_err r; k_sta_sal r; k_sta_sal_err r] ->
       length m = length (src_no src) /\ forall c, In c m -> length c = src_levels src) /\
    k_no r = src_no src.

  (* profile j has the same data, and the same position, in two pairs of files *)
  Definition same_profile (src src' : source T) (d d' : mapped T) (l l' : list (coord T)) (j : nat) : Prop :=
    nth j (src_sal src) [] = nth j (src_sal src') [] /\ nth j (src_ptmp src) [] = nth j (src_ptmp src') [] /\
    nth j (src_pres src) [] = nth j (src_pres src') [] /\ entry1 (src_no src) j = entry1 (src_no src') j /\
    nth j (m_cols (la_ptmp d)) [] = nth j (m_cols (la_ptmp d')) [] /\
    nth j (m_cols (la_mapped_sal d)) [] = nth j (m_cols (la_mapped_sal d')) [] /\
    nth j (m_cols (la_map_sal_errors d)) [] = nth j (m_cols (la_map_sal_errors d')) [] /\
    nth_error l j = nth_error l' j.
  (* profile j has the same calibration but for the errors of the factor *)
  Definition same_calibration (levels : nat) (r r' : calib T) (j : nat) : Prop :=
    entry1 (k_factor r) j = entry1 (k_factor r') j /\ entry1 (k_deriv r) j = entry1 (k_deriv r') j /\
    entry1 (k_deriv_err r) j = entry1 (k_deriv_err r') j /\
    entry1 (k_sta_mean r) j = entry1 (k_sta_mean r') j /\ entry1 (k_sta_rms r) j = entry1 (k_sta_rms r') j /\
    forall l, (l < levels)%nat ->
      entry2 (k_sal r) j l = entry2 (k_sal r') j l /\ entry2 (k_cond r) j l = entry2 (k_cond r') j l /\
      entry2 (k_sta_sal r) j l = entry2 (k_sta_sal r') j l /\ entry2 (k_sta_sal_err r) j l = entry2 (k_sta_sal_err r') j l.

  (* the fit has the value y at the position x *)
  Definition value_at (f : @fit T) (x y : T) : Prop :=
    exists q, nth_error (f_xfit f) q = Some x /\ nth_error (f_condslope f) q = Some y.

  (* what is saved for profile j is the fit's value at the position x, with its error, the slope with its
     error and the mean of the station with its scatter *)
  Definition fit_saved (f : @fit T) (x : T) (r : calib T) (j : nat) : Prop :=
    exists q, nth_error (f_xfit f) q = Some x /\
      nth_error (f_condslope f) q = Some (entry1 (k_factor r) j) /\ nth_error (f_condslope_err f) q = Some (entry1 (k_factor_err r) j) /\
      nth_error (f_time_deriv f) q = Some (entry1 (k_deriv r) j) /\ nth_error (f_time_deriv_err f) q = Some (entry1 (k_deriv_err r) j) /\
      nth_error (f_sta_mean f) q = Some (entry1 (k_sta_mean r) j) /\ nth_error (f_sta_rms f) q = Some (entry1 (k_sta_rms r) j).

  (* the profiles with the flag v *)
  Definition flagged (flags : list T) (v : T) (j : nat) : Prop :=
    (j < length flags)%nat /\ (entry1 flags j =? v) = true.
End Spec.

(* ---- flags that are numbers ---- *)
Local Open Scope R_scope.
Definition in_series (flags : list R) (j : nat) : Prop := exists v, nth_error flags j = Some v /\ v <> 0.
(* the profiles with the flag v, in the order of the file *)
Definition lists_series (flags : list R) (v : R) (idx : list nat) : Prop :=
  StronglySorted lt idx /\ forall j, In j idx <-> nth_error flags j = Some v.
(* the numbers of the profiles idx *)
Definition numbers_of (nos : list R) (idx : list nat) : list R := map (fun i => nth i nos 0) idx.

(* correlation of two profiles at (longitude, latitude, depth) as the calibration uses it: longitude by
   the latitude scale, latitude by the longitude scale, and the vorticity at the longitude *)
Definition vorticity_of (angle depth : R) : R := 2 * (7292 / 1000) / 100000 * sin (angle * PI / 180) / depth.
Definition exchanged (lat_scale long_scale phi : R) (pv : bool) (lo la z lo' la' z' : R) : R :=
  exp (- (((lo - lo') / lat_scale) ^ 2 + ((la - la') / long_scale) ^ 2 +
          if pv then
            (if Req_EM_T (vorticity_of lo z) 0 then 0
             else (vorticity_of lo z - vorticity_of lo' z') ^ 2 / (vorticity_of lo z ^ 2 + vorticity_of lo' z' ^ 2) / phi ^ 2)
          else 0)).

(* one row of max_breaks for every series, or one for all, or at most one series *)
Definition right_rows {A} (flags : list R) (rows : list A) : Prop :=
  exists us, StronglySorted Rlt us /\ (forall v, In v us <-> In v flags /\ v <> 0) /\
    (length us <= 1 \/ length rows = 1 \/ length rows = length us)%nat.
