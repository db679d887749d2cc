(* Which casts the frontal criterion keeps. *)
From Coq Require Import ZArith List Bool.
From Verif Require Import Num Np Fetchers Saf Spec_Saf Spec_Saf2 Proofs_Saf2 Proofs_Saf3 Proofs_SafEx DemoNum.
Import ListNotations.

(* ---- C112 ---- *)
Theorem C112_kept_casts : forall (T : Type) (N : Num T) np_interp sa ct tc saf (cs : list (gcast T)) more fl c,
  nltb (fl_lat fl) (nofZ (-30)) = true -> ~ repeats (usable_pres fl) -> spans_300 (usable_pres fl) ->
  on_side c (float_t300 np_interp fl) -> Forall regular cs ->
  exists keep, frontal_constraint_saf np_interp sa ct tc saf (grid_of cs more) fl = Ok (grid_of (filter keep cs) []) /\
    forall k, In k cs -> (keep k = true <-> cast_on_side np_interp sa ct tc c k).
Proof. intros T N. exact saf_kept. Qed.
Print Assumptions C112_kept_casts.
Theorem C112_last_row_unused : forall (T : Type) (N : Num T) np_interp sa ct tc (k : gcast T) c,
  (forall i, (S i < length (k_pres k))%nat -> nltb (nofZ 300) (at_ (k_pres k) i) = false) ->
  ~ cast_on_side np_interp sa ct tc c k.
Proof. intros T N. exact last_row_unused. Qed.
Print Assumptions C112_last_row_unused.
Example C112_witness : nltb (fl_lat warm_float) (nofZ (-30)) = true /\ ~ repeats (usable_pres warm_float) /\
  spans_300 (usable_pres warm_float) /\ on_side 1 (float_t300 first_value warm_float) /\ Forall regular [warm; cold; warm_short] /\
  frontal_constraint_saf first_value same4 same2 same3 front (grid_of [warm; cold; warm_short] []) warm_float = Ok (grid_of [warm] []).
Proof. exact kept_case. Qed.
(* a cast on the side of the float at all its levels, from 100 to 400 dbar, is not kept *)
Theorem C112_all_levels_refuted : exists k, In k [warm_short] /\ length (k_pres k) = 4%nat /\
  (forall i, (i < 4)%nat -> nltb (nofZ 5) (at_ (k_ptmp k) i) = true) /\ spans_300 (k_pres k) /\
  frontal_constraint_saf first_value same4 same2 same3 front (grid_of [warm_short] []) warm_float = Ok (grid_of [] []).
Proof. exact last_row_case. Qed.
Print Assumptions C112_all_levels_refuted.

(* ---- C113 ---- *)
Theorem C113_envelope : forall (T : Type) (N : Num T) np_interp sa ct tc saf (cs : list (gcast T)) more fl,
  nltb (fl_lat fl) (nofZ (-30)) = true -> ~ repeats (usable_pres fl) -> spans_300 (usable_pres fl) ->
  (forall c, ~ on_side c (float_t300 np_interp fl)) -> Forall regular cs ->
  let south := (exists j, compared np_interp saf fl j) /\ all_south np_interp saf fl /\ ~ all_north np_interp saf fl in
  let north := (exists j, compared np_interp saf fl j) /\ all_north np_interp saf fl /\ ~ all_south np_interp saf fl in
  exists keep, frontal_constraint_saf np_interp sa ct tc saf (grid_of cs more) fl = Ok (grid_of (filter keep cs) []) /\
    forall k, In k cs ->
      (south -> (keep k = true <-> cast_on_side np_interp sa ct tc (-1) k)) /\
      (north -> (keep k = true <-> cast_on_side np_interp sa ct tc 1 k)) /\
      (~ south -> ~ north -> keep k = true).
Proof. intros T N. exact saf_envelope. Qed.
Print Assumptions C113_envelope.
Theorem C113_shallow_float : forall (T : Type) (N : Num T) np_interp sa ct tc saf (cs : list (gcast T)) more fl,
  nltb (fl_lat fl) (nofZ (-30)) = true -> ~ repeats (usable_pres fl) -> ~ spans_300 (usable_pres fl) ->
  frontal_constraint_saf np_interp sa ct tc saf (grid_of cs more) fl = Ok (grid_of cs []).
Proof. intros T N. exact saf_undecided. Qed.
Print Assumptions C113_shallow_float.
(* for real numbers: to span 300 dbar is to have a usable level above it and one below it *)
Theorem C113_spanning : forall fl : float_profile XR,
  spans_300 (usable_pres fl) <->
  (2 < length (usable_pres fl))%nat /\ (exists p, In p (usable_pres fl) /\ nltb p (nofZ 300) = true) /\
  (exists p, In p (usable_pres fl) /\ nltb (nofZ 300) p = true).
Proof. exact float_spans_iff. Qed.
Print Assumptions C113_spanning.
Example C113_witness : ~ repeats (usable_pres mild_float) /\ spans_300 (usable_pres mild_float) /\
  (forall c, ~ on_side c (float_t300 first_value mild_float)) /\ crit_saf first_value front mild_float = Ok (-1)%Z.
Proof. exact envelope_case. Qed.
