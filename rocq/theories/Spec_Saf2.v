(* On which side of the front a float or a cast is, level by level. *)
From Coq Require Import ZArith List Bool Sorting.Sorted.
From Verif Require Import Num Np Saf Spec_Saf.
Import ListNotations.

Section Spec.
  Context {T : Type} `{Num T}.
  Variable np_interp : T -> list T -> list T -> T.
  Variables (sa : T -> T -> T -> T -> T) (ct : T -> T -> T) (tc : T -> T -> T -> T).

  Definition at_ (l : list T) (i : nat) : T := nth i l nnan.

  (* a level of a cast is used if nothing is missing there and there is a next row, of another pressure *)
  Definition level_used (k : gcast T) (i : nat) : Prop :=
    (S i < length (k_pres k))%nat /\ nisnan (at_ (k_pres k) i) = false /\ nisnan (at_ (k_sal k) i) = false /\
    nisnan (at_ (k_ptmp k) i) = false /\ neqb (nsub (at_ (k_pres k) (S i)) (at_ (k_pres k) i)) (nofZ 0) = false.
  Definition in_situ (k : gcast T) (i : nat) : T :=
    let s := sa (at_ (k_sal k) i) (at_ (k_pres k) i) (k_long k) (k_lat k) in
    tc s (ct s (at_ (k_ptmp k) i)) (at_ (k_pres k) i).
  (* idx lists the used levels downwards *)
  Definition lists_levels (k : gcast T) (idx : list nat) : Prop :=
    (forall i, In i idx <-> level_used k i) /\ StronglySorted lt idx.
  Definition cast_on_side (c : Z) (k : gcast T) : Prop :=
    exists idx, lists_levels k idx /\ spans_300 (map (at_ (k_pres k)) idx) /\
      on_side c (np_interp (nofZ 300) (map (at_ (k_pres k)) idx) (map (in_situ k) idx)).
  (* one column of each matrix, and no pressure repeated among the used levels *)
  Definition regular (k : gcast T) : Prop :=
    length (k_sal k) = length (k_pres k) /\ length (k_ptmp k) = length (k_pres k) /\
    forall idx, lists_levels k idx -> ~ repeats (map (at_ (k_pres k)) idx).

  (* the temperature of the float at 300 dbar *)
  Definition usable_of (fl : float_profile T) (l : list T) : list T :=
    map (at_ l) (filter (usable fl) (seq 0 (length (fl_pres fl)))).
  Definition float_t300 (fl : float_profile T) : T :=
    np_interp (nofZ 300) (usable_pres fl) (usable_of fl (fl_tmp fl)).

  (* the envelopes of the typical profiles, compared at depth number j below the first two *)
  Definition sal_at saf fl j := np_interp (at_ (deph saf) (2 + j)) (usable_pres fl) (usable_of fl (fl_sal fl)).
  Definition tmp_at saf fl j := np_interp (at_ (deph saf) (2 + j)) (usable_pres fl) (usable_of fl (fl_tmp fl)).
  Definition limit (f : T -> T -> T) (a b : list T) : list T := map (fun p => f (fst p) (snd p)) (combine (skipn 2 a) (skipn 2 b)).
  Definition north_limit f saf fl j :=
    np_interp (tmp_at saf fl j) (rev (limit f (t_mean_n saf) (t_std_n saf))) (rev (limit f (s_mean_n saf) (s_std_n saf))).
  Definition south_limit f saf fl j :=
    np_interp (sal_at saf fl j) (limit f (s_mean_s saf) (s_std_s saf)) (limit f (t_mean_s saf) (t_std_s saf)).
  Definition compared saf fl j : Prop :=
    (2 + j < length (deph saf))%nat /\ nltb (nofZ 150) (at_ (deph saf) (2 + j)) = true /\
    nltb (at_ (deph saf) (2 + j)) (nofZ 1700) = true /\ nisnan (sal_at saf fl j) = false /\
    nisnan (south_limit nsub saf fl j) = false /\ nisnan (south_limit nadd saf fl j) = false /\
    nisnan (north_limit nsub saf fl j) = false /\ nisnan (north_limit nadd saf fl j) = false.
  Definition all_south saf fl : Prop := forall j, compared saf fl j ->
    nltb (south_limit nsub saf fl j) (tmp_at saf fl j) = true /\ nltb (tmp_at saf fl j) (south_limit nadd saf fl j) = true.
  Definition all_north saf fl : Prop := forall j, compared saf fl j ->
    nltb (north_limit nsub saf fl j) (sal_at saf fl j) = true /\ nltb (sal_at saf fl j) (north_limit nadd saf fl j) = true.
End Spec.
