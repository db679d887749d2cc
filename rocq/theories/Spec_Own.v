(* Which data of the float the mapping may depend on *)
From Coq Require Import String Ascii.
From Coq Require Import ZArith List Bool Permutation.
From Verif Require Import Num Np MapProfile Mapping.
Import ListNotations.

Section Spec.
  Context {T : Type} `{Num T}.
  (* both missing or neither, both finite or neither *)
  Definition same_kind (x y : T) : Prop := nisnan x = nisnan y /\ nisfin x = nisfin y.
  (* the same float with other salinities (and other temperatures in situ) *)
  Definition other_salinities (s s' : source T) : Prop :=
    src_no s' = src_no s /\ src_lat s' = src_lat s /\ src_long s' = src_long s /\ src_dates s' = src_dates s /\
    src_ptmp s' = src_ptmp s /\ src_pres s' = src_pres s /\ src_levels s' = src_levels s /\
    length (src_tmp s') = length (src_tmp s) /\ Forall2 (Forall2 same_kind) (src_sal s) (src_sal s').
  (* no frontal criterion: it is switched off, or every profile of the float is north of 30 S *)
  Definition no_front (cfg : map_config T) (s : source T) : Prop :=
    mc_use_saf cfg <> 1%Z \/ forall lat, In lat (src_lat s) -> nltb lat (nofZ (-30)) = false.

  (* the entries of two columns at one level: both there and of one kind, or neither there *)
  Definition kind_at (n : nat) (a b : list T) : Prop :=
    match nth_error a n, nth_error b n with
    | Some x, Some y => same_kind x y
    | None, None => True
    | _, _ => False
    end.
  (* position, date and pressures of profile i are the same *)
  Definition same_station (s s' : source T) (i : nat) : Prop :=
    nth_error (src_lat s') i = nth_error (src_lat s) i /\ nth_error (src_long s') i = nth_error (src_long s) i /\
    nth_error (src_dates s') i = nth_error (src_dates s) i /\ nth_error (src_pres s') i = nth_error (src_pres s) i.
  (* so are, at level n, the potential temperature and the kind of the salinity *)
  Definition same_sample (s s' : source T) (i n : nat) : Prop :=
    nth_error (nth i (src_ptmp s') []) n = nth_error (nth i (src_ptmp s) []) n /\
    kind_at n (nth i (src_sal s) []) (nth i (src_sal s') []).

  (* a missing value *)
  Definition missing (x : T) : Prop := nisnan x = true /\ nisfin x = false.
  (* the same profile with some salinities marked as missing; the temperature there is of no account *)
  Definition marked (a b a' b' : list T) : Prop :=
    length a' = length a /\ length b' = length b /\
    forall n x y, nth_error a n = Some x -> nth_error a' n = Some y ->
      (y = x /\ nth_error b' n = nth_error b n) \/ missing y.
  Definition marked_source (s s' : source T) (i : nat) : Prop :=
    same_station s s' i /\ length (src_sal s') = length (src_sal s) /\ length (src_tmp s') = length (src_tmp s) /\
    length (src_ptmp s') = length (src_ptmp s) /\
    marked (nth i (src_sal s) []) (nth i (src_ptmp s) []) (nth i (src_sal s') []) (nth i (src_ptmp s') []).

  (* what a mapped file holds at row l of column j *)
  Definition at_entry (m : matrix T) (j l : nat) : T := nth l (nth j (m_cols m) []) nnan.
  Definition same_entry (d d' : mapped T) (j l : nat) : Prop :=
    at_entry (la_ptmp d') j l = at_entry (la_ptmp d) j l /\ at_entry (la_mapped_sal d') j l = at_entry (la_mapped_sal d) j l /\
    at_entry (la_map_sal_errors d') j l = at_entry (la_map_sal_errors d) j l /\
    at_entry (la_noise_sal d') j l = at_entry (la_noise_sal d) j l /\ at_entry (la_signal_sal d') j l = at_entry (la_signal_sal d) j l.
End Spec.
