(* Sequences of calls of a cached reader.  Every call comes with the content of the disk at that time. *)
From Coq Require Import List.
From Verif Require Import Num Fetchers.
Import ListNotations.

Section Spec.
  Context {K V : Type}.
  Variable eqb : K -> K -> bool.
  Definition disk := K -> res V.
  (* the values returned by a sequence of calls, and the cache afterwards *)
  Fixpoint calls (h : list (disk * K)) (c : @cache K V) : list (res V) * @cache K V :=
    match h with
    | [] => ([], c)
    | (d, k) :: h => let '(r, c) := cached_read eqb d k c in
                     let '(rs, c) := calls h c in (r :: rs, c)
    end.
End Spec.
