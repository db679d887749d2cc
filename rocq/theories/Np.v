(* The numpy primitives used by the modelled functions, as total Gallina functions on lists.
   (Library semantics, not code of /repo; each comment names the numpy call it stands for.) *)
From Coq Require Import ZArith List Bool Lia.
From Verif Require Import Num.
Import ListNotations.

(* Stable insertion sort: an element goes in front of the first element that is not smaller. *)
Fixpoint insert_by {A} (lt : A -> A -> bool) (x : A) (l : list A) : list A :=
  match l with
  | [] => [x]
  | y :: r => if lt y x then y :: insert_by lt x r else x :: l
  end.

Definition sort_by {A} (lt : A -> A -> bool) (l : list A) : list A :=
  fold_right (insert_by lt) [] l.

(* np.argwhere(p(a)).flatten() of a 1-d array *)
Fixpoint argwhere_from {A} (i : nat) (p : A -> bool) (l : list A) : list nat :=
  match l with
  | [] => []
  | x :: r => if p x then i :: argwhere_from (S i) p r else argwhere_from (S i) p r
  end.
Definition argwhere {A} (p : A -> bool) (l : list A) : list nat := argwhere_from 0 p l.

(* a[idx] with an index array; out-of-range indices cannot occur where this is used *)
Definition take {A} (d : A) (l : list A) (idx : list nat) : list A := map (fun i => nth i l d) idx.

(* np.delete(a, idx) *)
Fixpoint delete_from {A} (i : nat) (idx : list nat) (l : list A) : list A :=
  match l with
  | [] => []
  | x :: r => if existsb (Nat.eqb i) idx then delete_from (S i) idx r else x :: delete_from (S i) idx r
  end.
Definition np_delete {A} (l : list A) (idx : list nat) : list A := delete_from 0 idx l.

(* l[i] = x, for i in range *)
Fixpoint set_nth {A} (i : nat) (x : A) (l : list A) : list A :=
  match l, i with
  | [], _ => []
  | _ :: r, O => x :: r
  | y :: r, S j => y :: set_nth j x r
  end.

Section Np.
  Context {T : Type} `{Num T}.

  (* numpy's sort order on floats: NaN after everything else *)
  Definition slt (a b : T) : bool := nltb a b || (negb (nisnan a) && nisnan b).

  (* np.sort *)
  Definition np_sort (l : list T) : list T := sort_by slt l.

  (* np.argsort(a, kind='stable') *)
  Definition argsort (l : list T) : list nat :=
    map snd (sort_by (fun p q => slt (fst p) (fst q)) (combine l (seq 0 (length l)))).

  (* np.unique: sorted, adjacent equal values merged *)
  Fixpoint dedup (l : list T) : list T :=
    match l with
    | [] => []
    | x :: r => match r with
                | [] => [x]
                | y :: _ => if neqb x y then dedup r else x :: dedup r
                end
    end.
  Definition np_unique (l : list T) : list T := dedup (np_sort l).

  (* Running minimum / maximum of a list with a start value *)
  Definition min_from (m : T) (l : list T) : T :=
    fold_left (fun m x => if nltb x m then x else m) l m.
  Definition max_from (m : T) (l : list T) : T :=
    fold_left (fun m x => if nltb m x then x else m) l m.

  Definition drop_nan (l : list T) : list T := filter (fun x => negb (nisnan x)) l.

  (* np.nanmin / np.nanmax: NaN when there is no non-NaN element (RuntimeWarning).
     On zero-size arrays numpy raises ValueError; callers test that first. *)
  Definition nanmin (l : list T) : T :=
    match drop_nan l with [] => nnan | x :: r => min_from x r end.
  Definition nanmax (l : list T) : T :=
    match drop_nan l with [] => nnan | x :: r => max_from x r end.

  (* np.argmin: first NaN if there is one, otherwise first minimal element; 0 on [] (callers
     guard: numpy raises there) *)
  Fixpoint argmin_from (i : nat) (best : nat) (m : T) (l : list T) : nat :=
    match l with
    | [] => best
    | x :: r => if nisnan m then best
                else if nisnan x || nltb x m then argmin_from (S i) i x r
                else argmin_from (S i) best m r
    end.
  Definition argmin (l : list T) : nat :=
    match l with [] => 0 | x :: r => argmin_from 1 0 x r end.

  (* np.nanargmin along one column: NaN replaced by +inf first; error when all NaN or empty *)
  Fixpoint nanargmin_from (i : nat) (best : option (nat * T)) (l : list T) : option (nat * T) :=
    match l with
    | [] => best
    | x :: r =>
        nanargmin_from (S i)
          (if nisnan x then best
           else match best with
                | None => Some (i, x)
                | Some (_, m) => if nltb x m then Some (i, x) else best
                end) r
    end.
  Definition nanargmin (l : list T) : res nat :=
    match nanargmin_from 0 None l with Some (i, _) => Ok i | None => Raise ValueError end.

  Definition nlen {A} (l : list A) : T := nofZ (Z.of_nat (length l)).

  (* np.mean of a non-empty list (NaN for empty: 0/0) *)
  Definition mean (l : list T) : T := ndiv (nsum l) (nlen l).
  (* np.var with ddof *)
  Definition var_ddof (ddof : Z) (l : list T) : T :=
    let m := mean l in
    ndiv (nsum (map (fun x => nsq (nsub x m)) l)) (nsub (nlen l) (nofZ ddof)).
End Np.
