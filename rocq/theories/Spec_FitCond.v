(* Specification-level notions for fit_cond *)
From Coq Require Import String ZArith List Bool Reals Lra Lia Sorted Permutation.
From Verif Require Import Num Np Finders Stats FitCond Spec_Utilities Spec_Finders Spec_Stats LinR LeastSq.
Import ListNotations.
Local Open Scope R_scope.
Local Open Scope list_scope.

(* ---- arguments ---- *)
Definition option_names : list string :=
  ["initial_breaks"; "max_no_breaks"; "number_breaks"; "nloops"; "breaks"]%string.
(* a name is recognised whatever its letter case *)
Definition named {T} (k : string) (a : pyval T) : Prop := exists s, a = VStr s /\ str_lower s = k.
Definition known {T} (a : pyval T) : Prop := exists k, In k option_names /\ named k a.
Definition numeric {T} (v : pyval T) : Prop := match v with VStr _ => False | _ => True end.
(* the values accepted under each name *)
Definition acceptable {T} (k : string) (v : pyval T) : Prop :=
  (k = "initial_breaks" -> numeric v)%string /\
  (k = "number_breaks" -> exists z, v = VInt z)%string /\
  (k = "breaks" -> v = VStr "" \/ exists l, v = VArr l)%string.
Definition well_formed {T} (p : pyval T * pyval T) : Prop :=
  exists k, In k option_names /\ named k (fst p) /\ acceptable k (snd p).
Definition flat {T} (ps : list (pyval T * pyval T)) : list (pyval T) := flat_map (fun p => [fst p; snd p]) ps.
Definition sets_max {T} (p : pyval T * pyval T) : Prop :=
  named "max_no_breaks"%string (fst p) \/ named "number_breaks"%string (fst p).

(* ---- the data ---- *)
(* one sample: its position, and its value with error unless it is missing *)
Definition row : Type := (R * option (R * R))%type.
Definition col_x (rows : list row) : list XR := map (fun r => Fin (fst r)) rows.
Definition col_y (rows : list row) : list XR := map (fun r => oX (option_map fst (snd r))) rows.
Definition col_e (rows : list row) : list XR := map (fun r => oX (option_map snd (snd r))) rows.
Fixpoint valid (rows : list row) : list (R * (R * R)) :=
  match rows with
  | [] => []
  | (x, Some q) :: r => (x, q) :: valid r
  | (_, None) :: r => valid r
  end.
Definition values (rows : list row) : list R := map (fun v => fst (snd v)) (valid rows).
Definition errors (rows : list row) : list R := map (fun v => snd (snd v)) (valid rows).
Definition usable (rows : list row) : Prop :=
  valid rows <> [] /\ forall e, In e (errors rows) -> e <> 0.
(* the positions of the valid samples, ascending *)
Definition sorted_positions (rows : list row) (xs : list R) : Prop :=
  ascending xs /\ Permutation xs (map fst (valid rows)).
(* the different members of a list, ascending *)
Definition distinct_of (l us : list R) : Prop :=
  StronglySorted Rlt us /\ forall x, In x us <-> In x l.

(* the number of independent values: every valid sample counts one over the sum of its covariances
   with the valid samples; v is that number when those sums are finite and not zero *)
Definition effective_number (rows : list row) (lv : nat -> nat -> XR) (v : R) : Prop :=
  let pos := valid_positions (col_x rows) (col_y rows) in
  exists c : rmat,
    (forall i j, In i pos -> In j pos -> lv i j = Fin (c i j)) /\
    (forall i, In i pos -> fold_right Rplus 0 (map (c i) pos) <> 0) /\
    v = fold_right Rplus 0 (map (fun i => 1 / fold_right Rplus 0 (map (c i) pos)) pos).

(* the constant and the line that minimise the sum of squares weighted with 1/error^2.  The line
   pairs the k-th smallest position with the k-th value, as fit_cond does. *)
Definition flat_ss (rows : list row) (a : R) : R :=
  bsum (length (values rows)) (fun i => (nth i (values rows) 0 - a) ^ 2 / nth i (errors rows) 0 ^ 2).
Definition line_ss (rows : list row) (xs : list R) (c s : R) : R :=
  bsum (length (values rows)) (fun i =>
    (nth i (values rows) 0 - (c + s * (nth i xs 0 - nth 0 xs 0))) ^ 2 / nth i (errors rows) 0 ^ 2).
Definition weighted_mean (rows : list row) : R :=
  bsum (length (values rows)) (fun i => nth i (values rows) 0 / nth i (errors rows) 0 ^ 2)
  / bsum (length (values rows)) (fun i => 1 / nth i (errors rows) 0 ^ 2).
Definition best_line (rows : list row) (xs : list R) (c s : R) : Prop :=
  forall c' s', line_ss rows xs c s <= line_ss rows xs c' s'
                /\ (line_ss rows xs c' s' = line_ss rows xs c s -> c' = c /\ s' = s).

(* what is assumed of np.linalg.inv: a regular matrix is inverted *)
Definition inv_ok (inv : nat -> (nat -> nat -> XR) -> res (nat -> nat -> XR)) : Prop :=
  forall n A a, finmat n n A a -> inj n a ->
  exists B b, inv n A = Ok B /\ finmat n n B b /\ is_inverse n a b.
Definition randn_ok {rng} (randn : nat -> rng -> list XR * rng) : Prop :=
  forall n g, length (fst (randn n g)) = n.

(* the selection criterion (small-sample Akaike) of a fit with q parameters leaving the weighted
   sum of squares r, for a sample of n values with v degrees of freedom *)
Definition criterion (n : nat) (v r q : R) : R := v * ln (r / INR n) + v * (v + q) / (v - q - 2).
(* the line is preferred to the constant *)
Definition prefers_line (n : nat) (v r0 r1 : R) : Prop :=
  0 < r0 /\ (r1 = 0 \/ 0 < r1 /\ criterion n v r1 2 < criterion n v r0 1).

(* ---- results ---- *)
Definition offset_result (rows : list row) (us : list R) (v : R) (f : fit) : Prop :=
  let a := weighted_mean rows in
  f_xfit f = map Fin us /\ f_ndf f = Fin v /\ f_breaks f = [] /\ f_coef f = [Fin a] /\
  f_condslope f = map (fun _ => Fin a) us /\ f_time_deriv f = map (fun _ => Fin 0) us /\
  f_time_deriv_err f = map (fun _ => NaN) us.
(* the returned curve starts from the smallest position of all samples, valid or not *)
Definition line_result (rows : list row) (xs us : list R) (v : R) (c s : R) (f : fit) : Prop :=
  f_xfit f = map Fin us /\ f_ndf f = Fin v /\ f_breaks f = [] /\ f_coef f = [Fin c; Fin s] /\
  f_condslope f = map (fun u => Fin (c + s * (u - hd 0 us))) us /\ f_time_deriv f = map (fun _ => Fin s) us.

(* the largest number of breaks that may be considered with v degrees of freedom; -1: constant only *)
Definition most_breaks (v : R) (mx K : Z) : Prop :=
  (-1 <= K <= mx)%Z /\ (K = (-1)%Z \/ IZR (2 * K + 5) <= v) /\
  forall k, (-1 < k <= mx)%Z -> IZR (2 * k + 5) <= v -> (k <= K)%Z.
(* a list of options that prescribes no break points and keeps a sensible number of Monte-Carlo loops *)
Definition free_breaks {T} (ps : list (pyval T * pyval T)) : Prop :=
  forall q, In q ps -> ~ named "breaks"%string (fst q) /\
    (named "nloops"%string (fst q) -> exists z, snd q = VInt z /\ (0 <= z)%Z).
(* two valid samples lie at different positions *)
Definition spread (rows : list row) : Prop :=
  exists p q, In p (map fst (valid rows)) /\ In q (map fst (valid rows)) /\ p <> q.

(* ---- station means ---- *)
(* how many of the sorted positions lie before u: the place of the first sample at u *)
Definition before (xs : list R) (u : R) : nat := length (filter (fun w => if Rlt_dec w u then true else false) xs).
(* the samples averaged for u: those after the first sample of every earlier position, up to and
   including the first sample at u *)
Definition window (xs : list R) (u : R) : list nat :=
  filter (fun i => forallb (fun w => if Rlt_dec w u then Nat.ltb (before xs w) i else true) xs
                   && Nat.leb i (before xs u)) (seq 0 (length xs)).
(* the samples at u itself *)
Definition own_samples (xs : list R) (u : R) : list nat :=
  filter (fun i => if Req_EM_T (nth i xs 0) u then true else false) (seq 0 (length xs)).
Definition idx_sum (l : list nat) (f : nat -> R) : R := fold_right Rplus 0 (map f l).
Definition station_mean (rows : list row) (l : list nat) : R :=
  idx_sum l (fun i => nth i (values rows) 0 / nth i (errors rows) 0 ^ 2)
  / idx_sum l (fun i => 1 / nth i (errors rows) 0 ^ 2).
Definition station_rms (rows : list row) (l : list nat) : R :=
  sqrt (idx_sum l (fun i => (station_mean rows l - nth i (values rows) 0) ^ 2 / nth i (errors rows) 0 ^ 2)
        / idx_sum l (fun i => 1 / nth i (errors rows) 0 ^ 2)).
Definition at_positions (xs us : list R) (f : R -> R) : list XR :=
  map (fun u => if in_dec Req_EM_T u xs then Fin (f u) else NaN) us.

(* every option but initial_breaks *)
Definition not_init {T} (q : pyval T * pyval T) : bool :=
  match fst q with VStr s => negb (String.eqb (str_lower s) "initial_breaks"%string) | _ => true end.
