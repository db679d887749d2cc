(* Model of pyowc/core/stats.py, lines 26-657: fit_cond and its inner function nlbpfun. *)
From Coq Require Import String Ascii ZArith List Bool Lia.
From Verif Require Import Num Np Utilities Finders Stats.
Import ListNotations.
Local Open Scope num_scope.
Local Open Scope list_scope.

(* str.lower on ASCII names *)
Definition lower_ascii (c : ascii) : ascii :=
  let n := nat_of_ascii c in
  if Nat.leb 65 n && Nat.leb n 90 then ascii_of_nat (n + 32) else c.
Fixpoint str_lower (s : string) : string :=
  match s with EmptyString => EmptyString | String c r => String (lower_ascii c) (str_lower r) end.

(* np.arange(a, b) on integers *)
Definition zrange (a b : Z) : list Z :=
  List.map (fun k => (a + Z.of_nat k)%Z) (seq 0 (Z.to_nat (b - a))).

(* a positional argument of fit_cond: string, int, float, 1-d array *)
Inductive pyval {T : Type} : Type := VStr (s : string) | VInt (z : Z) | VFlt (t : T) | VArr (l : list T).
Arguments pyval : clear implicits.

Section FitCond.
  Context {T : Type} `{Num T} `{NumT T}.
  Notation mat := (nat -> nat -> T).
  Variable det : nat -> mat -> T.                         (* np.linalg.det *)
  Variable solve : nat -> nat -> mat -> mat -> res mat.   (* scipy.linalg.solve *)
  Variable inv : nat -> mat -> res mat.                   (* np.linalg.inv *)
  (* scipy.optimize.least_squares(fun, x0, method='lm', ...): the points at which fun was evaluated,
     in order, and the point x of the result.  An exception of fun propagates. *)
  Variable least_squares : (list T -> res (list T)) -> list T -> res (list (list T) * list T).
  Variable rng : Type.
  Variable randn : nat -> rng -> list T * rng.            (* np.random.randn(n) *)

  Notation brk_fit := (brk_pt_fit det solve).

  (* ---------------------------------------------------------------- *)
  (* nlbpfun, 68-110: the break points belonging to a parameter vector *)

  (* 91-96: running sums of exp(ubrk[i]) *)
  Fixpoint cumexp (acc : T) (u : list T) : list T :=
    match u with [] => [] | a :: r => let s := acc + nexp a in s :: cumexp s r end.
  Definition fnumer (u : list T) : list T :=
    match u with [] => [] | a :: r => nexp a :: cumexp (nexp a) r end.

  (* 104-106: breaks[difference + 1] += 0.00001 where two successive breaks are equal *)
  Definition nudge (b : list T) : list T :=
    match b with
    | [] => []
    | x :: r => x :: map (fun p => if (snd p - fst p) =? 0 then snd p + nq 1 100000 else snd p)
                         (combine b r)
    end.

  (* 91-106; ubrk[0] on an empty vector raises *)
  Definition decode_breaks (xblim : T * T) (ubrk : list T) : res (list T) :=
    match ubrk with
    | [] => Raise IndexError
    | _ =>
        let f := fnumer ubrk in
        let fdenom := 1 + last f nnan in
        let ftem := (snd xblim - fst xblim) / fdenom in
        Ok (nudge (map (fun v => fst xblim + ftem * v) f))
    end.

  (* 384-389, 546-550: parameters encoding break guesses (in -1..1) *)
  Definition encode_breaks (guess : list T) : list T :=
    let b_g := nofZ (-1) :: guess in
    let b_last := last b_g nnan in
    map (fun p => nlog ((snd p - fst p) / (1 - b_last))) (combine b_g guess).

  (* 381-382: the evenly spaced guess *)
  Definition even_guess (nbr : nat) : list T :=
    map (fun k => nofZ (-1) + nofZ 2 * nofZ (Z.of_nat k) / nofZ (Z.of_nat nbr + 1)) (seq 1 nbr).

  (* ---------------------------------------------------------------- *)
  (* preparation, 113-236 *)
  Record prep : Type := mkPrep {
    npts : nat; x_0 : T; x_scale : T; y_0 : T; y_scale : T;
    xf : list T; yf : list T; nerr : list T; xfit : list T;
    x_unique : list T; index_unique : list nat; err_var : list T; wdiag : list T;
    ndf : T; xblim : T * T; lv : mat
  }.

  (* np.std *)
  Definition std (l : list T) : T := nsqrt (var_ddof 0 l).

  (* 226: np.sum(ones / (lvcov . ones)) *)
  Definition eff_dof (n : nat) (lvcov : mat) : T :=
    nsum (map (fun i => 1 / nsum (map (fun j => lvcov i j * 1) (seq 0 n))) (seq 0 n)).

  (* 140: np.argwhere(np.isfinite(y) & np.isfinite(x)) *)
  Definition good_points (x y : list T) : list nat :=
    argwhere (fun p => nisfin (snd p) && nisfin (fst p)) (combine x y).

  (* np.unique(..., return_index=True): positions of the first occurrences *)
  Definition first_index (u : T) (l : list T) : nat := hd 0%nat (argwhere (fun v => v =? u) l).

  (* 130-236.  The 2-d arrays are given flattened in the order of x.T.flatten(); lvcov is indexed
     accordingly.  x is sorted first, so the following stable argsort is that of a sorted array. *)
  Definition prepare (x y n_err : list T) (lvcov : mat) : prep :=
    let xfit := np_unique x in
    let good := good_points x y in
    let x := take nnan x good in
    let y := take nnan y good in
    let n_err := take nnan n_err good in
    let lvc := fun i j => lvcov (nth i good 0%nat) (nth j good 0%nat) in
    let npts := length x in
    let x := np_sort x in
    let sorted_index := argsort x in
    let y := take nnan y sorted_index in
    let n_err := take nnan n_err sorted_index in
    let xa := hd nnan x in
    let xb := last x nnan in
    let x_0 := (xb + xa) / nofZ 2 in
    let x_scale := if negb (xa =? xb) then (xb - xa) / nofZ 2 else 1 in
    let y_0 := mean y in
    let s := std y in
    let y_scale := if s =? 0 then 1 else s in
    let xf := map (fun v => (v - x_0) / x_scale) x in
    let yf := map (fun v => (v - y_0) / y_scale) y in
    let n_err := map (fun v => v / y_scale) n_err in
    let xfit := map (fun v => (v - x_0) / x_scale) xfit in
    let x_unique := np_unique xf in
    let index_unique := map (fun u => first_index u xf) x_unique in
    let n_prof := length x_unique in
    let err_var := map nsq n_err in
    let m := mean err_var in
    let wdiag := map (fun e => m / e) err_var in
    let xblim := if Nat.ltb 3 n_prof then (nth 1 x_unique nnan, nth (n_prof - 2) x_unique nnan)
                 else (1, 1) in
    mkPrep npts x_0 x_scale y_0 y_scale xf yf n_err xfit x_unique index_unique err_var wdiag
           (eff_dof npts lvc) xblim lvc.

  (* ---------------------------------------------------------------- *)
  (* argument parsing, 238-281 *)
  Record opts : Type := mkOpts {
    o_init : list T;             (* brk_init, [] by default *)
    o_max : pyval T;             (* max_brk_in, [] by default *)
    o_nbr1 : Z;
    o_nloops : pyval T;
    o_breaks : list T;
    o_set : bool
  }.
  Definition default_opts : opts := mkOpts [] (VArr []) (-1)%Z (VInt 200) [] false.

  (* one (name, value) pair *)
  Definition parse_option (p : prep) (o : opts) (parm value : pyval T) : res opts :=
    match parm with
    | VStr s =>
        let param := str_lower s in
        if String.eqb param "initial_breaks" then
          let rescale v := (((v - x_0 p) / x_scale p) - fst (xblim p)) / (snd (xblim p) - fst (xblim p)) in
          match value with
          | VArr l => Ok (mkOpts (map rescale l) (o_max o) (o_nbr1 o) (o_nloops o) (o_breaks o) (o_set o))
          | VInt z => Ok (mkOpts [rescale (nofZ z)] (o_max o) (o_nbr1 o) (o_nloops o) (o_breaks o) (o_set o))
          | VFlt v => Ok (mkOpts [rescale v] (o_max o) (o_nbr1 o) (o_nloops o) (o_breaks o) (o_set o))
          | VStr _ => Raise TypeError
          end
        else if String.eqb param "max_no_breaks" then
          Ok (mkOpts (o_init o) value (-1)%Z (o_nloops o) (o_breaks o) (o_set o))
        else if String.eqb param "number_breaks" then
          match value with
          | VInt z => Ok (mkOpts (o_init o) value z (o_nloops o) (o_breaks o) (o_set o))
          | _ => Raise TypeError   (* simplification: only an int number_breaks is modelled *)
          end
        else if String.eqb param "nloops" then
          Ok (mkOpts (o_init o) (o_max o) (o_nbr1 o) value (o_breaks o) (o_set o))
        else if String.eqb param "breaks" then
          match value with
          | VArr [] => Ok o
          | VArr l => Ok (mkOpts (o_init o) (o_max o) (o_nbr1 o) (o_nloops o)
                           (map (fun v => (v - x_0 p) / x_scale p) l) true)
          | VStr EmptyString => Ok o
          | VStr _ => Raise TypeError
          | _ => Raise AttributeError
          end
        else Raise ValueError
    | _ => Raise ValueError
    end.

  Fixpoint parse_pairs (p : prep) (o : opts) (args : list (pyval T)) : res opts :=
    match args with
    | parm :: value :: r => let* o' := parse_option p o parm value in parse_pairs p o' r
    | _ => Ok o
    end.

  Definition parse_args (p : prep) (args : list (pyval T)) : res opts :=
    if Nat.odd (length args) then Raise ValueError else parse_pairs p default_opts args.

  (* 284: int(max_brk_in).  A string that is not a numeral; longer and empty arrays raise TypeError *)
  Definition py_int_of (v : pyval T) : res Z :=
    match v with
    | VInt z => Ok z
    | VFlt t | VArr [t] => if nisnan t then Raise ValueError
                           else if nisfin t then Ok (ntoZ t) else Raise OverflowError
    | VArr _ => Raise TypeError
    | VStr _ => Raise ValueError
    end.

  (* ---------------------------------------------------------------- *)
  (* scoring, 283-421 *)
  (* tables b_pts, b_A, rss, aic and the globals A, breaks *)
  Record tables : Type := mkTables {
    b_pts : mat; b_A : mat; rss : nat -> T; aic : nat -> T; t_breaks : list T
  }.

  (* M[0:cnt, k] = v for an array with the given numbers of rows and columns *)
  Definition set_col (rows cols : nat) (m : mat) (cnt k : nat) (v : list T) : res mat :=
    if Nat.leb cols k then Raise IndexError
    else
      let r := Nat.min cnt rows in
      if Nat.eqb (length v) r || Nat.eqb (length v) 1 then
        Ok (fun i j => if Nat.eqb j k && Nat.ltb i r
                       then (if Nat.eqb (length v) r then nth i v nnan else nth 0 v nnan)
                       else m i j)
      else Raise ValueError.
  Definition set_cell (cols : nat) (r : nat -> T) (k : nat) (v : T) : res (nat -> T) :=
    if Nat.leb cols k then Raise IndexError else Ok (fun j => if Nat.eqb j k then v else r j).

  (* b_A[0:cnt, k] = A[0:cnt]: the (n,1) column of zeros does not broadcast *)
  Definition set_coefs (n : nat) (m : mat) (cnt k : nat) (a : coefs T) : res mat :=
    match a with
    | CVec l => set_col n n m cnt k (firstn cnt l)
    | CZeroCol _ => if Nat.leb n k then Raise IndexError else Raise ValueError
    end.

  Definition wmat (p : prep) : mat := diagm (vec (wdiag p)).

  (* np.sum(residual ** 2 / err_var) *)
  Definition rss_of (p : prep) (residual : list T) : T :=
    nsum (map (fun q => nsq (fst q) / snd q) (combine residual (err_var p))).
  (* ndf * log(rss / npts) + ndf * (ndf + q) / (ndf - q - 2), with the denominators as written *)
  Definition aic_of (p : prep) (r q d : T) : T :=
    ndf p * nlog (r / nofZ (Z.of_nat (npts p))) + ndf p * (ndf p + q) / (ndf p - d).

  (* the array sizes: b_pts is dp x (dp_c), b_A is da x da, rss and aic have dr columns *)
  Record dims : Type := mkDims { dpr : nat; dpc : nat; da : nat; dr : nat }.
  Definition dims_of (max_brk_in : Z) : res dims :=
    if Z.eqb max_brk_in (-1) then Ok (mkDims 1 1 1 1)
    else if Z.ltb max_brk_in 0 then Raise ValueError
    else let m := Z.to_nat max_brk_in in Ok (mkDims m (m + 1) (m + 2) (m + 2)).

  (* nlbpfun, 83-110: which parameters are used.  [as_list]: ubrk_g is a Python list (breaks set),
     whose slice has no .shape; otherwise it is an ndarray, which has no .append *)
  Definition nlbp_params (as_list : bool) (nbr1 : Z) (ubrk_g ubrk_i : list T) : res (list T) :=
    if Z.ltb 1 nbr1 then
      if as_list then Raise AttributeError
      else if Z.ltb nbr1 (Z.of_nat (length ubrk_g)) then Raise AttributeError
      else Ok (firstn (Z.to_nat (nbr1 - 1)) ubrk_g)
    else Ok ubrk_i.
  (* nlbpfun: breaks, A and residual *)
  Definition nlbpfun (p : prep) (yf : list T) (as_list : bool) (nbr1 : Z) (ubrk_g ubrk_i : list T)
      : res (list T * coefs T * list T) :=
    let* u := nlbp_params as_list nbr1 ubrk_g ubrk_i in
    let* b := decode_breaks (xblim p) u in
    let* ar := brk_fit (xf p) yf (Some (wmat p)) b in
    Ok (b, fst ar, snd ar).

  (* the loop body 348-421 for one number of break points *)
  Definition score (p : prep) (o : opts) (d : dims) (nbr1 max_brk : Z) (nbr : Z) (t : tables)
      : res tables :=
    let n := npts p in
    if Z.eqb nbr (-1) then
      let ones := fun _ _ : nat => 1 in
      let* iv := inv 1 (mmul n (mmul n ones (wmat p)) ones) in
      let a := mvmul n (mmul n (mmul 1 iv ones) (wmat p)) (vec (yf p)) 0%nat in
      let bA := fun i j => if Nat.eqb i 0 && Nat.eqb j 0 then a else b_A t i j in
      let residual := map (fun v => v - a) (yf p) in
      let r := rss_of p residual in
      Ok (mkTables (b_pts t) bA (fun j => if Nat.eqb j 0 then r else rss t j)
            (fun j => if Nat.eqb j 0 then aic_of p r 1 (nofZ 3) else aic t j) (t_breaks t))
    else if Z.eqb nbr 0 then
      let* ar := brk_fit (xf p) (yf p) (Some (wmat p)) [] in
      let* bA := set_coefs (da d) (b_A t) 2 1 (fst ar) in
      let r := rss_of p (snd ar) in
      let* rss' := set_cell (dr d) (rss t) 1 r in
      let* aic' := set_cell (dr d) (aic t) 1 (aic_of p r (nofZ 2) (nofZ 4)) in
      Ok (mkTables (b_pts t) bA rss' aic' (t_breaks t))
    else
      let k := Z.to_nat nbr in
      if Nat.leb k (length (o_init o)) then Raise IndexError   (* brk_init.shape[1] of a 1-d array *)
      else
        let ubrk_g := encode_breaks (even_guess k) in
        let* bar :=
          if o_set o then
            if Z.eqb nbr1 max_brk then
              let* ar := brk_fit (xf p) (yf p) (Some (wmat p)) (t_breaks t) in
              Ok (t_breaks t, fst ar, snd ar)
            else
              let f u := let* r := nlbpfun p (yf p) true nbr1 ubrk_g u in Ok (snd r) in
              let* _ := least_squares f (firstn (k - Z.to_nat nbr1) (skipn (Z.to_nat nbr1) ubrk_g)) in
              Raise ValueError      (* np.concatenate with the scalar optim['x'][0] *)
          else
            let g u := nlbpfun p (yf p) false nbr1 ubrk_g u in
            let* tx := least_squares (fun u => let* r := g u in Ok (snd r)) ubrk_g in
            let* lastev := g (last (fst tx) ubrk_g) in    (* A, breaks: from the last evaluation *)
            let* opt := g (snd tx) in                     (* residual: from the returned point *)
            Ok (fst (fst lastev), snd (fst lastev), snd opt) in
        let '(brks, a, residual) := bar in
        let* bp := set_col (dpr d) (dpc d) (b_pts t) k k
                     (match brks with [] => [nnan] | _ => brks end) in
        let* bA := set_coefs (da d) (b_A t) (k + 2) (k + 1) a in
        let r := rss_of p residual in
        let* rss' := set_cell (dr d) (rss t) (k + 1) r in
        let q := nofZ (2 * (nbr + 1)) in
        let* aic' := set_cell (dr d) (aic t) (k + 1) (aic_of p r q (q + nofZ 2)) in
        Ok (mkTables bp bA rss' aic' brks).

  Fixpoint score_all (p : prep) (o : opts) (d : dims) (nbr1 max_brk : Z) (pbrk : list Z) (t : tables)
      : res tables :=
    match pbrk with
    | [] => Ok t
    | nbr :: r => let* t' := score p o d nbr1 max_brk nbr t in score_all p o d nbr1 max_brk r t'
    end.

  (* 297-326: first break number, largest number, and the table entries of fixed breaks when more
     breaks are allowed than given *)
  Definition setup (p : prep) (o : opts) (d : dims) (max_brk_in : Z) (t : tables)
      : res (Z * Z * tables) :=
    if o_set o then
      let nb := length (o_breaks o) in
      let nbz := Z.of_nat nb in
      if Z.eqb max_brk_in 0 then Ok (nbz, nbz, t)
      else if Z.ltb nbz max_brk_in then
        let* ar := brk_fit (xf p) (yf p) (Some (wmat p)) (o_breaks o) in
        let* bp := set_col (dpr d) (dpc d) (b_pts t) nb (nb + 1) (o_breaks o) in
        let* bA := set_coefs (da d) (b_A t) (nb + 2) (nb + 2) (fst ar) in
        let r := rss_of p (snd ar) in
        let* rss' := set_cell (dr d) (rss t) (nb + 2) r in
        let q := nofZ (2 * (nbz + 1)) in
        let* aic' := set_cell (dr d) (aic t) (nb + 2) (aic_of p r q (q + nofZ 2)) in
        Ok ((nbz + 1)%Z, max_brk_in, mkTables bp bA rss' aic' (t_breaks t))
      else Ok (nbz, max_brk_in, t)
    else Ok (o_nbr1 o, max_brk_in, t).

  (* 327-346: (pbrk, nbr1, max_brk) after the check of the degrees of freedom *)
  Definition candidates (p : prep) (o : opts) (nbr1 max_brk : Z) : list Z * Z * Z :=
    if ndf p <? nofZ (2 * (max_brk + 2) + 1) then
      if ndf p >? nofZ (2 * (nbr1 + 2) + 1) then
        (zrange nbr1 (ntoZ (nfloor ((ndf p - 1) / nofZ 2 - nofZ 2)) + 1), nbr1, max_brk)
      else if o_set o then
        let nb := Z.of_nat (length (o_breaks o)) in ([nb], nb, nb)
      else ([(-1)%Z], nbr1, max_brk)
    else (zrange nbr1 (max_brk + 1), nbr1, max_brk).

  (* 423-437: the number of coefficients of the chosen fit *)
  Definition choose (o : opts) (d : dims) (pbrk : list Z) (nbr1 max_brk : Z) (t : tables) : res nat :=
    if o_set o && Z.eqb nbr1 max_brk then
      match pbrk with
      | [nb] => Ok (Z.to_nat (nb + 2))
      | _ => Raise ValueError
      end
    else
      let pbrk := if Z.ltb 1 nbr1 then zrange (nbr1 - 1) max_brk else pbrk in
      let good := map (fun k => Z.to_nat (k + 1)) pbrk in
      match good with
      | [] => Raise ValueError
      | _ => if existsb (Nat.leb (dr d)) good then Raise IndexError
             else Ok (nth (argmin (map (aic t) good)) good 0%nat + 1)%nat
      end.

  (* ---------------------------------------------------------------- *)
  (* 456-657: evaluation of the chosen fit *)

  Definition ones_mat : mat := fun _ _ => 1.

  (* 478-493: P_1 and P_2 *)
  Definition param_var (p : prep) (best : nat) (e : mat) : res ((nat -> T) * (nat -> T)) :=
    let n := npts p in
    let w := wmat p in
    let ev := diagm (vec (err_var p)) in
    let* b_i := inv best (mmul n (mmul n (transp e) w) e) in
    let l := mmul n (mmul best b_i (transp e)) w in
    let p1 := mmul best (mmul n (mmul n (mmul n l ev) w) e) b_i in
    let p2 := mmul best (mmul n (mmul n (mmul n (mmul n l ev) (lv p)) w) e) b_i in
    Ok (fun i => p1 i i, fun i => p2 i i).

  (* one Monte-Carlo evaluation of the fit at the profiles, 532-573 *)
  Definition mc_coefs (p : prep) (o : opts) (nbr1 : Z) (best : nat) (breaks yn : list T)
      (ubrk_g : list T) : res (coefs T) :=
    if Nat.eqb best 2 then let* ar := brk_fit (xf p) yn (Some (wmat p)) [] in Ok (fst ar)
    else if o_set o then let* ar := brk_fit (xf p) yn (Some (wmat p)) breaks in Ok (fst ar)
    else
      let f u := let* r := nlbpfun p yn true nbr1 ubrk_g u in Ok (snd r) in
      let* _ := least_squares f ubrk_g in
      Raise TypeError.         (* np.concatenate([xfit[0]], breaks): the second argument is the axis *)

  (* The coefficients of a singular fit are a column, whose product with E has another shape; the
     same matrix has already been found regular when the fit was scored, so this is not reached. *)
  Definition coef_list (a : coefs T) : res (list T) :=
    match a with CVec l => Ok l | CZeroCol _ => Raise ValueError end.

  Fixpoint mc_loop (k : nat) (p : prep) (o : opts) (nbr1 : Z) (best : nat) (breaks : list T)
      (e : mat) (yfit err : list T) (ubrk_g : list T) (g : rng) : res (list T) * rng :=
    match k with
    | O => (Ok err, g)
    | S k' =>
        let '(z, g') := randn (length (yf p)) g in
        let yn := map (fun q => fst (fst q) + snd (fst q) * snd q)
                      (combine (combine (yf p) (nerr p)) z) in
        let ug := ubrk_g ++ encode_breaks breaks in
        match (let* a := mc_coefs p o nbr1 best breaks yn ug in coef_list a) with
        | Raise x => (Raise x, g')
        | Ok a =>
            let fit := mvmul best e (vec a) in
            let err' := map (fun i => vec err i + nsq (vec yfit i - fit i)) (seq 0 (length yfit)) in
            mc_loop k' p o nbr1 best breaks e yfit err' ug g'
        end
    end.

  (* 587-604: station means and rms, from the running first indices *)
  Definition sta_slice (p : prep) (idx : nat) (l : list T) : list T :=
    let ip_1 := (-1)%Z :: map Z.of_nat (index_unique p) in
    let a := Z.to_nat (nth idx ip_1 0%Z + 1) in
    let b := Z.to_nat (nth (S idx) ip_1 0%Z + 1) in
    firstn (b - a) (skipn a l).
  Definition sta_stats (p : prep) (v : T) : T * T :=
    match argwhere (fun u => u =? v) (x_unique p) with
    | [] => (nnan, nnan)
    | idx :: _ =>
        let w := sta_slice p idx (wdiag p) in
        let y := sta_slice p idx (yf p) in
        let m := nsum (map (fun q => fst q * snd q) (combine w y)) / nsum w in
        (m, nsqrt (nsum (map (fun q => fst q * nsq (m - snd q)) (combine w y)) / nsum w))
    end.

  Record fit : Type := mkFit {
    f_xfit : list T; f_condslope : list T; f_condslope_err : list T;
    f_time_deriv : list T; f_time_deriv_err : list T; f_sta_mean : list T; f_sta_rms : list T;
    f_ndf : T; f_coef : list T; f_breaks : list T
  }.
  (* no valid data: the profile numbers and NaN for everything else *)
  Inductive outcome : Type := NoData (xs : list T) | Fitted (f : fit).

  Definition evaluate (p : prep) (o : opts) (nbr1 : Z) (t : tables) (best : nat) (g : rng)
      : res fit * rng :=
    let breaks := if Nat.ltb 2 best then tab (best - 2) (fun i => b_pts t i (best - 2)) else [] in
    let a := tab best (fun i => b_A t i (best - 1)) in
    let e1 := design (hd nnan (xf p) :: breaks) (xf p) in
    match param_var p best e1 with
    | Raise x => (Raise x, g)
    | Ok (p1, p2) =>
        let nfit := length (xfit p) in
        let e := design (hd nnan (xfit p) :: breaks) (xfit p) in
        let yfit := tab nfit (mvmul best e (vec a)) in
        let p3 := tab nfit (fun i => mvmul best e p2 i / mvmul best e p1 i) in
        let '(err, g') :=
          if Nat.eqb best 1 then (Ok (map (fun _ => 1 * p2 0%nat) (xfit p)), g)
          else match o_nloops o with
               | VInt z =>
                   match mc_loop (Z.to_nat z) p o nbr1 best breaks e yfit (map (fun _ => 0) yfit) [] g with
                   | (Raise x, g') => (Raise x, g')
                   | (Ok err, g') =>
                       if Z.eqb z 0 then (Raise ZeroDivisionError, g')
                       else (Ok (map (fun q => fst q / nofZ z * snd q) (combine err p3)), g')
                   end
               | _ => (Raise TypeError, g)
               end in
        match err with
        | Raise x => (Raise x, g')
        | Ok err =>
            let xs := map (fun v => v * x_scale p + x_0 p) (xfit p) in
            let break_pts := map (fun v => v * x_scale p + x_0 p) breaks in
            let a0 := vec a 0 * y_scale p + y_0 p in
            let arest := map (fun v => v * y_scale p / x_scale p) (tl a) in
            let st := map (sta_stats p) (xfit p) in
            let ixb := sorter (min_from (hd nnan xs) (tl xs) :: break_pts) xs in
            (* P_2 is a view of P, whose rows 1.. have been rescaled by then *)
            let p2s := fun j => p2 j * y_scale p / x_scale p in
            let td :=
              if Nat.eqb best 1 then map (fun _ => 0) xs
              else if Nat.eqb best 2 then map (fun _ => vec arest 0 * 1) xs
              else map (fun r => if Z.ltb r 0 || Z.leb (Z.of_nat best - 1) r then nnan
                                 else vec arest (Z.to_nat r)) ixb in
            let tde :=
              if Nat.eqb best 1 then map (fun _ => nnan) xs
              else if Nat.eqb best 2 then map (fun _ => p2s 1%nat * 1) xs
              else map (fun r => if Z.ltb r 0 || Z.leb (Z.of_nat best - 1) r then nnan
                                 else p2s (S (Z.to_nat r))) ixb in
            (Ok (mkFit xs (map (fun v => v * y_scale p + y_0 p) yfit)
                   (map (fun v => nsqrt v * y_scale p) err) td tde
                   (map (fun s => fst s * y_scale p + y_0 p) st)
                   (map (fun s => snd s * y_scale p) st)
                   (ndf p) (a0 :: arest) break_pts), g')
        end
    end.

  (* stats.py 26-657, fit_cond *)
  Definition fit_cond (x y n_err : list T) (lvcov : mat) (args : list (pyval T)) (g : rng)
      : res outcome * rng :=
    match good_points x y with
    | [] => (Ok (NoData (np_unique x)), g)
    | _ =>
        let p := prepare x y n_err lvcov in
        match
          (let* o := parse_args p args in
           let* max_brk_in := py_int_of (o_max o) in
           let* d := dims_of max_brk_in in
           let t0 := mkTables (fun _ _ => nnan) (fun _ _ => nnan) (fun _ => nnan) (fun _ => nnan)
                       (o_breaks o) in
           let* s := setup p o d max_brk_in t0 in
           let '(nbr1, max_brk, t1) := s in
           let '(pbrk, nbr1, max_brk) := candidates p o nbr1 max_brk in
           let* t2 := score_all p o d nbr1 max_brk pbrk t1 in
           let* best := choose o d pbrk nbr1 max_brk t2 in
           Ok (o, nbr1, t2, best))
        with
        | Raise e => (Raise e, g)
        | Ok (o, nbr1, t2, best) =>
            match evaluate p o nbr1 t2 best g with
            | (Ok f, g') => (Ok (Fitted f), g')
            | (Raise e, g') => (Raise e, g')
            end
        end
    end.
End FitCond.
