(* Model of pyowc/core/stats.py, lines 660-1051: the variances, the covariances and the
   least-squares fit with prescribed break points.  fit_cond (26-657) is in FitCond.v. *)
From Coq Require Import ZArith List Bool Lia.
From Verif Require Import Num Np Utilities Finders.
Import ListNotations.
Local Open Scope num_scope.

Section Variances.
  Context {T : Type} `{Num T}.

  (* stats.py 660-684, signal_variance of a vector.  np.all of an empty array is True. *)
  Definition signal_variance (sal : list T) : res T :=
    if forallb nisnan sal then Raise RuntimeError else Ok (var_ddof 0 (drop_nan sal)).

  (* one historical cast as noise_variance sees it: the caller (calibration.py) slices sal, lat and
     long with the same index array, so they have one length *)
  Record obs : Type := mkObs { o_sal : T; o_lat : T; o_long : T }.

  (* stats.py 716: row i of the squared distance matrix *)
  Definition sqdist (a b : obs) : T := nsq (o_lat a - o_lat b) + nsq (o_long a - o_long b).

  Definition nanmean (l : list T) : T := mean (drop_nan l).

  (* stats.py 687-729, noise_variance *)
  Definition noise_variance (casts : list obs) : res T :=
    let dist := map (fun a => map (sqdist a) casts) casts in
    if forallb (forallb (fun d => d =? 0)) dist then Ok 0
    else
      let dist := map (map (fun d => if d =? 0 then nnan else d)) dist in
      let* idx := mapM nanargmin dist in
      let noise := map (fun p => o_sal (fst p) - o_sal (nth (snd p) casts (mkObs nnan nnan nnan)))
                       (combine casts idx) in
      Ok (nanmean (map nsq noise) / nofZ 2).
End Variances.
Arguments obs : clear implicits.

Section Covariances.
  Context {T : Type} `{Num T} `{NumT T}.

  (* a row [latitude, longitude, date, depth] of the n*4 position arrays *)
  Record point : Type := mkPoint { p_lat : T; p_long : T; p_date : T; p_z : T }.
  Definition dpoint : point := mkPoint nnan nnan nnan nnan.

  (* stats.py 775-779: potential vorticities of a point set *)
  Definition pv_points (l : list point) : res (list T) :=
    vectorize (fun p => potential_vorticity (p_lat p) (p_z p)) l.

  (* stats.py 733-784, covar_xyt_pv.  Note the parameter order (lat, long): column 0 is divided by
     the parameter called long and column 1 by the one called lat.  The divisions are numpy
     array divisions. *)
  Definition covar_xyt_pv (points1 points2 : list point) (lat long age phi : T) (map_pv_use : Z)
      : res (nat -> nat -> T) :=
    let a i := nth i points1 dpoint in
    let b j := nth j points2 dpoint in
    let long_covar i j := nsq ((p_lat (a i) - p_lat (b j)) / long) in
    let lat_covar i j := nsq ((p_long (a i) - p_long (b j)) / lat) in
    let age_covar i j := if age =? 0 then 0 else nsq ((p_date (a i) - p_date (b j)) / age) in
    if Z.eqb map_pv_use 1 then
      let* pv1 := pv_points points1 in
      let* pv2 := pv_points points2 in
      Ok (fun i j =>
            let u := nth i pv1 nnan in
            let v := nth j pv2 nnan in
            let p_v_covar := nsq ((u - v) / nsqrt (nsq u + nsq v) / phi) in
            nexp (- (lat_covar i j + long_covar i j + age_covar i j + p_v_covar)))
    else
      Ok (fun i j => nexp (- (lat_covar i j + long_covar i j + age_covar i j + 0))).

  (* a row of coord_float: three numbers, used as [x, y, z] *)
  Record coord : Type := mkCoord { c_0 : T; c_1 : T; c_2 : T }.

  (* stats.py 936-938: no replacement of zero, numpy division *)
  Definition planetary_vorticity (latitude depth : T) : T :=
    (nofZ 2 * nq 7292 1000 * nq 1 100000 * nsin (latitude * npi / nofZ 180)) / depth.

  (* stats.py 909-957, covarxy_pv *)
  Definition covarxy_pv (input_coords : coord) (coords : list coord) (long lat phi : T)
      (use_pv : bool) : res (list T) :=
    let pv_input := planetary_vorticity (c_0 input_coords) (c_2 input_coords) in
    let* pv_coords := vectorize (fun c => Ok (planetary_vorticity (c_0 c) (c_2 c))) coords in
    let cor c := nsq ((c_0 input_coords - c_0 c) / lat) + nsq ((c_1 input_coords - c_1 c) / long) in
    let with_pv := use_pv && negb (pv_input =? 0) && existsb (fun v => negb (v =? 0)) pv_coords in
    Ok (map (fun cp =>
          let t := cor (fst cp) in
          let t := if with_pv
                   then t + nsq ((pv_input - snd cp) / nsqrt (nsq pv_input + nsq (snd cp)) / phi)
                   else t in
          nexp (- t)) (combine coords pv_coords)).

  (* stats.py 826-828: the tables, in ascending order (interp1d sorts them) *)
  Definition pt_down : list (T * T) :=
    [(nofZ (-2), nofZ 1); (nofZ 1, nofZ 1); (nq 5 2, nq 3 2); (nofZ 4, nq 3 2); (nofZ 8, nofZ 4);
     (nofZ 12, nofZ 4); (nofZ 18, nofZ 6); (nofZ 24, nofZ 6); (nofZ 30, nofZ 6)].
  Definition pt_up : list (T * T) :=
    [(nofZ (-2), nofZ 1); (nofZ 1, nq 3 2); (nq 5 2, nq 3 2); (nofZ 4, nofZ 4); (nofZ 8, nofZ 4);
     (nofZ 12, nofZ 6); (nofZ 18, nofZ 6); (nofZ 24, nofZ 6); (nofZ 30, nofZ 6)].

  (* linear interpolation in the first segment whose right end is not below x (the last segment
     otherwise) *)
  Fixpoint interp_seg (x x0 y0 : T) (tab : list (T * T)) : T :=
    match tab with
    | [] => nnan
    | (x1, y1) :: r =>
        let v := (y1 - y0) / (x1 - x0) * (x - x0) + y0 in
        match r with
        | [] => v
        | _ => if x <=? x1 then v else interp_seg x x1 y1 r
        end
    end.

  (* scipy interp1d with bounds_error: the range check of a NaN passes, and gives NaN *)
  Definition interp_scale (tab : list (T * T)) (x : T) : res T :=
    if (x <? nofZ (-2)) || (x >? nofZ 30) then Raise ValueError
    else match tab with
         | (x0, y0) :: r => Ok (interp_seg x x0 y0 r)
         | [] => Raise ValueError
         end.

  (* stats.py 847-874: vertical covariance of levels i, j of one profile *)
  Definition vert_cov (ptmp : nat -> nat -> T) (profile i j : nat) : res T :=
    let gauss l_theta := nexp (nofZ (-1) * nsq (ptmp j profile - ptmp i profile) / nsq l_theta) in
    let* v := if Nat.ltb i j then let* l := interp_scale pt_down (ptmp i profile) in Ok (gauss l)
              else if Nat.ltb j i then let* l := interp_scale pt_up (ptmp i profile) in Ok (gauss l)
              else Ok 1 in
    Ok (if nisnan v then 1 else v).

  (* the configuration entries build_cov reads *)
  Record cov_config : Type := mkCovConfig {
    long_small : T; lat_small : T; phi_small : T; map_use_pv : bool
  }.

  (* stats.py 788-905, build_cov on an nr*nc matrix.  The result is the (nr*nc)*(nr*nc) matrix. *)
  Definition build_cov (nr nc : nat) (ptmp : nat -> nat -> T) (coord_float : list coord)
      (config : cov_config) : res (nat -> nat -> T) :=
    let* cov := mapM (fun profile => mapM (fun i => mapM (fun j => vert_cov ptmp profile i j)
                       (seq 0 nr)) (seq 0 nr)) (seq 0 nc) in
    let cov_at profile i j := nth j (nth i (nth profile cov []) []) nnan in
    let* _ := if Nat.eqb nc 0 || Nat.eqb (length coord_float) nc then Ok tt
              else if Nat.leb (length coord_float) 1 then Raise IndexError
              else Raise ValueError in
    let* h_cov := mapM (fun profile =>
                     covarxy_pv (nth profile coord_float (mkCoord nnan nnan nnan)) coord_float
                       (long_small config) (lat_small config) (phi_small config)
                       (map_use_pv config)) (seq 0 nc) in
    let h_at a b := nth b (nth a h_cov []) nnan in
    Ok (fun p q =>
          let a := Nat.div p nr in
          let b := Nat.div q nr in
          h_at a b * cov_at a (Nat.modulo p nr) (Nat.modulo q nr)).
End Covariances.
Arguments point : clear implicits.
Arguments coord : clear implicits.
Arguments cov_config : clear implicits.

(* matrix helpers: np.dot, transposition, np.diag *)
Section Matrices.
  Context {T : Type} `{Num T}.
  Notation mat := (nat -> nat -> T).

  Definition mmul (n : nat) (a b : mat) : mat :=
    fun i j => nsum (map (fun k => a i k * b k j) (seq 0 n)).
  Definition mvmul (n : nat) (a : mat) (v : nat -> T) : nat -> T :=
    fun i => nsum (map (fun k => a i k * v k) (seq 0 n)).
  Definition transp (a : mat) : mat := fun i j => a j i.
  Definition diagm (v : nat -> T) : mat := fun i j => if Nat.eqb i j then v i else 0.
  Definition vec (l : list T) : nat -> T := fun i => nth i l nnan.
  Definition tab (n : nat) (v : nat -> T) : list T := map v (seq 0 n).
End Matrices.

(* coefficients returned by brk_pt_fit: a vector, or the (n,1) column of zeros *)
Inductive coefs {T : Type} : Type :=
  | CVec (l : list T)
  | CZeroCol (n : nat).
Arguments coefs : clear implicits.

Section Fit.
  Context {T : Type} `{Num T}.
  Notation mat := (nat -> nat -> T).
  (* np.linalg.det of an n*n matrix; scipy.linalg.solve of an n*n system with m right-hand sides *)
  Variable det : nat -> mat -> T.
  Variable solve : nat -> nat -> mat -> mat -> res mat.

  (* stats.py 1015-1025 (and 464-476, 496-510): the regression matrix *)
  Definition design (btem xs : list T) : mat :=
    let ixb := sorter btem xs in
    fun i c =>
      match c with
      | O => 1
      | S j =>
          let r := nth i ixb (-1)%Z in
          if Z.eqb r (Z.of_nat j) then vec xs i - vec btem j
          else if Z.ltb (Z.of_nat j) r then vec btem (S j) - vec btem j
          else 0
      end.

  (* stats.py 961-1051, brk_pt_fit.  w_i is None when the weight argument is empty, otherwise the
     n*n matrix; x_obvs and y_obvs are 1-d. *)
  Definition brk_pt_fit (x_obvs y_obvs : list T) (w_i : option mat) (breaks : list T)
      : res (coefs T * list T) :=
    let b_length := length breaks in
    let n := length x_obvs in
    if negb (Nat.eqb n (length y_obvs)) then Ok (CZeroCol (b_length + 2), y_obvs)
    else match x_obvs with
    | [] => Raise IndexError
    | x0 :: _ =>
        let btem := x0 :: breaks in
        let trends := design btem x_obvs in
        let m := (b_length + 2)%nat in
        let ls_est := match w_i with
                      | Some w => mmul n (mmul n (transp trends) w) trends
                      | None => mmul n (transp trends) trends
                      end in
        if det m ls_est =? 0 then Ok (CZeroCol m, y_obvs)
        else
          let* fit_param :=
            match w_i with
            | Some w => let* s := solve m n ls_est (transp trends) in
                        Ok (mvmul n (mmul n s w) (vec y_obvs))
            | None => let* s := solve m 1 ls_est
                                  (fun i _ => mvmul n (transp trends) (vec y_obvs) i) in
                      Ok (fun i => s i 0%nat)
            end in
          let fitted := mvmul m trends (vec (tab m fit_param)) in
          Ok (CVec (tab m fit_param), tab n (fun i => vec y_obvs i - fitted i))
    end.
End Fit.
