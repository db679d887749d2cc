(* Proofs for fit_cond: the prepared data *)
From Coq Require Import String ZArith List Bool Reals Lra Lia Sorted Permutation.
From Verif Require Import Num Np NumFacts NpFacts Utilities Finders Stats FitCond Spec_Utilities Spec_Finders Spec_Stats
  Spec_FitCond LinR LeastSq Proofs_Utilities Proofs_Besthist Proofs_Thetas2 Proofs_Stats1 Proofs_Fit Proofs_FC1 Proofs_FC2.
Import ListNotations.
Local Open Scope R_scope.
Local Open Scope list_scope.

(* ---- sorting and merging ---- *)
Lemma np_sort_eq l l' : Permutation l' l -> ascending l' -> np_sort (map Fin l) = map Fin l'.
Proof.
  intros P A. destruct (np_sort_R l) as (l2 & E & P2 & S2). rewrite E. f_equal.
  apply sorted_perm_eq; auto. now apply ascending_sorted. now rewrite P2, P.
Qed.

Fixpoint rdedup (l : list R) : list R :=
  match l with
  | [] => []
  | x :: r => match r with [] => [x] | y :: _ => if Reqb x y then rdedup r else x :: rdedup r end
  end.
Lemma dedup_fin l : dedup (map Fin l) = map Fin (rdedup l).
Proof.
  induction l as [|x l IH]; [reflexivity|]. destruct l as [|y l]; [reflexivity|].
  cbn [map dedup rdedup] in *. cbn [neqb XR_Num xeqb].
  destruct (Reqb x y); [exact IH|]. cbn [map]. f_equal. exact IH.
Qed.
Lemma rdedup_in l x : In x (rdedup l) <-> In x l.
Proof.
  induction l as [|y l IH]; [reflexivity|]. destruct l as [|z l]; [reflexivity|].
  cbn [rdedup] in *. destruct (Reqb y z) eqn:E.
  - apply Reqb_true in E. subst z. rewrite IH. simpl. tauto.
  - simpl In at 1. rewrite IH. reflexivity.
Qed.
Lemma rdedup_sorted l : StronglySorted Rle l -> StronglySorted Rlt (rdedup l).
Proof.
  induction 1 as [|x l Hs IH Hx]; [constructor|]. destruct l as [|y l]; [repeat constructor|].
  change (rdedup (x :: y :: l)) with (if Reqb x y then rdedup (y :: l) else x :: rdedup (y :: l)).
  destruct (Reqb x y) eqn:E; [exact IH|]. apply Reqb_false in E.
  constructor; auto. apply Forall_forall. intros z Hz. apply (rdedup_in (y :: l)) in Hz.
  rewrite Forall_forall in Hx. assert (x <= y) by (apply Hx; simpl; auto).
  assert (y <= z).
  { destruct Hz as [<-|Hz]; [lra|]. inversion Hs; subst. rewrite Forall_forall in H3. auto. }
  lra.
Qed.
Lemma strict_unique (a b : list R) : StronglySorted Rlt a -> StronglySorted Rlt b ->
  (forall x, In x a <-> In x b) -> a = b.
Proof.
  intros Ha. revert b. induction Ha as [|x a Ha IH Hx]; intros b Hb E.
  - destruct b as [|y b]; auto. exfalso. apply (E y). simpl; auto.
  - destruct Hb as [|y b Hb Hy]; [exfalso; apply (E x); simpl; auto|].
    rewrite Forall_forall in Hx, Hy.
    assert (x = y).
    { assert (I1 : In x (y :: b)) by (apply E; simpl; auto). assert (I2 : In y (x :: a)) by (apply E; simpl; auto).
      destruct I1 as [->|I1]; auto. destruct I2 as [->|I2]; auto. apply Hx in I2. apply Hy in I1. lra. }
    subst y. f_equal. apply IH; auto. intros z. split; intros Hz.
    + assert (I : In z (x :: b)) by (apply E; simpl; auto). destruct I as [<-|]; auto. apply Hx in Hz. lra.
    + assert (I : In z (x :: a)) by (apply E; simpl; auto). destruct I as [<-|]; auto. apply Hy in Hz. lra.
Qed.
Lemma np_unique_eq l us : distinct_of l us -> np_unique (map Fin l) = map Fin us.
Proof.
  intros [S E]. unfold np_unique. destruct (np_sort_R l) as (l2 & E2 & P2 & S2). rewrite E2, dedup_fin. f_equal.
  apply strict_unique; auto. now apply rdedup_sorted. intros x. rewrite rdedup_in, E.
  split; apply Permutation_in; auto. now symmetry.
Qed.
Lemma distinct_exists l : exists us, distinct_of l us.
Proof.
  destruct (np_sort_R l) as (l2 & _ & P2 & S2). exists (rdedup l2). split; [now apply rdedup_sorted|].
  intros x. rewrite rdedup_in. split; apply Permutation_in; auto. now symmetry.
Qed.
Lemma sorted_positions_exists rows : exists xs, sorted_positions rows xs.
Proof.
  destruct (np_sort_R (map fst (valid rows))) as (l2 & _ & P2 & S2). exists l2. split; auto. now apply ascending_sorted.
Qed.

Lemma argsort_sorted xs : ascending xs -> argsort (map Fin xs) = seq 0 (length xs).
Proof.
  intros A. unfold argsort. rewrite sort_by_id.
  - rewrite map_snd_combine; [rewrite map_length; reflexivity|]. now rewrite seq_length.
  - unfold sorted_by. apply ascending_sorted in A. rewrite map_length. generalize 0%nat as k.
    induction A as [|x l S IH F]; intros k; cbn [map length seq combine]; constructor; auto.
    apply Forall_forall. intros [v i] Hv. apply in_combine_l in Hv. apply in_map_iff in Hv as (y & <- & Hy).
    rewrite Forall_forall in F. specialize (F y Hy). cbn [fst]. unfold slt. cbn [nltb nisnan XR_Num xltb].
    rewrite andb_false_r, orb_false_r. rb. lra.
Qed.

Lemma take_seq {A} (d : A) l : take d l (seq 0 (length l)) = l.
Proof.
  unfold take. apply (nth_ext _ _ d d); rewrite map_length, seq_length; auto.
  intros i Hi. rewrite (nth_map _ _ _ _ 0%nat) by now rewrite seq_length. now rewrite seq_nth.
Qed.

(* ---- selecting the valid samples ---- *)
Lemma argwhere_from_map {A B} (f : A -> B) p l k : argwhere_from k p (map f l) = argwhere_from k (fun a => p (f a)) l.
Proof. revert k. induction l as [|a l IH]; intros k; simpl; auto. now rewrite IH. Qed.
Lemma argwhere_map {A B} (f : A -> B) p l : argwhere p (map f l) = argwhere (fun a => p (f a)) l.
Proof. apply argwhere_from_map. Qed.
Lemma argwhere_ext {A} (p q : A -> bool) l : (forall a, p a = q a) -> argwhere p l = argwhere q l.
Proof.
  intros E. unfold argwhere. generalize 0%nat. induction l as [|a l IH]; intros k; simpl; auto.
  now rewrite E, !IH.
Qed.
Definition has (r : row) : bool := match snd r with Some _ => true | None => false end.
Lemma combine_map2 {A B C} (f : A -> B) (g : A -> C) l : combine (map f l) (map g l) = map (fun a => (f a, g a)) l.
Proof. induction l as [|a l IH]; simpl; auto. now rewrite IH. Qed.
Lemma good_rows rows : good_points (col_x rows) (col_y rows) = argwhere has rows.
Proof.
  unfold good_points, col_x, col_y. rewrite combine_map2, argwhere_map. apply argwhere_ext.
  intros [x [q|]]; reflexivity.
Qed.
Lemma take_map {A B} (f : A -> B) (d : B) (a : A) l idx : (forall i, In i idx -> (i < length l)%nat) ->
  take d (map f l) idx = map f (take a l idx).
Proof.
  intros H. unfold take. rewrite map_map. apply map_ext_in. intros i Hi. apply nth_map. auto.
Qed.
Lemma argwhere_lt {A} (p : A -> bool) l i : In i (argwhere p l) -> (i < length l)%nat.
Proof.
  destruct l as [|a l]; [intros []|]. intros H. apply (argwhere_spec a) in H. tauto.
Qed.
Lemma take_rows {B} (f : row -> B) d rows : take d (map f rows) (argwhere has rows) = map f (filter has rows).
Proof.
  rewrite (take_map f d (0, None)); [now rewrite take_argwhere|]. intros i. apply argwhere_lt.
Qed.
Lemma filter_valid {B} (f : row -> B) rows :
  map f (filter has rows) = map (fun v => f (fst v, Some (snd v))) (valid rows).
Proof. induction rows as [|[x [q|]] r IH]; cbn; auto. now rewrite IH. Qed.
Lemma valid_length rows : length (argwhere has rows) = length (valid rows).
Proof. rewrite argwhere_length. induction rows as [|[x [q|]] r IH]; cbn; auto. Qed.

(* ---- the prepared data ---- *)
Section Prep.
  Variables (rows : list row) (lvcov : nat -> nat -> XR) (xs us vs : list R).
  Hypothesis Huse : usable rows.
  Hypothesis Hxs : sorted_positions rows xs.
  Hypothesis Hus : distinct_of (map fst rows) us.
  Hypothesis Hvs : distinct_of xs vs.
  Notation V := (valid rows).
  Notation ys := (values rows).
  Notation es := (errors rows).
  Definition nobs := length V.
  Definition x0R : R := (last xs 0 + hd 0 xs) / 2.
  Definition xscR : R := if Req_EM_T (hd 0 xs) (last xs 0) then 1 else (last xs 0 - hd 0 xs) / 2.
  Definition y0R : R := mean_of ys.
  Definition yscR : R := if Req_EM_T (sqrt (pop_var ys)) 0 then 1 else sqrt (pop_var ys).
  Definition normx (v : R) : R := (v - x0R) / xscR.
  Definition normy (v : R) : R := (v - y0R) / yscR.
  Definition evR : list R := map (fun e => (e / yscR) ^ 2) es.
  Definition wR : list R := map (fun v => mean_of evR / v) evR.
  Definition lvR : nat -> nat -> XR := fun i j => lvcov (nth i (argwhere has rows) 0%nat) (nth j (argwhere has rows) 0%nat).
  (* first position of v in xs *)
  Definition findex (v : R) : nat := hd 0%nat (argwhere (fun x => Reqb x v) xs).
  Definition limR : XR * XR :=
    if Nat.ltb 3 (length vs) then (Fin (normx (nth 1 vs 0)), Fin (normx (nth (length vs - 2) vs 0))) else (Fin 1, Fin 1).

  Lemma xs_length : length xs = nobs.
  Proof. destruct Hxs as [_ P]. apply Permutation_length in P. now rewrite map_length in P. Qed.
  Lemma xs_nonempty : xs <> [].
  Proof. intros E. pose proof xs_length as L. rewrite E in L. destruct Huse as [N _]. unfold nobs in L. destruct V; [congruence|discriminate]. Qed.
  Lemma ys_length : length ys = nobs. Proof. unfold values. apply map_length. Qed.
  Lemma es_length : length es = nobs. Proof. unfold errors. apply map_length. Qed.
  Lemma xs_sorted : StronglySorted Rle xs. Proof. apply ascending_sorted. apply Hxs. Qed.
  Lemma xs_hd_last : hd 0 xs <= last xs 0.
  Proof.
    clear Hvs. pose proof xs_sorted as S. pose proof xs_nonempty as N. destruct xs as [|a l]; [congruence|].
    inversion S as [|? ? _ F]. subst. rewrite Forall_forall in F. cbn [hd].
    pose proof (last_in_R (a :: l) 0 ltac:(discriminate)) as [E|I]; [lra|]. now apply F.
  Qed.
  Lemma xscR_pos : 0 < xscR.
  Proof. unfold xscR. destruct (Req_EM_T _ _); [lra|]. pose proof xs_hd_last. lra. Qed.
  Lemma yscR_pos : 0 < yscR.
  Proof. unfold yscR. destruct (Req_EM_T _ _); [lra|]. pose proof (sqrt_pos (pop_var ys)). lra. Qed.
  Lemma ys_nonempty : ys <> [].
  Proof. destruct Huse as [N _]. unfold values. destruct V; [congruence|discriminate]. Qed.
  Lemma normx_lt a b : normx a < normx b <-> a < b.
  Proof.
    unfold normx. pose proof xscR_pos as P. split; intros H.
    - apply Rmult_lt_reg_r in H; [lra|now apply Rinv_0_lt_compat].
    - apply Rmult_lt_compat_r; [now apply Rinv_0_lt_compat|lra].
  Qed.
  Lemma normx_inj a b : normx a = normx b -> a = b.
  Proof.
    intros E. destruct (Rtotal_order a b) as [L|[E'|L]]; auto; apply normx_lt in L; lra.
  Qed.
  Lemma normx_eqb a b : Reqb (normx a) (normx b) = Reqb a b.
  Proof.
    destruct (Reqb a b) eqn:E.
    - apply Reqb_true in E. subst. now apply Reqb_true.
    - apply Reqb_false in E. apply Reqb_false. intros Q. apply E. now apply normx_inj.
  Qed.
  Lemma evR_pos v : In v evR -> 0 < v.
  Proof.
    unfold evR. intros H. apply in_map_iff in H as (e & <- & He). destruct Huse as [_ N].
    specialize (N e He). pose proof yscR_pos. assert (e / yscR <> 0).
    { unfold Rdiv. apply Rmult_integral_contrapositive_currified; auto. apply Rinv_neq_0_compat. lra. }
    rewrite <- Rsqr_pow2. now apply Rsqr_pos_lt.
  Qed.
  Lemma evR_length : length evR = nobs. Proof. unfold evR. rewrite map_length. apply es_length. Qed.
  Lemma evR_nonempty : evR <> [].
  Proof. intros E. pose proof evR_length as L. rewrite E in L. pose proof ys_nonempty. pose proof ys_length. destruct ys; [congruence|]. simpl in *. lia. Qed.
  Lemma mean_ev_pos : 0 < mean_of evR.
  Proof.
    unfold mean_of. pose proof evR_pos as P. pose proof evR_nonempty as N. destruct evR as [|a l]; [congruence|].
    apply Rmult_lt_0_compat; [|apply Rinv_0_lt_compat, lt_0_INR; simpl; lia].
    change (0 < rsum (a :: l)). cbn [rsum fold_right].
    assert (0 < a) by (apply P; simpl; auto).
    assert (0 <= rsum l) by (apply rsum_nonneg; intros x Hx; left; apply P; simpl; auto). cbn. unfold rsum in *. lra.
  Qed.
  Lemma wR_length : length wR = nobs. Proof. unfold wR. rewrite map_length. apply evR_length. Qed.
  Lemma wR_pos v : In v wR -> 0 < v.
  Proof.
    unfold wR. intros H. apply in_map_iff in H as (e & <- & He). apply evR_pos in He.
    apply Rmult_lt_0_compat; [apply mean_ev_pos|]. now apply Rinv_0_lt_compat.
  Qed.

  Lemma last_fin (l : list R) : l <> [] -> last (map Fin l) NaN = Fin (last l 0).
  Proof. apply last_map. Qed.
  Lemma hd_fin (l : list R) : l <> [] -> hd NaN (map Fin l) = Fin (hd 0 l).
  Proof. destruct l; [congruence|reflexivity]. Qed.

  Lemma map_normx l : map (fun v => ndiv (nsub v (Fin x0R)) (Fin xscR)) (map Fin l) = map Fin (map normx l).
  Proof.
    rewrite !map_map. apply map_ext. intros v. cbn [nsub XR_Num xsub].
    rewrite ndiv_fin by (pose proof xscR_pos; lra). reflexivity.
  Qed.
  Lemma map_normy l : map (fun v => ndiv (nsub v (Fin y0R)) (Fin yscR)) (map Fin l) = map Fin (map normy l).
  Proof.
    rewrite !map_map. apply map_ext. intros v. cbn [nsub XR_Num xsub].
    rewrite ndiv_fin by (pose proof yscR_pos; lra). reflexivity.
  Qed.

  Lemma sorted_normx l : StronglySorted Rlt l -> StronglySorted Rlt (map normx l).
  Proof.
    induction 1 as [|a l S IH F]; simpl; constructor; auto.
    apply Forall_forall. intros z Hz. apply in_map_iff in Hz as (y & <- & Hy). rewrite Forall_forall in F.
    apply normx_lt. auto.
  Qed.
  Lemma unique_norm : np_unique (map Fin (map normx xs)) = map Fin (map normx vs).
  Proof.
    apply np_unique_eq. destruct Hvs as [S E]. split.
    - now apply sorted_normx.
    - intros z. rewrite !in_map_iff. split; intros (y & <- & Hy); exists y; split; auto; now apply E.
  Qed.

  Definition prep_core (npts : nat) (xfit x y n_err : list XR) (lvc : nat -> nat -> XR) : @prep XR :=
    let xa := hd nnan x in
    let xb := last x nnan in
    let x_0 := ndiv (nadd xb xa) (nofZ 2) in
    let x_scale := if negb (neqb xa xb) then ndiv (nsub xb xa) (nofZ 2) else nofZ 1 in
    let y_0 := mean y in
    let s := std y in
    let y_scale := if neqb s (nofZ 0) then nofZ 1 else s in
    let xf := map (fun v => ndiv (nsub v x_0) x_scale) x in
    let yf := map (fun v => ndiv (nsub v y_0) y_scale) y in
    let n_err := map (fun v => ndiv v y_scale) n_err in
    let xfit := map (fun v => ndiv (nsub v x_0) x_scale) xfit in
    let x_unique := np_unique xf in
    let index_unique := map (fun u => first_index u xf) x_unique in
    let n_prof := length x_unique in
    let err_var := map nsq n_err in
    let m := mean err_var in
    let wdiag := map (fun e => ndiv m e) err_var in
    let xblim := if Nat.ltb 3 n_prof then (nth 1 x_unique nnan, nth (n_prof - 2) x_unique nnan)
                 else (nofZ 1, nofZ 1) in
    mkPrep npts x_0 x_scale y_0 y_scale xf yf n_err xfit x_unique index_unique err_var wdiag
           (eff_dof npts lvc) xblim lvc.

  Lemma prepare_core : prepare (col_x rows) (col_y rows) (col_e rows) lvcov
    = prep_core nobs (map Fin us) (map Fin xs) (map Fin ys) (map Fin es) lvR.
  Proof.
    set (good := good_points (col_x rows) (col_y rows)).
    assert (E : prepare (col_x rows) (col_y rows) (col_e rows) lvcov
      = prep_core (length (take nnan (col_x rows) good)) (np_unique (col_x rows))
          (np_sort (take nnan (col_x rows) good))
          (take nnan (take nnan (col_y rows) good) (argsort (np_sort (take nnan (col_x rows) good))))
          (take nnan (take nnan (col_e rows) good) (argsort (np_sort (take nnan (col_x rows) good))))
          (fun i j => lvcov (nth i good 0%nat) (nth j good 0%nat))) by reflexivity.
    rewrite E. unfold good. rewrite good_rows. clear E good. unfold col_x, col_y, col_e.
    rewrite !take_rows, !filter_valid. cbn [fst snd option_map oX].
    assert (E1 : map (fun v : R * (R * R) => Fin (fst v)) V = map Fin (map fst V)) by now rewrite map_map.
    assert (E2 : map (fun v : R * (R * R) => Fin (fst (snd v))) V = map Fin ys) by (unfold values; now rewrite map_map).
    assert (E3 : map (fun v : R * (R * R) => Fin (snd (snd v))) V = map Fin es) by (unfold errors; now rewrite map_map).
    assert (E4 : map (fun r : row => Fin (fst r)) rows = map Fin (map fst rows)) by now rewrite map_map.
    rewrite E1, E2, E3. change (map (fun r : R * option (R * R) => Fin (fst r)) rows) with (map (fun r : row => Fin (fst r)) rows). rewrite E4. clear E1 E2 E3 E4. rewrite (np_unique_eq _ us Hus).
    destruct Hxs as [Ax Px]. rewrite (np_sort_eq _ xs Px Ax), argsort_sorted by auto.
    assert (T1 : take nnan (map Fin ys) (seq 0 (length xs)) = map Fin ys).
    { rewrite xs_length, <- ys_length, <- (map_length Fin ys). apply take_seq. }
    assert (T2 : take nnan (map Fin es) (seq 0 (length xs)) = map Fin es).
    { rewrite xs_length, <- es_length, <- (map_length Fin es). apply take_seq. }
    rewrite T1, T2, !map_length. reflexivity.
  Qed.

  Lemma x0_eq : ndiv (nadd (Fin (last xs 0)) (Fin (hd 0 xs))) (nofZ 2) = Fin x0R.
  Proof. cbn [nadd nofZ XR_Num xadd]. rewrite ndiv_fin by lra. reflexivity. Qed.
  Lemma xsc_eq : (if negb (neqb (Fin (hd 0 xs)) (Fin (last xs 0))) then ndiv (nsub (Fin (last xs 0)) (Fin (hd 0 xs))) (nofZ 2) else nofZ 1)
    = Fin xscR.
  Proof.
    unfold xscR. cbn [nsub neqb nofZ XR_Num xsub xeqb]. unfold Reqb.
    destruct (Req_EM_T (hd 0 xs) (last xs 0)); cbn [negb]; auto. rewrite ndiv_fin by lra. reflexivity.
  Qed.
  Lemma std_fin l : l <> [] -> std (map Fin l) = Fin (sqrt (pop_var l)).
  Proof. intros N. unfold std. rewrite var0_fin by auto. apply xsqrt_fin. apply pop_var_nonneg. Qed.
  Lemma ysc_eq : (if neqb (std (map Fin ys)) (nofZ 0) then nofZ 1 else std (map Fin ys)) = Fin yscR.
  Proof.
    rewrite std_fin by apply ys_nonempty. unfold yscR. cbn [neqb nofZ XR_Num xeqb]. unfold Reqb.
    destruct (Req_EM_T _ _); reflexivity.
  Qed.
  Lemma first_index_norm v : first_index (Fin (normx v)) (map Fin (map normx xs)) = findex v.
  Proof.
    unfold first_index, findex. rewrite !argwhere_map. f_equal. apply argwhere_ext. intros a.
    cbn [neqb XR_Num xeqb]. apply normx_eqb.
  Qed.

  Lemma prepare_fin : prepare (col_x rows) (col_y rows) (col_e rows) lvcov
    = mkPrep nobs (Fin x0R) (Fin xscR) (Fin y0R) (Fin yscR) (map Fin (map normx xs)) (map Fin (map normy ys))
        (map Fin (map (fun e => e / yscR) es)) (map Fin (map normx us)) (map Fin (map normx vs))
        (map findex vs) (map Fin evR) (map Fin wR) (eff_dof nobs lvR) limR lvR.
  Proof.
    rewrite prepare_core. unfold prep_core.
    change (@nnan XR _) with NaN. rewrite (last_fin xs xs_nonempty), (hd_fin xs xs_nonempty).
    rewrite x0_eq, xsc_eq, ysc_eq. rewrite (mean_fin ys ys_nonempty). fold y0R.
    rewrite !map_normx, map_normy, unique_norm.
    assert (E1 : map (fun v => ndiv v (Fin yscR)) (map Fin es) = map Fin (map (fun e => e / yscR) es)).
    { rewrite !map_map. apply map_ext. intros e. apply ndiv_fin. pose proof yscR_pos. lra. }
    rewrite E1.
    assert (E2 : map nsq (map Fin (map (fun e => e / yscR) es)) = map Fin evR).
    { unfold evR. rewrite !map_map. apply map_ext. intros e. unfold nsq. cbn [nmul XR_Num xmul]. f_equal. ring. }
    rewrite E2. rewrite (mean_fin evR evR_nonempty).
    assert (E3 : map (fun e => ndiv (Fin (mean_of evR)) e) (map Fin evR) = map Fin wR).
    { unfold wR. rewrite !map_map. apply map_ext_in. intros e He. apply ndiv_fin. apply evR_pos in He. lra. }
    rewrite E3.
    assert (E4 : map (fun u => first_index u (map Fin (map normx xs))) (map Fin (map normx vs)) = map findex vs).
    { rewrite map_map, (map_map normx). apply map_ext. intros v. apply first_index_norm. }
    rewrite E4. rewrite !map_length. unfold limR.
    destruct (Nat.ltb 3 (length vs)) eqn:L; [|reflexivity]. apply Nat.ltb_lt in L.
    rewrite !map_map. rewrite !(nth_map _ _ _ _ 0) by lia. reflexivity.
  Qed.
End Prep.
