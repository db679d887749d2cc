(* sal_var_plot as a whole *)
From Coq Require Import String ZArith List Bool Reals Lia Lra FunctionalExtensionality.
From Verif Require Import Num Np NumFacts NpFacts Finders Spec_Finders Proofs_Finders Proofs_Besthist Proofs_Thetas Proofs_Thetas2 Pyplot Plots Spec_Plots Proofs_Plots1 Proofs_Plots2 Proofs_Plots3.
Import ListNotations.
Local Open Scope nat_scope.

Lemma Forall2_len {A B} (P : A -> B -> Prop) l l' : Forall2 P l l' -> length l = length l'.
Proof. induction 1; cbn; congruence. Qed.

(* ---- the calls, given the values (any numbers) ---- *)
Section Calls.
  Context {T : Type} `{Num T}.
  Variables (interp1d : list T -> list T -> T -> res T) (levels nr nc : nat) (map_ptmp : nat -> nat -> T) (tlt tgt plt pgt : option T)
    (pct : T) (s : @seven T) (nos : list T) (p : @plot_paths T) (name : string).
  Definition sv_known (row : list (@point T)) : list (T * @point T) := filter (fun q => nisfin (q_cal (snd q))) (combine nos row).
  Definition sv_items (row : list (@point T)) : list (item T) :=
    [Bars false nos (map q_map row) (map q_map_err row);
     Band (map fst (sv_known row)) (map (fun q => nadd (q_cal (snd q)) (q_cal_err (snd q))) (sv_known row))
                                   (map (fun q => nsub (q_cal (snd q)) (q_cal_err (snd q))) (sv_known row));
     Curve nos (map q_int row) (Text "uncalibrated float"); Curve nos (map q_map row) NoLabel;
     Curve nos (map q_cal row) (Text "calibrated float w/ 1xerr"); Curve nos (map q_map row) (Text "mapped salinity")].
  Definition sv_file (i : nat) : string := plot_file p name ("_salinity_variance_" ++ string_of_nat (S i)).
  Definition sv_start (i : nat) (row : list (@point T)) : list (command (item T)) :=
    NewFigure :: map Draw (sv_items row) ++ [Savefig (sv_file i)].
  Definition sv_limits (rows : list (list (@point T))) : prog (item T) :=
    limits false (nsub (nanmin (flat_map (map q_int) rows)) (nq 5 100)) (nadd (nanmax (flat_map (map q_int) rows)) (nq 5 100)).

  Lemma pfor_ext {A} (f g : A -> prog (item T)) l : (forall a, In a l -> f a = g a) -> pfor l f = pfor l g.
  Proof.
    induction l as [|a r IH]; intros E; [reflexivity|]. cbn [pfor fold_right]. rewrite (E a (or_introl eq_refl)).
    fold (pfor r f). fold (pfor r g). rewrite IH; [reflexivity|]. intros b Hb. apply E. now right.
  Qed.
  Lemma pseq_pdo (cs ds : list (command (item T))) q : pseq (pdo cs) (pseq (pdo ds) q) = pseq (pdo (cs ++ ds)) q.
  Proof. unfold pseq, pdo. cbn. now rewrite app_assoc. Qed.

  Lemma sal_var_calls rows : level_points interp1d levels nr nc map_ptmp tlt tgt plt pgt pct s = Ok rows ->
    Forall (fun row => length nos = length row) rows ->
    sal_var_plot interp1d levels nr nc map_ptmp tlt tgt plt pgt pct s nos p name =
    pfor (combine (seq 0 levels) rows) (fun ir => pseq (pdo (sv_start (fst ir) (snd ir))) (pseq (sv_limits rows) (pdo [Show]))).
  Proof.
    intros E Hl. unfold sal_var_plot. rewrite E. cbn [pbind]. apply pfor_ext. intros [i row] Hin. cbn [fst snd].
    apply in_combine_r in Hin. rewrite Forall_forall in Hl. specialize (Hl row Hin).
    fold (sv_known row). fold (sv_limits rows). rewrite !map_map. unfold bars, curve. rewrite !map_length, <- Hl, !Nat.eqb_refl. cbn [andb].
    rewrite !pseq_pdo. reflexivity.
  Qed.

  Lemma sal_var_done rows : level_points interp1d levels nr nc map_ptmp tlt tgt plt pgt pct s = Ok rows ->
    Forall (fun row => length nos = length row) rows -> length rows = levels -> completes (sv_limits rows) ->
    let plot := sal_var_plot interp1d levels nr nc map_ptmp tlt tgt plt pgt pct s nos p name in
    completes plot /\ saved_names plot = map sv_file (seq 0 levels)
    /\ exists lim, drawn plot = flat_map (fun row => sv_items row ++ [Limits false (fst lim) (snd lim)]) rows.
  Proof.
    intros E Hl Hn Hc plot. unfold plot. rewrite (sal_var_calls rows E Hl). destruct (completes_limits _ _ _ Hc) as [El _].
    fold (sv_limits rows) in El. rewrite El. split; [|split].
    - apply completes_pfor. intros [i row] _. reflexivity.
    - unfold saved_names. rewrite fst_pfor by (intros [i row] _; reflexivity).
      clear - Hn. rewrite <- Hn. set (lo := nsub (nanmin _) _). set (hi := nadd (nanmax _) _). clearbody lo hi. generalize 0. clear Hn.
      induction rows as [|r rs IH]; intros k; [reflexivity|].
      cbn [length seq combine flat_map]. rewrite flat_map_app, IH. reflexivity.
    - exists (nsub (nanmin (flat_map (map q_int) rows)) (nq 5 100), nadd (nanmax (flat_map (map q_int) rows)) (nq 5 100)). rewrite drawn_pfor by (intros [i row] _; reflexivity). cbn [fst snd].
      clear - Hn. rewrite <- Hn. set (lo := nsub (nanmin _) _). set (hi := nadd (nanmax _) _). clearbody lo hi. generalize 0. clear Hn.
      induction rows as [|r rs IH]; intros k; [reflexivity|]. cbn [length seq combine flat_map fst snd]. rewrite (IH (S k)). reflexivity.
  Qed.

  Lemma sal_var_stopped row rows : level_points interp1d levels nr nc map_ptmp tlt tgt plt pgt pct s = Ok (row :: rows) ->
    Forall (fun row => length nos = length row) (row :: rows) -> length (row :: rows) = levels -> ~ completes (sv_limits (row :: rows)) ->
    let plot := sal_var_plot interp1d levels nr nc map_ptmp tlt tgt plt pgt pct s nos p name in
    fails plot ValueError /\ saved_names plot = [sv_file 0] /\ drawn plot = sv_items row.
  Proof.
    intros E Hl Hn Hc plot. unfold plot. rewrite (sal_var_calls _ E Hl).
    assert (El : sv_limits (row :: rows) = praise ValueError).
    { unfold sv_limits, limits in *. destruct (_ && _); [|reflexivity]. exfalso. now apply Hc. }
    rewrite El, <- Hn. cbn [length seq combine pfor fold_right]. split; [|split]; reflexivity.
  Qed.

  Lemma sal_var_raise e : level_points interp1d levels nr nc map_ptmp tlt tgt plt pgt pct s = Raise e ->
    sal_var_plot interp1d levels nr nc map_ptmp tlt tgt plt pgt pct s nos p name = ([], Some e).
  Proof. intros E. unfold sal_var_plot. now rewrite E. Qed.
End Calls.

Section SalVar.
  Variable interp1d : list XR -> list XR -> XR -> res XR.
  Variables (w : variance_data) (levels nr nc : nat) (pct : R) (nos : list XR) (p : @plot_paths XR) (name : string).
  Notation d := (w_float w).
  Variables (v : series) (th : @thetas XR) (mats : (nat -> nat -> XR) * (nat -> nat -> XR) * (nat -> nat -> XR)).
  Hypothesis Hlin : linear2 interp1d.
  Hypothesis Hv : visible d nr nc v.
  Hypothesis Hk : errors_known w.
  Hypothesis Hth : thetas_run interp1d d nr nc pct = Ok (th, mats).
  Let plot := sal_var_run interp1d w levels nr nc pct nos p name.
  Let points := level_points interp1d levels nr nc (oXm (d_la d)) (option_map Fin (d_tlt d)) (option_map Fin (d_tgt d)) (option_map Fin (d_plt d)) (option_map Fin (d_pgt d))
    (Fin pct) (oS (odata w)).

  Lemma points_eval : points =
    if (ub d || rows_ok nr nc (tout d)) && rows_ok nr nc (pout d nr nc)
    then let* ths := mapM (at1 (t_levels th)) (seq 0 levels) in
         mapM (fun theta => mapM (level_point interp1d nr (oS (hide7 (hb d nr nc) (odata w))) theta) (seq 0 nc)) ths
    else Raise IndexError.
  Proof.
    unfold points, level_points.
    change (find_10thetas interp1d nr nc (v_sal (oS (odata w))) (v_ptmp (oS (odata w))) (v_pres (oS (odata w))) (oXm (d_la d))
              (option_map Fin (d_tlt d)) (option_map Fin (d_tgt d)) (option_map Fin (d_plt d)) (option_map Fin (d_pgt d)) (Fin pct))
      with (thetas_run interp1d d nr nc pct). rewrite Hth. cbn [bind].
    change (oXm (d_la d)) with (oM (d_la d)). rewrite (blanked_eval d nr nc (odata w) eq_refl eq_refl).
    destruct ((ub d || rows_ok nr nc (tout d)) && rows_ok nr nc (pout d nr nc)); reflexivity.
  Qed.

  Lemma sal_var_no_row : no_such_row d nr nc -> plot = ([], Some IndexError).
  Proof.
    intros Hn. apply sal_var_raise. change (points = Raise IndexError). rewrite points_eval.
    destruct ((ub d || rows_ok nr nc (tout d)) && rows_ok nr nc (pout d nr nc)) eqn:E; [|reflexivity].
    apply ok_iff in E. contradiction.
  Qed.

  Lemma levels_ten : length (t_levels th) = 10.
  Proof.
    destruct (thetas_select interp1d d nr nc pct th mats Hth) as (idx & El & Et & _). rewrite Et, app_length, map_length, repeat_length.
    rewrite El. lia.
  Qed.
  Lemma ths_eval : mapM (at1 (t_levels th)) (seq 0 levels) =
    if Nat.leb levels 10 then Ok (map (fun l => nth l (t_levels th) NaN) (seq 0 levels)) else Raise IndexError.
  Proof.
    rewrite <- levels_ten. generalize (t_levels th). intros l. clear.
    assert (G : forall n k, mapM (at1 l) (seq k n) = if Nat.leb (k + n) (length l) || Nat.eqb n 0 then Ok (map (fun i => nth i l NaN) (seq k n)) else Raise IndexError).
    { induction n as [|n IH]; intros k; [cbn; now rewrite orb_true_r|]. cbn [seq mapM map Nat.eqb]. rewrite orb_false_r. unfold at1 at 1.
      destruct (nth_error l k) as [a|] eqn:E.
      - cbn [bind]. rewrite IH. assert (k < length l) by (apply nth_error_Some; congruence).
        replace (k + S n) with (S k + n) by lia. rewrite (nth_error_nth l k NaN E).
        destruct n as [|n]; cbn [Nat.eqb].
        + rewrite orb_true_r. cbn [bind]. rewrite Nat.add_0_r. destruct (Nat.leb_spec (S k) (length l)); [reflexivity|lia].
        + rewrite orb_false_r. destruct (Nat.leb (S k + S n) (length l)); reflexivity.
      - apply nth_error_None in E. destruct (Nat.leb_spec (k + S n) (length l)); [lia|reflexivity]. }
    rewrite G. destruct levels as [|n]; [reflexivity|]. cbn [Nat.eqb]. rewrite orb_false_r. reflexivity.
  Qed.

  Lemma sal_var_many : ~ no_such_row d nr nc -> 10 < levels -> plot = ([], Some IndexError).
  Proof.
    intros Hn Hl. apply sal_var_raise. change (points = Raise IndexError). rewrite points_eval. rewrite (proj2 (ok_iff d nr nc) Hn), ths_eval.
    destruct (Nat.leb_spec levels 10); [lia|reflexivity].
  Qed.

  (* ---- the values ---- *)
  Definition col (f : @point XR -> XR) (rows : list (list (@point XR))) : list (list XR) := map (map f) rows.

  Lemma points_rows rows : points = Ok rows ->
    ~ no_such_row d nr nc /\ levels <= 10 /\ length rows = levels /\ forall l, l < levels -> length (nth l rows []) = nc /\
      forall j q0, j < nc -> good_point w nr v (nth l (t_levels th) NaN) j (nth j (nth l rows []) q0).
  Proof.
    rewrite points_eval. intros E.
    destruct ((ub d || rows_ok nr nc (tout d)) && rows_ok nr nc (pout d nr nc)) eqn:Eo; [|discriminate]. apply ok_iff in Eo.
    split; [assumption|]. rewrite ths_eval in E. destruct (Nat.leb_spec levels 10); [|discriminate]. split; [assumption|]. cbn [bind] in E.
    apply mapM_ok_Forall2 in E. pose proof (Forall2_len _ _ _ E) as Hlen. rewrite map_length, seq_length in Hlen. split; [congruence|].
    intros l Hl. pose proof (Forall2_nth _ _ _ NaN (@nil (@point XR)) l E ltac:(now rewrite map_length, seq_length)) as Er. cbv beta in Er.
    assert (En : nth l (map (fun l => nth l (t_levels th) NaN) (seq 0 levels)) NaN = nth l (t_levels th) NaN).
    { rewrite (nth_map _ _ _ NaN 0%nat) by (now rewrite seq_length). rewrite seq_nth by assumption. reflexivity. }
    rewrite En in Er. apply mapM_ok_Forall2 in Er. pose proof (Forall2_len _ _ _ Er) as Hlr. rewrite seq_length in Hlr. split; [congruence|].
    intros j q0 Hj. pose proof (Forall2_nth _ _ _ 0 q0 j Er ltac:(now rewrite seq_length)) as Ej. cbv beta in Ej.
    rewrite seq_nth in Ej by assumption. cbn [Nat.add] in Ej. now apply (level_point_value interp1d w nr nc v Hlin Hv Hk).
  Qed.

  Lemma rows_len rows : points = Ok rows -> length nos = nc -> Forall (fun row => length nos = length row) rows.
  Proof.
    intros E Hnos. destruct (points_rows rows E) as (_ & _ & Hl & Hr). apply Forall_forall. intros row Hin.
    apply (In_nth _ _ []) in Hin as (l & Hl' & <-). destruct (Hr l ltac:(lia)) as [-> _]. assumption.
  Qed.

  Lemma col_rows f test val rows :
    length rows = levels -> (forall l, l < levels -> length (nth l rows []) = nc /\
      forall j q0, j < nc -> level_value v test val nr (nth l (t_levels th) NaN) j (f (nth j (nth l rows []) q0))) ->
    rows_of v test val levels nr nc (t_levels th) (col f rows).
  Proof.
    intros Hl Hr. split; [unfold col; now rewrite map_length|]. intros l Hl'. destruct (Hr l Hl') as [Hc Hv'].
    assert (En : nth l (col f rows) [] = map f (nth l rows [])).
    { unfold col. rewrite (nth_map _ _ _ [] []) by lia. reflexivity. }
    rewrite En, map_length. split; [assumption|]. intros j Hj. set (q0 := mkPoint NaN NaN NaN NaN NaN : @point XR).
    rewrite (nth_map _ _ _ NaN q0) by lia. now apply Hv'.
  Qed.
  Lemma col_int rows : points = Ok rows -> rows_of v (d_sal d) (d_sal d) levels nr nc (t_levels th) (col q_int rows).
  Proof. intros E. destruct (points_rows rows E) as (_ & _ & Hl & Hr). apply col_rows; [assumption|]. intros l Hl'. destruct (Hr l Hl') as [Hc Hg]. split; [assumption|]. intros j q0 Hj. now destruct (Hg j q0 Hj) as (G & _). Qed.
  Lemma col_map rows : points = Ok rows -> rows_of v (w_map w) (w_map w) levels nr nc (t_levels th) (col q_map rows).
  Proof. intros E. destruct (points_rows rows E) as (_ & _ & Hl & Hr). apply col_rows; [assumption|]. intros l Hl'. destruct (Hr l Hl') as [Hc Hg]. split; [assumption|]. intros j q0 Hj. now destruct (Hg j q0 Hj) as (_ & G & _). Qed.
  Lemma col_map_err rows : points = Ok rows -> rows_of v (w_map w) (w_map_err w) levels nr nc (t_levels th) (col q_map_err rows).
  Proof. intros E. destruct (points_rows rows E) as (_ & _ & Hl & Hr). apply col_rows; [assumption|]. intros l Hl'. destruct (Hr l Hl') as [Hc Hg]. split; [assumption|]. intros j q0 Hj. now destruct (Hg j q0 Hj) as (_ & _ & G & _). Qed.
  Lemma col_cal rows : points = Ok rows -> rows_of v (w_cal w) (w_cal w) levels nr nc (t_levels th) (col q_cal rows).
  Proof. intros E. destruct (points_rows rows E) as (_ & _ & Hl & Hr). apply col_rows; [assumption|]. intros l Hl'. destruct (Hr l Hl') as [Hc Hg]. split; [assumption|]. intros j q0 Hj. now destruct (Hg j q0 Hj) as (_ & _ & _ & G & _). Qed.
  Lemma col_cal_err rows : points = Ok rows -> rows_of v (w_cal w) (w_cal_err w) levels nr nc (t_levels th) (col q_cal_err rows).
  Proof. intros E. destruct (points_rows rows E) as (_ & _ & Hl & Hr). apply col_rows; [assumption|]. intros l Hl'. destruct (Hr l Hl') as [Hc Hg]. split; [assumption|]. intros j q0 Hj. now destruct (Hg j q0 Hj) as (_ & _ & _ & _ & G). Qed.

  Definition items_of (rows : list (list (@point XR))) (lim : list (item XR)) : list (item XR) := flat_map (fun row => sv_items nos row ++ lim) rows.

  Lemma items_curves s rows lo hi :
    curves_labelled s (items_of rows [Limits false lo hi]) =
      if String.eqb s "uncalibrated float" then col q_int rows
      else if String.eqb s "calibrated float w/ 1xerr" then col q_cal rows
      else if String.eqb s "mapped salinity" then col q_map rows else [].
  Proof.
    unfold items_of, curves_labelled. induction rows as [|r rs IH].
    - cbn [flat_map col map]. destruct (String.eqb s "uncalibrated float"), (String.eqb s "calibrated float w/ 1xerr"), (String.eqb s "mapped salinity"); reflexivity.
    - cbn [flat_map]. rewrite flat_map_app, IH. unfold sv_items. cbn [flat_map app].
      destruct (String.eqb_spec s "uncalibrated float") as [->|]; [reflexivity|].
      destruct (String.eqb_spec s "calibrated float w/ 1xerr") as [->|]; [reflexivity|].
      destruct (String.eqb_spec s "mapped salinity") as [->|]; reflexivity.
  Qed.
  Lemma items_bars rows lo hi : error_bars (items_of rows [Limits false lo hi]) = combine (col q_map rows) (col q_map_err rows).
  Proof.
    unfold items_of, error_bars, col. induction rows as [|r rs IH]; [reflexivity|].
    cbn [flat_map]. rewrite flat_map_app, IH. reflexivity.
  Qed.
  Lemma known_combine row : let q := filter (fun q => nisfin (fst (snd q))) (combine nos (combine (map q_cal row) (map q_cal_err row))) in
    map fst (sv_known nos row) = map fst q
    /\ map (fun q => nadd (q_cal (snd q)) (q_cal_err (snd q))) (sv_known nos row) = map (fun q => nadd (fst (snd q)) (snd (snd q))) q
    /\ map (fun q => nsub (q_cal (snd q)) (q_cal_err (snd q))) (sv_known nos row) = map (fun q => nsub (fst (snd q)) (snd (snd q))) q.
  Proof.
    cbv zeta. unfold sv_known. generalize nos. intros ns. revert row. induction ns as [|n ns IH]; intros [|r row]; try (repeat split; reflexivity).
    cbn [combine map filter fst snd]. destruct (IH row) as (A & B & C). destruct (nisfin (q_cal r)); cbn [map fst snd]; [|auto].
    rewrite A, B, C. auto.
  Qed.
  Lemma items_bands rows lo hi : bands (items_of rows [Limits false lo hi]) = map (fun q => error_band nos (fst q) (snd q)) (combine (col q_cal rows) (col q_cal_err rows)).
  Proof.
    unfold items_of, bands, col. induction rows as [|r rs IH]; [reflexivity|].
    cbn [flat_map]. rewrite flat_map_app, IH. cbn [map combine fst snd]. unfold error_band. cbv zeta.
    destruct (known_combine r) as (A & B & C). rewrite <- A, <- B, <- C. reflexivity.
  Qed.

  Lemma completes_points : completes plot -> exists rows, points = Ok rows.
  Proof. unfold plot, sal_var_run, sal_var_plot. intros Hc. apply completes_pbind in Hc as (rows & E & _). exists rows. exact E. Qed.

  Lemma sal_var_values : length nos = nc -> 1 <= levels -> completes plot ->
    exists F M Me C Ce,
      rows_of v (d_sal d) (d_sal d) levels nr nc (t_levels th) F
      /\ rows_of v (w_map w) (w_map w) levels nr nc (t_levels th) M /\ rows_of v (w_map w) (w_map_err w) levels nr nc (t_levels th) Me
      /\ rows_of v (w_cal w) (w_cal w) levels nr nc (t_levels th) C /\ rows_of v (w_cal w) (w_cal_err w) levels nr nc (t_levels th) Ce
      /\ curves_labelled "uncalibrated float" (drawn plot) = F
      /\ curves_labelled "mapped salinity" (drawn plot) = M /\ error_bars (drawn plot) = combine M Me
      /\ curves_labelled "calibrated float w/ 1xerr" (drawn plot) = C
      /\ bands (drawn plot) = map (fun q => error_band nos (fst q) (snd q)) (combine C Ce).
  Proof.
    intros Hnos Hlev Hc. destruct (completes_points Hc) as (rows & E). pose proof (rows_len rows E Hnos) as Hf.
    destruct (points_rows rows E) as (_ & _ & Hl & _).
    assert (Hlim : completes (sv_limits rows)).
    { revert Hc. unfold plot, sal_var_run. rewrite (sal_var_calls _ _ _ _ _ _ _ _ _ _ _ _ _ _ rows E Hf).
      intros Hc. destruct rows as [|row rows]; [cbn in Hl; lia|]. destruct levels as [|n]; [lia|]. cbn [seq combine pfor fold_right] in Hc.
      apply completes_pseq in Hc as [Hc _]. apply completes_pseq in Hc as [_ Hc]. now apply completes_pseq in Hc as [Hc _]. }
    destruct (sal_var_done interp1d levels nr nc _ _ _ _ _ _ _ nos p name rows E Hf Hl Hlim) as (_ & _ & lim & Ed).
    change (drawn plot = items_of rows [Limits false (fst lim) (snd lim)]) in Ed. rewrite !Ed, !items_curves, items_bars, items_bands.
    exists (col q_int rows), (col q_map rows), (col q_map_err rows), (col q_cal rows), (col q_cal_err rows).
    split; [now apply col_int|]. split; [now apply col_map|]. split; [now apply col_map_err|]. split; [now apply col_cal|]. split; [now apply col_cal_err|].
    repeat split; reflexivity.
  Qed.

  (* ---- whether it completes ---- *)
  Lemma level_value_oX test val theta j x : level_value v test val nr theta j x -> exists o, x = oX o.
  Proof. intros [| |]; [exists None; reflexivity|eexists; reflexivity|eexists (Some _); reflexivity]. Qed.

  Lemma mapM_total {A B} (f : A -> res B) l : (forall a, In a l -> exists b, f a = Ok b) -> exists bs, mapM f l = Ok bs.
  Proof.
    induction l as [|a l IH]; intros Hl; [exists []; reflexivity|]. destruct (Hl a (or_introl eq_refl)) as (b & Eb).
    destruct IH as (bs & Ebs); [intros; apply Hl; now right|]. exists (b :: bs). cbn. rewrite Eb. cbn. now rewrite Ebs.
  Qed.

  Lemma no_tie_far j th0 k x k1 k2 y : no_ties v nr nc -> j < nc -> nearest_row v nr th0 j k x ->
    far_side v nr th0 j k x k1 y -> far_side v nr th0 j k x k2 y -> k1 = k2.
  Proof.
    intros Ht Hj _ (B1 & A1 & S1 & _) (B2 & A2 & S2 & _). destruct (Nat.eq_dec k1 k2) as [|Hne]; [assumption|]. exfalso.
    assert (k2 = S (S k1) \/ k1 = S (S k2)) as [->| ->] by lia.
    - exact (Ht j k1 y y Hj B2 S1 S2 eq_refl).
    - exact (Ht j k2 y y Hj B1 S2 S1 eq_refl).
  Qed.

  Lemma points_ok : ~ no_such_row d nr nc -> levels <= 10 -> no_ties v nr nc -> exists rows, points = Ok rows.
  Proof.
    intros Hn Hl Ht. rewrite points_eval, (proj2 (ok_iff d nr nc) Hn), ths_eval. destruct (Nat.leb_spec levels 10); [|lia]. cbn [bind].
    apply mapM_total. intros theta _. apply mapM_total. intros j Hj. apply in_seq in Hj as [_ Hj]. cbn [Nat.add] in Hj.
    apply (level_point_ok interp1d w nr nc v Hlin Hv Hk). intros th0 k x k1 k2 y _ _ Hnr. now apply no_tie_far.
  Qed.

  Lemma in_col (f : @point XR -> XR) rows y : In y (flat_map (map f) rows) ->
    (forall row, In row rows -> length row = nc) -> length rows = levels ->
    exists l j, l < levels /\ j < nc /\ y = nth j (nth l (col f rows) []) NaN.
  Proof.
    intros Hin Hc Hl. apply in_flat_map in Hin as (row & Hr & Hy). pose proof (Hc row Hr) as Hrow.
    apply (In_nth _ _ []) in Hr as (l & Hl' & El). apply (In_nth _ _ NaN) in Hy as (j & Hj & Ej). rewrite map_length in Hj.
    exists l, j. split; [lia|]. split; [lia|]. unfold col. rewrite (nth_map _ _ _ [] []) by assumption. rewrite El. now symmetry.
  Qed.
  Lemma col_in (f : @point XR -> XR) rows l j : length rows = levels -> l < levels -> j < nc -> length (nth l rows []) = nc ->
    In (nth j (nth l (col f rows) []) NaN) (flat_map (map f) rows).
  Proof.
    intros Hl Hl' Hj Hc. apply in_flat_map. exists (nth l rows []). split; [apply nth_In; lia|].
    unfold col. rewrite (nth_map _ _ _ [] []) by lia. apply nth_In. rewrite map_length. lia.
  Qed.

  Lemma sal_var_outcome : ~ no_such_row d nr nc -> no_ties v nr nc -> length nos = nc -> 1 <= levels <= 10 ->
    (completes plot /\ saved_names plot = map (fun i => plot_file p name ("_salinity_variance_" ++ string_of_nat i)) (seq 1 levels)
       /\ exists l j s, l < levels /\ j < nc /\ level_value v (d_sal d) (d_sal d) nr (nth l (t_levels th) NaN) j (Fin s))
    \/ (fails plot ValueError /\ saved_names plot = [plot_file p name "_salinity_variance_1"]
       /\ forall l j, l < levels -> j < nc -> level_value v (d_sal d) (d_sal d) nr (nth l (t_levels th) NaN) j NaN).
  Proof.
    intros Hn Ht Hnos Hlev. destruct (points_ok Hn ltac:(lia) Ht) as (rows & E). pose proof (rows_len rows E Hnos) as Hf.
    destruct (points_rows rows E) as (_ & _ & Hl & Hr). pose proof (col_int rows E) as [_ Hci].
    assert (Hrow : forall row, In row rows -> length row = nc).
    { intros row Hin. apply (In_nth _ _ []) in Hin as (l & Hl' & <-). apply Hr. lia. }
    assert (Hos : exists os, flat_map (map q_int) rows = map oX os).
    { assert (Ho : forall y, In y (flat_map (map q_int) rows) -> exists o, y = oX o).
      { intros y Hy. destruct (in_col q_int rows y Hy Hrow Hl) as (l & j & Hl' & Hj & ->). destruct (Hci l Hl') as [_ Hv']. eapply level_value_oX. now apply Hv'. }
      clear - Ho. induction (flat_map (map q_int) rows) as [|y ys IH]; [exists []; reflexivity|].
      destruct (Ho y (or_introl eq_refl)) as (o & ->). destruct IH as (os & ->); [intros; apply Ho; now right|]. exists (o :: os). reflexivity. }
    destruct Hos as (os & Hos).
    assert (Hnames : map (sv_file p name) (seq 0 levels) = map (fun i => plot_file p name ("_salinity_variance_" ++ string_of_nat i)) (seq 1 levels)).
    { rewrite <- seq_shift, map_map. reflexivity. }
    assert (Hlimit : sv_limits rows = limits false (nsub (nanmin (map oX os)) (nq 5 100)) (nadd (nanmax (map oX os)) (nq 5 100))).
    { unfold sv_limits. now rewrite Hos. }
    destruct (somes os) as [|a r] eqn:Es.
    - right.
      assert (Hnone : forall y, In y (flat_map (map q_int) rows) -> y = NaN).
      { rewrite Hos. intros y Hy. apply in_map_iff in Hy as (o & <- & Ho). destruct o as [x|]; [|reflexivity]. apply in_somes in Ho. rewrite Es in Ho. destruct Ho. }
      destruct (nanmin_oX os) as [[_ En]|(m & _ & Hm & _)]; [|apply in_somes in Hm; rewrite Es in Hm; destruct Hm].
      assert (Hnc : ~ completes (sv_limits rows)) by (rewrite Hlimit, En; discriminate).
      destruct rows as [|row rows]; [cbn in Hl; lia|].
      destruct (sal_var_stopped interp1d levels nr nc _ _ _ _ _ _ _ nos p name row rows E Hf Hl Hnc) as (Hfa & Hs & _).
      split; [exact Hfa|]. split; [exact Hs|]. intros l j Hl' Hj. destruct (Hci l Hl') as [_ Hv']. specialize (Hv' j Hj).
      rewrite (Hnone (nth j (nth l (col q_int (row :: rows)) []) NaN)) in Hv'; [assumption|]. apply col_in; auto. apply Hr. assumption.
    - left.
      destruct (nanmin_oX os) as [[En _]|(m & Em & Hm & _)]; [rewrite Es in En; discriminate|].
      destruct (nanmax_oX os) as [[En _]|(m' & Em' & _ & _)]; [rewrite Es in En; discriminate|].
      assert (Hcl : completes (sv_limits rows)).
      { rewrite Hlimit, Em, Em', (nq_fin 5 100) by lia. reflexivity. }
      destruct (sal_var_done interp1d levels nr nc _ _ _ _ _ _ _ nos p name rows E Hf Hl Hcl) as (Hco & Hs & _).
      split; [exact Hco|]. split; [exact (eq_trans Hs Hnames)|].
      assert (Hin : In (Fin m) (flat_map (map q_int) rows)) by (rewrite Hos; apply in_map_iff; exists (Some m); auto).
      destruct (in_col q_int rows _ Hin Hrow Hl) as (l & j & Hl' & Hj & Ey). exists l, j, m. split; [assumption|]. split; [assumption|].
      rewrite Ey. destruct (Hci l Hl') as [_ Hv']. now apply Hv'.
  Qed.
End SalVar.
