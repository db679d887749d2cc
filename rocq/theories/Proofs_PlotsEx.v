(* examples of the plots *)
From Coq Require Import String ZArith List Bool Reals Lia Lra.
From Flocq Require Import Core.Raux.
From Verif Require Import Num Np NumFacts NpFacts DemoNum Finders Spec_Finders Proofs_Finders Proofs_Besthist Proofs_Thetas Proofs_Thetas2 Proofs_Thetas3 Helper MapProfile Mapping Proofs_MappingEx
  Config Calib Proofs_CalibEx Pyplot Plots Spec_Plots Spec_Plots2 Proofs_Plots1 Proofs_Plots4 Proofs_Plots5 Proofs_Plots6 Proofs_Plots7 Proofs_Plots8 Proofs_Plots9 Dashboard Proofs_Plots10.
Import ListNotations.
Local Open Scope nat_scope.

(* ---- a whole run, over the integers ---- *)
Definition zargsort (l : list ZN) : list nat := seq 0 (length l).
Definition zbounds (b : ZN * ZN) : string := match b with (Some 0%Z, _) => "[0, 5]" | _ => "[5, 20]" end.
Definition plots_here : plot_paths := mkPlotPaths (T := ZN) "plots" "pdf" [(Some 0%Z, Some 5%Z); (Some 5%Z, Some 20%Z)].
Definition cal_result : calib ZN := match cal_run cal_src cal_set cal_map with (Ok r, _) => r | _ => mkCalib [] [] [] [] [] [] [] [] [] [] [] [] [] [] [] end.
Definition demo_dash := plot_diagnostics zinterp1d (fun _ ys _ => hd None ys) zargsort zbounds cal_src cal_pos cal_map cal_set cal_result 2 plots_here "3901960".
Lemma demo_dash_completes : completes demo_dash.
Proof. vm_compute. reflexivity. Qed.
Lemma demo_calibrated : forallb (fun c => forallb nisnan c) (k_sal cal_result) = false.
Proof. vm_compute. reflexivity. Qed.
Lemma demo_dash_mixed : alone false demo_dash (plot_file plots_here "3901960" "_salinity_curve") <> alone true demo_dash (plot_file plots_here "3901960" "_salinity_curve")
  /\ alone false demo_dash (plot_file plots_here "3901960" "_salinity_profile") <> alone true demo_dash (plot_file plots_here "3901960" "_salinity_profile").
Proof.
  split; intros E; apply (f_equal (option_map (map fst))) in E; vm_compute in E; discriminate.
Qed.

(* ---- theta_sal_plot ---- *)
Definition one_curve (n : nat) : list (list XR) := map (fun i => [Fin (INR i)]) (seq 0 n).
Lemma one_curve_length n : length (one_curve n) = n.
Proof. unfold one_curve. now rewrite map_length, seq_length. Qed.
Lemma curves_complete n nos z p name title : 1 <= n -> length nos + 1 = n ->
  completes (theta_sal_plot (one_curve n) (one_curve n) [] [] [] [] (map (fun z => Fin (IZR z)) (nos ++ [z])) p name title).
Proof.
  intros Hn Hl. unfold theta_sal_plot. rewrite one_curve_length. rewrite (legend_eval n nos z Hn). cbn [pbind].
  rewrite !completes_pseq. split; [reflexivity|]. split; [|reflexivity]. rewrite completes_pfor. intros i Hi. apply in_seq in Hi.
  assert (Eo : nth_error (one_curve n) i = Some [Fin (INR i)]).
  { unfold one_curve. rewrite nth_error_map. rewrite (nth_error_nth' (seq 0 n) 0) by (rewrite seq_length; lia). rewrite seq_nth by lia. reflexivity. }
  assert (Ep : exists v, nth_error (map (fun z => Fin (IZR z)) (nos ++ [z])) i = Some v).
  { destruct (nth_error (map (fun z => Fin (IZR z)) (nos ++ [z])) i) as [v|] eqn:E; [eauto|]. apply nth_error_None in E. rewrite map_length, app_length in E. cbn in E. lia. }
  destruct Ep as (v & Ev). unfold at1. rewrite Eo, ?Ev. cbn [bind pbind]. 
  destruct (existsb _ _); cbn; reflexivity.
Qed.

(* ---- sal_var_plot ---- *)
Definition two_data : variance_data :=
  mkVarianceData two_levels (d_sal two_levels) (fun _ _ => Some (1 / 100)%R) (fun i _ => Some (34 + INR i + 2 / 100)%R) (fun _ _ => Some (1 / 100)%R).
Lemma two_inside lt gt o : lt = None -> gt = None -> ~ outside lt gt o.
Proof. intros -> -> (x & _ & H). now apply H. Qed.
Lemma two_shown nr nc i j : shown two_levels nr nc i j.
Proof.
  assert (Ht : ~ hidden_theta two_levels nr nc i j).
  { intros [[_ [_ H]]|[_ (i' & j' & _ & _ & [_ H] & _)]]; revert H; now apply two_inside. }
  split; [discriminate|]. split; [exact Ht|]. intros (i' & j' & _ & _ & (_ & _ & H) & _). revert H. now apply two_inside.
Qed.
Lemma two_visible nr nc : visible two_levels nr nc two_levels.
Proof. repeat (split; [reflexivity|]). intros i j. split; [intros _; apply two_shown|discriminate]. Qed.
Lemma two_errors : errors_known two_data.
Proof. split; discriminate. Qed.
Lemma two_rows nr nc : ~ no_such_row two_levels nr nc.
Proof.
  intros (i & j & _ & _ & [[_ [_ H]]|(_ & _ & H)]); revert H; now apply two_inside.
Qed.
Lemma two_level_known nr th j : ~ level_value two_levels (d_sal two_levels) (d_sal two_levels) nr (Fin th) j NaN \/ ~ straddles two_levels nr th j.
Proof.
  destruct (Classical_Prop.classic (straddles two_levels nr th j)) as [Hs|Hs]; [left|now right]. intros H. inversion H; subst.
  apply (H0 th); [reflexivity|assumption].
Qed.
Lemma two_spacing : spacing 100 = 10%R.
Proof.
  unfold spacing. destruct (Rlt_dec 450 100) as [H|_]; [lra|]. replace (100 / 10)%R with (IZR 10) by lra.
  f_equal. pose proof (base_Int_part (IZR 10)) as [H1 H2]. 
  assert ((Int_part (IZR 10) <= 10)%Z) by now apply le_IZR. assert ((9 < Int_part (IZR 10))%Z); [|lia]. apply lt_IZR. lra.
Qed.
Lemma two_pressures nc lo hi : 1 <= nc -> pressure_range two_levels 2 nc lo hi -> lo = 0%R /\ hi = 100%R.
Proof.
  intros Hn ((i & j & Hi & Hj & _ & E) & (i' & j' & Hi' & Hj' & _ & E') & Hall). cbn in E, E'. injection E as E. injection E' as E'.
  assert (H0 : (lo <= 0 <= hi)%R) by (apply (Hall 0 0); [lia|lia|split; [apply two_kept|cbn; f_equal; lra]]).
  assert (H1 : (lo <= 100 <= hi)%R) by (apply (Hall 1 0); [lia|lia|split; [apply two_kept|cbn; f_equal; lra]]).
  destruct i as [|[|]], i' as [|[|]]; cbn in E, E'; try lia; lra.
Qed.
Lemma two_straddled nr j th : 2 <= nr -> (0 < th < 10)%R -> straddles two_levels nr th j.
Proof. intros Hn Hth. exists 0, 1, 0%R, 10%R. repeat split; try lia; try apply two_kept; try lra; cbn; f_equal; lra. Qed.
Lemma two_usable j : usable_rows two_levels 2 j [0; 1].
Proof.
  split; [repeat constructor|]. intros i. cbn. split.
  - intros [<-|[<-|[]]]; (split; [lia|]); (split; [apply two_kept|]); split; discriminate.
  - intros [Hi _]. destruct i as [|[|]]; [auto..|lia].
Qed.
(* level 1 is at a temperature of 1 *)
Lemma two_level_one nc r mats : 1 <= nc -> thetas_run line two_levels 2 nc 0 = Ok (r, mats) ->
  1 < length (theta_levels r) /\ nth 1 (theta_levels r) NaN = Fin 1.
Proof.
  intros Hn H. destruct (thetas_levels line two_levels 2 nc 0 r mats H) as (lo & hi & Hr & _ & HL & _ & Hrow & _).
  apply two_pressures in Hr as [-> ->]; [|assumption]. split; [lia|]. destruct (Hrow 1 ltac:(lia)) as (row & Hlen & Hval & _ & Hmean).
  replace (100 - 0)%R with 100%R in * by lra. rewrite two_spacing in *.
  assert (Hv : forall j, j < nc -> nth j row NaN = Fin 1).
  { intros j Hj. destruct (Hval j [0; 1] Hj (two_usable j)) as [Hb _]. cbv zeta in Hb.
    assert (B : brackets two_levels j [0; 1] (0 + INR 1 * 10)).
    { exists 0, 1, 0%R, 100%R. repeat split; cbn; auto; try (f_equal; lra); lra. }
    specialize (Hb B). cbn [map] in Hb. cbn [d_pres d_ptmp two_levels oX line] in Hb. injection Hb as Hb. rewrite <- Hb. f_equal. cbn. field. }
  assert (Er : row = map Fin (repeat 1%R nc)).
  { apply nth_ext with (d := NaN) (d' := NaN); [now rewrite map_length, repeat_length|]. intros j Hj. rewrite Hlen in Hj. rewrite Hv by assumption.
    rewrite (nth_map _ _ _ NaN 0%R) by (now rewrite repeat_length). f_equal. symmetry. rewrite (nth_indep _ 0%R 1%R) by (now rewrite repeat_length). apply nth_repeat. }
  rewrite (Hmean (repeat 1%R nc)).
  - f_equal. unfold mean_of. rewrite repeat_length. assert (E : fold_right Rplus 0%R (repeat 1%R nc) = INR nc).
    { clear. induction nc as [|n IH]; [reflexivity|]. cbn [repeat fold_right]. rewrite IH, S_INR. lra. }
    rewrite E. apply Rinv_r. apply not_0_INR. lia.
  - destruct nc; [lia|discriminate].
  - rewrite Er. unfold present. clear. induction (repeat 1%R nc) as [|x l IH]; [reflexivity|]. cbn. f_equal. exact IH.
Qed.
Lemma not_rare S l : ~ rare S 0 l.
Proof. intros (_ & l' & _ & _ & _ & H). rewrite Rmult_0_l in H. pose proof (pos_INR (length (present (nth l S [])))). lra. Qed.
Lemma level_salinity_kind nr th j x : level_salinity two_levels nr th j x -> x <> NaN -> exists v t, th = Fin t /\ straddles two_levels nr t j /\ x = Fin v.
Proof. intros H Hn. inversion H; subst; [contradiction| |]; eexists _, _; repeat split; eauto. Qed.
Lemma present_fin (l : list XR) : (forall x, In x l -> x = NaN \/ exists v, x = Fin v) -> exists vs, present l = map Fin vs.
Proof.
  induction l as [|a l IH]; intros Hl; [exists []; reflexivity|]. destruct (IH (fun x Hx => Hl x (or_intror Hx))) as (vs & E).
  destruct (Hl a (or_introl eq_refl)) as [->|(v & ->)].
  - exists vs. exact E.
  - exists (v :: vs). change (present (Fin v :: l)) with (Fin v :: present l). now rewrite E.
Qed.
Lemma present_many l : (forall j, j < length l -> exists v, nth j l NaN = Fin v) -> length (present l) = length l.
Proof.
  induction l as [|a l IH]; intros Hl; [reflexivity|]. destruct (Hl 0 ltac:(cbn; lia)) as (v & E). cbn in E. subst a. cbn. f_equal. apply IH.
  intros j Hj. apply (Hl (S j)). cbn. lia.
Qed.
Lemma present_in l : 1 <= length (present l) -> exists j, j < length l /\ nth j l NaN <> NaN.
Proof.
  induction l as [|a l IH]; [cbn; lia|]. intros Hl. destruct a as [v| | |].
  4:{ destruct (IH Hl) as (j & Hj & Hn). exists (S j). split; [cbn; lia|assumption]. }
  all: exists 0; split; [cbn; lia|discriminate].
Qed.
(* a first level is selected if there are two profiles *)
Lemma two_first nc r mats : 2 <= nc -> thetas_run line two_levels 2 nc 0 = Ok (r, mats) ->
  exists th j, nth 0 (t_levels r) NaN = Fin th /\ j < nc /\ straddles two_levels 2 th j.
Proof.
  intros Hn H. destruct (two_level_one nc r mats ltac:(lia) H) as [HL1 E1].
  destruct (thetas_variance line two_levels 2 nc 0 r mats line_linear2 H) as (S & HS & Hlen & Hsal & HV & Hvar).
  destruct (thetas_select line two_levels 2 nc 0 r mats H) as (idx & Hidx & Ht & Hvl & _ & Hin & _ & _). cbv zeta in *.
  assert (Hkind : forall l, l < length S -> exists vs, present (nth l S []) = map Fin vs).
  { intros l Hl. apply present_fin. intros x Hx. apply (In_nth _ _ NaN) in Hx as (j & Hj & <-). rewrite Hlen in Hj by assumption.
    specialize (Hsal l j Hl Hj). destruct (nth j (nth l S []) NaN) eqn:E; [right; eauto| | |now left];
      destruct (level_salinity_kind _ _ _ _ Hsal ltac:(discriminate)) as (v & t & _ & _ & Ev); discriminate. }
  assert (Hrare : forall l, l < length S -> ~ rare S 0 l /\ ~ (l = 0 /\ exists l', rare S 0 l')).
  { intros l _. split; [apply not_rare|]. intros (_ & l' & Hl'). now apply (not_rare S l'). }
  assert (V1 : nisnan (nth 1 (var_sal_theta r) NaN) = false).
  { destruct (Hvar 1 ltac:(lia)) as [_ Hv]. destruct (Hrare 1 ltac:(lia)) as [Ha Hb]. destruct (Hv Ha Hb) as [_ Hfin].
    destruct (Hkind 1 ltac:(lia)) as (vs & Evs). rewrite (Hfin vs Evs); [reflexivity|].
    rewrite <- (map_length Fin), <- Evs. rewrite present_many; rewrite Hlen by lia; [assumption|].
    intros j Hj. specialize (Hsal 1 j ltac:(lia) Hj). rewrite E1 in Hsal. inversion Hsal; subst; [|cbn; eauto|cbn; eauto].
    exfalso. match goal with Hx : forall th, Fin _ = Fin th -> _ |- _ => apply (Hx 1%R eq_refl) end. apply two_straddled; [lia|lra]. }
  assert (Hidx1 : 1 <= length idx).
  { rewrite Hidx. assert (1 <= length (present (var_sal_theta r))); [|lia].
    assert (Hp : In (nth 1 (var_sal_theta r) NaN) (present (var_sal_theta r))).
    { apply filter_In. split; [apply nth_In; lia|]. now rewrite V1. }
    destruct (present (var_sal_theta r)); [contradiction|cbn; lia]. }
  destruct idx as [|i0 idx]; [cbn in Hidx1; lia|]. destruct (Hin i0 (or_introl eq_refl)) as [Hi0 Hnn].
  assert (Hl0 : i0 < length S) by lia. destruct (Hvar i0 Hl0) as [_ Hv]. destruct (Hrare i0 Hl0) as [Ha Hb]. destruct (Hv Ha Hb) as [Hfew _].
  assert (Hp : 1 <= length (present (nth i0 S []))).
  { destruct (Nat.le_gt_cases (length (present (nth i0 S []))) 1) as [Hle|]; [|lia]. rewrite (Hfew Hle) in Hnn. discriminate. }
  apply present_in in Hp as (j & Hj & Hne). rewrite Hlen in Hj by assumption. specialize (Hsal i0 j Hl0 Hj).
  destruct (level_salinity_kind _ _ _ _ Hsal Hne) as (v & th & Eth & Hstr & _). exists th, j. split; [|split; assumption]. rewrite Ht. exact Eth.
Qed.
Lemma two_variance nc nos p name : 2 <= nc -> length nos = nc ->
  completes (sal_var_run line two_data 2 2 nc 0 nos p name).
Proof.
  intros Hn Hl.
  assert (Hok : exists r mats, thetas_run line two_levels 2 nc 0 = Ok (r, mats)).
  { apply (thetas_succeed line two_levels 2 nc 0 0 100 line_total).
    - exists 0, 0, 1, 0, 0%R, 10%R, 0%Z, 100%Z. repeat split; try lia; try lra; try apply two_kept; cbn; f_equal; lra.
    - split; [|split].
      + exists 0, 0. repeat split; try lia; try apply two_kept. cbn. f_equal. lra.
      + exists 1, 0. repeat split; try lia; try apply two_kept. cbn. f_equal. lra.
      + intros i j x Hi _ [_ E]. cbn in E. injection E as <-. destruct i as [|[|]]; cbn; try lra. lia.
    - lra.
    - intros j k x y _ Hk. lia. }
  destruct Hok as (r & mats & H).
  destruct (sal_var_outcome line two_data 2 2 nc 0 nos p name two_levels r mats line_linear2 (two_visible 2 nc) two_errors H (two_rows 2 nc)) as [[Hc _]|(_ & _ & Hnone)].
  - intros j k x y _ Hk. lia.
  - assumption.
  - lia.
  - assumption.
  - exfalso. destruct (two_first nc r mats Hn H) as (th & j & Et & Hj & Hs). specialize (Hnone 0 j ltac:(lia) Hj). rewrite Et in Hnone.
    destruct (two_level_known 2 th j) as [Hk|Hk]; contradiction.
Qed.
(* a float with a single profile: no level is selected, and the plot fails after its first file *)
Lemma present_le l : length (present l) <= length l.
Proof. unfold present. induction l as [|a l IH]; [auto|]. cbn [filter]. destruct (negb (nisnan a)); cbn [length]; lia. Qed.
Lemma single_variance nos p name : length nos = 1 ->
  fails (sal_var_run line two_data 2 2 1 0 nos p name) ValueError /\
  saved_names (sal_var_run line two_data 2 2 1 0 nos p name) = [plot_file p name "_salinity_variance_1"].
Proof.
  intros Hl.
  assert (Hok : exists r mats, thetas_run line two_levels 2 1 0 = Ok (r, mats)).
  { apply (thetas_succeed line two_levels 2 1 0 0 100 line_total).
    - exists 0, 0, 1, 0, 0%R, 10%R, 0%Z, 100%Z. repeat split; try lia; try lra; try apply two_kept; cbn; f_equal; lra.
    - split; [|split].
      + exists 0, 0. repeat split; try lia; try apply two_kept. cbn. f_equal. lra.
      + exists 1, 0. repeat split; try lia; try apply two_kept. cbn. f_equal. lra.
      + intros i j x Hi _ [_ E]. cbn in E. injection E as <-. destruct i as [|[|]]; cbn; try lra. lia.
    - lra.
    - intros j k x y _ Hk. lia. }
  destruct Hok as (r & mats & H).
  destruct (sal_var_outcome line two_data 2 2 1 0 nos p name two_levels r mats line_linear2 (two_visible 2 1) two_errors H (two_rows 2 1)) as [(_ & _ & l & j & s & Hl2 & Hj & Hval)|(Hf & Hs & _)].
  - intros j k x y _ Hk. lia.
  - assumption.
  - lia.
  - exfalso. destruct (thetas_variance line two_levels 2 1 0 r mats line_linear2 H) as (S & HS & Hlen & _ & HV & Hvar).
    destruct (thetas_select line two_levels 2 1 0 r mats H) as (idx & _ & Ht & Hvl & _ & Hin & _ & _). cbv zeta in *.
    assert (E : idx = []).
    { destruct idx as [|i0 idx]; [reflexivity|]. exfalso. destruct (Hin i0 (or_introl eq_refl)) as [Hi Hn]. assert (Hl0 : i0 < length S) by lia.
      destruct (Hvar i0 Hl0) as [_ Hv]. destruct (Hv (not_rare S i0)) as [Hfew _]; [intros (_ & l' & Hr); now apply (not_rare S l')|].
      rewrite Hfew in Hn; [discriminate|]. rewrite <- (Hlen i0 Hl0). apply present_le. }
    subst idx. rewrite Ht in Hval. cbn [map app length Nat.sub] in Hval.
    assert (En : forall k, nth k (repeat NaN 10) NaN = NaN) by (intros k; do 10 (destruct k as [|k]; [reflexivity|]); destruct k; reflexivity).
    rewrite En in Hval. inversion Hval; discriminate.
  - split; assumption.
Qed.

(* a sample outside the window in a column without a row of the same number: the plot fails *)
Definition cold_corner : series :=
  mkSeries (fun i _ => Some (34 + INR i)%R) (fun i j => if Nat.eqb i 0 && Nat.eqb j 2 then Some (-5)%R else Some (10 * INR i)%R)
    (fun i _ => Some (100 * INR i)%R) (fun i _ => Some 0%R) None (Some (-1)%R) None None.
Definition cold_data : variance_data := mkVarianceData cold_corner (d_sal cold_corner) (fun _ _ => Some 1%R) (d_sal cold_corner) (fun _ _ => Some 1%R).
Lemma cold_kept i j : i < 2 -> j < 2 -> kept cold_corner i j.
Proof.
  intros Hi Hj. split; [discriminate|]. split; [|intros; exact I]. intros x E. cbn in E.
  destruct i as [|[|]]; [| |lia]; cbn in E; [destruct j as [|[|]]; [| |lia]|]; injection E as <-; cbn; lra.
Qed.
Lemma cold_run : exists r mats, thetas_run line cold_corner 2 3 0 = Ok (r, mats).
Proof.
  apply (thetas_succeed line cold_corner 2 3 0 0 100 line_total).
  - exists 0, 0, 1, 0, 0%R, 10%R, 0%Z, 100%Z. repeat split; try lia; try lra; try apply cold_kept; try lia; cbn; f_equal; lra.
  - split; [|split].
    + exists 0, 0. split; [lia|]. split; [lia|]. split; [apply cold_kept; lia|]. cbn. f_equal. lra.
    + exists 1, 0. split; [lia|]. split; [lia|]. split; [apply cold_kept; lia|]. cbn. f_equal. lra.
    + intros i j x Hi _ [_ E]. cbn in E. injection E as <-. destruct i as [|[|]]; cbn; try lra. lia.
  - lra.
  - intros j k x y _ Hk. lia.
Qed.
Lemma cold_no_row : no_such_row cold_corner 2 3.
Proof.
  exists 0, 2. split; [lia|]. split; [lia|]. left. split; [intros [H _]; now apply H|]. split; [discriminate|]. exists (-5)%R. split; [reflexivity|]. cbn. lra.
Qed.
(* with the sample in column 1 instead, row 1 is hidden although all of its samples are kept *)
Definition cold_side : series :=
  mkSeries (fun i _ => Some (34 + INR i)%R) (fun i j => if Nat.eqb i 0 && Nat.eqb j 1 then Some (-5)%R else Some (10 * INR i)%R)
    (fun i _ => Some (100 * INR i)%R) (fun i _ => Some 0%R) None (Some (-1)%R) None None.
Lemma cold_hidden : (forall j, kept cold_side 1 j /\ ~ shown cold_side 2 3 1 j) /\ ~ no_such_row cold_side 2 3.
Proof.
  split.
  - intros j. split.
    + split; [discriminate|]. split; [|intros; exact I]. intros x E. cbn in E. injection E as <-. cbn. lra.
    + intros (_ & Hh & _). apply Hh. right. split; [intros [H _]; now apply H|]. exists 0, 1. split; [lia|]. split; [lia|]. split; [|now right].
      split; [discriminate|]. exists (-5)%R. split; [reflexivity|]. cbn. lra.
  - intros (i & j & Hi & Hj & [[_ [_ (x & E & Hx)]]|(_ & _ & (x & _ & Hx))]); [|now apply Hx].
    apply Hx. cbn in E. destruct (Nat.eqb_spec i 0), (Nat.eqb_spec j 1); cbn in E; try lia; injection E as <-; cbn; pose proof (pos_INR i); lra.
Qed.

(* ---- sal_anom_plot ---- *)
(* interpolation between neighbouring points *)
Fixpoint linR (xs ys : list R) (x : R) : option R :=
  match xs, ys with
  | x0 :: (x1 :: _) as xs', y0 :: (y1 :: _) as ys' =>
      if Rle_dec x0 x then if Rle_dec x x1 then Some (y0 + (y1 - y0) * (x - x0) / (x1 - x0))%R else linR xs' ys' x else linR xs' ys' x
  | _, _ => None
  end.
Definition lin (xs ys : list XR) (x : XR) : XR :=
  match x with Fin r => oX (linR (finite_values xs) (finite_values ys) r) | _ => NaN end.
Lemma finite_fin l : finite_values (map Fin l) = l.
Proof. induction l as [|x l IH]; cbn; [reflexivity|]. f_equal. exact IH. Qed.
Lemma shift_linear y0 y1 c x0 x1 x : (y0 + c + (y1 + c - (y0 + c)) * (x - x0) / (x1 - x0) = y0 + (y1 - y0) * (x - x0) / (x1 - x0) + c)%R.
Proof. unfold Rdiv. ring. Qed.
Lemma linR_shift c xs : forall ys x, linR xs (map (fun y => (y + c)%R) ys) x = shift c (linR xs ys x).
Proof.
  induction xs as [|x0 xs IH]; intros ys x; [destruct ys; reflexivity|]. destruct xs as [|x1 xs]; [destruct ys as [|y0 [|y1 ys]]; reflexivity|].
  destruct ys as [|y0 [|y1 ys]]; [reflexivity..|]. specialize (IH (y1 :: ys) x). cbn [map] in IH |- *. cbn [linR]. cbn [linR] in IH.
  destruct (Rle_dec x0 x); [|exact IH]. destruct (Rle_dec x x1); [|exact IH]. cbn [shift option_map]. f_equal. apply shift_linear.
Qed.
Lemma lin_interpolates : interpolates lin.
Proof.
  intros xs ys x. exists (linR xs ys x). unfold lin. rewrite !finite_fin. split; [reflexivity|]. intros c. now rewrite !finite_fin, linR_shift.
Qed.
Definition in_order (l : list XR) : list nat := seq 0 (length l).
Definition drift_plots : plot_paths := mkPlotPaths (T := XR) "plots" "pdf" [(Fin 0, Fin 5)].
(* three profiles, the last one fresher by 0.05 *)
Definition drift_temps : list (option R) := [Some 2; Some 4; Some 6]%R.
Definition drift_sals : list (option R) := [Some 34; Some 35; Some 36]%R.
Definition drift_offsets : list R := [0; 0; -5 / 100]%R.
Lemma drift_completes show nos name title : length nos = 3 ->
  completes (sal_anom_plot lin in_order show (map (map oX) (map (fun c => map (shift c) drift_sals) drift_offsets)) (map (map oX) (map (fun _ => drift_temps) drift_offsets)) nos drift_plots name title).
Proof.
  intros Hl. apply (sal_anom_outcome lin in_order show lin_interpolates). split.
  - exists drift_temps. split; [now left|]. exists 2%R. now left.
  - right. split; [rewrite Hl; reflexivity|]. split; [cbn; lia|]. repeat constructor.
Qed.
Lemma drift_ascending : Sorted.StronglySorted Rlt [2; 4; 6]%R.
Proof. repeat constructor; lra. Qed.
Lemma drift_known : lin (map Fin [2; 4; 6]%R) (map Fin [34; 35; 36]%R) (Fin 3) <> NaN.
Proof. unfold lin. rewrite !finite_fin. cbn [linR]. destruct (Rle_dec 2 3); [|lra]. destruct (Rle_dec 3 4); [discriminate|lra]. Qed.
Lemma drift_majority : length drift_offsets < 2 * equal_to 0 drift_offsets.
Proof.
  unfold equal_to, tally, drift_offsets. cbn [filter length]. destruct (Req_EM_T 0 0) as [_|N]; [|contradiction]. destruct (Req_EM_T (-5 / 100) 0) as [E|_]; [lra|]. cbn. lia.
Qed.

(* ---- the salinities of a float that is hidden altogether ---- *)
Definition cold_side_data : variance_data := mkVarianceData cold_side (d_sal cold_side) (fun _ _ => Some 1%R) (d_sal cold_side) (fun _ _ => Some 1%R).
Definition cold_left : series := mkSeries (d_sal cold_side) (d_ptmp cold_side) (d_pres cold_side) (fun i _ => if Nat.ltb i 2 then None else Some 0%R) None None None None.
Lemma cold_side_out i j : theta_out cold_side i j -> i = 0 /\ j = 1.
Proof.
  intros [_ (x & E & Hx)]. cbn in E. destruct (Nat.eqb_spec i 0), (Nat.eqb_spec j 1); cbn in E; auto; exfalso; apply Hx; injection E as <-; cbn; pose proof (pos_INR i); lra.
Qed.
Lemma cold_side_is_out : theta_out cold_side 0 1.
Proof. split; [discriminate|]. exists (-5)%R. split; [reflexivity|]. cbn. lra. Qed.
Lemma cold_visible : visible cold_side 2 3 cold_left.
Proof.
  repeat (split; [reflexivity|]). intros i j. cbn [d_la cold_left]. destruct (Nat.ltb_spec i 2) as [Hi|Hi].
  - split; [contradiction|]. intros (_ & Hh & _). exfalso. apply Hh. right. split; [intros [H _]; now apply H|].
    exists 0, 1. split; [lia|]. split; [lia|]. split; [exact cold_side_is_out|lia].
  - split; [|discriminate]. intros _.
    assert (Hh : ~ hidden_theta cold_side 2 3 i j).
    { intros [[[H _] _]|(_ & i' & j' & _ & _ & Ho & Hij)]; [now apply H|]. apply cold_side_out in Ho as [-> ->]. lia. }
    split; [discriminate|]. split; [exact Hh|]. intros (i' & j' & _ & _ & (_ & _ & (x & _ & Hx)) & _). now apply Hx.
Qed.
Lemma cold_side_run : exists r mats, thetas_run line cold_side 2 3 0 = Ok (r, mats).
Proof.
  assert (K : forall i, i < 2 -> kept cold_side i 0).
  { intros i Hi. split; [discriminate|]. split; [|intros; exact I]. intros x E. cbn in E. destruct i as [|[|]]; [| |lia]; cbn in E; injection E as <-; cbn; lra. }
  apply (thetas_succeed line cold_side 2 3 0 0 100 line_total).
  - exists 0, 0, 1, 0, 0%R, 10%R, 0%Z, 100%Z. repeat split; try lia; try lra; try apply K; try lia; cbn; f_equal; lra.
  - split; [|split].
    + exists 0, 0. split; [lia|]. split; [lia|]. split; [apply K; lia|]. cbn. f_equal. lra.
    + exists 1, 0. split; [lia|]. split; [lia|]. split; [apply K; lia|]. cbn. f_equal. lra.
    + intros i j x Hi _ [_ E]. cbn in E. injection E as <-. destruct i as [|[|]]; cbn; try lra. lia.
  - lra.
  - intros j k x y _ Hk. lia.
Qed.
Lemma cold_errors : errors_known cold_side_data.
Proof. split; discriminate. Qed.
Lemma cold_side_fails nos p name : length nos = 3 ->
  fails (sal_var_run line cold_side_data 2 2 3 0 nos p name) ValueError /\
  saved_names (sal_var_run line cold_side_data 2 2 3 0 nos p name) = [plot_file p name "_salinity_variance_1"].
Proof.
  intros Hl. destruct cold_side_run as (r & mats & H).
  destruct (sal_var_outcome line cold_side_data 2 2 3 0 nos p name cold_left r mats line_linear2 cold_visible cold_errors H (proj2 cold_hidden))
    as [(_ & _ & l & j & s & Hl2 & Hj & Hval)|(Hf & Hs & _)].
  - intros j k x y _ Hk. lia.
  - assumption.
  - lia.
  - exfalso.
    assert (Hno : forall th, ~ straddles cold_left 2 th j).
    { intros th (a & b & x & y & Ha & _ & [[Hk _] _] & _). apply Hk. cbn [d_la cold_left]. apply Nat.ltb_lt in Ha. rewrite Ha. reflexivity. }
    inversion Hval; subst; eapply Hno; eassumption.
  - split; assumption.
Qed.

(* ---- trajectory_plot ---- *)
(* a float crossing 180 degrees east *)
Definition crossing : list (R * R * R) := [(1, 179, 10); (2, -179, 10)]%R.
Definition near_crossing : list (R * R) := [(179, 9); (179, 11)]%R.
Lemma crossing_limits : least (map fst near_crossing) 179 /\ greatest (map fst near_crossing) 179 /\ least (map snd near_crossing) 9 /\ greatest (map snd near_crossing) 11.
Proof. repeat split; cbn; auto; intros x [<-|[<-|[]]]; lra. Qed.

(* ---- cal_sal_curve_plot ---- *)
Definition two_nos : list R := [1; 2]%R.
Lemma two_nos_range : least two_nos 1 /\ greatest two_nos 2.
Proof. repeat split; cbn; auto; intros x [<-|[<-|[]]]; lra. Qed.

(* ---- paths ---- *)
Definition default_paths : cal_paths := mkCalPaths "source" ".mat" "mapped" "map_" ".mat" "calib" "cal_" ".mat" "calseries_".
Definition other_paths : cal_paths := mkCalPaths "source" ".mat" "mapped" "map_" ".mat" "calib" "cal_" "_c.mat" "calseries_".

(* ---- further cases ---- *)
Lemma legend_descending p name title :
  let run := theta_sal_plot (one_curve 3) (one_curve 3) [] [] [] [] (map (fun z => Fin (IZR z)) ([3; 2]%Z ++ [1%Z])) p name title in
  completes run /\ legend_numbers (drawn run) = [Fin 3].
Proof.
  cbv zeta. assert (H := curves_complete 3 [3; 2]%Z 1%Z p name title ltac:(lia) eq_refl). split; [exact H|].
  destruct (legend_drawn (one_curve 3) (one_curve 3) [] [] [] [] [3; 2]%Z 1%Z p name title ltac:(discriminate) H) as [E _]. exact E.
Qed.
Lemma legend_zero p name title :
  let run := theta_sal_plot (one_curve 1) (one_curve 1) [] [] [] [] (map (fun z => Fin (IZR z)) ([] ++ [0%Z])) p name title in
  completes run /\ legend_numbers (drawn run) = [].
Proof.
  cbv zeta. assert (H := curves_complete 1 [] 0%Z p name title ltac:(lia) eq_refl). split; [exact H|].
  destruct (legend_drawn (one_curve 1) (one_curve 1) [] [] [] [] [] 0%Z p name title ltac:(discriminate) H) as [E _]. exact E.
Qed.
Definition barred : prog (item ZN) :=
  theta_sal_plot (T := ZN) [[Some 34; Some 35]; [Some 34; Some 36]]%Z [[Some 4; Some 2]; [Some 5; Some 3]]%Z
    [[Some 33; Some 34]; [Some 35; None]]%Z [[Some 4; Some 2]; [Some 5; None]]%Z [[Some 1; Some 2]; [Some 1; None]]%Z
    [[Some 1; Some 0]; [None; Some 0]] [Some 1; Some 2]%Z plots_here "3901960" "uncalibrated".
Lemma barred_completes : completes barred /\ length (filter is_bar (drawn barred)) = 3.
Proof. vm_compute. auto. Qed.
Lemma crossing_outside p name :
  exists f a b, In f crossing /\ In (Limits true (Fin a) (Fin b)) (drawn (trajectory_plot (map rowX crossing) (map placeX near_crossing) p name))
    /\ ~ (a <= snd (fst f) <= b)%R.
Proof.
  destruct crossing_limits as (H0 & H1 & H2 & H3).
  destruct (traj_limits crossing near_crossing p name 179 179 9 11 H0 H1 H2 H3) as (_ & _ & Hx & _).
  exists (2, -179, 10)%R, (179 - 20)%R, (179 + 20)%R. split; [right; now left|]. split; [exact Hx|]. cbn. lra.
Qed.
Lemma dateline : exists x x' y y', (0 <= x <= 360 /\ 0 <= x' <= 360 /\ Rabs (x - x') = 2)%R /\ east_west (Fin x) = Fin y /\ east_west (Fin x') = Fin y' /\ Rabs (y - y') = 358%R.
Proof.
  exists 179%R, 181%R, 179%R, (-179)%R. split; [repeat split; try lra; rewrite Rabs_left; lra|].
  unfold east_west. change (nltb (nofZ 180) (Fin 179)) with (Rltb 180 179). change (nltb (nofZ 180) (Fin 181)) with (Rltb 180 181).
  destruct (Rltb 180 179) eqn:E; [apply Rltb_true in E; lra|]. destruct (Rltb 180 181) eqn:E'; [|apply Rltb_false in E'; lra].
  split; [reflexivity|]. split.
  - change (Fin 181 - nofZ 360)%num with (Fin (181 - 360)). f_equal. lra.
  - rewrite Rabs_right; lra.
Qed.
Lemma short_legend : exists (sal theta map_sal map_theta map_errors : list (list XR)) index profiles,
  forall p name title, let plot := theta_sal_plot sal theta map_sal map_theta map_errors index profiles p name title in
  completes plot /\ length sal = 3 /\ length profiles = 3 /\ legend_numbers (drawn plot) = [Fin 3].
Proof.
  exists (one_curve 3), (one_curve 3), [], [], [], [], (map (fun z => Fin (IZR z)) ([3; 2]%Z ++ [1%Z])). intros p name title.
  destruct (legend_descending p name title) as [H E]. split; [exact H|]. split; [reflexivity|]. split; [reflexivity|exact E].
Qed.
Lemma empty_legend : exists (sal theta map_sal map_theta map_errors : list (list XR)) index profiles,
  forall p name title, let plot := theta_sal_plot sal theta map_sal map_theta map_errors index profiles p name title in
  completes plot /\ length sal = 1 /\ length profiles = 1 /\ legend_numbers (drawn plot) = [].
Proof.
  exists (one_curve 1), (one_curve 1), [], [], [], [], (map (fun z => Fin (IZR z)) ([] ++ [0%Z])). intros p name title.
  destruct (legend_zero p name title) as [H E]. split; [exact H|]. split; [reflexivity|]. split; [reflexivity|exact E].
Qed.
Lemma kept_not_shown : exists d nr nc i j, i < nr /\ j < nc /\ kept d i j /\ ~ shown d nr nc i j.
Proof. exists cold_side, 2, 3, 1, 0. split; [lia|]. split; [lia|]. exact (proj1 cold_hidden 0). Qed.
Lemma kept_not_plotted : forall nos p name, length nos = 3 -> exists w,
  (exists th mats, thetas_run line (w_float w) 2 3 0 = Ok (th, mats)) /\ (forall j, kept (w_float w) 1 j) /\
  fails (sal_var_run line w 2 2 3 0 nos p name) ValueError.
Proof.
  intros nos p name Hl. exists cold_side_data. split; [exact cold_side_run|]. split; [exact (fun j => proj1 (proj1 cold_hidden j))|].
  exact (proj1 (cold_side_fails nos p name Hl)).
Qed.
Lemma leaves_plot : forall p name, exists floats clim f a b,
  In f floats /\ In (Limits true (Fin a) (Fin b)) (drawn (trajectory_plot (map rowX floats) (map placeX clim) p name)) /\ ~ (a <= snd (fst f) <= b)%R.
Proof. intros p name. exists crossing, near_crossing. exact (crossing_outside p name). Qed.
Definition two_sal : list (list (option R)) := [[Some 34; None]; [Some 34; Some 35]]%R.
Definition two_cal : list (list (option R)) := [[Some (341 / 10); None]; [Some (342 / 10); None]]%R.
Lemma two_curve : least two_nos 1 /\ greatest two_nos 2 /\ (exists c x, In c two_cal /\ In (Some x) c) /\
  length (map (fun q => average (differences (fst q) (snd q))) (combine two_cal two_sal)) = length two_nos /\
  average (differences (nth 0 two_cal []) (nth 0 two_sal [])) = Some (1 / 10)%R.
Proof.
  destruct two_nos_range as [H0 H1]. split; [exact H0|]. split; [exact H1|]. split; [|split].
  - exists [Some (341 / 10); None]%R, (341 / 10)%R. split; now left.
  - reflexivity.
  - unfold average, differences. cbn. unfold mean_of. cbn. f_equal. lra.
Qed.
