(* Calibration files over the extended reals *)
From Coq Require Import String Ascii.
From Coq Require Import ZArith List Bool Lia Reals Lra Sorted.
From Verif Require Import Num Np NumFacts NpFacts Utilities Finders Stats FitCond Topo Helper MapProfile Mapping Config Calib Spec_FitCond Proofs_Utilities Proofs_FC1 Proofs_FC3
  Spec_Calib Proofs_Calib Proofs_Calib2 Proofs_Calib3.
Import ListNotations.

Lemma nat_sorted_unique (a b : list nat) : StronglySorted lt a -> StronglySorted lt b -> (forall x, In x a <-> In x b) -> a = b.
Proof.
  revert b. induction a as [|x a IH]; intros b Sa Sb E.
  - destruct b as [|y b]; [reflexivity|]. exfalso. apply (E y). left. reflexivity.
  - destruct b as [|y b]; [exfalso; apply (E x); left; reflexivity|].
    inversion Sa as [|? ? Sa' Hx]; subst. inversion Sb as [|? ? Sb' Hy]; subst. rewrite Forall_forall in Hx, Hy.
    assert (x = y) as ->.
    { destruct (proj1 (E x) (or_introl eq_refl)) as [|I]; [congruence|]. destruct (proj2 (E y) (or_introl eq_refl)) as [|I']; [congruence|].
      apply Hy in I. apply Hx in I'. lia. }
    f_equal. apply IH; auto. intros z. split; intros Hz.
    + destruct (proj1 (E z) (or_intror Hz)) as [<-|]; [|assumption]. apply Hx in Hz. lia.
    + destruct (proj2 (E z) (or_intror Hz)) as [<-|]; [|assumption]. apply Hy in Hz. lia.
Qed.

Local Open Scope R_scope.

Lemma flagged_fin flags v j : flagged (map Fin flags) (Fin v) j <-> nth_error flags j = Some v.
Proof.
  unfold flagged, entry1. rewrite map_length. split.
  - intros (Hj & E). destruct (nth_error flags j) as [u|] eqn:EN; [|apply nth_error_None in EN; lia].
    rewrite (nth_indep _ nnan (Fin 0)) in E by (rewrite map_length; exact Hj). rewrite map_nth in E.
    rewrite (nth_error_nth _ _ 0 EN) in E. apply Reqb_true in E. now subst.
  - intros E. assert (Hj : (j < length flags)%nat) by (apply nth_error_Some; congruence). split; [exact Hj|].
    rewrite (nth_indep _ nnan (Fin 0)) by (rewrite map_length; exact Hj). rewrite map_nth.
    rewrite (nth_error_nth _ _ 0 E). apply Reqb_true. reflexivity.
Qed.

Lemma filter_sorted {A} (R : A -> A -> Prop) p l : StronglySorted R l -> StronglySorted R (filter p l).
Proof.
  induction 1 as [|x l S IH F]; [constructor|]. cbn [filter]. destruct (p x); [|exact IH]. constructor; [exact IH|].
  rewrite Forall_forall in *. intros y Hy. apply filter_In in Hy as (Hy & _). apply F, Hy.
Qed.
Lemma filter_map_fin (us : list R) : filter (fun v => negb (neqb v (nofZ 0))) (map Fin us) = map Fin (filter (fun v => negb (Reqb v 0)) us).
Proof.
  induction us as [|u us IH]; [reflexivity|]. cbn [map filter]. change (neqb (Fin u) (nofZ 0)) with (Reqb u 0). rewrite IH. destruct (negb (Reqb u 0)); reflexivity.
Qed.
Lemma flags_fin flags : exists us, StronglySorted Rlt us /\ (forall v, In v us <-> In v flags /\ v <> 0) /\ series_flags (map Fin flags) = map Fin us.
Proof.
  destruct (distinct_exists flags) as (ws & D). exists (filter (fun v => negb (Reqb v 0)) ws). split; [apply filter_sorted, D|]. split.
  - intros v. rewrite filter_In. destruct D as (_ & D). rewrite D, negb_true_iff, Reqb_false. tauto.
  - unfold series_flags. rewrite (np_unique_eq _ _ D). apply filter_map_fin.
Qed.
Lemma flags_in flags v : In v (series_flags (map Fin flags)) <-> exists u, v = Fin u /\ In u flags /\ u <> 0.
Proof.
  destruct (flags_fin flags) as (us & _ & D & ->). rewrite in_map_iff. split.
  - intros (u & <- & Hu). exists u. split; [reflexivity|]. apply D, Hu.
  - intros (u & -> & Hu). exists u. split; [reflexivity|]. apply D, Hu.
Qed.
Lemma sorted_NoDup (us : list R) : StronglySorted Rlt us -> NoDup us.
Proof. induction 1 as [|x l S IH F]; constructor; [|exact IH]. intros I. rewrite Forall_forall in F. apply F in I. lra. Qed.
Lemma flags_NoDup flags : NoDup (series_flags (map Fin flags)).
Proof.
  destruct (flags_fin flags) as (us & S & _ & ->). apply FinFun.Injective_map_NoDup; [intros a b E; injection E; auto|apply sorted_NoDup, S].
Qed.
Lemma in_series_spec flags j : in_series flags j <-> exists v, In v (series_flags (map Fin flags)) /\ flagged (map Fin flags) v j.
Proof.
  split.
  - intros (v & E & NZ). exists (Fin v). split; [|apply flagged_fin, E]. apply flags_in. exists v. split; [reflexivity|]. split; [|exact NZ].
    apply (nth_error_In _ _ E).
  - intros (v & Hv & F). apply flags_in in Hv as (u & -> & _ & NZ). apply flagged_fin in F. exists u. auto.
Qed.
Lemma calindex_fin flags v idx : lists_series flags v idx -> calindex_of (map Fin flags) (Fin v) = idx.
Proof.
  intros (S & E). apply nat_sorted_unique; [apply argwhere_sorted|exact S|]. intros j. rewrite calindex_spec, flagged_fin. symmetry. apply E.
Qed.
Lemma flags_apart flags v u j : In u (series_flags (map Fin flags)) -> u <> Fin v -> flagged (map Fin flags) (Fin v) j -> ~ flagged (map Fin flags) u j.
Proof.
  intros Hu NE F C. apply flags_in in Hu as (w & -> & _). apply flagged_fin in F. apply flagged_fin in C. congruence.
Qed.
Lemma right_accepted (c : calfile XR) flags : cf_calseries c = map Fin flags -> (right_rows flags (cf_max_breaks c) <-> accepted c).
Proof.
  intros HF. unfold accepted. rewrite HF. destruct (flags_fin flags) as (us & S & D & ->). rewrite map_length. split.
  - intros (ws & S' & D' & H). replace us with ws; [exact H|]. apply strict_unique; auto. intros x. now rewrite D, D'.
  - intros H. exists us. auto.
Qed.

Section Calib.
  Notation mat := (nat -> nat -> XR).
  Variable det : nat -> mat -> XR.
  Variable solve : nat -> nat -> mat -> mat -> res mat.
  Variable inv : nat -> mat -> res mat.
  Variable least_squares : (list XR -> res (list XR)) -> list XR -> res (list (list XR) * list XR).
  Variable rng : Type.
  Variable randn : nat -> rng -> list XR * rng.
  Variable interp1d : list XR -> list XR -> XR -> res XR.
  Variable interp2d : list XR -> list XR -> list (list Z) -> XR -> XR -> res XR.
  Variable tbase : binfile.
  Variable c_from_sp : XR -> XR -> XR -> XR.
  Variable sp_from_c : XR -> XR -> XR -> XR.
  Notation whole := (piecewisefit det solve inv least_squares rng randn interp1d interp2d tbase c_from_sp sp_from_c).
  Notation good := (calibrated c_from_sp sp_from_c).
  Notation fit_cond := (fit_cond det solve inv least_squares rng randn).
  Notation fit_of := (fit_of det solve inv least_squares rng randn interp1d c_from_sp).

  Theorem profiles_fin cfg src pos d c flags g r g' : rectangular src -> cf_breaks c = [] -> cf_calseries c = map Fin flags ->
    whole cfg src pos d (Ok c) g = (Ok r, g') ->
    shaped src r /\ forall j, (j < length (src_no src))%nat ->
      (accepted c -> in_series flags j -> good src r j) /\ (~ in_series flags j -> missing r j).
  Proof.
    intros R HB HF E. apply profiles in E as (S & P); [|exact R|exact HB]. split; [exact S|]. intros j Hj. destruct (P j Hj) as (P1 & P2).
    rewrite HF in P1, P2. split.
    - intros A I. apply P1; [exact A|]. apply in_series_spec, I.
    - intros N. apply P2. intros v Hv F. apply N, in_series_spec. eauto.
  Qed.

  (* a factor of one changes nothing *)
  Theorem unit_factor src r j l : good src r j -> (l < src_levels src)%nat -> entry1 (k_factor r) j = Fin 1 ->
    (exists c, c_from_sp (entry2 (src_sal src) j l) (entry2 (src_ptmp src) j l) (Fin 0) = Fin c) ->
    sp_from_c (c_from_sp (entry2 (src_sal src) j l) (entry2 (src_ptmp src) j l) (Fin 0)) (entry2 (src_ptmp src) j l) (Fin 0) = entry2 (src_sal src) j l ->
    entry2 (k_sal r) j l = entry2 (src_sal src) j l.
  Proof.
    intros G Hl F1 (c & EC) EI. destruct (G l Hl) as (_ & _ & E & _). cbv zeta in E. rewrite E, F1.
    change (nofZ 0) with (Fin 0) in *. rewrite EC in EI |- *. cbn [nmul XR_Num xmul]. rewrite Rmult_1_l. exact EI.
  Qed.

  (* ---- which number a factor belongs to ---- *)
  Lemma xfit_numbers ns y e lv args g f g' us : distinct_of ns us ->
    fit_cond (map Fin ns) y e lv args g = (Ok (Fitted f), g') -> f_xfit f = map Fin us.
  Proof.
    intros D E. pose proof (fit_good _ _ _ _ _ _ _ _ _ _ _ _ _ _ E) as G. apply fit_length in E as (-> & _).
    set (p := prepare (map Fin ns) y e lv).
    assert (X : exists x0 xs, x_0 p = Fin x0 /\ x_scale p = Fin xs /\ xs <> 0).
    { unfold p, prepare. cbn [x_0 x_scale]. set (idx := good_points (map Fin ns) y) in *.
      assert (HI : forall i, In i idx -> (i < length ns)%nat).
      { intros i Hi. unfold idx, good_points in Hi. apply argwhere_lt in Hi. rewrite combine_length, map_length in Hi. lia. }
      assert (ET : exists l, take NaN (map Fin ns) idx = map Fin l /\ l <> []).
      { exists (map (fun i => nth i ns 0) idx). split.
        - unfold take. rewrite map_map. apply map_ext_in. intros i Hi. rewrite (nth_indep _ NaN (Fin 0)) by (rewrite map_length; apply HI, Hi). apply map_nth.
        - intros C. apply map_eq_nil in C. contradiction. }
      destruct ET as (l & ET & NE). change (@nnan XR XR_Num) with NaN. rewrite ET.
      destruct (np_sort_R l) as (s & EV & Ps & Ss). rewrite EV.
      assert (NS : s <> []). { intros ->. apply Permutation.Permutation_nil in Ps. contradiction. }
      assert (EH : hd NaN (map Fin s) = Fin (hd 0 s)) by (destruct s; [congruence|reflexivity]).
      rewrite EH, (last_map Fin s NaN 0 NS).
      exists ((last s 0 + hd 0 s) / 2). change (nofZ 2) with (Fin 2). change (nofZ 1) with (Fin 1).
      cbn [nadd nsub neqb XR_Num xadd xsub xeqb]. rewrite !ndiv_fin by lra.
      destruct (Reqb (hd 0 s) (last s 0)) eqn:EQ; cbn [negb].
      - exists 1. split; [reflexivity|]. split; [reflexivity|lra].
      - apply Reqb_false in EQ. exists ((last s 0 - hd 0 s) / 2). split; [reflexivity|]. split; [reflexivity|lra]. }
    destruct X as (x0 & xs & E0 & Es & NZ). rewrite E0, Es.
    assert (EX : xfit p = map (fun v => ndiv (nsub v (x_0 p)) (x_scale p)) (np_unique (map Fin ns))) by reflexivity.
    rewrite EX, (np_unique_eq _ _ D), E0, Es, !map_map. apply map_ext. intros v. cbn [nsub XR_Num xsub]. rewrite ndiv_fin by exact NZ.
    cbn [nmul nadd XR_Num xmul xadd]. f_equal. field. exact NZ.
  Qed.

  Lemma flat_repeat (ns : list R) : flat_map (fun n => repeat n 10) (map Fin ns) = map Fin (flat_map (fun n => repeat n 10) ns).
  Proof. induction ns as [|n ns IH]; [reflexivity|]. cbn [map flat_map]. rewrite map_app, IH. reflexivity. Qed.
  Lemma flat_distinct ns us : distinct_of ns us -> distinct_of (flat_map (fun n => repeat n 10) ns) us.
  Proof.
    intros (S & D). split; [exact S|]. intros x. rewrite D. split.
    - intros I. apply in_flat_map. exists x. split; [exact I|left; reflexivity].
    - intros I. apply in_flat_map in I as (y & Hy & I). apply repeat_spec in I. now subst.
  Qed.
  Lemma take_fin (l : list R) idx : (forall i, In i idx -> (i < length l)%nat) -> take NaN (map Fin l) idx = map Fin (map (fun i => nth i l 0) idx).
  Proof.
    intros B. unfold take. rewrite map_map. apply map_ext_in. intros i Hi. rewrite (nth_indep _ NaN (Fin 0)) by (rewrite map_length; apply B, Hi). apply map_nth.
  Qed.

  Lemma fit_of_numbers cfg src coords d c per m idx f nos us : src_no src = map Fin nos -> distinct_of (map (fun i => nth i nos 0) idx) us ->
    fit_of cfg src coords d c per m idx f -> f_xfit f = map Fin us /\ length (f_condslope f) = length us /\ length (f_sta_mean f) = length us.
  Proof.
    intros HN D (sd & fi & g1 & g2 & ES & EB & EF).
    assert (EN : sd_no sd = map Fin (map (fun i => nth i nos 0) idx)).
    { unfold select_series in ES. do 12 (apply bind_ok in ES as (? & _ & ES)). apply bind_ok in ES as ((th & ms) & _ & ES).
      apply bind_ok in ES as (no & Eno & ES). injection ES as <-. cbn [sd_no]. apply index_array_ok in Eno as (-> & B). rewrite HN in *. rewrite map_length in B.
      apply take_fin, B. }
    assert (EX : fi_x fi = map Fin (flat_map (fun n => repeat n 10) (map (fun i => nth i nos 0) idx))).
    { unfold build_input in EB. cbv zeta in EB. apply bind_ok in EB as (cov & _ & EB). injection EB as <-. cbn [fi_x]. rewrite EN. apply flat_repeat. }
    rewrite EX in EF. apply flat_distinct in D. split; [exact (xfit_numbers _ _ _ _ _ _ _ _ _ D EF)|].
    apply fit_length in EF as (_ & L1 & L2). rewrite L1, L2, (np_unique_eq _ _ D), map_length. auto.
  Qed.

  Lemma saved_fin cfg src pos d c flags v idx p g r g' :
    cf_breaks c = [] -> accepted c -> cf_calseries c = map Fin flags -> v <> 0 -> lists_series flags v idx -> (p < length idx)%nat ->
    whole cfg src pos d (Ok c) g = (Ok r, g') ->
    In (Fin v) (series_flags (cf_calseries c)) /\
    exists l per m f, float_coords interp2d tbase pos = Ok l /\ cf_percent c = Some [[per]] /\
      (forall k, nth_error (series_flags (cf_calseries c)) k = Some (Fin v) -> max_of (fst (spread_max (length (series_flags (cf_calseries c))) (cf_max_breaks c))) k = Ok m) /\
      fit_of cfg src (Some l) d c per m idx f /\ (exists r0 r1, record_fit idx (Fitted f) r0 = Ok (r1, f)) /\
      rows_of r (nth p idx 0%nat) = fit_values idx f p.
  Proof.
    intros HB A HF NZ LS Hp E. pose proof (calindex_fin _ _ _ LS) as EI.
    assert (Hv : In (Fin v) (series_flags (cf_calseries c))).
    { rewrite HF. apply flags_in. exists v. split; [reflexivity|]. split; [|exact NZ]. destruct idx as [|j idx']; [cbn in Hp; lia|].
      destruct LS as (_ & LS). apply (nth_error_In flags j). apply LS. left. reflexivity. }
    split; [exact Hv|].
    pose proof (saved_fit det solve inv least_squares rng randn interp1d interp2d tbase c_from_sp sp_from_c cfg src pos d c g r g' (Fin v) p HB A E Hv) as Q.
    rewrite HF in Q. cbv zeta in Q. rewrite EI in Q. rewrite HF. apply Q; [|apply flags_NoDup|exact Hp].
    intros u j Hu NU F. exact (flags_apart flags v u j Hu NU F).
  Qed.

  Theorem numbers cfg src pos d c flags nos v idx us g r g' :
    cf_breaks c = [] -> accepted c -> cf_calseries c = map Fin flags -> src_no src = map Fin nos -> v <> 0 ->
    lists_series flags v idx -> idx <> [] -> distinct_of (map (fun i => nth i nos 0) idx) us ->
    whole cfg src pos d (Ok c) g = (Ok r, g') ->
    exists l per m f, float_coords interp2d tbase pos = Ok l /\ cf_percent c = Some [[per]] /\ fit_of cfg src (Some l) d c per m idx f /\
      f_xfit f = map Fin us /\
      (length us = length idx /\ (forall p, (p < length idx)%nat ->
         entry1 (k_factor r) (nth p idx 0%nat) = entry1 (f_condslope f) p /\ entry1 (k_sta_mean r) (nth p idx 0%nat) = entry1 (f_sta_mean f) p) \/
       length us = 1%nat /\ (forall p, (p < length idx)%nat ->
         entry1 (k_factor r) (nth p idx 0%nat) = entry1 (f_condslope f) 0 /\ entry1 (k_sta_mean r) (nth p idx 0%nat) = entry1 (f_sta_mean f) 0)).
  Proof.
    intros HB A HF HNo NZ LS NE D E.
    assert (K : (0 < length idx)%nat) by (destruct idx; [congruence|cbn; lia]).
    pose proof (saved_fin cfg src pos d c flags v idx 0 g r g' HB A HF NZ LS K E) as (Hv & _).
    assert (SF := fun p Hp => proj2 (saved_fin cfg src pos d c flags v idx p g r g' HB A HF NZ LS Hp E)).
    destruct (SF 0%nat K) as (l & per & m & f & EL & EP & EM & FO & (r0 & r1 & ER) & _).
    pose proof (fit_of_numbers _ _ _ _ _ _ _ _ _ _ _ HNo D FO) as (X & L1 & L2).
    exists l, per, m, f. split; [exact EL|]. split; [exact EP|]. split; [exact FO|]. split; [exact X|].
    (* the fit is the same for each profile, but for the random errors *)
    assert (SAME : forall p, (p < length idx)%nat ->
         entry1 (k_factor r) (nth p idx 0%nat) = nth p (put_values idx (f_condslope f)) NaN /\
         entry1 (k_sta_mean r) (nth p idx 0%nat) = nth p (put_values idx (f_sta_mean f)) NaN).
    { intros p Hp. destruct (SF p Hp) as (l' & per' & m' & f' & EL' & EP' & EM' & FO' & _ & RV).
      assert (l' = l) as -> by congruence. assert (per' = per) as -> by congruence.
      destruct (In_nth_error _ _ Hv) as (k & Hk). assert (m' = m) as -> by (specialize (EM k Hk); specialize (EM' k Hk); congruence).
      destruct FO as (sd & fi & g1 & g2 & ES & EB & EF). destruct FO' as (sd' & fi' & g1' & g2' & ES' & EB' & EF').
      assert (sd' = sd) as -> by congruence. assert (fi' = fi) as -> by congruence.
      pose proof (fit_rng _ _ _ _ _ _ _ _ _ _ _ _ _ _ _ _ _ EF' EF) as AP. injection AP as _ P2 _ _ P5 _ _ _ _.
      unfold rows_of, fit_values in RV. cbn [map] in RV. injection RV as V1 _ _ _ V5 _. rewrite V1, V5, P2, P5. auto. }
    cbn [record_fit] in ER. apply bind_ok in ER as (a1 & P1 & ER).
    assert (LL : length (put_values idx (f_condslope f)) = length idx) by (apply put_ok in P1; apply P1).
    unfold put_values in LL, SAME. rewrite L1, L2 in SAME. rewrite L1 in LL.
    destruct (Nat.eqb (length us) (length idx)) eqn:EQ.
    - left. split; [apply Nat.eqb_eq, EQ|]. exact SAME.
    - right. destruct (f_condslope f) as [|a [|b t]] eqn:ECs; [cbn in LL; lia| |cbn in LL; lia]. cbn [length] in L1. split; [congruence|].
      destruct (f_sta_mean f) as [|a' [|b' t']] eqn:EMs; cbn [length] in L2; [lia| |lia].
      intros p Hp. destruct (SAME p Hp) as (S1 & S2). rewrite S1, S2. unfold entry1. cbn [nth].
      rewrite (nth_indep _ NaN a) by (rewrite map_length; exact Hp). rewrite (nth_indep (map (fun _ => a') idx) NaN a') by (rewrite map_length; exact Hp).
      clear. split.
      + revert p. induction idx as [|i idx IH]; intros [|p]; cbn; auto.
      + revert p. induction idx as [|i idx IH]; intros [|p]; cbn; auto.
  Qed.
End Calib.
