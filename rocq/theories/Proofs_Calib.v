(* The profiles in a calibration file, for every carrier of numbers *)
From Coq Require Import String Ascii.
From Coq Require Import ZArith List Bool Lia.
From Verif Require Import Num Np NumFacts NpFacts Utilities Finders Stats FitCond Topo Helper MapProfile Mapping Config Calib Spec_Calib.
Import ListNotations.
Local Open Scope num_scope.

Section Scatter.
  Context {A : Type}.
  Lemma scatter_length idx vals (l : list A) : length (scatter idx vals l) = length l.
  Proof.
    unfold scatter. revert l. induction (combine idx vals) as [|[i v] m IH]; intros l; [reflexivity|].
    cbn [fold_left fst snd]. rewrite IH. apply set_nth_length.
  Qed.
  Lemma scatter_out idx vals (l : list A) j d : ~ In j idx -> nth j (scatter idx vals l) d = nth j l d.
  Proof.
    unfold scatter. revert vals l. induction idx as [|i idx IH]; intros vals l N; [reflexivity|].
    destruct vals as [|v vals]; [reflexivity|]. cbn [combine fold_left fst snd].
    rewrite IH by (intros C; apply N; right; exact C). apply nth_set_nth_neq. intros ->. apply N. left. reflexivity.
  Qed.
  Lemma scatter_in idx vals (l : list A) p d e : NoDup idx -> (p < length idx)%nat -> length vals = length idx ->
    (forall i, In i idx -> (i < length l)%nat) -> nth (nth p idx e) (scatter idx vals l) d = nth p vals d.
  Proof.
    unfold scatter. revert vals l p. induction idx as [|i idx IH]; intros vals l p ND Hp HL HB; [cbn in Hp; lia|].
    destruct vals as [|v vals]; [discriminate|]. cbn [combine fold_left fst snd]. inversion ND as [|? ? NI ND']; subst.
    destruct p; cbn [nth].
    - change (nth i (scatter idx vals (set_nth i v l)) d = v). rewrite scatter_out by exact NI.
      apply nth_set_nth_eq. apply HB. left. reflexivity.
    - apply IH; [exact ND'|cbn in Hp; lia|cbn in HL; lia|]. intros k Hk. rewrite set_nth_length. apply HB. right. exact Hk.
  Qed.
  Lemma scatter_map idx (f : nat -> A) l j d : NoDup idx -> (forall i, In i idx -> (i < length l)%nat) -> In j idx ->
    nth j (scatter idx (map f idx) l) d = f j.
  Proof.
    intros ND HB Hj. destruct (In_nth idx j 0%nat Hj) as (p & Hp & E).
    rewrite <- E at 1. rewrite scatter_in; auto; [|apply map_length].
    rewrite (nth_indep _ d (f 0%nat)) by (rewrite map_length; exact Hp). rewrite map_nth. now rewrite E.
  Qed.
  Lemma scatter_In idx vals (l : list A) x : In x (scatter idx vals l) -> In x l \/ In x vals.
  Proof.
    unfold scatter. revert vals l. induction idx as [|i idx IH]; intros vals l Hx; [left; exact Hx|].
    destruct vals as [|v vals]; [left; exact Hx|]. cbn [combine fold_left fst snd] in Hx.
    apply IH in Hx as [Hx|Hx]; [|right; right; exact Hx].
    clear - Hx. revert i Hx. induction l as [|y l IHl]; intros i Hx; [destruct i; destruct Hx|].
    destruct i; cbn in Hx; destruct Hx as [<-|Hx].
    - right; left; reflexivity.
    - left; right; exact Hx.
    - left; left; reflexivity.
    - destruct (IHl _ Hx) as [C|C]; [left; right; exact C|right; exact C].
  Qed.

  (* the values put into the places idx: one for each, or one for all *)
  Definition put_values (idx : list nat) (vals : list A) : list A :=
    if Nat.eqb (length vals) (length idx) then vals else match vals with [v] => map (fun _ => v) idx | _ => [] end.
  Lemma put_ok idx vals (l l' : list A) : put idx vals l = Ok l' ->
    l' = scatter idx (put_values idx vals) l /\ length (put_values idx vals) = length idx /\
    forall i, In i idx -> (i < length l)%nat.
  Proof.
    unfold put, put_values. destruct (forallb _ idx) eqn:F; cbn [negb]; [|discriminate].
    rewrite forallb_forall in F. intros E. assert (B : forall i, In i idx -> (i < length l)%nat).
    { intros i Hi. apply Nat.ltb_lt. apply F. exact Hi. }
    destruct (Nat.eqb (length vals) (length idx)) eqn:EL.
    - injection E as <-. apply Nat.eqb_eq in EL. auto.
    - destruct vals as [|v [|]]; try discriminate. injection E as <-. rewrite map_length. auto.
  Qed.
End Scatter.

Section Columns.
  Context {A B C : Type}.
  Lemma map2_length (f : A -> B -> C) l m : length (map2 f l m) = Nat.min (length l) (length m).
  Proof. unfold map2. now rewrite map_length, combine_length. Qed.
  Lemma map2_nth (f : A -> B -> C) l m k a b c : (k < length l)%nat -> (k < length m)%nat -> nth k (map2 f l m) c = f (nth k l a) (nth k m b).
  Proof.
    unfold map2. revert m k. induction l as [|x l IH]; intros m k; [cbn; lia|]. destruct m as [|y m]; [cbn; lia|].
    destruct k; cbn; [reflexivity|]. intros H1 H2. apply IH; lia.
  Qed.
End Columns.

Lemma index_array_ok {A} (d : A) l idx r : index_array d l idx = Ok r -> r = take d l idx /\ forall i, In i idx -> (i < length l)%nat.
Proof.
  unfold index_array. destruct (forallb _ idx) eqn:F; [|discriminate]. intros E. injection E as <-. split; [reflexivity|].
  rewrite forallb_forall in F. intros i Hi. apply Nat.ltb_lt, F, Hi.
Qed.

Section Calib.
  Context {T : Type} {HN : Num T} {HT : NumT T}.
  Notation mat := (nat -> nat -> T).
  Variable det : nat -> mat -> T.
  Variable solve : nat -> nat -> mat -> mat -> res mat.
  Variable inv : nat -> mat -> res mat.
  Variable least_squares : (list T -> res (list T)) -> list T -> res (list (list T) * list T).
  Variable rng : Type.
  Variable randn : nat -> rng -> list T * rng.
  Variable interp1d : list T -> list T -> T -> res T.
  Variable interp2d : list T -> list T -> list (list Z) -> T -> T -> res T.
  Variable tbase : binfile.
  Variable c_from_sp : T -> T -> T -> T.
  Variable sp_from_c : T -> T -> T -> T.
  Notation series := (calibrate_series det solve inv least_squares rng randn interp1d c_from_sp sp_from_c).
  Notation all := (calibrate_all det solve inv least_squares rng randn interp1d c_from_sp sp_from_c).
  Notation whole := (piecewisefit det solve inv least_squares rng randn interp1d interp2d tbase c_from_sp sp_from_c).
  Notation applied := (apply_fit c_from_sp sp_from_c).
  Notation good := (calibrated c_from_sp sp_from_c).
  Notation fit_cond := (fit_cond det solve inv least_squares rng randn).

  Lemma calindex_spec flags v j : In j (calindex_of flags v) <-> flagged flags v j.
  Proof. unfold calindex_of, flagged, entry1. exact (argwhere_spec nnan (fun c => c =? v) flags j). Qed.
  Lemma calindex_NoDup flags v : NoDup (calindex_of flags v).
  Proof. apply argwhere_NoDup. Qed.

  (* ---- the columns ---- *)
  Section Column.
    Variables (src : source T) (j : nat).
    Hypothesis R : rectangular src.
    Hypothesis Hj : (j < length (src_no src))%nat.
    Notation sal := (nth j (src_sal src) []).
    Notation ptmp := (nth j (src_ptmp src) []).
    Lemma sal_length : length sal = src_levels src.
    Proof. destruct (R (src_sal src)) as (L & C); [left; reflexivity|]. apply C, nth_In. lia. Qed.
    Lemma ptmp_length : length ptmp = src_levels src.
    Proof. destruct (R (src_ptmp src)) as (L & C); [right; left; reflexivity|]. apply C, nth_In. lia. Qed.
    Lemma cond_length : length (cond_column c_from_sp sal ptmp) = src_levels src.
    Proof. unfold cond_column. rewrite map2_length, sal_length, ptmp_length. lia. Qed.
    Lemma cal_cond_length f : length (cal_cond_column c_from_sp f sal ptmp) = src_levels src.
    Proof. unfold cal_cond_column. rewrite map_length. apply cond_length. Qed.
    Lemma to_sal_length c : length c = src_levels src -> length (to_sal sp_from_c c ptmp) = src_levels src.
    Proof. intros L. unfold to_sal. rewrite map2_length, L, ptmp_length. lia. Qed.
    Lemma cal_sal_length f : length (cal_sal_column c_from_sp sp_from_c f sal ptmp) = src_levels src.
    Proof. apply to_sal_length, cal_cond_length. Qed.
    Lemma plus_length f e : length (map2 nadd (cal_cond_column c_from_sp f sal ptmp) (cal_cond_column c_from_sp e sal ptmp)) = src_levels src.
    Proof. rewrite map2_length, !cal_cond_length. lia. Qed.
    Lemma sal_err_length f e : length (sal_err_column c_from_sp sp_from_c f e sal ptmp) = src_levels src.
    Proof. unfold sal_err_column. rewrite map2_length, cal_sal_length, to_sal_length; [lia|apply plus_length]. Qed.

    Variable l : nat.
    Hypothesis Hl : (l < src_levels src)%nat.
    Notation s := (entry2 (src_sal src) j l).
    Notation t := (entry2 (src_ptmp src) j l).
    Lemma cond_nth : nth l (cond_column c_from_sp sal ptmp) nnan = c_from_sp s t 0.
    Proof. unfold cond_column. rewrite (map2_nth _ _ _ _ nnan nnan); [reflexivity|rewrite sal_length; lia|rewrite ptmp_length; lia]. Qed.
    Lemma cal_cond_nth f : nth l (cal_cond_column c_from_sp f sal ptmp) nnan = f * c_from_sp s t 0.
    Proof.
      unfold cal_cond_column. rewrite (nth_indep _ nnan (f * nnan)) by (rewrite map_length, cond_length; lia).
      rewrite (map_nth (fun c => f * c)). now rewrite cond_nth.
    Qed.
    Lemma to_sal_nth c : length c = src_levels src -> nth l (to_sal sp_from_c c ptmp) nnan = sp_from_c (nth l c nnan) t 0.
    Proof. intros L. unfold to_sal. rewrite (map2_nth _ _ _ _ nnan nnan); [reflexivity|lia|rewrite ptmp_length; lia]. Qed.
    Lemma cal_sal_nth f : nth l (cal_sal_column c_from_sp sp_from_c f sal ptmp) nnan = sp_from_c (f * c_from_sp s t 0) t 0.
    Proof. unfold cal_sal_column. rewrite to_sal_nth by apply cal_cond_length. now rewrite cal_cond_nth. Qed.
    Lemma sal_err_nth f e : nth l (sal_err_column c_from_sp sp_from_c f e sal ptmp) nnan =
      nabs (sp_from_c (f * c_from_sp s t 0) t 0 - sp_from_c (f * c_from_sp s t 0 + e * c_from_sp s t 0) t 0).
    Proof.
      unfold sal_err_column. rewrite (map2_nth _ _ _ _ nnan nnan); [|rewrite cal_sal_length; lia|rewrite to_sal_length; [lia|apply plus_length]].
      rewrite cal_sal_nth, to_sal_nth by apply plus_length.
      rewrite (map2_nth _ _ _ _ nnan nnan) by (rewrite cal_cond_length; lia). now rewrite !cal_cond_nth.
    Qed.
  End Column.

  (* ---- the fit and its application ---- *)
  (* rows changed at most at the places idx *)
  Definition rows_outside (idx : list nat) (r r' : calib T) (j : nat) : Prop :=
    ~ In j idx ->
    entry1 (k_factor r') j = entry1 (k_factor r) j /\ entry1 (k_factor_err r') j = entry1 (k_factor_err r) j /\
    entry1 (k_deriv r') j = entry1 (k_deriv r) j /\ entry1 (k_deriv_err r') j = entry1 (k_deriv_err r) j /\
    entry1 (k_sta_mean r') j = entry1 (k_sta_mean r) j /\ entry1 (k_sta_rms r') j = entry1 (k_sta_rms r) j.
  Definition same_matrices (r r' : calib T) : Prop :=
    k_sal r' = k_sal r /\ k_sal_err r' = k_sal_err r /\ k_cond r' = k_cond r /\ k_cond_err r' = k_cond_err r /\
    k_sta_sal r' = k_sta_sal r /\ k_sta_sal_err r' = k_sta_sal_err r /\ k_no r' = k_no r /\ k_coef r' = k_coef r /\ k_breaks r' = k_breaks r.

  Lemma record_fit_ok idx out r r' f : record_fit idx out r = Ok (r', f) ->
    out = Fitted f /\ same_matrices r r' /\
    k_factor r' = scatter idx (put_values idx (f_condslope f)) (k_factor r) /\
    k_factor_err r' = scatter idx (put_values idx (f_condslope_err f)) (k_factor_err r) /\
    k_deriv r' = scatter idx (put_values idx (f_time_deriv f)) (k_deriv r) /\
    k_deriv_err r' = scatter idx (put_values idx (f_time_deriv_err f)) (k_deriv_err r) /\
    k_sta_mean r' = scatter idx (put_values idx (f_sta_mean f)) (k_sta_mean r) /\
    k_sta_rms r' = scatter idx (put_values idx (f_sta_rms f)) (k_sta_rms r).
  Proof.
    destruct out as [xs|f0]; cbn [record_fit].
    - intros E. apply bind_ok in E as (x & _ & E). discriminate.
    - intros E.
      apply bind_ok in E as (a1 & E1 & E). apply bind_ok in E as (a2 & E2 & E). apply bind_ok in E as (a3 & E3 & E).
      apply bind_ok in E as (a4 & E4 & E). apply bind_ok in E as (a5 & E5 & E). apply bind_ok in E as (a6 & E6 & E).
      injection E as <- <-.
      apply put_ok in E1 as (-> & _). apply put_ok in E2 as (-> & _). apply put_ok in E3 as (-> & _).
      apply put_ok in E4 as (-> & _). apply put_ok in E5 as (-> & _). apply put_ok in E6 as (-> & _).
      unfold same_matrices. cbn. tauto.
  Qed.

  Lemma record_fit_rows idx out r r' f j : record_fit idx out r = Ok (r', f) -> rows_outside idx r r' j.
  Proof.
    intros E. apply record_fit_ok in E as (_ & _ & E1 & E2 & E3 & E4 & E5 & E6). intros N. unfold entry1.
    rewrite E1, E2, E3, E4, E5, E6. rewrite !scatter_out by exact N. repeat (split; [reflexivity|]). reflexivity.
  Qed.

  Lemma fit_series_free i max_breaks idx fi r g r' f g' :
    fit_series det solve inv least_squares rng randn i [] max_breaks idx fi r g = (Ok (r', f), g') ->
    exists m, max_of max_breaks i = Ok m /\
      fit_cond (fi_x fi) (fi_y fi) (fi_err fi) (fi_cov fi) [FitCond.VStr "max_no_breaks"; VFlt m] g = (Ok (Fitted f), g') /\
      record_fit idx (Fitted f) r = Ok (r', f).
  Proof.
    unfold fit_series. destruct (max_of max_breaks i) as [m|e]; [|discriminate]. intros E. exists m. split; [reflexivity|].
    destruct (fit_cond _ _ _ _ _ _) as [out g1]. destruct out as [out|e]; [|discriminate]. cbn [bind] in E.
    destruct (record_fit idx out r) as [[r1 f1]|e] eqn:ER; [|discriminate]. injection E as -> -> ->.
    pose proof (record_fit_ok _ _ _ _ _ ER) as (-> & _). auto.
  Qed.

  (* a series: either no profile has the flag, or a fit is applied *)
  Lemma series_ok cfg src coords d c percent max_breaks i v r g r' g' : cf_breaks c = [] ->
    series cfg src coords d c percent max_breaks i v r g = (Ok r', g') ->
    let idx := calindex_of (cf_calseries c) v in
    (forall j, In j idx -> (j < length (src_sal src))%nat) /\
    ((idx = [] /\ r' = r) \/
     exists sd fi m f r1, select_series interp1d src coords d c percent idx = Ok sd /\ build_input c_from_sp cfg sd = Ok fi /\
       max_of max_breaks i = Ok m /\
       fit_cond (fi_x fi) (fi_y fi) (fi_err fi) (fi_cov fi) [FitCond.VStr "max_no_breaks"; VFlt m] g = (Ok (Fitted f), g') /\
       record_fit idx (Fitted f) r = Ok (r1, f) /\ r' = applied src idx (f_coef f) (FitCond.f_breaks f) r1).
  Proof.
    intros HB. unfold calibrate_series. rewrite HB. cbv zeta. set (idx := calindex_of _ _).
    destruct (select_series interp1d src coords d c percent idx) as [sd|e] eqn:ES; [|discriminate]. cbn [bind].
    assert (B : forall j, In j idx -> (j < length (src_sal src))%nat).
    { unfold select_series in ES. apply bind_ok in ES as (x1 & _ & ES). apply bind_ok in ES as (x2 & _ & ES). apply bind_ok in ES as (x3 & E3 & _).
      apply index_array_ok in E3 as (_ & B). exact B. }
    intros E. split; [exact B|]. destruct idx as [|k idx'] eqn:EI.
    - left. injection E as <- _. auto.
    - right. rewrite <- EI in *. destruct (build_input c_from_sp cfg sd) as [fi|e] eqn:EB; [|discriminate]. cbn [bind] in E.
      destruct (fit_series _ _ _ _ _ _ _ _ _ _ _ _ _) as [rf g1] eqn:EF. destruct rf as [[r1 f]|e]; [|discriminate]. cbn [bind] in E.
      injection E as <- <-. apply fit_series_free in EF as (m & EM & EC & ER). exists sd, fi, m, f, r1. auto 8.
  Qed.

  Lemma scatter_cols (idx : list nat) (F : nat -> list T) (l : list (list T)) (n k : nat) : length l = n ->
    (forall c, In c l -> length c = k) -> (forall j, In j idx -> length (F j) = k) ->
    length (scatter idx (map F idx) l) = n /\ forall c, In c (scatter idx (map F idx) l) -> length c = k.
  Proof.
    intros L C HF. split; [rewrite scatter_length; exact L|]. intros c Hc. apply scatter_In in Hc as [Hc|Hc]; [apply C, Hc|].
    apply in_map_iff in Hc as (j & <- & Hj). apply HF, Hj.
  Qed.

  (* the state after the series vs *)
  Definition state_after (src : source T) (flags : list T) (vs : list T) (r : calib T) : Prop :=
    shaped src r /\ forall j, (j < length (src_no src))%nat ->
      ((exists v, In v vs /\ flagged flags v j) -> good src r j) /\
      ((forall v, In v vs -> ~ flagged flags v j) -> missing r j).

  Lemma rows_length idx r r1 f src : shaped src r -> record_fit idx (Fitted f) r = Ok (r1, f) ->
    forall m, In m [k_factor r1; k_factor_err r1; k_deriv r1; k_deriv_err r1; k_sta_mean r1; k_sta_rms r1] -> length m = length (src_no src).
  Proof.
    intros (S & _) E m Hm. apply record_fit_ok in E as (_ & _ & E1 & E2 & E3 & E4 & E5 & E6).
    rewrite E1, E2, E3, E4, E5, E6 in Hm. cbn [In] in Hm.
    destruct Hm as [<-|[<-|[<-|[<-|[<-|[<-|[]]]]]]]; rewrite scatter_length; apply S; cbn; tauto.
  Qed.

  Lemma series_state cfg src coords d c percent max_breaks i v r g r' g' vs : cf_breaks c = [] -> rectangular src ->
    state_after src (cf_calseries c) vs r ->
    series cfg src coords d c percent max_breaks i v r g = (Ok r', g') -> state_after src (cf_calseries c) (vs ++ [v]) r'.
  Proof.
    intros HB R (S & P) E. apply series_ok in E as (B & E); [|exact HB]. cbv zeta in B, E.
    set (idx := calindex_of (cf_calseries c) v) in *.
    assert (LS : length (src_sal src) = length (src_no src)) by (apply (R (src_sal src)); left; reflexivity). rewrite LS in B.
    destruct E as [(EI & ->)|(sd & fi & m & f & r1 & ES & EB & EM & EC & ER & ->)].
    - split; [exact S|]. intros j Hj. destruct (P j Hj) as (P1 & P2). split.
      + intros (w & Hw & F). apply in_app_iff in Hw as [Hw|[<-|[]]]; [apply P1; eauto|].
        apply calindex_spec in F. fold idx in F. rewrite EI in F. destruct F.
      + intros N. apply P2. intros w Hw. apply N. apply in_app_iff. left. exact Hw.
    - pose proof (rows_length _ _ _ _ _ S ER) as HR. pose proof (record_fit_ok _ _ _ _ _ ER) as (_ & (M1 & M2 & M3 & M4 & M5 & M6 & M7 & M8 & M9) & _).
      destruct S as (S1 & S2 & S3).
      pose proof (calindex_NoDup (cf_calseries c) v) as ND. fold idx in ND.
      split.
      + split; [|split].
        * exact HR.
        * intros w Hw. cbn [In applied k_sal k_sal_err k_cond k_cond_err k_sta_sal k_sta_sal_err] in Hw.
          rewrite M1, M2, M3, M4, M5, M6 in Hw.
          assert (HS : forall F : nat -> list T, forall l, In l [k_sal r; k_sal_err r; k_cond r; k_cond_err r; k_sta_sal r; k_sta_sal_err r] ->
                  (forall j, (j < length (src_no src))%nat -> length (F j) = src_levels src) ->
                  length (scatter idx (map F idx) l) = length (src_no src) /\ forall cc, In cc (scatter idx (map F idx) l) -> length cc = src_levels src).
          { intros F l Hl HF. destruct (S2 l Hl) as (L & C). apply scatter_cols; [exact L|exact C|]. intros j Hj. apply HF, B, Hj. }
          destruct Hw as [<-|[<-|[<-|[<-|[<-|[<-|[]]]]]]]; apply HS; try (cbn; tauto); intros j Hj.
          -- apply cal_sal_length; assumption.
          -- apply sal_err_length; assumption.
          -- apply cal_cond_length; assumption.
          -- apply cal_cond_length; assumption.
          -- apply cal_sal_length; assumption.
          -- apply sal_err_length; assumption.
        * cbn [applied k_no]. rewrite M7. exact S3.
      + intros j Hj. destruct (P j Hj) as (P1 & P2). destruct (in_dec Nat.eq_dec j idx) as [I|NI].
        * split; [|intros N; exfalso; apply (N v); [apply in_app_iff; right; left; reflexivity|apply calindex_spec; exact I]].
          intros _ l Hl. cbv zeta. cbn [applied k_sal k_sal_err k_cond k_cond_err k_sta_sal k_sta_sal_err k_factor k_factor_err k_sta_mean k_sta_rms].
          rewrite M1, M2, M3, M4, M5, M6.
          assert (HB2 : forall l, In l [k_sal r; k_sal_err r; k_cond r; k_cond_err r; k_sta_sal r; k_sta_sal_err r] ->
                  forall i, In i idx -> (i < length l)%nat).
          { intros l0 Hl0 i0 Hi0. destruct (S2 l0 Hl0) as (L & _). rewrite L. apply B, Hi0. }
          unfold entry2. repeat rewrite (scatter_map idx) by (try exact ND; try exact I; apply HB2; cbn; tauto).
          split; [|split; [|split; [|split; [|split]]]].
          -- apply cal_cond_nth; assumption.
          -- apply cal_cond_nth; assumption.
          -- apply cal_sal_nth; assumption.
          -- apply sal_err_nth; assumption.
          -- apply cal_sal_nth; assumption.
          -- apply sal_err_nth; assumption.
        * destruct (record_fit_rows _ _ _ _ _ j ER NI) as (Q1 & Q2 & Q3 & Q4 & Q5 & Q6). split.
          -- intros (w & Hw & F). apply in_app_iff in Hw as [Hw|[<-|[]]]; [|exfalso; apply NI, calindex_spec, F].
             specialize (P1 (ex_intro _ w (conj Hw F))). intros l Hl. specialize (P1 l Hl). cbv zeta in *.
             cbn [applied k_sal k_sal_err k_cond k_cond_err k_sta_sal k_sta_sal_err k_factor k_factor_err k_sta_mean k_sta_rms].
             rewrite Q1, Q2, Q5, Q6, M1, M2, M3, M4, M5, M6. unfold entry2 in *. rewrite !scatter_out by exact NI. exact P1.
          -- intros N. destruct P2 as (Z1 & Z2 & Z3 & Z4 & Z5 & Z6 & Z7).
             { intros w Hw. apply N. apply in_app_iff. left. exact Hw. }
             unfold missing. cbn [applied k_sal k_sal_err k_cond k_cond_err k_sta_sal k_sta_sal_err k_factor k_factor_err k_deriv k_deriv_err k_sta_mean k_sta_rms].
             rewrite Q1, Q2, Q3, Q4, Q5, Q6, M1, M2, M3, M4, M5, M6. unfold entry2 in *.
             repeat (split; [assumption|]). intros l. rewrite !scatter_out by exact NI. apply Z7.
  Qed.

  Lemma all_state cfg src coords d c percent max_breaks : cf_breaks c = [] -> rectangular src ->
    forall us i vs r g r' g', state_after src (cf_calseries c) vs r ->
    all cfg src coords d c percent max_breaks i us r g = (Ok r', g') -> state_after src (cf_calseries c) (vs ++ us) r'.
  Proof.
    intros HB R. induction us as [|v us IH]; intros i vs r g r' g' S E; cbn [calibrate_all] in E.
    - injection E as <- _. rewrite app_nil_r. exact S.
    - destruct (series cfg src coords d c percent max_breaks i v r g) as [[r1|e] g1] eqn:E1; [|discriminate].
      replace (vs ++ v :: us)%list with ((vs ++ [v]) ++ us)%list by (rewrite <- app_assoc; reflexivity).
      eapply IH; [|exact E]. eapply series_state; eauto.
  Qed.

  Lemma nth_blank (n k j l : nat) : nth l (nth j (repeat (repeat nnan k) n) []) nnan = (nnan : T).
  Proof.
    destruct (Nat.lt_ge_cases j n) as [Hj|Hj].
    - rewrite (nth_indep _ [] (repeat nnan k)) by (rewrite repeat_length; exact Hj). rewrite nth_repeat.
      apply nth_repeat.
    - rewrite (nth_overflow (repeat _ n)) by (rewrite repeat_length; exact Hj). destruct l; reflexivity.
  Qed.
  Lemma blank_missing src j : missing (blank_calib src) j.
  Proof.
    unfold missing, blank_calib, entry1, entry2. cbn [k_sal k_sal_err k_cond k_cond_err k_sta_sal k_sta_sal_err k_factor k_factor_err k_deriv k_deriv_err k_sta_mean k_sta_rms].
    rewrite nth_repeat. repeat (split; [reflexivity|]). intros l. rewrite nth_blank. repeat (split; [reflexivity|]). reflexivity.
  Qed.
  Lemma blank_shaped src : rectangular src -> shaped src (blank_calib src).
  Proof.
    intros R. assert (L : length (src_pres src) = length (src_no src)) by (apply (R (src_pres src)); cbn; tauto).
    unfold shaped, blank_calib. cbn [k_sal k_sal_err k_cond k_cond_err k_sta_sal k_sta_sal_err k_factor k_factor_err k_deriv k_deriv_err k_sta_mean k_sta_rms k_no].
    split; [|split; [|reflexivity]].
    - intros m Hm. cbn [In] in Hm. destruct Hm as [<-|[<-|[<-|[<-|[<-|[<-|[]]]]]]]; rewrite repeat_length; exact L.
    - intros m Hm. assert (E : m = repeat (repeat nnan (src_levels src)) (length (src_pres src))) by (cbn [In] in Hm; intuition auto).
      subst m. split; [rewrite repeat_length; exact L|]. intros cc Hc. apply repeat_spec in Hc. subst. apply repeat_length.
  Qed.
  Lemma blank_state src flags : rectangular src -> state_after src flags [] (blank_calib src).
  Proof. intros R. split; [apply blank_shaped, R|]. intros j _. split; [intros (v & [] & _)|]. intros _. apply blank_missing. Qed.

  (* ---- the whole run ---- *)
  (* the settings of the breaks fit the series; otherwise the file is blank *)
  Definition accepted (c : calfile T) : Prop :=
    (length (series_flags (cf_calseries c)) <= 1 \/ length (cf_max_breaks c) = 1 \/
     length (cf_max_breaks c) = length (series_flags (cf_calseries c)))%nat.

  Lemma spread_ok n mb : snd (spread_max n mb) = true <-> (n <= 1 \/ length mb = 1 \/ length mb = n)%nat.
  Proof.
    unfold spread_max. destruct (Nat.ltb 1 n) eqn:E.
    - apply Nat.ltb_lt in E. destruct mb as [|a [|b mb]]; cbn [snd].
      + rewrite Nat.eqb_eq. cbn [length]. split; intros Q; lia.
      + split; [intros _; right; left; reflexivity|reflexivity].
      + rewrite Nat.eqb_eq. cbn [length]. split; intros Q; lia.
    - apply Nat.ltb_ge in E. cbn [snd]. split; [intros _; left; exact E|reflexivity].
  Qed.

  Lemma whole_ok cfg src pos d c g r g' : whole cfg src pos d c g = (Ok r, g') ->
    exists coords cf p, c = Ok cf /\ cf_percent cf = Some [[p]] /\
      (selected_hist d = [] /\ coords = None \/ selected_hist d <> [] /\ exists l, float_coords interp2d tbase pos = Ok l /\ coords = Some l) /\
      let flags := series_flags (cf_calseries cf) in
      exists ok, check_breaks (length flags) (cf_breaks cf) (fst (spread_max (length flags) (cf_max_breaks cf))) = Ok ok /\
      ((snd (spread_max (length flags) (cf_max_breaks cf)) && ok = true /\
        all cfg src coords d cf p (fst (spread_max (length flags) (cf_max_breaks cf))) 0 flags (blank_calib src) g = (Ok r, g')) \/
       (snd (spread_max (length flags) (cf_max_breaks cf)) && ok = false /\ r = blank_calib src /\ g' = g)).
  Proof.
    unfold piecewisefit. intros E.
    match type of E with (match ?x with _ => _ end = _) => destruct x as [[[[[[coords cf] p] fl] mb] ok]|e] eqn:EX end; [|discriminate].
    apply bind_ok in EX as (co & EC & EX). apply bind_ok in EX as (cf' & Ecf & EX). apply bind_ok in EX as (p' & EP & EX).
    destruct (spread_max _ _) as [mb' ok1] eqn:ESP. apply bind_ok in EX as (ok2 & EK & EX). injection EX as -> -> -> <- -> <-.
    exists coords, cf, p. split; [exact Ecf|]. split.
    { destruct (cf_percent cf) as [[|[|x [|]] [|]]|]; try discriminate. injection EP as ->. reflexivity. }
    split.
    { destruct (selected_hist d); [left; injection EC as <-; auto|right]. split; [discriminate|].
      apply bind_ok in EC as (lc & El & EC). injection EC as <-. eauto. }
    cbv zeta. rewrite ESP. cbn [fst snd]. exists ok2. split; [exact EK|].
    destruct (ok1 && ok2) eqn:EO; [left; auto|right]. injection E as <- <-. auto.
  Qed.

  (* C70: one factor for a profile; profiles without a series stay missing *)
  Theorem profiles cfg src pos d c g r g' : rectangular src -> cf_breaks c = [] ->
    whole cfg src pos d (Ok c) g = (Ok r, g') ->
    shaped src r /\ forall j, (j < length (src_no src))%nat ->
      (accepted c -> (exists v, In v (series_flags (cf_calseries c)) /\ flagged (cf_calseries c) v j) -> good src r j) /\
      ((forall v, In v (series_flags (cf_calseries c)) -> ~ flagged (cf_calseries c) v j) -> missing r j).
  Proof.
    intros R HB E. apply whole_ok in E as (coords & cf & p & EC & EP & _ & ok & EK & E). injection EC as <-. cbv zeta in *.
    rewrite HB in EK. injection EK as <-. rewrite andb_true_r in E. destruct E as [(_ & E)|(EO & -> & _)].
    - apply (all_state _ _ _ _ _ _ _ HB R _ _ [] _ _ _ _ (blank_state src _ R)) in E as (S & P). split; [exact S|].
      intros j Hj. destruct (P j Hj) as (P1 & P2). split; [intros _; exact P1|exact P2].
    - split; [apply blank_shaped, R|]. intros j Hj. split.
      + intros A. apply spread_ok in A. congruence.
      + intros _. apply blank_missing.
  Qed.
End Calib.
