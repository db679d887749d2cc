(* The input of the fit of a series *)
From Coq Require Import String Ascii.
From Coq Require Import ZArith List Bool Lia Reals Lra Sorted.
From Verif Require Import Num Np NumFacts NpFacts Utilities Finders Stats FitCond Topo Helper MapProfile Mapping Config Calib
  Spec_Utilities Spec_Finders Spec_Stats Spec_FitCond Spec_Calib Spec_Drift Spec_Input LinR
  Proofs_Besthist Proofs_Stats2 Proofs_Stats3 Proofs_FC1 Proofs_FC3 Proofs_FC9 Proofs_Calib Proofs_Calib2 Proofs_Calib3 Proofs_Calib4 Proofs_Calib6 Proofs_Calib7 Proofs_Drift1 Proofs_Drift2.
Import ListNotations.
Local Open Scope R_scope.

Lemma map_some_inj (a b : list nat) : map Some a = map Some b -> a = b.
Proof. revert b. induction a as [|x a IH]; intros [|y b] E; try discriminate; [reflexivity|]. cbn in E. injection E as -> E. f_equal. apply IH, E. Qed.
Lemma own_valid (th : @thetas XR) p lv : own_levels th p lv -> lv = valid_levels th p.
Proof.
  unfold own_levels. intros E. apply map_some_inj. rewrite E. unfold valid_levels. clear E.
  induction (th_index th) as [|row l IH]; [reflexivity|]. cbn [map filter flat_map]. rewrite map_app, <- IH. destruct (nth p row None); reflexivity.
Qed.
Lemma window_one b o : window_bound b = Ok o -> one_bound b o.
Proof. destruct b as [|[|x [|y t]] [|q b]]; cbn; intros E; try discriminate; injection E as <-; [left; auto|right; exists x; auto]. Qed.

Lemma block_nth {A} (f : nat -> list A) : forall ps p q, (forall x, In x ps -> length (f x) = 10%nat) -> (p < length ps)%nat -> (q < 10)%nat ->
  nth_error (flat_map f ps) (10 * p + q) = nth_error (f (nth p ps 0%nat)) q.
Proof.
  induction ps as [|x ps IH]; intros p q L Hp Hq; [cbn in Hp; lia|]. cbn [flat_map]. destruct p as [|p].
  - rewrite nth_error_app1; [now rewrite Nat.mul_0_r|]. rewrite L by (left; reflexivity). lia.
  - rewrite nth_error_app2; rewrite L by (left; reflexivity); [|lia]. replace (10 * S p + q - 10)%nat with (10 * p + q)%nat by lia. cbn [nth].
    apply IH; [intros y Hy; apply L; right; exact Hy|cbn in Hp; lia|exact Hq].
Qed.
Lemma block_length {A} (f : nat -> list A) : forall ps, (forall x, In x ps -> length (f x) = 10%nat) -> length (flat_map f ps) = (10 * length ps)%nat.
Proof. induction ps as [|x ps IH]; intros L; [reflexivity|]. cbn [flat_map length]. rewrite app_length, IH, L by (intros; apply L; right; assumption) || (left; reflexivity). rewrite ?(L x (or_introl eq_refl)). lia. Qed.

Lemma places_nth (th : @thetas XR) p lv q : length (th_index th) = 10%nat -> own_levels th p lv -> (q < 10)%nat -> nth_error (places th p) q = Some (nth_error lv q).
Proof.
  intros L O Hq. apply own_valid in O as ->. unfold places. rewrite levels_valid. pose proof (levels_le th p) as B. rewrite L in B.
  destruct (Nat.lt_ge_cases q (length (valid_levels th p))) as [H|H].
  - rewrite nth_error_app1 by (now rewrite map_length). rewrite nth_error_map. destruct (nth_error (valid_levels th p) q) eqn:E; [reflexivity|]. apply nth_error_None in E. lia.
  - rewrite nth_error_app2 by (now rewrite map_length). rewrite map_length. replace (nth_error (valid_levels th p) q) with (@None nat) by (symmetry; apply nth_error_None; exact H).
    rewrite (nth_error_nth' _ None) by (rewrite repeat_length; lia). f_equal. apply nth_repeat.
Qed.
Lemma all_nth (th : @thetas XR) idx p lv q : length (th_index th) = 10%nat -> own_levels th p lv -> (p < length idx)%nat -> (q < 10)%nat ->
  nth_error (all_places idx th) (10 * p + q) = Some (p, nth_error lv q).
Proof.
  intros L O Hp Hq. unfold all_places. rewrite block_nth; [|intros x _; rewrite map_length; now apply places_ten|now rewrite seq_length|exact Hq].
  rewrite seq_nth by exact Hp. cbn [Nat.add]. rewrite nth_error_map, (places_nth th p lv q L O Hq). reflexivity.
Qed.
Lemma all_length (th : @thetas XR) idx : length (th_index th) = 10%nat -> length (all_places idx th) = (10 * length idx)%nat.
Proof. intros L. unfold all_places. rewrite block_length; [now rewrite seq_length|]. intros x _. rewrite map_length. now apply places_ten. Qed.

Section Thetas.
  Variable interp1d : list XR -> list XR -> XR -> res XR.
  Lemma select_levels (src : source XR) l d c per idx sd : select_series interp1d src (Some l) d c per idx = Ok sd ->
    sd_coord sd = map (fun j => nth j l (mkCoord NaN NaN NaN)) idx /\
    exists tl tg pl pg ms, one_bound (cf_theta_lt c) tl /\ one_bound (cf_theta_gt c) tg /\ one_bound (cf_pres_lt c) pl /\ one_bound (cf_pres_gt c) pg /\
      find_10thetas interp1d (src_levels src) (length idx) (columns (src_sal src) idx) (columns (src_ptmp src) idx) (columns (src_pres src) idx)
        (columns (m_cols (la_ptmp d)) idx) tl tg pl pg per = Ok (sd_thetas sd, ms).
  Proof.
    intros ES. unfold select_series in ES. cbn [bind] in ES. apply bind_ok in ES as (co & Eco & ES).
    apply bind_ok in ES as (x1 & E1 & ES). apply bind_ok in ES as (x2 & E2 & ES). apply bind_ok in ES as (x3 & E3 & ES). apply bind_ok in ES as (x4 & E4 & ES).
    apply bind_ok in ES as (x5 & E5 & ES). apply bind_ok in ES as (x6 & E6 & ES).
    apply bind_ok in ES as (tl & W1 & ES). apply bind_ok in ES as (tg & W2 & ES). apply bind_ok in ES as (pl & W3 & ES). apply bind_ok in ES as (pg & W4 & ES).
    apply bind_ok in ES as ((th & ms) & Eth & ES). apply bind_ok in ES as (no & Eno & ES). injection ES as <-. cbn [sd_coord sd_thetas].
    apply index_array_ok in Eco as (-> & _). apply index_array_ok in E1 as (-> & _). apply index_array_ok in E2 as (-> & _). apply index_array_ok in E3 as (-> & _). apply index_array_ok in E4 as (-> & _).
    split; [reflexivity|]. exists tl, tg, pl, pg, ms. repeat (split; [apply window_one; assumption|]). exact Eth.
  Qed.

  Variable c_from_sp : XR -> XR -> XR -> XR.
  Lemma input_cov cfg (src : source XR) l d c per idx sd fi : select_series interp1d src (Some l) d c per idx = Ok sd -> build_input c_from_sp cfg sd = Ok fi ->
    exists t, build_cov 10 (length idx) t (map (fun j => nth j l (mkCoord NaN NaN NaN)) idx) cfg = Ok (fi_cov fi) /\
      forall p lv q, (p < length idx)%nat -> own_levels (sd_thetas sd) p lv -> (q < 10)%nat ->
        t q p = match nth_error lv q with Some i => entry2 (src_ptmp src) (nth p idx 0%nat) i | None => NaN end.
  Proof.
    intros ES EB. pose proof (select_levels _ _ _ _ _ _ _ ES) as (EC & _). apply select_parts in ES as (_ & E2 & _ & _ & E5 & _ & _ & L10).
    assert (LN : length (sd_no sd) = length idx) by (rewrite E5; unfold take; apply map_length).
    unfold build_input in EB. cbv zeta in EB. apply bind_ok in EB as (cov & ECov & EB). injection EB as <-. cbn [fi_cov]. rewrite EC, LN in ECov.
    eexists. split; [exact ECov|]. intros p lv q Hp O Hq. unfold of_cols, ten. rewrite LN, nth_map_seq by exact Hp. rewrite E2. unfold take. rewrite (nth_map _ _ _ [] 0%nat) by exact Hp.
    apply own_valid in O as ->. unfold ten_rows. destruct (Nat.lt_ge_cases q (length (valid_levels (sd_thetas sd) p))) as [H|H].
    - rewrite app_nth1 by (now rewrite map_length). rewrite (nth_map _ _ _ _ 0%nat) by exact H. rewrite (nth_error_nth' _ 0%nat) by exact H. reflexivity.
    - rewrite app_nth2 by (now rewrite map_length). replace (nth_error (valid_levels (sd_thetas sd) p) q) with (@None nat) by (symmetry; apply nth_error_None; exact H). apply nth_repeat.
  Qed.
End Thetas.

Theorem series_input : forall det solve inv least_squares (rng : Type) (randn : nat -> rng -> list XR * rng) interp1d interp2d tbase c_from_sp sp_from_c
  cfg src pos d c flags nos v idx, c_from_sp NaN NaN (Fin 0) = NaN ->
  cf_breaks c = [] -> cf_calseries c = map Fin flags -> right_rows flags (cf_max_breaks c) -> src_no src = map Fin nos -> v <> 0 ->
  lists_series flags v idx -> idx <> [] -> StronglySorted Rlt (numbers_of nos idx) ->
  forall g r g', piecewisefit det solve inv least_squares rng randn interp1d interp2d tbase c_from_sp sp_from_c cfg src pos d (Ok c) g = (Ok r, g') ->
  exists l per m th ms tl tg pl pg x y e cov t f g1 g2,
    float_coords interp2d tbase pos = Ok l /\ cf_percent c = Some [[per]] /\
    one_bound (cf_theta_lt c) tl /\ one_bound (cf_theta_gt c) tg /\ one_bound (cf_pres_lt c) pl /\ one_bound (cf_pres_gt c) pg /\
    find_10thetas interp1d (src_levels src) (length idx) (columns (src_sal src) idx) (columns (src_ptmp src) idx) (columns (src_pres src) idx)
      (columns (m_cols (la_ptmp d)) idx) tl tg pl pg per = Ok (th, ms) /\
    (length x = 10 * length idx /\ length y = 10 * length idx /\ length e = 10 * length idx)%nat /\
    (forall p lv q, (p < length idx)%nat -> own_levels th p lv -> (q < 10)%nat ->
       let j := nth p idx 0%nat in let k := (10 * p + q)%nat in
       nth k x NaN = Fin (nth j nos 0) /\
       match nth_error lv q with
       | Some i => nth k y NaN = ratio c_from_sp src d j i /\ nth k e NaN = ratio_error c_from_sp src d j i /\ t q p = entry2 (src_ptmp src) j i
       | None => nth k y NaN = NaN /\ t q p = NaN
       end) /\
    build_cov 10 (length idx) t (map (fun j => nth j l (mkCoord NaN NaN NaN)) idx) cfg = Ok cov /\
    fit_cond det solve inv least_squares rng randn x y e cov [FitCond.VStr "max_no_breaks"; VFlt m] g1 = (Ok (Fitted f), g2) /\
    forall j, In j idx -> value_at f (Fin (nth j nos 0)) (entry1 (k_factor r) j).
Proof.
  intros det solve inv least_squares rng randn interp1d interp2d tbase c_from_sp sp_from_c cfg src pos d c flags nos v idx Hnan HB HF HR HNo NZ LS NE S g r g' E.
  pose proof (proj1 (right_accepted c flags HF) HR) as A.
  destruct (numbers det solve inv least_squares rng randn interp1d interp2d tbase c_from_sp sp_from_c cfg src pos d c flags nos v idx _ g r g' HB A HF HNo NZ LS NE (ascending_self _ S) E)
    as (l & per & m & f & EL & EP & FO & EX & EV).
  pose proof (fit_of_numbers det solve inv least_squares rng randn interp1d c_from_sp cfg src _ d c per m idx f nos _ HNo (ascending_self _ S) FO) as (_ & L1 & _).
  destruct FO as (sd & fi & g1 & g2 & ES & EB & EF).
  destruct (select_levels _ _ _ _ _ _ _ _ ES) as (_ & tl & tg & pl & pg & ms & W1 & W2 & W3 & W4 & Eth).
  destruct (input_cov _ _ _ _ _ _ _ _ _ _ _ ES EB) as (t & ECov & Et).
  pose proof (select_parts _ _ _ _ _ _ _ _ ES) as (_ & _ & _ & _ & _ & _ & _ & L10).
  destruct (input_parts interp1d c_from_sp Hnan src d c nos idx HNo cfg l per sd fi ES EB) as (IX & IY & err & IE & He).
  exists l, per, m, (sd_thetas sd), ms, tl, tg, pl, pg, (fi_x fi), (fi_y fi), (fi_err fi), (fi_cov fi), t, f, g1, g2.
  split; [exact EL|]. split; [exact EP|]. do 4 (split; [assumption|]). split; [exact Eth|].
  split; [rewrite IX, IY, IE, !map_length, all_length by exact L10; auto|]. split; [|split; [exact ECov|split; [exact EF|]]].
  - intros p lv q Hp O Hq. cbv zeta. pose proof (all_nth _ idx p lv q L10 O Hp Hq) as AN. specialize (Et p lv q Hp O Hq).
    assert (G : forall h : nat * option nat -> XR, nth (10 * p + q) (map h (all_places idx (sd_thetas sd))) NaN = h (p, nth_error lv q)).
    { intros h. apply nth_error_nth. rewrite nth_error_map, AN. reflexivity. }
    rewrite IX, IY, IE, !G. split; [reflexivity|]. destruct (nth_error lv q) as [i|]; rewrite Et; [|split; reflexivity].
    split; [reflexivity|]. split; [apply He, Hp|reflexivity].
  - intros j Hj. apply (In_nth _ _ 0%nat) in Hj as (p & Hp & <-).
    assert (LU : length (numbers_of nos idx) = length idx) by (unfold numbers_of; apply map_length).
    assert (EF' : entry1 (k_factor r) (nth p idx 0%nat) = entry1 (f_condslope f) p).
    { destruct EV as [(_ & EV)|(E1 & EV)]; [apply EV, Hp|]. assert (p = 0)%nat as -> by lia. apply EV, Hp. }
    exists p. rewrite EX, EF'. split.
    + rewrite nth_error_map, (nth_error_nth' (numbers_of nos idx) 0) by lia. cbn [option_map]. f_equal. f_equal. apply numbers_nth, Hp.
    + apply entry1_some. lia.
Qed.
Lemma own_exists (th : @thetas XR) p : exists! lv, own_levels th p lv.
Proof.
  exists (valid_levels th p). split; [|intros lv O; symmetry; now apply own_valid]. unfold own_levels, valid_levels.
  induction (th_index th) as [|row l IH]; [reflexivity|]. cbn [map filter flat_map]. rewrite map_app, IH. destruct (nth p row None); reflexivity.
Qed.
