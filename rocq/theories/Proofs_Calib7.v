(* The scales used by the calibration and by the mapping *)
From Coq Require Import String Ascii.
From Coq Require Import ZArith List Bool Lia Reals Lra FunctionalExtensionality.
From Verif Require Import Num Np NumFacts NpFacts Utilities Finders Stats FitCond Topo Helper MapProfile Mapping Config Calib Spec_Utilities Spec_Finders Spec_Stats
  Proofs_Stats2 Proofs_Stats3 Spec_Calib Proofs_Calib.
Import ListNotations.
Local Open Scope R_scope.

Theorem parameter_names lat_arg long_arg age phi pv l1 l2 : lat_arg <> 0 -> long_arg <> 0 -> (pv = true -> phi <> 0) ->
  (pv = true -> l1 <> [] /\ l2 <> [] /\ forall p, In p (l1 ++ l2) -> p_z p <> 0) ->
  exists K, covar_xyt_pv (map fpoint l1) (map fpoint l2) (Fin lat_arg) (Fin long_arg) (Fin age) (Fin phi) (if pv then 1%Z else 0%Z) = Ok K /\
    forall i j, (i < length l1)%nat -> (j < length l2)%nat ->
    let p := nth i l1 dpointR in let q := nth j l2 dpointR in
    K i j = Fin (exp (- (((p_lat p - p_lat q) / long_arg) ^ 2 + ((p_long p - p_long q) / lat_arg) ^ 2
                         + (if Req_EM_T age 0 then 0 else ((p_date p - p_date q) / age) ^ 2)
                         + (if pv then vorticity_distance2 phi (vort (p_lat p) (p_z p)) (vort (p_lat q) (p_z q)) else 0)))).
Proof.
  intros H1 H2 H3 H4. destruct (covariance_entry (mkScales long_arg lat_arg age phi pv) l1 l2) as (K & E & EK).
  - split; [exact H2|]. split; [exact H1|exact H3].
  - intros Hp p I. apply (H4 Hp). apply in_app_iff. left. exact I.
  - intros Hp p I. apply (H4 Hp). apply in_app_iff. right. exact I.
  - intros Hp. apply (H4 Hp).
  - intros Hp. apply (H4 Hp).
  - exists K. split; [exact E|]. intros i j Hi Hj. exact (EK i j Hi Hj).
Qed.

Section Calibration.
  Variable interp1d : list XR -> list XR -> XR -> res XR.
  Variable interp2d : list XR -> list XR -> list (list Z) -> XR -> XR -> res XR.
  Variable tbase : binfile.
  Variable c_from_sp : XR -> XR -> XR -> XR.

  Lemma coords_order (longs lats : list R) l : float_coords interp2d tbase (mkPositions [map Fin longs] [map Fin lats]) = Ok l ->
    length lats = length longs /\ length l = length longs /\
    forall j, (j < length longs)%nat -> exists z, nth j l (mkCoord NaN NaN NaN) = mkCoord (Fin (nth j longs 0)) (Fin (nth j lats 0)) z.
  Proof.
    unfold float_coords. cbn [ps_long ps_lat concat]. rewrite !app_nil_r, !map_length. cbn [length Nat.ltb Nat.leb].
    destruct (Nat.eqb (length longs) 0 || Nat.eqb (length lats) 0); [discriminate|]. intros E.
    apply bind_ok in E as (((elev & x) & y) & _ & E). apply bind_ok in E as (z & EZ & E).
    destruct (Nat.eqb (length lats) (length longs)) eqn:EQ; [|discriminate]. apply Nat.eqb_eq in EQ. injection E as <-.
    apply mapM_length in EZ. rewrite seq_length in EZ.
    assert (LZ : length z = length longs).
    { rewrite EZ. destruct (existsb _ _); rewrite ?map_length; reflexivity. }
    assert (LC : length (combine (combine (map Fin longs) (map Fin lats)) z) = length longs).
    { rewrite !combine_length, !map_length. lia. }
    split; [exact EQ|]. rewrite map_length. split; [exact LC|]. intros j Hj. exists (nopp (nth j z NaN)).
    match goal with |- nth j (map ?f ?m) _ = _ => rewrite (nth_indep (map f m) _ (f ((Fin 0, Fin 0), NaN))) by (rewrite map_length, LC; exact Hj); rewrite (map_nth f) end.
    rewrite combine_nth by (rewrite combine_length, !map_length; lia). rewrite combine_nth by (rewrite !map_length; lia). cbn [fst snd]. rewrite !map_nth. reflexivity.
  Qed.

  Theorem calibration_scales src longs lats (depth : nat -> R) l d c per idx sd lat_scale long_scale phi pv t :
    float_coords interp2d tbase (mkPositions [map Fin longs] [map Fin lats]) = Ok l ->
    (forall j, (j < length longs)%nat -> c_2 (nth j l (mkCoord NaN NaN NaN)) = Fin (depth j) /\ depth j <> 0) ->
    lat_scale <> 0 -> long_scale <> 0 -> (pv = true -> phi <> 0) ->
    select_series interp1d src (Some l) d c per idx = Ok sd ->
    (forall i p, of_cols (ten sd (sd_ptmp sd)) i p = oX (t i p)) -> table_needed 10 (length idx) t ->
    exists fi, build_input c_from_sp (mkCovConfig (Fin long_scale) (Fin lat_scale) (Fin phi) pv) sd = Ok fi /\
      forall a b i j, (a < length idx)%nat -> (b < length idx)%nat -> (i < 10)%nat -> (j < 10)%nat ->
      let p := nth a idx 0%nat in let q := nth b idx 0%nat in
      fi_cov fi (a * 10 + i)%nat (b * 10 + j)%nat
      = Fin (exchanged lat_scale long_scale phi pv (nth p longs 0) (nth p lats 0) (depth p) (nth q longs 0) (nth q lats 0) (depth q)
             * vertical (fun i => t i a) i j).
  Proof.
    intros EL HD H1 H2 H3 ES HT TN. apply coords_order in EL as (LL & L & EC).
    assert (SD : length (sd_no sd) = length idx /\ sd_coord sd = take (mkCoord NaN NaN NaN) l idx /\ forall j, In j idx -> (j < length longs)%nat).
    { unfold select_series in ES. cbn [bind] in ES. apply bind_ok in ES as (co & Eco & ES). do 10 (apply bind_ok in ES as (? & _ & ES)).
      apply bind_ok in ES as ((th & ms) & _ & ES). apply bind_ok in ES as (no & Eno & ES). injection ES as <-. cbn [sd_no sd_coord].
      apply index_array_ok in Eco as (-> & B). apply index_array_ok in Eno as (-> & _). split; [unfold take; apply map_length|]. split; [reflexivity|].
      intros j Hj. rewrite <- L. apply B, Hj. }
    destruct SD as (LN & ECo & B).
    set (place j := mkCoord (nth j longs 0) (nth j lats 0) (depth j)).
    assert (EF : sd_coord sd = map fcoord (map place idx)).
    { rewrite ECo. unfold take. rewrite map_map. apply map_ext_in. intros j Hj. destruct (EC j (B j Hj)) as (z & Ez). destruct (HD j (B j Hj)) as (Hz & _).
      rewrite Ez in *. cbn [c_2] in Hz. rewrite Hz. reflexivity. }
    assert (ET : of_cols (ten sd (sd_ptmp sd)) = fun i p => oX (t i p)) by (apply functional_extensionality; intros i; apply functional_extensionality; intros p; apply HT).
    destruct (build_cov_blocks 10 (length idx) t (map place idx) (mkHScales lat_scale long_scale phi pv)) as (m & Em & EM).
    - apply map_length.
    - exact TN.
    - split; [exact H1|]. split; [exact H2|]. split; [|exact H3]. intros q I. apply in_map_iff in I as (j & <- & Hj). cbn [place c_2]. apply HD, B, Hj.
    - unfold build_input. cbv zeta. rewrite LN, EF, ET. change (mkCovConfig (Fin long_scale) (Fin lat_scale) (Fin phi) pv) with (hconfig (mkHScales lat_scale long_scale phi pv)).
      rewrite Em. cbn [bind]. eexists. split; [reflexivity|]. cbn [fi_cov]. intros a b i j Ha Hb Hi Hj. rewrite (EM a b i j Ha Hb Hi Hj). f_equal. f_equal.
      rewrite !(nth_indep (map place idx) dcoord (place 0%nat)) by (rewrite map_length; assumption). rewrite !map_nth. reflexivity.
  Qed.
End Calibration.

Theorem exchanged_differs : exists lat_scale long_scale lo la z lo' la' z', lat_scale <> 0 /\ long_scale <> 0 /\ z <> 0 /\ z' <> 0 /\
  exchanged lat_scale long_scale 1 false lo la z lo' la' z' <> exp (- (((la - la') / lat_scale) ^ 2 + ((lo - lo') / long_scale) ^ 2)).
Proof.
  exists 1, 2, 1, 0, 1, 0, 0, 1. repeat (split; [lra|]). unfold exchanged. intros C. apply exp_inv in C. lra.
Qed.
