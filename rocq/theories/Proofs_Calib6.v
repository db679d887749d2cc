(* Calibration files: order of the profiles, failures, breaks, files *)
From Coq Require Import String Ascii.
From Coq Require Import ZArith List Bool Lia Reals Lra Sorted.
From Verif Require Import Num Np NumFacts NpFacts Utilities Finders Stats FitCond Topo Helper MapProfile Mapping Config Calib Spec_FitCond Proofs_Utilities Proofs_FC3 Proofs_FC7
  Spec_Calib Proofs_Calib Proofs_Calib2 Proofs_Calib3 Proofs_Calib4.
Import ListNotations.

(* ---- failures, for all numbers ---- *)
Section Generic.
  Context {T : Type} {HN : Num T} {HT : NumT T}.
  Notation mat := (nat -> nat -> T).
  Variable det : nat -> mat -> T.
  Variable solve : nat -> nat -> mat -> mat -> res mat.
  Variable inv : nat -> mat -> res mat.
  Variable least_squares : (list T -> res (list T)) -> list T -> res (list (list T) * list T).
  Variable rng : Type.
  Variable randn : nat -> rng -> list T * rng.
  Variable interp1d : list T -> list T -> T -> res T.
  Variable interp2d : list T -> list T -> list (list Z) -> T -> T -> res T.
  Variable tbase : binfile.
  Variable c_from_sp : T -> T -> T -> T.
  Variable sp_from_c : T -> T -> T -> T.
  Notation series := (calibrate_series det solve inv least_squares rng randn interp1d c_from_sp sp_from_c).
  Notation all := (calibrate_all det solve inv least_squares rng randn interp1d c_from_sp sp_from_c).
  Notation whole := (piecewisefit det solve inv least_squares rng randn interp1d interp2d tbase c_from_sp sp_from_c).

  (* a mapped file without historical data *)
  Theorem no_history cfg src pos d c per g : selected_hist d = [] -> cf_percent c = Some [[per]] -> cf_breaks c = [] -> accepted c ->
    series_flags (cf_calseries c) <> [] -> whole cfg src pos d (Ok c) g = (Raise UnboundLocalError, g).
  Proof.
    intros HH HP HB A NE. unfold piecewisefit. rewrite HH. cbn [bind]. rewrite HP. cbn [bind]. apply spread_ok in A.
    destruct (spread_max _ _) as [mb ok]. cbn [snd] in A. subst ok. rewrite HB. cbn [check_breaks bind andb].
    destruct (series_flags (cf_calseries c)) as [|v vs]; [congruence|]. cbn [calibrate_all]. reflexivity.
  Qed.
  (* no series: nothing is calibrated *)
  Theorem no_series cfg src pos d c per g : (selected_hist d = [] \/ exists l, float_coords interp2d tbase pos = Ok l) -> cf_percent c = Some [[per]] -> cf_breaks c = [] ->
    series_flags (cf_calseries c) = [] -> whole cfg src pos d (Ok c) g = (Ok (blank_calib src), g).
  Proof.
    intros HH HP HB NE. unfold piecewisefit.
    assert (EC : exists co, match selected_hist d with [] => Ok None | _ => let* l := float_coords interp2d tbase pos in Ok (Some l) end = Ok co).
    { destruct (selected_hist d); [eauto|]. destruct HH as [HH|(l0 & ->)]; [discriminate|cbn [bind]; eauto]. }
    destruct EC as (co & ->). cbn [bind]. rewrite HP. cbn [bind]. rewrite NE. cbn [length spread_max Nat.ltb Nat.leb]. rewrite HB. cbn [check_breaks bind andb calibrate_all]. reflexivity.
  Qed.
  (* a wrong number of rows of max_breaks: nothing is calibrated and there is no error *)
  Theorem wrong_rows cfg src pos d c per g : (selected_hist d = [] \/ exists l, float_coords interp2d tbase pos = Ok l) -> cf_percent c = Some [[per]] -> cf_breaks c = [] ->
    ~ accepted c -> whole cfg src pos d (Ok c) g = (Ok (blank_calib src), g).
  Proof.
    intros HH HP HB NA. unfold piecewisefit.
    assert (EC : exists co, match selected_hist d with [] => Ok None | _ => let* l := float_coords interp2d tbase pos in Ok (Some l) end = Ok co).
    { destruct (selected_hist d); [eauto|]. destruct HH as [HH|(l0 & ->)]; [discriminate|cbn [bind]; eauto]. }
    destruct EC as (co & ->). cbn [bind]. rewrite HP. cbn [bind].
    destruct (spread_max _ _) as [mb ok] eqn:ES. rewrite HB. cbn [check_breaks bind]. destruct ok; [|reflexivity].
    exfalso. apply NA, spread_ok. rewrite ES. reflexivity.
  Qed.
  (* the generator of a failed or blank run *)
  Theorem no_percent cfg src pos d c g : (selected_hist d = [] \/ exists l, float_coords interp2d tbase pos = Ok l) -> cf_percent c = None ->
    whole cfg src pos d (Ok c) g = (Raise KeyError, g).
  Proof.
    intros HH HP. unfold piecewisefit.
    assert (EC : exists co, match selected_hist d with [] => Ok None | _ => let* l := float_coords interp2d tbase pos in Ok (Some l) end = Ok co).
    { destruct (selected_hist d); [eauto|]. destruct HH as [HH|(l0 & ->)]; [discriminate|cbn [bind]; eauto]. }
    destruct EC as (co & ->). cbn [bind]. rewrite HP. reflexivity.
  Qed.

  (* ---- break points ---- *)
  Lemma max_args (m : T) : flat [(FitCond.VStr "max_no_breaks", VFlt m)] = [FitCond.VStr "max_no_breaks"%string; VFlt m].
  Proof. reflexivity. Qed.
  Lemma series_no_break cfg src coords d c percent mb i v r g r' g' : cf_breaks c = [] ->
    series cfg src coords d c percent mb i v r g = (Ok r', g') -> k_breaks r' = k_breaks r /\ (length (k_coef r') <= length (k_coef r) + 2)%nat.
  Proof.
    intros HB E. apply series_ok in E as (_ & E); [|exact HB].
    destruct E as [(_ & ->)|(sd & fi & m & f & r1 & _ & _ & _ & EF & ER & ->)]; [split; [reflexivity|lia]|].
    rewrite <- max_args in EF. apply fit_without_breaks in EF as (E1 & E2).
    - assert (ERR : k_breaks r1 = k_breaks r /\ k_coef r1 = k_coef r).
      { cbn [record_fit] in ER. do 6 (apply bind_ok in ER as (? & _ & ER)).
        apply (f_equal (fun x => match x with Ok y => (k_breaks (fst y), k_coef (fst y)) | Raise _ => ([], []) end)) in ER. cbn [fst k_breaks k_coef] in ER.
        injection ER as <- <-. split; reflexivity. }
      destruct ERR as (B1 & B2). cbn [apply_fit k_breaks k_coef]. rewrite E1, B1, B2, app_length. split; [reflexivity|lia].
    - constructor; [|constructor]. exists "max_no_breaks"%string. split; [cbn; tauto|]. split; [exists "max_no_breaks"%string; split; reflexivity|].
      split; [discriminate|]. split; discriminate.
    - intros q [<-|[]]. split; intros (s & Hs & H2); cbn in Hs; inversion Hs; subst; discriminate H2.
  Qed.
  Theorem no_break_saved cfg src pos d c g r g' : cf_breaks c = [] -> whole cfg src pos d (Ok c) g = (Ok r, g') ->
    k_breaks r = [] /\ (length (k_coef r) <= 2 * length (series_flags (cf_calseries c)))%nat.
  Proof.
    intros HB E. apply whole_ok in E as (coords & cf & p & EC & EP & _ & ok & EK & E). injection EC as <-. cbv zeta in *.
    destruct E as [(_ & E)|(_ & -> & _)]; [|split; [reflexivity|cbn; lia]].
    assert (G : forall us i r0 g0, all cfg src coords d c p (fst (spread_max (length (series_flags (cf_calseries c))) (cf_max_breaks c))) i us r0 g0 = (Ok r, g') ->
              k_breaks r = k_breaks r0 /\ (length (k_coef r) <= length (k_coef r0) + 2 * length us)%nat).
    { clear E. induction us as [|u us IH]; intros i r0 g0 E; cbn [calibrate_all] in E.
      - injection E as <- _. split; [reflexivity|lia].
      - destruct (series _ _ _ _ _ _ _ i u r0 g0) as [[r1|] g1] eqn:E1; [|discriminate].
        apply IH in E as (A1 & A2). apply series_no_break in E1 as (B1 & B2); [|exact HB]. split; [congruence|cbn [length]; lia]. }
    apply G in E as (E1 & E2). cbn in E2. split; [exact E1|lia].
  Qed.
End Generic.

(* ---- files ---- *)
Section Files.
  Context {T : Type} {HN : Num T} {HT : NumT T}.
  Variable rng : Type.
  Variable fit : source T -> positions T -> mapped T -> res (calfile T) -> rng -> res (calib T) * rng.
  Notation run := (calc_piecewisefit fit).
  Theorem files_kept p dir name fl g out fl' g' : run p dir name fl g = (out, fl', g') ->
    (forall q, fl_source fl' q = fl_source fl q) /\ (forall q, fl_mapped fl' q = fl_mapped fl q) /\
    (forall q, fl_calseries fl' q = fl_calseries fl q) /\
    (forall q, q <> calib_path p dir name -> fl_calib fl' q = fl_calib fl q) /\
    (forall e, out = Raise e -> fl' = fl) /\
    (out = Ok tt -> exists s d c r h, fl_source fl (source_path p dir name) = Some s /\ fl_mapped fl (mapped_path p dir name) = Some d /\
       fl_calseries fl (calseries_path p dir name) = c /\ fit (fst s) (snd s) d (found c) g = (Ok r, h) /\
       fl_calib fl' (calib_path p dir name) = Some r).
  Proof.
    unfold calc_piecewisefit. intros E. destruct (fl_source fl (source_path p dir name)) as [s|] eqn:E1; cbn [found bind] in E.
    2:{ injection E as <- <- <-. do 4 (split; [reflexivity|]). split; [reflexivity|discriminate]. }
    destruct (fl_mapped fl (mapped_path p dir name)) as [d|] eqn:E2; cbn [found bind] in E.
    2:{ injection E as <- <- <-. do 4 (split; [reflexivity|]). split; [reflexivity|discriminate]. }
    destruct (fit _ _ _ _ _) as [[r|e] h] eqn:E3; injection E as <- <- <-.
    - cbn [fl_source fl_mapped fl_calseries fl_calib]. do 3 (split; [reflexivity|]). split.
      { intros q Hq. unfold written. destruct (String.eqb_spec q (calib_path p dir name)); [contradiction|reflexivity]. }
      split; [discriminate|]. intros _. exists s, d, (fl_calseries fl (calseries_path p dir name)), r, h.
      split; [reflexivity|]. split; [reflexivity|]. split; [reflexivity|]. split; [exact E3|]. unfold written. now rewrite String.eqb_refl.
    - do 4 (split; [reflexivity|]). split; [reflexivity|discriminate].
  Qed.
  Theorem files_missing p dir name fl g : fl_source fl (source_path p dir name) = None \/
    (exists s, fl_source fl (source_path p dir name) = Some s) /\ fl_mapped fl (mapped_path p dir name) = None ->
    run p dir name fl g = (Raise FileNotFoundError, fl, g).
  Proof. unfold calc_piecewisefit. intros [->|((s & ->) & ->)]; reflexivity. Qed.
End Files.

Lemma string_app_inj (a b c : string) : (a ++ b = a ++ c)%string -> b = c.
Proof. induction a as [|x a IH]; cbn; intros E; [exact E|]. apply IH. congruence. Qed.
(* the settings written by set_calseries are those read when the two postfixes agree, and only then *)
Theorem calseries_found p dir name : calseries_path p dir name = set_calseries_path p dir name <-> cp_mapped_postfix p = cp_calib_postfix p.
Proof.
  unfold calseries_path, set_calseries_path. cbn [path_join]. split; [|congruence]. intros E.
  do 2 (apply string_app_inj in E; apply (string_app_inj "/") in E). do 2 apply string_app_inj in E. exact E.
Qed.

(* ---- which profile gets which value ---- *)
Local Open Scope R_scope.
Section Order.
  Notation mat := (nat -> nat -> XR).
  Variable det : nat -> mat -> XR.
  Variable solve : nat -> nat -> mat -> mat -> res mat.
  Variable inv : nat -> mat -> res mat.
  Variable least_squares : (list XR -> res (list XR)) -> list XR -> res (list (list XR) * list XR).
  Variable rng : Type.
  Variable randn : nat -> rng -> list XR * rng.
  Variable interp1d : list XR -> list XR -> XR -> res XR.
  Variable interp2d : list XR -> list XR -> list (list Z) -> XR -> XR -> res XR.
  Variable tbase : binfile.
  Variable c_from_sp : XR -> XR -> XR -> XR.
  Variable sp_from_c : XR -> XR -> XR -> XR.
  Notation whole := (piecewisefit det solve inv least_squares rng randn interp1d interp2d tbase c_from_sp sp_from_c).
  Notation fit_of := (fit_of det solve inv least_squares rng randn interp1d c_from_sp).

  Lemma numbers_nth nos idx p : (p < length idx)%nat -> nth p (numbers_of nos idx) 0 = nth (nth p idx 0%nat) nos 0.
  Proof.
    revert p. induction idx as [|i idx IH]; intros p Hp; [cbn in Hp; lia|]. destruct p; [reflexivity|]. cbn [numbers_of map nth]. apply IH. cbn in Hp. lia.
  Qed.
  Lemma ascending_self (l : list R) : StronglySorted Rlt l -> distinct_of l l.
  Proof. intros S. split; [exact S|]. tauto. Qed.
  Lemma entry1_some (l : list XR) p : (p < length l)%nat -> nth_error l p = Some (entry1 l p).
  Proof. intros Hp. unfold entry1. apply nth_error_nth'. exact Hp. Qed.

  (* the number of every distinct member is the number of members *)
  Lemma distinct_length (l us : list R) : distinct_of l us -> NoDup l -> length us = length l.
  Proof.
    intros (S & D) ND. apply Nat.le_antisymm.
    - apply NoDup_incl_length; [apply sorted_NoDup, S|]. intros x. apply D.
    - apply NoDup_incl_length; [exact ND|]. intros x. apply D.
  Qed.
  Lemma distinct_length_1 (l us : list R) : distinct_of l us -> (length us <= length l)%nat.
  Proof. intros (S & D). apply NoDup_incl_length; [apply sorted_NoDup, S|]. intros x. apply D. Qed.

  (* for distinct numbers: the p-th profile gets the value at the p-th smallest number *)
  Theorem pth_smallest cfg src pos d c flags nos v idx us g r g' :
    cf_breaks c = [] -> accepted c -> cf_calseries c = map Fin flags -> src_no src = map Fin nos -> v <> 0 ->
    lists_series flags v idx -> idx <> [] -> NoDup (numbers_of nos idx) -> distinct_of (numbers_of nos idx) us ->
    whole cfg src pos d (Ok c) g = (Ok r, g') ->
    exists l per m f, float_coords interp2d tbase pos = Ok l /\ fit_of cfg src (Some l) d c per m idx f /\ f_xfit f = map Fin us /\
      forall p, (p < length idx)%nat -> value_at f (Fin (nth p us 0)) (entry1 (k_factor r) (nth p idx 0%nat)).
  Proof.
    intros HB A HF HNo NZ LS NE ND D E.
    destruct (numbers det solve inv least_squares rng randn interp1d interp2d tbase c_from_sp sp_from_c cfg src pos d c flags nos v idx us g r g' HB A HF HNo NZ LS NE D E)
      as (l & per & m & f & EL & EP & FO & EX & EV).
    pose proof (fit_of_numbers det solve inv least_squares rng randn interp1d c_from_sp cfg src _ d c per m idx f nos us HNo D FO) as (_ & L1 & _).
    pose proof (distinct_length _ _ D ND) as LU. unfold numbers_of in LU. rewrite map_length in LU.
    exists l, per, m, f. split; [exact EL|]. split; [exact FO|]. split; [exact EX|]. intros p Hp.
    assert (EF : entry1 (k_factor r) (nth p idx 0%nat) = entry1 (f_condslope f) p).
    { destruct EV as [(_ & EV)|(E1 & EV)]; [apply EV, Hp|]. assert (p = 0)%nat as -> by lia. apply EV, Hp. }
    exists p. rewrite EX, EF. split.
    - rewrite nth_error_map, (nth_error_nth' us 0); [reflexivity|lia].
    - apply entry1_some. lia.
  Qed.
  (* ascending numbers: every profile gets the value at its number *)
  Theorem own_number cfg src pos d c flags nos v idx g r g' :
    cf_breaks c = [] -> accepted c -> cf_calseries c = map Fin flags -> src_no src = map Fin nos -> v <> 0 ->
    lists_series flags v idx -> idx <> [] -> StronglySorted Rlt (numbers_of nos idx) ->
    whole cfg src pos d (Ok c) g = (Ok r, g') ->
    exists l per m f, float_coords interp2d tbase pos = Ok l /\ fit_of cfg src (Some l) d c per m idx f /\
      forall j, In j idx -> value_at f (Fin (nth j nos 0)) (entry1 (k_factor r) j).
  Proof.
    intros HB A HF HNo NZ LS NE S E.
    destruct (pth_smallest cfg src pos d c flags nos v idx _ g r g' HB A HF HNo NZ LS NE (sorted_NoDup _ S) (ascending_self _ S) E)
      as (l & per & m & f & EL & FO & EX & EV).
    exists l, per, m, f. split; [exact EL|]. split; [exact FO|]. intros j Hj. apply (In_nth _ _ 0%nat) in Hj as (p & Hp & <-).
    specialize (EV p Hp). rewrite numbers_nth in EV by exact Hp. exact EV.
  Qed.
  (* numbers in another order: a profile gets the value at the number of another one *)
  Theorem foreign_number cfg src pos d c flags nos v idx g r g' :
    cf_breaks c = [] -> accepted c -> cf_calseries c = map Fin flags -> src_no src = map Fin nos -> v <> 0 ->
    lists_series flags v idx -> NoDup (numbers_of nos idx) -> ~ StronglySorted Rlt (numbers_of nos idx) ->
    whole cfg src pos d (Ok c) g = (Ok r, g') ->
    exists l per m f, float_coords interp2d tbase pos = Ok l /\ fit_of cfg src (Some l) d c per m idx f /\
      exists j k, In j idx /\ In k idx /\ nth j nos 0 <> nth k nos 0 /\ value_at f (Fin (nth k nos 0)) (entry1 (k_factor r) j).
  Proof.
    intros HB A HF HNo NZ LS ND NS E. destruct (distinct_exists (numbers_of nos idx)) as (us & D).
    assert (NE : idx <> []) by (intros ->; apply NS; constructor).
    destruct (pth_smallest cfg src pos d c flags nos v idx us g r g' HB A HF HNo NZ LS NE ND D E) as (l & per & m & f & EL & FO & EX & EV).
    exists l, per, m, f. split; [exact EL|]. split; [exact FO|].
    pose proof (distinct_length _ _ D ND) as LU. pose proof LU as LU'. unfold numbers_of in LU'. rewrite map_length in LU'.
    assert (X : exists p, (p < length idx)%nat /\ nth p us 0 <> nth p (numbers_of nos idx) 0).
    { destruct (existsb (fun p => negb (Reqb (nth p us 0) (nth p (numbers_of nos idx) 0))) (seq 0 (length idx))) eqn:EB.
      - apply existsb_exists in EB as (p & Hp & EB). apply in_seq in Hp. exists p. split; [lia|]. apply negb_true_iff, Reqb_false in EB. exact EB.
      - exfalso. apply NS. replace (numbers_of nos idx) with us; [apply D|]. apply (nth_ext _ _ 0 0); [exact LU|]. intros p Hp.
        destruct (Reqb (nth p us 0) (nth p (numbers_of nos idx) 0)) eqn:EQ; [apply Reqb_true, EQ|exfalso].
        assert (existsb (fun p => negb (Reqb (nth p us 0) (nth p (numbers_of nos idx) 0))) (seq 0 (length idx)) = true); [|congruence].
        apply existsb_exists. exists p. split; [apply in_seq; lia|]. rewrite EQ. reflexivity. }
    destruct X as (p & Hp & NP).
    assert (IU : In (nth p us 0) (numbers_of nos idx)) by (apply D, nth_In; lia).
    apply in_map_iff in IU as (k & EK & Hk). exists (nth p idx 0%nat), k. split; [apply nth_In, Hp|]. split; [exact Hk|].
    rewrite numbers_nth in NP by exact Hp.
    split; [intros C; apply NP; rewrite C, EK; reflexivity|]. rewrite EK. apply EV, Hp.
  Qed.
  (* a number that occurs twice, beside another number: no calibration *)
  Theorem repeated_number cfg src pos d c flags nos v idx g r g' a b :
    cf_breaks c = [] -> accepted c -> cf_calseries c = map Fin flags -> src_no src = map Fin nos -> v <> 0 ->
    lists_series flags v idx -> ~ NoDup (numbers_of nos idx) -> In a idx -> In b idx -> nth a nos 0 <> nth b nos 0 ->
    whole cfg src pos d (Ok c) g <> (Ok r, g').
  Proof.
    intros HB A HF HNo NZ LS ND Ia Ib NEQ E. destruct (distinct_exists (numbers_of nos idx)) as (us & D).
    assert (NE : idx <> []) by (intros ->; destruct Ia).
    destruct (numbers det solve inv least_squares rng randn interp1d interp2d tbase c_from_sp sp_from_c cfg src pos d c flags nos v idx us g r g' HB A HF HNo NZ LS NE D E)
      as (l & per & m & f & _ & _ & _ & _ & EV).
    assert (Ja : In (nth a nos 0) us) by (apply D; unfold numbers_of; apply (in_map (fun i => nth i nos 0)), Ia).
    assert (Jb : In (nth b nos 0) us) by (apply D; unfold numbers_of; apply (in_map (fun i => nth i nos 0)), Ib).
    destruct EV as [(LU & _)|(LU & _)].
    - apply ND. apply (@NoDup_incl_NoDup R us); [apply sorted_NoDup, D|unfold numbers_of; rewrite map_length; lia|]. intros x. apply D.
    - destruct us as [|u [|u' us']]; cbn in LU; try lia. destruct Ja as [Ja|[]]. destruct Jb as [Jb|[]]. congruence.
  Qed.

  (* one profile; given breaks: over the extended reals *)
  Theorem single_fin cfg src pos d c flags v k g r g' : c_from_sp NaN NaN (Fin 0) = NaN ->
    cf_breaks c = [] -> accepted c -> cf_calseries c = map Fin flags -> v <> 0 -> lists_series flags v [k] ->
    whole cfg src pos d (Ok c) g <> (Ok r, g').
  Proof.
    intros HC HB A HF NZ LS. apply (single_profile det solve inv least_squares rng randn interp1d interp2d tbase c_from_sp sp_from_c) with (v := Fin v) (k := k).
    - reflexivity.
    - change (nofZ 0) with (Fin 0). change (@nnan XR XR_Num) with NaN. rewrite HC. reflexivity.
    - exact HB.
    - exact A.
    - rewrite HF. apply flags_in. exists v. split; [reflexivity|]. split; [|exact NZ]. apply (nth_error_In flags k). apply LS. left. reflexivity.
    - rewrite HF. apply calindex_fin, LS.
  Qed.
  Theorem breaks_fin cfg src pos d c flags j g r g' : c_from_sp NaN NaN (Fin 0) = NaN ->
    cf_breaks c <> [] -> cf_calseries c = map Fin flags -> in_series flags j ->
    whole cfg src pos d (Ok c) g = (Ok r, g') -> r = blank_calib src /\ g' = g.
  Proof.
    intros HC HB HF (v & Ev & NZ). apply (given_breaks det solve inv least_squares rng randn interp1d interp2d tbase c_from_sp sp_from_c) with (v := Fin v).
    - reflexivity.
    - change (nofZ 0) with (Fin 0). change (@nnan XR XR_Num) with NaN. rewrite HC. reflexivity.
    - exact HB.
    - rewrite HF. apply flags_in. exists v. split; [reflexivity|]. split; [|exact NZ]. apply (nth_error_In flags j), Ev.
    - rewrite HF. intros C. assert (I : In j (calindex_of (map Fin flags) (Fin v))) by (apply calindex_spec, flagged_fin, Ev). rewrite C in I. destruct I.
  Qed.
End Order.
