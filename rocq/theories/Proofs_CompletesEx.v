(* A float whose mapping completes *)
From Coq Require Import String Ascii.
From Coq Require Import ZArith List Bool Reals Lra Lia.
From Verif Require Import Num Np NumFacts Utilities Finders Stats Wrangling Topo Fetchers Spec_Fetchers Saf Helper MapProfile Mapping Spec_Finders Spec_Stats Spec_FitCond Spec_Map Spec_Mapping
  Spec_Topo Spec_Depth Spec_Helper Spec_Interp Spec_MapLevel Spec_Utilities Spec_Bias Spec_Seam Spec_Whole Spec_Completes Proofs_Utilities2 Proofs_Boxes Proofs_Besthist Proofs_FetchersEx
  Proofs_Drift5 Proofs_MapProfile Proofs_BiasEx Proofs_Seam Proofs_Seam4 Proofs_SeamEx Proofs_Whole Proofs_WholeEx Proofs_Completes4 Proofs_MappingEx Proofs_FindersEx Proofs_FC11.
Import Helper Stats Spec_Fetchers ListNotations.
Local Open Scope R_scope.

Lemma points_unique date_str limit pos t p delta l pts pts' : points_from date_str limit pos t p delta l pts -> points_from date_str limit pos t p delta l pts' -> pts = pts'.
Proof.
  intros H. revert pts'. induction H as [|c z q l pts G H IH|c z l pts N H IH]; intros pts' H'; inversion H'; subst; auto.
  - f_equal; [|now apply IH]. match goal with G' : gives_point _ _ _ _ _ _ c z ?b |- _ => rename G' into G2; rename b into q' end.
    destruct G as (A1 & A2 & A3 & A4 & A5 & _), G2 as (B1 & B2 & B3 & B4 & B5 & _). pose proof (gives_unique _ _ _ _ _ A5 B5) as E.
    destruct q, q'; cbn in *. congruence.
  - exfalso. match goal with X : forall q, ~ _, Y : gives_point _ _ _ _ _ _ _ _ _ |- _ => exact (X _ Y) end.
  - exfalso. match goal with X : forall q, ~ _, Y : gives_point _ _ _ _ _ _ _ _ _ |- _ => exact (X _ Y) end.
Qed.
Lemma six_answers : answers six_sea.
Proof. intros x y e a b. eexists. reflexivity. Qed.
Lemma six_rand : rand_ok (fun (_ : unit) n => (repeat (Fin 0) n, tt)).
Proof.
  intros g k. exists (repeat 0 k). cbn [fst]. split; [induction k; [reflexivity|cbn; now f_equal]|]. split; [apply repeat_length|].
  apply Forall_forall. intros u Hu. apply repeat_spec in Hu. subst. lra.
Qed.
Lemma six_best_any z g : fst (find_besthist (fun _ => tt) (fun _ n => (repeat (Fin 0) n, tt)) argsort (Fin 2) (Fin 10) (Fin 2010) (Fin z)
    (Fin 4) (Fin 2) (Fin 8) (Fin 4) (Fin 1) (Fin 1) (Fin 10) (Fin 5) 0 six_grid 300 g) = Ok (seq 0 6).
Proof.
  rewrite <- (six_best g). unfold find_besthist, ellipse_index, pv_float, pv_casts, use_pv. reflexivity.
Qed.
Lemma six_offered : offered six_date (map six_cast (seq 0 6)) (map (fun _ => Fin 10) (map six_cast (seq 0 6))) (repeat (Fin 4000) 6) = six_grid.
Proof. unfold offered, six_grid. cbn [seq map combine repeat fst snd six_cast c_lat c_date]. rewrite six_one_year. reflexivity. Qed.
Lemma six_depths depths : depths_of six_sea (map six_cast (seq 0 6)) depths -> depths = repeat (Fin 4000) 6.
Proof.
  intros (L & x & y & e & HD). rewrite map_length, seq_length in L. apply (nth_ext _ _ nnan nnan); [now rewrite L|]. intros i Hi. rewrite L in Hi.
  destruct (nth_error (map six_cast (seq 0 6)) i) as [c|] eqn:Ec; [|apply nth_error_None in Ec; cbn in Ec; lia].
  destruct (HD i c Ec) as (v & Ev & ->). unfold six_sea in Ev. apply ok_inj in Ev. subst v. change (nmul (nofZ (-1)) (Fin (-4000))) with (Fin (-1 * -4000)).
  replace (-1 * -4000) with 4000 by lra. do 6 (destruct i as [|i]; [reflexivity|]). lia.
Qed.
Section Six.
  Variable box : nat.
  Notation search z d := (search (fun _ => tt) (fun _ n => (repeat (Fin 0) n, tt)) tt argsort (six_cfg box) six_float (Fin 10) (Fin z)
    (offered six_date (map six_cast (seq 0 6)) (map (fun _ => Fin 10) (map six_cast (seq 0 6))) d)).
  Lemma six_search z depths index : depths_of six_sea (map six_cast (seq 0 6)) depths -> search z depths = Ok index -> index = seq 0 6 /\ depths = repeat (Fin 4000) 6.
  Proof.
    intros HD. pose proof (six_depths _ HD) as ->. rewrite six_offered. unfold Spec_Seam.search. change (fd_lat six_float) with (Fin 2). change (fd_date six_float) with (Fin 2010).
    change (mc_lat_large (six_cfg box)) with (Fin 4). change (mc_lat_small (six_cfg box)) with (Fin 2). change (mc_long_large (six_cfg box)) with (Fin 8). change (mc_long_small (six_cfg box)) with (Fin 4).
    change (mc_phi_large (six_cfg box)) with (Fin 1). change (mc_phi_small (six_cfg box)) with (Fin 1). change (mc_age_large (six_cfg box)) with (Fin 10). change (mc_age_small (six_cfg box)) with (Fin 5).
    change (mc_use_pv (six_cfg box)) with 0%Z. change (mc_max_casts (six_cfg box)) with 300%Z. rewrite six_best_any. intros E. apply ok_inj in E. now subst.
  Qed.
  Lemma six_selected : selected (seq 0 6) (map six_cast (seq 0 6)) = map six_cast (seq 0 6).
  Proof. reflexivity. Qed.
  Lemma six_level_points t p pts : level_points (fun _ => tt) (fun _ n => (repeat (Fin 0) n, tt)) tt argsort six_sea six_date (six_cfg box) 250 six_float (map six_cast (seq 0 6)) (fun _ => 10) t p pts ->
    points_from six_date (Fin 1250) (fun _ => 10) t p 250 (combine (map six_cast (seq 0 6)) (repeat (Fin 4000) 6)) pts.
  Proof.
    intros (l & z & depths & index & El & HD & ES & HP). change (fd_long six_float) with (Fin 10) in El. injection El as <-.
    destruct (six_search z depths index HD ES) as [-> ->]. rewrite six_selected in HP. change (map_p_delta (mc_db (six_cfg box))) with (Fin 250) in HP. rewrite six_limit in HP. exact HP.
  Qed.
  Lemma six_mapped_at n t p : mapped_at 500 six_float n t p -> t = 6 /\ p = 1000.
  Proof.
    intros (_ & Et & Ep & GE). destruct n as [|[|[|n]]]; cbn in Et, Ep; try discriminate; injection Et as <-; injection Ep as <-; [lra|auto].
  Qed.
  Lemma six_ready ns : find_25boxes (Fin 10) (Fin 2) (six_table box) = Ok (six_row box box :: map (six_row box) ns) -> ~ In box ns ->
    ready (fun _ => tt) (fun _ n => (repeat (Fin 0) n, tt)) tt argsort six_sea six_date (six_cfg box) six_large 250 500 six_db demo_other six_float (map six_cast (seq 0 6)) (fun _ => 10).
  Proof.
    intros EB NI. assert (HC : forall c, In c (map six_cast (seq 0 6)) -> exists i, c = six_cast i /\ (i < 6)%nat).
    { intros c Hc. apply in_map_iff in Hc as (i & <- & Hi). apply in_seq in Hi. exists i. split; [reflexivity|lia]. }
    assert (NB : ~ all_beyond (map (fun _ => 10) (map six_cast (seq 0 6))) (map (fun _ => 10) (map six_cast (seq 0 6)))).
    { intros [[(x & Hx & H) _]|[(x & Hx & H) _]]; apply in_map_iff in Hx as (c & <- & _); lra. }
    split; [split; [reflexivity|split; [reflexivity|]]; exists 1%nat; split; [cbn; lia|reflexivity]|].
    split; [exists 2010; reflexivity|]. split; [reflexivity|]. split; [reflexivity|]. exists 10, 2. split; [reflexivity|]. split; [reflexivity|].
    split; [lra|]. split; [unfold on_map; lra|]. split.
    { intros boxes E. change (fd_long six_float) with (Fin 10) in E. change (fd_lat six_float) with (Fin 2) in E. change (mc_boxes (six_cfg box)) with (six_table box) in E. rewrite EB in E. apply ok_inj in E. subst boxes.
      symmetry. now apply six_region_casts. }
    split; [intros c Hc; destruct (HC c Hc) as (i & -> & _); exists 10; split; [reflexivity|]; split; [exists 1%Z; lra|]; split; [exists 0%Z; lra|lra]|].
    split; [exact NB|]. change (map_p_delta (mc_db (six_cfg box))) with (Fin 250). rewrite six_limit. split.
    { apply Forall_forall. intros c Hc. destruct (HC c Hc) as (i & -> & Hi). split; [exists 10, (INR i); split; [reflexivity|]; split; [reflexivity|]|].
      - unfold on_map. assert (INR i <= INR 6) by (apply le_INR; lia). cbn [INR] in *. pose proof (pos_INR i). lra.
      - unfold cast_samples. rewrite six_deep. unfold six_cast. cbn [c_levels flat_map l_sal l_ptmp l_pres Spec_Interp.complete opt_list app length]. split; [lia|].
        intros k Hk. assert (k = 0%nat) by lia. subst k. unfold sloped, at_. cbn. lra. }
    split; [apply Exists_exists; exists (six_cast 2); split; [apply in_map; apply in_seq; lia|]; exists (INR 2); split; [reflexivity|]; cbn; lra|].
    split.
    - intros z depths index HD ES. destruct (six_search z depths index HD ES) as [-> ->]. rewrite six_selected. exact NB.
    - intros n t p pts MA LP H5. destruct (six_mapped_at n t p MA) as [-> ->]. apply six_level_points in LP.
      rewrite (points_unique _ _ _ _ _ _ _ _ _ LP (six_points (seq 0 6))). exists (1 / 2). change (map _ (seq 0 6)) with Proofs_MapLevel.six. rewrite Proofs_MapLevel.six_kept. split; [exact Proofs_MapLevel.six_noise|lra].
  Qed.
End Six.
Lemma six_completes : exists box, four_columns (mc_boxes (six_cfg box)) /\ length (mc_boxes (six_cfg box)) = 648%nat /\
  get_float_data six_source 0 = Ok six_float /\ length (fd_sal six_float) = src_levels six_source /\ mappable_profile six_float /\
  ready (fun _ => tt) (fun _ n => (repeat (Fin 0) n, tt)) tt argsort six_sea six_date (six_cfg box) six_large 250 500 six_db demo_other six_float (map six_cast (seq 0 6)) (fun _ => 10) /\
  mapped_at 500 six_float 1 6 1000 /\
  forall pts, level_points (fun _ => tt) (fun _ n => (repeat (Fin 0) n, tt)) tt argsort six_sea six_date (six_cfg box) 250 six_float (map six_cast (seq 0 6)) (fun _ => 10) 6 1000 pts -> (5 < length pts)%nat.
Proof.
  destruct six_boxes as (box & ns & EB & NI). exists box. split; [apply six_four|]. split; [cbn [mc_boxes six_cfg]; unfold six_table; rewrite map_length; apply seq_length|].
  split; [reflexivity|]. split; [reflexivity|]. pose proof (six_ready box ns EB NI) as R. split; [apply R|]. split; [exact R|]. split.
  - split; [exists 35; reflexivity|]. split; [reflexivity|]. split; [reflexivity|lra].
  - intros pts LP. apply six_level_points in LP. rewrite (points_unique _ _ _ _ _ _ _ _ _ LP (six_points (seq 0 6))). cbn. lia.
Qed.
Lemma six_ends : exists box st' d, six_mapping box six_read (fun _ => None) = (Ok tt, st') /\ st' (save_path [] demo_paths "3901960"%string) = Some d.
Proof.
  destruct six_completes as (box & H4 & H648 & EG & LS & _ & RD & MA & PTS). exists box. destruct (six_scales box) as (HC & NL & NS).
  unfold six_mapping. eapply (mapping_completes _ _ _ _ _ _ _ _ _ _ _ _ _ _ _ six_rand argsort_is_ok exact_inv_ok flat_file six_answers six_large six_small HC NL NS); try eassumption; try reflexivity.
  - cbn. lra.
  - right. cbn. lia.
  - discriminate.
  - exact six_reads.
  - exact demo_excludes.
  - exact argsort_sorting.
  - intros i Hi. assert (i = 0%nat) by (cbn in Hi; lia). subst i. exists six_float. split; [exact EG|]. split; [exact LS|]. intros _. eexists. eexists. exact RD.
  - exists 0%nat, six_float. eexists. eexists. exists 1%nat, 6, 1000. split; [cbn; lia|]. split; [exact EG|]. split; [exact RD|]. split; [exact MA|exact PTS].
Qed.
