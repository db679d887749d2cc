(* The level at 1000 dbar, from the six casts *)
From Coq Require Import String Ascii.
From Coq Require Import ZArith List Bool Reals Lra Lia.
From Verif Require Import Num Np NumFacts Utilities Finders Stats Wrangling Topo Fetchers Spec_Fetchers Saf Helper MapProfile Spec_Helper Spec_Interp Spec_MapLevel Spec_Utilities Spec_Seam
  Spec_Whole Proofs_Utilities2 Proofs_Boxes Proofs_Besthist Proofs_FetchersEx Proofs_MapProfile Proofs_BiasEx Proofs_Seam Proofs_Seam4 Proofs_SeamEx.
Import Helper Stats Spec_Fetchers ListNotations.
Local Open Scope R_scope.

Lemma six_region_casts cfg other box ns : ~ In box ns -> region_casts six_db cfg other (six_row box box :: map (six_row box) ns) = map six_cast (seq 0 6).
Proof.
  intros NI. assert (N0 : neqb (Fin 0) (nofZ 1) = false) by (cbn; unfold Reqb; destruct (Req_EM_T 0 1); [lra|reflexivity]).
  assert (N1 : neqb (Fin 1) (nofZ 1) = true) by (cbn; unfold Reqb; destruct (Req_EM_T 1 1); [reflexivity|lra]).
  assert (Z : forall k, k <> box -> box_casts six_db cfg other (six_row box k) = []).
  { intros k Hk. unfold box_casts, six_row. rewrite Proofs_Topo.int_of_float_Z. cbv zeta. destruct (Nat.eqb_spec k box); [contradiction|]. unfold if_used. rewrite !N0. reflexivity. }
  unfold region_casts. cbn [flat_map]. assert (ZZ : flat_map (box_casts six_db cfg other) (map (six_row box) ns) = []).
  { induction ns as [|k ns IH]; [reflexivity|]. cbn [map flat_map]. rewrite Z by (intros ->; apply NI; now left). rewrite IH by (intros H; apply NI; now right). reflexivity. }
  rewrite ZZ, app_nil_r. unfold box_casts, six_row. rewrite Proofs_Topo.int_of_float_Z. cbv zeta. rewrite Nat.eqb_refl. unfold if_used. rewrite N1, !N0. cbn [app].
  rewrite app_nil_r. reflexivity.
Qed.
Lemma six_deep i : Spec_Fetchers.levels (Fin 1250) (six_cast i) = c_levels (six_cast i).
Proof.
  unfold Spec_Fetchers.levels, six_cast. cbn [c_levels filter l_pres nisnan XR_Num negb andb]. change (nltb (Fin 1250) (Fin 800)) with (Rltb 1250 800). change (nltb (Fin 1250) (Fin 1200)) with (Rltb 1250 1200).
  unfold Rltb. destruct (Rlt_dec 1250 800); [lra|]. destruct (Rlt_dec 1250 1200); [lra|]. reflexivity.
Qed.
Lemma six_one_year : change_date (T := XR) (six_date (Fin 20100101)) = Fin 2010.
Proof. pose proof six_year as E. unfold change_dates in E. cbn [repeat map] in E. now injection E. Qed.
Lemma six_gives i : gives_point six_date (Fin 1250) (fun _ => 10) 6 1000 250 (six_cast i) (Fin 4000) (mkHpoint (six_sal i) 1000 10 (INR i) 2010 4000).
Proof.
  unfold gives_point. cbn [hp_lat hp_long hp_date hp_z hp_sal hp_pres six_cast c_lat c_date].
  split; [reflexivity|]. split; [reflexivity|]. split; [exact six_one_year|]. split; [reflexivity|]. split; [|replace (1000 - 1000) with 0 by lra; rewrite Rabs_R0; lra].
  left. exists 0%nat. unfold cast_samples. rewrite six_deep. unfold six_cast. cbn [c_levels flat_map l_sal l_ptmp l_pres Spec_Interp.complete opt_list app].
  assert (B : forall k, encloses [(six_sal i, 8, 800); (six_sal i, 4, 1200)] 6 k -> k = 0%nat) by (intros k [H _]; cbn in H; lia).
  split; [|f_equal; f_equal; unfold between, at_; cbn; field].
  split; [split; [cbn; lia|right; unfold at_; cbn; lra]|]. split; [unfold sloped, at_; cbn; lra|].
  intros k' HE _. rewrite (B k' HE). split; [lra|lia].
Qed.
Lemma six_points l : points_from six_date (Fin 1250) (fun _ => 10) 6 1000 250 (combine (map six_cast l) (repeat (Fin 4000) (length l)))
  (map (fun i => mkHpoint (six_sal i) 1000 10 (INR i) 2010 4000) l).
Proof. induction l as [|i l IH]; [constructor|]. cbn [map length repeat combine]. constructor; [apply six_gives|exact IH]. Qed.
Lemma six_limit : nadd (nanmax (fd_pres six_float)) (Fin 250) = Fin 1250.
Proof.
  cbn [fd_pres six_float]. unfold nanmax, drop_nan. cbn [filter nisnan XR_Num negb]. unfold max_from. cbn [fold_left]. change (nltb (Fin 100) (Fin 1000)) with (Rltb 100 1000).
  unfold Rltb. destruct (Rlt_dec 100 1000); [|lra]. cbn. f_equal. lra.
Qed.
Lemma six_whole : exists box boxes, find_25boxes (fd_long six_float) (fd_lat six_float) (mc_boxes (six_cfg box)) = Ok boxes /\
  let cs := region_casts six_db (mc_db (six_cfg box)) demo_other boxes in
  cs = map six_cast (seq 0 6) /\ located 10 (fun _ => 10) cs /\ ~ all_beyond (map (fun _ => 10) cs) (map (fun _ => 10) cs) /\
  search (fun _ => tt) (fun _ n => (repeat (Fin 0) n, tt)) tt argsort (six_cfg box) six_float (Fin 10) (Fin 4000)
    (offered six_date cs (map (fun _ => Fin 10) cs) (repeat (Fin 4000) 6)) = Ok (seq 0 6) /\
  nadd (nanmax (fd_pres six_float)) (map_p_delta (mc_db (six_cfg box))) = Fin 1250 /\
  filter (has_data (Fin 1250)) (selected (seq 0 6) cs) = cs /\
  points_from six_date (Fin 1250) (fun _ => 10) 6 1000 250 (combine cs (map (fun k => nth k (repeat (Fin 4000) 6) nnan) (seq 0 6))) Proofs_MapLevel.six /\
  length Proofs_MapLevel.six = 6%nat.
Proof.
  destruct six_boxes as (box & ns & EB & NI). exists box. eexists. split; [exact EB|]. cbv zeta. rewrite six_region_casts by exact NI. clear EB NI.
  assert (HC : forall c, In c (map six_cast (seq 0 6)) -> c_long c = Fin 10) by (intros c Hc; apply in_map_iff in Hc as (i & <- & _); reflexivity).
  split; [reflexivity|]. split; [|split].
  - intros c Hc. exists 10. split; [exact (HC c Hc)|]. split; [exists 1%Z; lra|]. split; [exists 0%Z; lra|lra].
  - intros [[(x & Hx & H) _]|[(x & Hx & H) _]]; apply in_map_iff in Hx as (c & <- & _); lra.
  - split; [|split; [exact six_limit|split; [|split; [exact (six_points (seq 0 6))|reflexivity]]]].
    + unfold search. change (fd_lat six_float) with (Fin 2). change (fd_date six_float) with (Fin 2010).
      assert (EO : offered six_date (map six_cast (seq 0 6)) (map (fun _ => Fin 10) (map six_cast (seq 0 6))) (repeat (Fin 4000) 6) = six_grid).
      { unfold offered, six_grid. cbn [seq map combine repeat fst snd six_cast c_lat c_date]. rewrite six_one_year. reflexivity. }
      rewrite EO. exact (six_best tt).
    + change (selected (seq 0 6) (map six_cast (seq 0 6))) with (map six_cast (seq 0 6)). generalize (seq 0 6) as l. induction l as [|i l IH]; [reflexivity|]. cbn [map filter].
      assert (HD : has_data (Fin 1250) (six_cast i) = true) by (unfold has_data; rewrite six_deep; reflexivity). rewrite HD. now rewrite IH.
Qed.
