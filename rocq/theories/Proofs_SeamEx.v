(* Examples around Greenwich *)
From Coq Require Import String Ascii.
From Coq Require Import ZArith List Bool Reals Lra Lia.
From Verif Require Import Num Np NumFacts Utilities Finders Stats Wrangling Topo Fetchers Spec_Fetchers Saf Helper MapProfile Spec_MapLevel Spec_Utilities Spec_Seam
  Proofs_Utilities2 Proofs_Boxes Proofs_Besthist Proofs_FetchersEx Proofs_MapProfile Proofs_BiasEx Proofs_Seam Proofs_Seam4.
Import Helper Stats Spec_Fetchers ListNotations.
Local Open Scope R_scope.

Ltac decide_R := repeat match goal with
  | |- context [Rlt_dec ?a ?b] => destruct (Rlt_dec a b); [try lra|try lra]
  | |- context [Rle_dec ?a ?b] => destruct (Rle_dec a b); [try lra|try lra] end.

(* a float at 5 E; casts at 5 W, 3 E: recorded 355, 3 *)
Lemma five_columns x : -20 <= x <= 30 -> in_columns 5 x.
Proof. intros H. exists 0%Z. lra. Qed.
Lemma two_sides_recorded : Forall2 (recorded_as 5) [-5; 3] [355; 3] /\ ~ all_beyond [-5; 3] [-5; 3].
Proof.
  split.
  - constructor; [|constructor; [|constructor]].
    + split; [apply five_columns; lra|]. split; [exists (-1)%Z; lra|lra].
    + split; [apply five_columns; lra|]. split; [exists 0%Z; lra|lra].
  - intros [[_ H]|[(x & [<-|[<-|[]]] & H) _]]; try lra. specialize (H 3 ltac:(cbn; auto)). lra.
Qed.
(* casts at 10 W and 5 W only *)
Lemma west_only : Forall2 (recorded_as 5) [-10; -5] [350; 355] /\ all_beyond [-10; -5] [-10; -5] /\
  wrap_longitude (map Fin [350; 355]) = map Fin [350; 355] /\ wrap_float (map Fin [350; 355]) (Fin 5) = Fin 5.
Proof.
  split; [|split; [|split]].
  - constructor; [|constructor; [|constructor]].
    + split; [apply five_columns; lra|]. split; [exists (-1)%Z; lra|lra].
    + split; [apply five_columns; lra|]. split; [exists (-1)%Z; lra|lra].
  - left. split; [exists (-10); split; [now left|lra]|]. intros x [<-|[<-|[]]]; lra.
  - rewrite wrap_R. f_equal. unfold wrapR, seam, norm1, Rltb, Rleb. cbn [map existsb]. decide_R. cbn [orb]. reflexivity.
  - rewrite wrap_float_R. f_equal. unfold floatR, Rltb. cbn [existsb]. decide_R. reflexivity.
Qed.

(* ---- the six casts at 10 E ---- *)
Definition six_cast (i : nat) : cast XR :=
  mkCast (Fin (INR i)) (Fin 10) (Fin 20100101) [mkLevel (Fin 800) (Fin (six_sal i)) (Fin 8); mkLevel (Fin 1200) (Fin (six_sal i)) (Fin 4)] "ctd".
Definition six_db : database XR := fun _ => Some (map six_cast (seq 0 6)).
Lemma six_reads : reads six_db six_read.
Proof.
  intros p. cbn [six_db]. split; [|reflexivity]. exists 2%nat. intros c Hc. apply in_map_iff in Hc as (i & <- & _). reflexivity.
Qed.
Lemma six_four box : four_columns (mc_boxes (six_cfg box)).
Proof. intros row Hr. cbn [mc_boxes six_cfg] in Hr. unfold six_table in Hr. apply in_map_iff in Hr as (k & <- & _). cbn. lia. Qed.
Lemma six_region_in cfg other boxes c : In c (region_casts six_db cfg other boxes) -> c_long c = Fin 10.
Proof.
  assert (S : forall p c, In c (several (of_file six_db p)) -> c_long c = Fin 10).
  { intros p d Hd. cbn [of_file six_db] in Hd. change (several (map six_cast (seq 0 6))) with (map six_cast (seq 0 6)) in Hd. apply in_map_iff in Hd as (i & <- & _). reflexivity. }
  intros H. unfold region_casts in H. apply in_flat_map in H as (row & _ & H). unfold box_casts in H. destruct row as [|n [|a [|b [|d r]]]]; try contradiction.
  destruct (int_of_float n) as [k|]; [|contradiction]. cbv zeta in H. rewrite !in_app_iff in H. unfold if_used in H.
  destruct H as [H|[H|H]]; match type of H with context [if ?q then _ else _] => destruct q end; try contradiction; try (apply filter_In in H as [H _]); now apply S in H.
Qed.
Lemma six_region_some cfg other box boxes : In (six_row box box) boxes -> region_casts six_db cfg other boxes <> [].
Proof.
  intros H E. enough (Q : In (six_cast 0) (region_casts six_db cfg other boxes)) by (rewrite E in Q; destruct Q).
  apply in_flat_map. exists (six_row box box). split; [exact H|]. unfold box_casts, six_row. rewrite Proofs_Topo.int_of_float_Z. cbv zeta. apply in_or_app. left.
  rewrite Nat.eqb_refl. unfold if_used. change (neqb (Fin 1) (nofZ 1)) with (Reqb 1 1). unfold Reqb. destruct (Req_EM_T 1 1); [|lra]. left. reflexivity.
Qed.
(* a profile whose levels are found has casts *)
Lemma levels_history {rng} (seed : Z -> rng) rand g0 qs inv np_interp sa ct tc interp2d tbase read_mat date_str (cfg : map_config XR) name s i fd lev :
  get_float_data s i = Ok fd -> mappable_profile fd ->
  profile_levels seed rand g0 qs inv np_interp sa ct tc interp2d tbase read_mat date_str cfg name s i = Ok lev ->
  exists boxes z g, find_25boxes (fd_long fd) (fd_lat fd) (mc_boxes cfg) = Ok boxes /\
    best_history seed rand g0 qs np_interp sa ct tc interp2d tbase read_mat date_str cfg name fd z = Ok g.
Proof.
  intros EG MP E. unfold profile_levels in E. rewrite EG in E. cbn [bind] in E. assert (U : MapProfile.usable fd = true) by now apply usable_iff. rewrite U in E.
  destruct (elevation _ _ _ _ _ _ _) as [el|]; [|discriminate]. cbn [bind] in E. destruct (best_history _ _ _ _ _ _ _ _ _ _ _ _ _ _ _ _) as [g|] eqn:EH; [|discriminate].
  destruct (find_25boxes (fd_long fd) (fd_lat fd) (mc_boxes cfg)) as [boxes|] eqn:EB; [eauto|]. unfold best_history in EH. rewrite EB in EH. discriminate.
Qed.
(* a float at 10 E *)
Lemma six_mappable : mappable_profile six_float.
Proof. split; [reflexivity|]. split; [reflexivity|]. exists 1%nat. cbn [length fd_pres six_float nth]. split; [lia|reflexivity]. Qed.
Lemma six_at_ten : exists box boxes, find_25boxes (fd_long six_float) (fd_lat six_float) (mc_boxes (six_cfg box)) = Ok boxes /\
  mappable_profile six_float /\ get_float_data six_source 0 = Ok six_float /\ (exists lev o, six_levels box six_source 0 = Ok lev /\ lev 1%nat = Ok (Some o)) /\
  let cs := region_casts six_db (mc_db (six_cfg box)) demo_other boxes in
  cs <> [] /\ located 10 (fun _ => 10) cs /\ ~ all_beyond (map (fun _ => 10) cs) (map (fun _ => 10) cs).
Proof.
  destruct six_profile as (box & lev & o & EL & _ & E1 & _).
  assert (EG : get_float_data six_source 0 = Ok six_float) by reflexivity.
  destruct (levels_history _ _ _ _ _ _ _ _ _ _ _ _ _ _ _ _ _ _ _ EG six_mappable EL) as (boxes & z & g & EB & EH).
  destruct (history_unfold _ _ _ _ _ _ _ _ _ _ _ _ _ _ six_db six_reads demo_other demo_excludes (six_four box) six_float six_mappable boxes EB z g ltac:(discriminate) EH) as [NE _].
  exists box, boxes. split; [exact EB|]. split; [exact six_mappable|]. split; [exact EG|]. split; [eauto|].
  cbv zeta. split; [exact NE|]. clear NE EH EB EL. split.
  - intros c Hc. exists 10. split; [exact (six_region_in _ _ _ c Hc)|]. split; [exists 1%Z; lra|]. split; [exists 0%Z; lra|lra].
  - intros [[(x & Hx & H) _]|[(x & Hx & H) _]]; apply in_map_iff in Hx as (c & <- & _); lra.
Qed.
(* a float at 355 E: the same casts are 15 degrees away *)
Definition far_float : float_data XR := mkFloatData (Fin 2) (Fin 355) (Fin 2010) [Fin 35; Fin 35] [Fin 6; Fin 6] [Fin 6; Fin 6] [Fin 100; Fin 1000].
Lemma six_at_355 : exists box boxes, find_25boxes (fd_long far_float) (fd_lat far_float) (mc_boxes (six_cfg box)) = Ok boxes /\ mappable_profile far_float /\
  let cs := region_casts six_db (mc_db (six_cfg box)) demo_other boxes in
  located 355 (fun _ => 370) cs /\ none_near (map (fun _ => 370) cs).
Proof.
  pose proof (boxes_ok (Fin 355) (Fin 2)) as B. pose proof (box_numbers_range (Fin 355) (Fin 2)) as HR. pose proof (box_numbers_length (Fin 355) (Fin 2)) as L.
  destruct (box_numbers (Fin 355) (Fin 2)) as [|box ns]; [discriminate|]. exists box. eexists. split; [|split].
  - apply B; [reflexivity|reflexivity|]. intros n Hn. apply HR in Hn. cbn [mc_boxes six_cfg]. unfold six_table. rewrite map_length, seq_length. lia.
  - split; [reflexivity|]. split; [reflexivity|]. exists 1%nat. cbn. split; [lia|reflexivity].
  - cbv zeta. split.
    + intros c Hc. exists 10. split; [eapply six_region_in; exact Hc|]. split; [exists 35%Z; lra|]. split; [exists 1%Z; lra|lra].
    + right. split; [|intros x Hx; apply in_map_iff in Hx as (c & <- & _); lra].
      match goal with |- map _ (region_casts _ ?a ?b ?bx) <> _ => assert (NE : region_casts six_db a b bx <> []) end; [|destruct (region_casts _ _ _ _); [congruence|discriminate]].
      apply (six_region_some _ _ box). cbn [map]. left. pose proof (HR box (or_introl eq_refl)) as Hb. cbn [mc_boxes six_cfg]. unfold six_table.
      rewrite (nth_map (six_row box) (seq 1 648) (box - 1) [] 0%nat) by (rewrite seq_length; lia). rewrite seq_nth by lia. f_equal. lia.
Qed.
Lemma other_side_of_greenwich : exists l xs rs, 0 <= l < 360 /\ Forall2 (recorded_as l) xs rs /\
  exists ws f, wrap_longitude (map Fin rs) = map Fin ws /\ wrap_float (map Fin ws) (Fin l) = Fin f /\
  f - nth 0 ws 0 = -345 /\ l - nth 0 xs 0 = 15.
Proof.
  destruct west_only as (H1 & _ & H2 & H3). exists 5, [-10; -5], [350; 355]. split; [lra|]. split; [exact H1|]. exists [350; 355], 5.
  split; [exact H2|]. split; [exact H3|]. cbn. lra.
Qed.
