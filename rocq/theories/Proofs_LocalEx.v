(* Six casts around the float, and six casts with others far away *)
From Coq Require Import String Ascii.
From Coq Require Import ZArith List Bool Reals Lra Lia.
From Verif Require Proofs_FindersEx.
From Verif Require Import Num Np NumFacts NpFacts Utilities Finders Stats Wrangling Topo Fetchers Spec_Fetchers Saf Helper MapProfile Spec_Finders Spec_Stats Spec_FitCond Spec_Map
  Spec_Depth Spec_Helper Spec_Interp Spec_MapLevel Spec_Utilities Spec_Bias Spec_Seam Spec_Whole Spec_Completes Spec_Local Proofs_Boxes Proofs_MapLevel Proofs_FC11 Proofs_Drift5
  Proofs_Besthist Proofs_FetchersEx Proofs_BiasEx Proofs_SeamEx Proofs_Whole Proofs_Whole2 Proofs_WholeEx Proofs_Symm2 Proofs_Completes2 Proofs_CompletesEx Proofs_Local Proofs_Local2.
Import Helper Stats Spec_Fetchers ListNotations.
Local Open Scope R_scope.

(* the six casts and those at the latitudes of the list *)
Definition with_far (far : list nat) : list (cast XR) := map six_cast (seq 0 6 ++ far).
Definition far_db (far : list nat) : database XR := fun _ => Some (with_far far).
Definition far_read (far : list nat) (_ : string) : res (ref_data XR) := Ok (stored (with_far far)).
Definition far_levels (box : nat) (far : list nat) := profile_levels (fun _ => tt) (fun _ n => (repeat (Fin 0) n, tt)) tt argsort exact_inv (fun x _ _ => x) (fun x _ _ _ => x) (fun x _ => x) (fun x _ _ => x)
  six_sea flat_sea (far_read far) six_date (six_cfg box) "3901960".
Lemma far_reads far : reads (far_db far) (far_read far).
Proof. intros p. cbn [far_db]. split; [|reflexivity]. exists 2%nat. intros c Hc. apply in_map_iff in Hc as (i & <- & _). reflexivity. Qed.
Lemma far_region far cfg other box ns : ~ In box ns -> region_casts (far_db far) cfg other (six_row box box :: map (six_row box) ns) = with_far far.
Proof.
  intros NI. assert (N0 : neqb (Fin 0) (nofZ 1) = false) by (cbn; unfold Reqb; destruct (Req_EM_T 0 1); [lra|reflexivity]).
  assert (N1 : neqb (Fin 1) (nofZ 1) = true) by (cbn; unfold Reqb; destruct (Req_EM_T 1 1); [reflexivity|lra]).
  assert (Z : forall k, k <> box -> box_casts (far_db far) cfg other (six_row box k) = []).
  { intros k Hk. unfold box_casts, six_row. rewrite Proofs_Topo.int_of_float_Z. cbv zeta. destruct (Nat.eqb_spec k box); [contradiction|]. unfold if_used. rewrite !N0. reflexivity. }
  unfold region_casts. cbn [flat_map]. assert (ZZ : flat_map (box_casts (far_db far) cfg other) (map (six_row box) ns) = []).
  { induction ns as [|k ns IH]; [reflexivity|]. cbn [map flat_map]. rewrite Z by (intros ->; apply NI; now left). rewrite IH by (intros H; apply NI; now right). reflexivity. }
  rewrite ZZ, app_nil_r. unfold box_casts, six_row. rewrite Proofs_Topo.int_of_float_Z. cbv zeta. rewrite Nat.eqb_refl. unfold if_used. rewrite N1, !N0. cbn [app].
  rewrite app_nil_r. reflexivity.
Qed.
Notation ten := (fun _ : cast XR => 10).
Section Far.
  Variable far : list nat.
  Hypothesis HF : forall i, In i far -> (20 <= i <= 80)%nat.
  Lemma far_in c : In c (with_far far) -> exists i, c = six_cast i /\ (i <= 80)%nat.
  Proof. intros Hc. apply in_map_iff in Hc as (i & <- & Hi). exists i. split; [reflexivity|]. apply in_app_or in Hi as [Hi|Hi]; [apply in_seq in Hi; lia|]. apply HF in Hi. lia. Qed.
  Lemma far_near : filter (near 10 2 six_large ten) (with_far far) = map six_cast (seq 0 6).
  Proof.
    unfold with_far. rewrite map_app, filter_app.
    assert (A : filter (near 10 2 six_large ten) (map six_cast (seq 0 6)) = map six_cast (seq 0 6)).
    { apply Proofs_Completes.filter_all. intros c Hc. apply in_map_iff in Hc as (i & <- & Hi). apply in_seq in Hi. unfold near. cbn [six_cast Spec_Fetchers.c_lat six_large s_long s_lat].
      assert (L : INR i <= INR 5) by (apply le_INR; lia). pose proof (pos_INR i) as L'. cbn [INR] in L. destruct (Rlt_dec _ 1) as [_|N]; [reflexivity|]. exfalso. apply N.
      set (x := INR i) in *. replace ((10 - 10) / (3 * 8)) with 0 by field. replace ((x - 2) / (3 * 4)) with ((x - 2) * / 12) by field. nra. }
    assert (B : filter (near 10 2 six_large ten) (map six_cast far) = []).
    { clear A. induction far as [|i r IH]; [reflexivity|]. cbn [map filter].
      assert (E : near 10 2 six_large ten (six_cast i) = false).
      { unfold near. cbn [six_cast Spec_Fetchers.c_lat six_large s_long s_lat]. assert (L : INR 20 <= INR i) by (apply le_INR; apply HF; now left).
        assert (L20 : INR 20 = 20) by (rewrite INR_IZR_INZ; reflexivity). rewrite L20 in L. destruct (Rlt_dec _ 1) as [Y|_]; [|reflexivity]. exfalso. revert Y.
        set (x := INR i) in *. replace ((10 - 10) / (3 * 8)) with 0 by field. replace ((x - 2) / (3 * 4)) with ((x - 2) * / 12) by field. nra. }
      rewrite E. apply IH. intros j Hj. apply HF. now right. }
    rewrite A, B. apply app_nil_r.
  Qed.
  Lemma far_located : located 10 ten (with_far far).
  Proof. intros c Hc. destruct (far_in c Hc) as (i & -> & _). exists 10. split; [reflexivity|]. split; [exists 1%Z; lra|]. split; [exists 0%Z; lra|lra]. Qed.
  Lemma ten_within (cs ks : list (cast XR)) : ~ all_beyond (map ten cs) (map ten ks).
  Proof. intros [[(x & Hx & H) _]|[(x & Hx & H) _]]; apply in_map_iff in Hx as (c & <- & _); lra. Qed.
  Lemma far_lats c : In c (with_far far) -> Spec_Bias.number (Spec_Fetchers.c_lat c).
  Proof. intros Hc. destruct (far_in c Hc) as (i & -> & _). exists (INR i). reflexivity. Qed.
  Lemma six_flat_points : points_from six_date (Fin 1250) ten 6 1000 250 (map (fun c => (c, Fin 0)) (map six_cast (seq 0 6))) (map flat six).
  Proof. apply (points_flat _ _ _ _ _ _ _ _ _ (six_points (seq 0 6))); [reflexivity|]. intros z Hz. apply repeat_spec in Hz. subst. now exists 4000. Qed.
  Lemma six_flat_noise : noise_estimate (Spec_MapLevel.kept (map flat six)) (1 / 2).
  Proof.
    rewrite (kept_iso flat (fun q => eq_refl)), six_kept. apply noise_iso; [reflexivity|intros p q; reflexivity|intros p q; reflexivity|exact six_noise].
  Qed.
  Lemma six_has_data : filter (has_data (Fin 1250)) (filter loadable (map six_cast (seq 0 6))) = map six_cast (seq 0 6).
  Proof.
    change (filter loadable (map six_cast (seq 0 6))) with (map six_cast (seq 0 6)). apply Proofs_Completes.filter_all. intros c Hc. apply in_map_iff in Hc as (i & <- & _).
    unfold has_data. rewrite six_deep. reflexivity.
  Qed.
  Lemma far_ready box ns : find_25boxes (Fin 10) (Fin 2) (six_table box) = Ok (six_row box box :: map (six_row box) ns) -> ~ In box ns ->
    ready (fun _ => tt) (fun _ n => (repeat (Fin 0) n, tt)) tt argsort six_sea six_date (six_cfg box) six_large 250 500 (far_db far) demo_other six_float (with_far far) ten.
  Proof.
    intros EB NI. destruct (six_scales box) as (HC & NL & NS). assert (SN : soundings six_sea (s_pv six_large)) by apply six_known.
    assert (HQ : (Z.of_nat (length (filter (near 10 2 six_large ten) (with_far far))) <= mc_max_casts (six_cfg box))%Z) by (rewrite far_near; cbn; lia).
    split; [exact six_mappable|].
    split; [exists 2010; reflexivity|]. split; [reflexivity|]. split; [reflexivity|]. exists 10, 2. split; [reflexivity|]. split; [reflexivity|].
    split; [lra|]. split; [unfold on_map; lra|]. split.
    { intros boxes E. change (fd_long six_float) with (Fin 10) in E. change (fd_lat six_float) with (Fin 2) in E. change (mc_boxes (six_cfg box)) with (six_table box) in E. rewrite EB in E. assert (E2 : boxes = six_row box box :: map (six_row box) ns) by congruence. subst boxes.
      symmetry. now apply far_region. }
    split; [exact far_located|]. split; [apply ten_within|]. change (map_p_delta (mc_db (six_cfg box))) with (Fin 250). rewrite six_limit. split.
    { apply Forall_forall. intros c Hc. destruct (far_in c Hc) as (i & -> & Hi). split; [exists 10, (INR i); split; [reflexivity|]; split; [reflexivity|]|].
      - unfold on_map. assert (L : INR i <= INR 80) by (apply le_INR; lia). assert (L80 : INR 80 = 80) by (rewrite INR_IZR_INZ; reflexivity). rewrite L80 in L. pose proof (pos_INR i). lra.
      - unfold cast_samples. rewrite six_deep. unfold six_cast. cbn [c_levels flat_map l_sal l_ptmp l_pres Spec_Interp.complete opt_list app length]. split; [lia|].
        intros k Hk. assert (k = 0%nat) by lia. subst k. unfold sloped, at_. cbn. lra. }
    split; [apply Exists_exists; exists (six_cast 2); split; [apply in_map, in_or_app; left; apply in_seq; lia|]; exists (INR 2); split; [reflexivity|]; cbn; lra|].
    split; [intros z depths index HD ES; apply ten_within|].
    intros n t p pts MA (l & z & depths & index & El & HD & ES & HP) H5. change (fd_long six_float) with (Fin 10) in El. injection El as <-. destruct (six_mapped_at n t p MA) as [-> ->].
    destruct (search_near (fun _ => tt) (fun _ n => (repeat (Fin 0) n, tt)) tt argsort six_sea six_date (six_cfg box) six_large six_small HC NL NS SN eq_refl six_float 10 2 2010 eq_refl eq_refl
      (with_far far) far_lats ten HQ z depths index HD ES) as [EN BI].
    destruct (depths_finite six_sea six_large SN 10 2 (with_far far) ten depths HD) as [LD FD].
    change (map_p_delta (mc_db (six_cfg box))) with (Fin 250) in HP. rewrite six_limit in HP. apply points_flat in HP.
    - assert (ESel : selected index (with_far far) = map six_cast (seq 0 6)) by (unfold selected; rewrite EN, far_near; reflexivity). rewrite ESel in HP.
      pose proof (points_unique _ _ _ _ _ _ _ _ _ HP six_flat_points) as EP. exists (1 / 2). split; [|lra]. apply noise_flat.
      rewrite <- (kept_iso flat (fun q => eq_refl)), EP. exact six_flat_noise.
    - rewrite map_length. unfold selected. eapply Nat.le_trans; [apply Proofs_Whole2.filter_length|]. apply numbered_length.
    - intros z0 Hz. apply in_map_iff in Hz as (k & <- & Hk). apply FD, nth_In. rewrite LD. now apply BI.
  Qed.
  Lemma far_completes box ns : find_25boxes (Fin 10) (Fin 2) (six_table box) = Ok (six_row box box :: map (six_row box) ns) -> ~ In box ns ->
    exists lev, far_levels box far six_source 0 = Ok lev.
  Proof.
    intros EB NI. destruct (six_scales box) as (HC & NL & NS). unfold far_levels.
    edestruct (profile_completes (fun _ => tt) (fun _ n => (repeat (Fin 0) n, tt)) tt argsort exact_inv (fun x _ _ => x) (fun x _ _ _ => x) (fun x _ => x) (fun x _ _ => x)
      six_sea flat_sea (far_read far) six_date (six_cfg box) "3901960" six_rand Proofs_FindersEx.argsort_is_ok exact_inv_ok flat_file six_answers six_large six_small HC NL NS) as (lev & E & _);
      [cbn; lra|reflexivity|right; cbn; lia|discriminate|reflexivity|reflexivity|apply far_reads|exact demo_excludes|apply six_four| |exact (eq_refl : get_float_data six_source 0 = Ok six_float)|exact (far_ready box ns EB NI)|].
    - cbn [mc_boxes six_cfg]. unfold six_table. rewrite map_length. apply seq_length.
    - exists lev. exact E.
  Qed.
End Far.
(* a seventh cast at 40 N makes no difference *)
Lemma far_example : exists box boxes, find_25boxes (fd_long six_float) (fd_lat six_float) (mc_boxes (six_cfg box)) = Ok boxes /\
  region_casts (far_db []) (mc_db (six_cfg box)) demo_other boxes = map six_cast (seq 0 6) /\
  region_casts (far_db [40%nat]) (mc_db (six_cfg box)) demo_other boxes = map six_cast (seq 0 6 ++ [40%nat]) /\
  exists lev lev' value err o, far_levels box [] six_source 0 = Ok lev /\ far_levels box [40%nat] six_source 0 = Ok lev' /\
    lev' 1%nat = Ok (Some o) /\ lo_sal o = Fin value /\ lo_err o = Fin err /\ (same_outcome (lev 1%nat) (lev' 1%nat) \/ same_outcome (lev' 1%nat) (lev 1%nat)).
Proof.
  destruct six_boxes as (box & ns & EB & NI). exists box, (six_row box box :: map (six_row box) ns). split; [exact EB|]. split; [now apply far_region|]. split; [now apply far_region|].
  assert (F0 : forall i, In i [] -> (20 <= i <= 80)%nat) by (intros i []).
  assert (F1 : forall i, In i [40%nat] -> (20 <= i <= 80)%nat) by (intros i [<-|[]]; lia).
  destruct (far_completes [] F0 box ns EB NI) as (lev & E). destruct (far_completes [40%nat] F1 box ns EB NI) as (lev' & E').
  destruct (six_scales box) as (HC & NL & NS). assert (SN : soundings six_sea (s_pv six_large)) by apply six_known.
  assert (R : forall far, region_casts (far_db far) (mc_db (six_cfg box)) demo_other (six_row box box :: map (six_row box) ns) = with_far far) by (intros far; now apply far_region).
  assert (LIM : nadd (nanmax (fd_pres six_float)) (map_p_delta (mc_db (six_cfg box))) = Fin 1250) by exact six_limit.
  assert (W : forall far levf, (forall i, In i far -> (20 <= i <= 80)%nat) -> far_levels box far six_source 0 = Ok levf ->
    exists value err o, levf 1%nat = Ok (Some o) /\ lo_sal o = Fin value /\ lo_err o = Fin err).
  { intros far levf FF EF.
    pose proof (level_near (fun _ => tt) (fun _ n => (repeat (Fin 0) n, tt)) tt argsort exact_inv (fun x _ _ => x) (fun x _ _ _ => x) (fun x _ => x) (fun x _ _ => x)
      six_sea flat_sea six_date (six_cfg box) "3901960" exact_inv_ok six_large six_small HC NL NS eq_refl SN ltac:(discriminate) 250 500 eq_refl eq_refl demo_other demo_excludes (six_four box)
      six_float six_mappable _ EB 10 2 2010 eq_refl eq_refl eq_refl ltac:(lra) ten (far_db far) (far_read far) (far_reads far)) as W.
    rewrite R, (far_near far FF), LIM, six_has_data in W.
    specialize (W (far_lats far FF) (far_located far FF) (ten_within _ _) ltac:(cbn; lia) six_source 0%nat levf eq_refl EF (six_cast 0) (map six_cast (seq 1 5)) eq_refl).
    specialize (W ltac:(rewrite six_deep; discriminate) (ten_within _ _) 1%nat (Fin 35) (Fin 6) (Fin 1000) eq_refl eq_refl eq_refl). cbn [Spec_Interp.complete] in W.
    destruct W as [_ W]. destruct (W ltac:(lra)) as (pts & HP & _ & B). rewrite (points_unique _ _ _ _ _ _ _ _ _ HP six_flat_points) in B.
    destruct (B ltac:(cbn; lia) (1 / 2) six_flat_noise ltac:(lra)) as (v & e & o & _ & EO & _ & O2 & O3 & _). eauto 10. }
  destruct (W [40%nat] lev' F1 E') as (v & e & o & EO & O2 & O3). exists lev, lev', v, e, o. do 5 (split; [assumption|]).
  pose proof (level_same (fun _ => tt) (fun _ n => (repeat (Fin 0) n, tt)) tt argsort exact_inv (fun x _ _ => x) (fun x _ _ _ => x) (fun x _ => x) (fun x _ _ => x)
      six_sea flat_sea six_date (six_cfg box) "3901960" exact_inv_ok six_large six_small HC NL NS eq_refl SN ltac:(discriminate) 250 500 eq_refl eq_refl demo_other demo_excludes (six_four box)
      six_float six_mappable _ EB 10 2 2010 eq_refl eq_refl eq_refl ltac:(lra) ten (far_db []) (far_read []) (far_db [40%nat]) (far_read [40%nat]) (far_reads _) (far_reads _)) as S.
  rewrite !R, (far_near [] F0), (far_near [40%nat] F1), LIM, six_has_data in S.
  apply (S (far_lats _ F0) (far_lats _ F1) (far_located _ F0) (far_located _ F1) (ten_within _ _) (ten_within _ _) eq_refl ltac:(cbn; lia) six_source 0%nat lev lev' eq_refl E E' (six_cast 0) (map six_cast (seq 1 5)) eq_refl
    ltac:(rewrite six_deep; discriminate) (ten_within _ _) 1%nat (Fin 35) (Fin 6) (Fin 1000) eq_refl eq_refl eq_refl).
  intros sv t p pts EC HP _. injection EC as <- <- <-. rewrite (points_unique _ _ _ _ _ _ _ _ _ HP six_flat_points). exists (1 / 2). split; [exact six_flat_noise|lra].
Qed.
