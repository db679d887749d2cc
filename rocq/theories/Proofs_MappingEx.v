(* Instances for the properties of the mapping *)
From Coq Require Import String Ascii.
From Coq Require Import ZArith List Bool Lia Reals Lra Permutation.
From Verif Require Import Num Np Utilities Finders Stats Wrangling Topo Fetchers Saf Helper MapProfile Spec_Fetchers Spec_MapLevel
  Mapping Spec_Mapping Spec_Helper NumFacts NpFacts Proofs_FetchersEx Proofs_Mapping Proofs_Mapping3 Proofs_Mapping4 Proofs_Records Proofs_Helper DemoNum.
Import ListNotations.

(* ---- a search of the historical casts over the integers ---- *)
(* not used without potential vorticity *)
#[export] Instance ZN_NumT : NumT ZN := {| nexp := fun x => x; nlog := fun x => x; nsin := fun x => x; npi := Some 3%Z |}.
Definition zs (l : list Z) : list ZN := map Some l.
Definition demo_table : list (list ZN) :=
  map (fun k => if Nat.eqb k 22 then zs [3505; 1; 1; 1]%Z else zs [Z.of_nat k; 0; 0; 0]%Z) (seq 1 648).
Definition demo_map (max_casts : Z) : map_config ZN :=
  mkMapConfig demo_table max_casts 0%Z 0%Z (Some 1000)%Z (Some 100)%Z (Some 1000)%Z (Some 100)%Z (Some 1)%Z (Some 1)%Z (Some 100)%Z (Some 10)%Z
    (Some 250)%Z (Some 0)%Z (mkSaf [] [] [] [] [] [] [] [] []) demo_cfg.
Definition demo_fd : float_data ZN := mkFloatData (Some 52)%Z (Some 15)%Z (Some 2010)%Z (zs [34; 34]%Z) (zs [5; 4]%Z) (zs [5; 4]%Z) (zs [100; 1000]%Z).
(* an elevation that is the latitude *)
Definition demo_interp2d (x y : list ZN) (z : list (list Z)) (lo la : ZN) : res ZN := Ok la.
Definition demo_history (max_casts : Z) : res (grid ZN) :=
  best_history (fun _ => tt) (fun _ n => (repeat (Some 0)%Z n, tt)) tt argsort (fun x _ _ => x) (fun x _ _ _ => x) (fun x _ => x) (fun x _ _ => x)
    demo_interp2d (fun _ => Some 0%Z) demo_read demo_date (demo_map max_casts) "3901960" demo_fd (Some 4000)%Z.

Lemma demo_table_four : four_columns demo_table.
Proof. intros row Hr. apply in_map_iff in Hr as (k & <- & _). destruct (Nat.eqb k 22); cbn; lia. Qed.
Lemma demo_mappable : mappable_profile demo_fd.
Proof. split; [reflexivity|]. split; [reflexivity|]. exists 1%nat. split; [cbn; lia|reflexivity]. Qed.
(* the depths of the sea floor are minus the latitude here: the last cast gets that of another one *)
Lemma demo_depths : exists g, demo_history 300 = Ok g /\ gr_lat g = zs [50; 51; 54]%Z /\ gr_z g = zs [-50; -51; -52; -54]%Z.
Proof. eexists. split; [vm_compute; reflexivity|]. split; reflexivity. Qed.

(* ---- a run over three profiles, numbered 2, 3, 1 ---- *)
Local Open Scope R_scope.
Lemma argsort_sorting : sorting (T := XR) argsort.
Proof.
  intros l. split; [apply argsort_perm|]. intros i j Hij.
  change (map (fun i => nth i l nnan) (argsort l)) with (take nnan l (argsort l)) in *. rewrite take_argsort in *.
  assert (SS : forall m : list XR, Sorted.StronglySorted (fun x y => slt y x = false) m -> forall i j, (i < j < length m)%nat -> slt (nth j m nnan) (nth i m nnan) = false).
  { clear. induction 1 as [|x m S IH F]; intros i j Hij; [cbn in Hij; lia|]. cbn [length] in Hij. destruct j; [lia|]. destruct i.
    - cbn [nth]. rewrite Forall_forall in F. apply F, nth_In. lia.
    - cbn [nth]. apply IH. lia. }
  apply SS; [exact (np_sort_sorted l)|exact Hij].
Qed.
Definition demo_out (p : nat) : level_out XR :=
  mkLevelOut (Fin (INR p)) (Fin (35 + INR p)) (Fin (INR p)) (Fin (INR p)) (Fin (INR p)) [(Fin (10 * INR p), Fin 50)].
Definition demo_calc (p : nat) : res (nat -> res (option (level_out XR))) := Ok (fun n => Ok (Some (demo_out p))).
Definition demo_nos : list R := [2; 3; 1].
Definition demo_points : list (R * list (R * R)) := [(2, [(0, 50)]); (3, [(10, 50)]); (1, [(20, 50)])].
Lemma demo_recorded : exists sel, recorded (points_used 1 demo_calc (map Fin demo_nos)) [] = Ok sel /\ sel <> [].
Proof.
  destruct (history_records demo_points []) as (more & E & _ & N & _).
  { constructor. }
  { intros no pts [C|[C|[C|[]]]]; injection C as <- <-; discriminate. }
  exists (map of_r more). split.
  - rewrite app_nil_l in E. rewrite <- E.
    assert (EP : points_used 1 demo_calc (map Fin demo_nos) = [(Fin 2, [(Fin (10 * INR 0), Fin 50)]); (Fin 3, [(Fin (10 * INR 1), Fin 50)]); (Fin 1, [(Fin (10 * INR 2), Fin 50)])]) by reflexivity.
    rewrite EP. cbn [INR]. replace (10 * 0) with 0 by ring. replace (10 * 1) with 10 by ring. replace (10 * (1 + 1)) with 20 by ring. reflexivity.
  - intros C. apply map_eq_nil in C. subst more. destruct (N 2 [(0, 50)] (0, 50)) as (r & [] & _); left; reflexivity.
Qed.
Lemma demo_calculated : calculated 1 demo_calc (map Fin demo_nos).
Proof. intros p _. eexists. split; [reflexivity|]. intros n _. eauto. Qed.
Lemma demo_run values : length values = 12%nat -> exists d, run values 1 demo_calc argsort None (map Fin demo_nos) = Ok d.
Proof.
  intros HV. destruct demo_recorded as (sel & E & N).
  eexists. apply (fresh_iff values 1 demo_calc (map Fin demo_nos) HV argsort); [exact argsort_sorting|].
  split; [exact demo_calculated|]. exists sel. split; [exact E|]. split; [exact N|].
  unfold saved_file. cbv zeta.
  instantiate (1 := mkMapped (mkMatrix _ _) (mkMatrix _ _) (mkMatrix _ _) (mkMatrix _ _) (mkMatrix _ _) _ _ _).
  cbn [la_ptmp la_mapped_sal la_map_sal_errors la_noise_sal la_signal_sal la_profile_no settings selected_hist].
  repeat split; reflexivity.
Qed.
Lemma demo_distinct f : In f [lo_ptmp; lo_err; lo_noise; lo_signal; fun o => in_range (lo_sal o)] -> forall p q, (p < 3)%nat -> (q < 3)%nat ->
  profile_column 1 demo_calc f p = profile_column 1 demo_calc f q -> p = q.
Proof.
  intros Hf p q Hp Hq. unfold profile_column. cbn [seq map]. change (outcome demo_calc p 0) with (Some (demo_out p)). change (outcome demo_calc q 0) with (Some (demo_out q)).
  assert (RG : forall k, (k < 3)%nat -> in_range (Fin (35 + INR k)) = Fin (35 + INR k)).
  { intros k Hk. unfold in_range. change (nltb (Fin (35 + INR k)) (nofZ 30)) with (Rltb (35 + INR k) 30). change (nltb (nofZ 40) (Fin (35 + INR k))) with (Rltb 40 (35 + INR k)). assert (INR k <= 2) by (change 2 with (INR 2); apply le_INR; lia). pose proof (pos_INR k).
    rewrite (proj2 (Rltb_false (35 + INR k) 30)) by lra. rewrite (proj2 (Rltb_false 40 (35 + INR k))) by lra. reflexivity. }
  assert (J : Fin (INR p) = Fin (INR q) -> p = q) by (intros C; injection C as C; now apply INR_eq).
  repeat (destruct Hf as [<-|Hf]; [intros C; apply J; cbn [demo_out lo_ptmp lo_err lo_noise lo_signal lo_sal] in C; try rewrite !RG in C by assumption|]).
  5: { injection C as C. f_equal. lra. }
  5: { destruct Hf. }
  all: injection C as C; now f_equal.
Qed.
Lemma demo_not_increasing : ~ increasing demo_nos.
Proof. intros C. specialize (C 1%nat 2%nat ltac:(cbn; lia)). cbn in C. lra. Qed.
Lemma demo_nodup : NoDup demo_nos.
Proof. repeat constructor; cbn; intros C; repeat (destruct C as [C|C]; [lra|]); exact C. Qed.
Definition demo_source : source XR := mkSource (map Fin demo_nos) [] [] [] [] [] [] [] 1.
Definition no_saf {T} : saf_profile T := mkSaf [] [] [] [] [] [] [] [] [].
Definition demo_settings : map_config XR :=
  mkMapConfig [] 300 0 0 (Fin 8) (Fin 4) (Fin 4) (Fin 2) (Fin 1) (Fin 1) (Fin 10) (Fin 5) (Fin 250) (Fin 0)
    no_saf (mkDbConfig XR "" "" "" "" (Fin 250)).
Definition demo_paths : map_paths := mkMapPaths "/data/float_mapped" "map_" ".mat".
Lemma demo_update float_dir : exists st', update_salinity_mapping argsort (fun _ => demo_calc) [] demo_paths demo_settings demo_source float_dir "3901960" (fun _ => None) = (Ok tt, st').
Proof.
  destruct (demo_run (map_values demo_settings) eq_refl) as (d & E). unfold update_salinity_mapping, update.
  change (src_levels demo_source) with 1%nat. change (src_no demo_source) with (map Fin demo_nos). rewrite E. eauto.
Qed.
Lemma demo_second : exists st' : store XR,
  update_salinity_mapping argsort (fun _ => demo_calc) [] demo_paths demo_settings demo_source "float" "3901960" (fun _ => None) = (Ok tt, st') /\
  fst (update_salinity_mapping argsort (fun _ _ => Raise FileNotFoundError) [] demo_paths demo_settings demo_source "float" "3901960" st')
  = Raise FileNotFoundError.
Proof.
  destruct (demo_update "float") as (st' & E). exists st'. split; [exact E|].
  destruct (second_store_named argsort argsort_sorting [] demo_paths demo_source demo_nos eq_refl demo_nodup "float" "3901960"
    (fun _ => demo_calc) (fun _ _ => Raise FileNotFoundError) demo_settings demo_settings (fun _ => None) st') as [E2 _]; [| | |exact E|].
  - repeat split; discriminate.
  - repeat split; discriminate.
  - reflexivity.
  - rewrite E2. reflexivity.
Qed.
Lemma demo_incremental : exists d, run (map_values demo_settings) 1 demo_calc argsort None (map Fin demo_nos) = Ok d /\ well_formed d /\
  forall q, In q (la_profile_no d) -> neqb q (Fin 4) = false.
Proof.
  destruct (demo_run (map_values demo_settings) eq_refl) as (d & E). exists d. split; [exact E|].
  split; [exact (saved_well_formed argsort argsort_sorting (map_values demo_settings) 1 demo_calc eq_refl demo_nos demo_nodup d E)|].
  destruct (fresh_labels argsort argsort_sorting (map_values demo_settings) 1 demo_calc eq_refl demo_nos demo_nodup d E) as (EN & P & _).
  rewrite EN. intros q Hq. apply in_map_iff in Hq as (r & <- & Hr). apply (Permutation_in _ P) in Hr.
  change (neqb (Fin r) (Fin 4)) with (Reqb r 4). unfold Reqb. destruct (Req_EM_T r 4) as [->|_]; [|reflexivity].
  cbn in Hr. repeat (destruct Hr as [Hr|Hr]; [lra|]). destruct Hr.
Qed.
Lemma demo_mislabelled : exists d, run (map_values demo_settings) 1 demo_calc argsort None (map Fin demo_nos) = Ok d /\
  forall m f, In (m, f) (contents d) ->
  ~ labelled demo_nos (la_profile_no d) (profile_column 1 demo_calc f) (fun j => nth j (m_cols m) []).
Proof.
  destruct (demo_run (map_values demo_settings) eq_refl) as (d & E). exists d. split; [exact E|]. intros m f Hf HL.
  apply demo_not_increasing.
  apply (columns_labelled argsort argsort_sorting (map_values demo_settings) eq_refl 1 demo_calc demo_nos demo_nodup d E m f Hf); [|exact HL].
  intros p q Hp Hq. apply demo_distinct; [|exact Hp|exact Hq]. unfold contents in Hf. cbn [In] in *.
  repeat (destruct Hf as [Hf|Hf]; [injection Hf as _ <-; auto 6|]). destruct Hf.
Qed.
Lemma demo_one_level : exists d, run (map_values demo_settings) 1 demo_calc argsort None (map Fin demo_nos) = Ok d /\ well_formed d /\
  m_rows (la_mapped_sal d) = 1%nat.
Proof.
  destruct demo_incremental as (d & E & W & _). exists d. split; [exact E|]. split; [exact W|].
  apply (fresh_iff (map_values demo_settings) 1 demo_calc (map Fin demo_nos) eq_refl argsort) in E; [|exact argsort_sorting].
  destruct E as (_ & sel & _ & _ & S). unfold saved_file in S. cbv zeta in S. destruct S as (_ & E & _). now rewrite E.
Qed.
