(* The fetchers stated with the specification's notions only, and a small database. *)
From Coq Require Import String Ascii.
From Coq Require Import ZArith List Bool Lia.
From Verif Require Import Num Np Utilities Topo Fetchers Spec_Fetchers Proofs_Fetchers Proofs_Region DemoNum.
Import ListNotations.

Section Ext.
  Context {T : Type} `{Num T}.
  Variables (db : database T) (read_mat : string -> res (ref_data T)) (cfg : db_config T) (name : string).
  Hypothesis Hdb : reads db read_mat.

  Lemma excludes_eq other : excludes name other -> forall s, other s = negb (str_contains name s).
  Proof.
    intros Ho s. specialize (Ho s). pose proof (str_contains_occurs name s) as E.
    destruct (other s), (str_contains name s); cbn; try reflexivity; exfalso; intuition congruence.
  Qed.
  Lemma region_casts_ext other boxes : excludes name other ->
    region_casts db cfg other boxes = region_casts db cfg (fun s => negb (str_contains name s)) boxes.
  Proof.
    intros Ho. unfold region_casts. apply flat_map_ext. intros row. unfold box_casts.
    destruct row as [|n [|c [|b [|a rest]]]]; try reflexivity. destruct (int_of_float n); [|reflexivity].
    do 2 f_equal. f_equal. apply filter_ext. intros k. f_equal. now apply excludes_eq.
  Qed.

  Theorem argo_excluded n c b rest box cs :
    int_of_float n = Ok box -> neqb (nofZ 1 : T) (nofZ 1) = true ->
    db (box_file (historical_directory cfg) (argo_prefix cfg) box) = Some cs ->
    2 <= length cs -> (forall k, In k cs -> 2 <= length (c_levels k)) ->
    exists d keep, get_data read_mat cfg name (n :: c :: b :: nofZ 1 :: rest) 3 = Ok (Some d) /\
      (forall k, keep k = true <-> ~ occurs name (c_source k)) /\ arrays d (filter keep cs).
  Proof.
    intros En E1 Ed Hn HL.
    destruct (remove_float_arrays name cs) as (d & Er & Hd); [|exact Hn|].
    { intros k Hk. apply Nat.leb_le. now apply HL. }
    exists d, (fun k => negb (str_contains name (c_source k))). split; [|split; [|exact Hd]].
    - unfold get_data. cbn [nth_error]. rewrite En. cbn [bind]. rewrite E1.
      pose proof (Hdb (box_file (historical_directory cfg) (argo_prefix cfg) box)) as HR. rewrite Ed in HR.
      destruct HR as [_ ->]. cbn [bind]. rewrite Er. reflexivity.
    - intros k. pose proof (str_contains_occurs name (c_source k)) as E.
      destruct (str_contains name (c_source k)); cbn; split; intros; try discriminate; try tauto; intuition congruence.
  Qed.
  Theorem argo_small n c b rest box cs :
    int_of_float n = Ok box -> neqb (nofZ 1 : T) (nofZ 1) = true ->
    db (box_file (historical_directory cfg) (argo_prefix cfg) box) = Some cs ->
    length cs <= 1 \/ (exists k, In k cs /\ length (c_levels k) <= 1) ->
    exists e, get_data read_mat cfg name (n :: c :: b :: nofZ 1 :: rest) 3 = Raise e.
  Proof.
    intros En E1 Ed HS. pose proof (Hdb (box_file (historical_directory cfg) (argo_prefix cfg) box)) as HR. rewrite Ed in HR.
    destruct HR as [[m HM] HR].
    assert (X : exists e, remove_float name (stored cs) = Raise e).
    { destruct HS as [HS|(k & Hk & HS)].
      - destruct cs as [|k [|k' cs]]; cbn [length] in HS; try lia.
        + apply (remove_float_flat name [] 0); [intros ? []|left; lia].
        + apply (remove_float_flat name [k] m HM). now right.
      - apply (remove_float_flat name cs m HM). left. rewrite <- (HM k Hk). exact HS. }
    destruct X as [e X]. exists e.
    unfold get_data. cbn [nth_error]. rewrite En. cbn [bind]. rewrite E1, HR. cbn [bind]. now rewrite X.
  Qed.
End Ext.

Section Main.
  Context {T : Type} `{NumNan T}.
  Variables (db : database T) (read_mat : string -> res (ref_data T)) (cfg : db_config T) (name : string).
  Hypothesis Hdb : reads db read_mat.
  Variable other : string -> bool.
  Hypothesis Hother : excludes name other.
  Variable date_str : T -> list ascii.
  Variable boxes : list (list T).
  Hypothesis H4 : four_columns boxes.

  Theorem locations :
    let cs := region_casts db cfg other boxes in
    get_region_hist_locations read_mat date_str boxes name cfg =
    match cs with
    | [] => Raise ValueError
    | _ => Ok (map c_lat cs, wrap_longitude (map c_long cs), map (fun c => change_date (date_str (c_date c))) cs)
    end.
  Proof. cbv zeta. rewrite (region_casts_ext db cfg name other boxes Hother). now apply hist_locations. Qed.

  Variables (index : list nat) (float_pres : list T).
  Hypothesis Hpres : float_pres <> [].
  Let limit := nadd (nanmax float_pres) (map_p_delta cfg).
  Let chosen := selected index (region_casts db cfg other boxes).

  Theorem data_none : chosen = [] ->
    get_region_data read_mat date_str boxes name cfg index float_pres = Raise RuntimeError.
  Proof. unfold chosen. rewrite (region_casts_ext db cfg name other boxes Hother). now apply region_data_none. Qed.
  Theorem data_selected c0 rest : chosen = c0 :: rest -> levels limit c0 <> [] ->
    let d := depth limit chosen in
    let kept := filter (fun p => has_data limit (fst p)) (combine chosen (wrap_longitude (map c_long chosen))) in
    get_region_data read_mat date_str boxes name cfg index float_pres =
      Ok (mkOut (map (fun p => map l_sal (col limit d (fst p))) kept)
                (map (fun p => map l_ptmp (col limit d (fst p))) kept)
                (map (fun p => map l_pres (col limit d (fst p))) kept)
                (map (fun p => c_lat (fst p)) kept) (map snd kept)
                (map (fun p => change_date (date_str (c_date (fst p)))) kept)).
  Proof.
    unfold chosen. rewrite (region_casts_ext db cfg name other boxes Hother). intros E L.
    exact (region_data_ok db read_mat cfg name Hdb date_str boxes index float_pres H4 Hpres c0 rest E L).
  Qed.
  Theorem data_lost c0 rest : chosen = c0 :: rest -> levels limit c0 = [] ->
    get_region_data read_mat date_str boxes name cfg index float_pres = Ok (mkOut [] [] [] [] [] []).
  Proof.
    unfold chosen. rewrite (region_casts_ext db cfg name other boxes Hother). intros E L.
    exact (region_data_lost db read_mat cfg name Hdb date_str boxes index float_pres H4 Hpres c0 rest E L).
  Qed.
End Main.

(* ---- small files ---- *)
Section Small.
  Context {T : Type} `{NumNan T}.

  Lemma several_without (db : database T) path : several (of_file (without_single db) path) = several (of_file db path).
  Proof. unfold of_file, without_single. destruct (db path) as [[|c [|c' cs]]|]; reflexivity. Qed.
  Lemma region_without (db : database T) cfg other boxes : region_casts (without_single db) cfg other boxes = region_casts db cfg other boxes.
  Proof.
    unfold region_casts. apply flat_map_ext. intros row. unfold box_casts.
    destruct row as [|n [|c [|b [|a rest]]]]; try reflexivity. destruct (int_of_float n); [|reflexivity].
    now rewrite !several_without.
  Qed.

  Lemma data_determined (db db' : database T) r r' cfg name other date_str boxes index index' float_pres :
    reads db r -> reads db' r' -> excludes name other -> four_columns boxes -> float_pres <> [] ->
    selected index (region_casts db cfg other boxes) = selected index' (region_casts db' cfg other boxes) ->
    get_region_data r date_str boxes name cfg index float_pres = get_region_data r' date_str boxes name cfg index' float_pres.
  Proof.
    intros Hr Hr' Ho H4 Hp E.
    destruct (selected index (region_casts db cfg other boxes)) as [|c0 rest] eqn:ES.
    - rewrite (data_none db r cfg name Hr other Ho date_str boxes H4 index float_pres Hp ES).
      symmetry in E. now rewrite (data_none db' r' cfg name Hr' other Ho date_str boxes H4 index' float_pres Hp E).
    - assert (D : levels (nadd (nanmax float_pres) (map_p_delta cfg)) c0 = [] \/ levels (nadd (nanmax float_pres) (map_p_delta cfg)) c0 <> [])
        by (destruct (levels _ c0); [now left|now right]).
      destruct D as [L|L].
      + rewrite (data_lost db r cfg name Hr other Ho date_str boxes H4 index float_pres Hp c0 rest ES L).
        symmetry in E. now rewrite (data_lost db' r' cfg name Hr' other Ho date_str boxes H4 index' float_pres Hp c0 rest E L).
      + pose proof (data_selected db r cfg name Hr other Ho date_str boxes H4 index float_pres Hp c0 rest ES L) as A1.
        symmetry in E.
        pose proof (data_selected db' r' cfg name Hr' other Ho date_str boxes H4 index' float_pres Hp c0 rest E L) as A2.
        cbv zeta in A1, A2. rewrite ES in A1. rewrite E in A2. now rewrite A1, A2.
  Qed.

  Theorem single_cast_ignored (db : database T) r r' : reads db r -> reads (without_single db) r' ->
    forall cfg name other, excludes name other -> forall date_str (boxes : list (list T)), four_columns boxes ->
    get_region_hist_locations r date_str boxes name cfg = get_region_hist_locations r' date_str boxes name cfg /\
    forall index float_pres, float_pres <> [] ->
    get_region_data r date_str boxes name cfg index float_pres = get_region_data r' date_str boxes name cfg index float_pres.
  Proof.
    intros Hr Hr' cfg name other Ho date_str boxes H4. split.
    - pose proof (locations db r cfg name Hr other Ho date_str boxes H4) as A1.
      pose proof (locations (without_single db) r' cfg name Hr' other Ho date_str boxes H4) as A2.
      cbv zeta in A1, A2. rewrite region_without in A2. now rewrite A1, A2.
    - intros index float_pres Hp.
      apply (data_determined db (without_single db) r r' cfg name other); try assumption.
      now rewrite region_without.
  Qed.

  Lemma selected_ext index index' (cs : list (cast T)) :
    (forall i, In i index' <-> In i index /\ exists c, nth_error cs i = Some c /\ 2 <= length (c_levels c)) ->
    selected index cs = selected index' cs.
  Proof.
    intros HI. unfold selected, numbered.
    assert (G : forall l pre, cs = pre ++ l ->
      filter loadable (map snd (filter (fun p => existsb (Nat.eqb (fst p)) index) (combine (seq (length pre) (length l)) l))) =
      filter loadable (map snd (filter (fun p => existsb (Nat.eqb (fst p)) index') (combine (seq (length pre) (length l)) l)))).
    { induction l as [|c l IH]; intros pre E; [reflexivity|]. cbn [length seq combine filter fst].
      assert (E' : cs = (pre ++ [c]) ++ l) by (rewrite <- app_assoc; exact E).
      specialize (IH (pre ++ [c]) E'). rewrite app_length in IH. cbn [length] in IH. rewrite Nat.add_1_r in IH.
      assert (EN : nth_error cs (length pre) = Some c) by (rewrite E, nth_error_app2, Nat.sub_diag by lia; reflexivity).
      assert (X : existsb (Nat.eqb (length pre)) index' = existsb (Nat.eqb (length pre)) index && loadable c).
      { apply Bool.eq_iff_eq_true. rewrite andb_true_iff, !existsb_exists. split.
        - intros (i & Hi & Ei). apply Nat.eqb_eq in Ei. subst i. apply HI in Hi as (Hi & c' & Hc & HL).
          split; [exists (length pre); split; [exact Hi|apply Nat.eqb_refl]|].
          rewrite EN in Hc. injection Hc as <-. now apply Nat.leb_le.
        - intros [(i & Hi & Ei) HL]. apply Nat.eqb_eq in Ei. subst i. exists (length pre). split; [|apply Nat.eqb_refl].
          apply HI. split; [exact Hi|]. exists c. split; [exact EN|]. now apply Nat.leb_le. }
      rewrite X. destruct (existsb (Nat.eqb (length pre)) index); cbn [andb]; [|exact IH].
      destruct (loadable c) eqn:EL; cbn [map filter snd]; rewrite EL; [now rewrite IH|exact IH]. }
    exact (G cs [] eq_refl).
  Qed.

  Theorem few_levels_ignored (db : database T) read_mat cfg name : reads db read_mat ->
    forall other, excludes name other -> forall date_str (boxes : list (list T)), four_columns boxes ->
    forall index index' float_pres, float_pres <> [] ->
    (forall i, In i index' <-> In i index /\ exists c, nth_error (region_casts db cfg other boxes) i = Some c /\ 2 <= length (c_levels c)) ->
    get_region_data read_mat date_str boxes name cfg index float_pres =
    get_region_data read_mat date_str boxes name cfg index' float_pres.
  Proof.
    intros Hr other Ho date_str boxes H4 index index' fp Hp HI.
    apply (data_determined db db read_mat read_mat cfg name other); try assumption. now apply selected_ext.
  Qed.
End Small.

Local Open Scope string_scope.
(* ---- a small database: one box with two CTD casts and three Argo casts, one of the float ---- *)
Definition no_level : level ZN := mkLevel None None None.
Definition lv (p s t : Z) : level ZN := mkLevel (Some p) (Some s) (Some t).
Definition demo_casts_ctd : list (cast ZN) :=
  [ mkCast (Some 50)%Z (Some 350)%Z (Some 20100101120000)%Z [lv 10 34 5; lv 200 35 4] "ctd1";
    mkCast (Some 51)%Z (Some 10)%Z (Some 20100102120000)%Z [lv 10 34 6; no_level] "ctd2" ].
Definition demo_casts_argo : list (cast ZN) :=
  [ mkCast (Some 52)%Z (Some 20)%Z (Some 20100103120000)%Z [lv 9000 34 5; no_level] "1900193_1";
    mkCast (Some 53)%Z (Some 30)%Z (Some 20100104120000)%Z [lv 10 34 5; no_level] "3901960_1";
    mkCast (Some 54)%Z (Some 31)%Z (Some 20100105120000)%Z [lv 10 34 5; no_level] "1900193_2" ].
Definition demo_cfg : db_config ZN := mkDbConfig ZN "/db" "ctd_" "bot_" "argo_" (Some 250)%Z.
Definition demo_db : database ZN := fun p =>
  if String.eqb p "/db/ctd_3505.mat" then Some demo_casts_ctd
  else if String.eqb p "/db/argo_3505.mat" then Some demo_casts_argo else None.
Definition demo_read (p : string) : res (ref_data ZN) :=
  match demo_db p with Some cs => Ok (stored cs) | None => Raise FileNotFoundError end.
Definition demo_boxes : list (list ZN) := [[Some 3505; Some 1; Some 1; Some 1]]%Z.
Definition demo_other (s : string) : bool := negb (str_contains "3901960" s).
Definition demo_date (d : ZN) : list ascii := str_Z (ntoZ d).

Lemma demo_reads : reads demo_db demo_read.
Proof.
  intros p. unfold demo_read. destruct (demo_db p) as [cs|] eqn:E; [|eauto]. split; [|reflexivity].
  exists 2%nat. unfold demo_db in E. destruct (String.eqb p _); [|destruct (String.eqb p _)]; [| |discriminate].
  - injection E as <-. intros c [<-|[<-|[]]]; reflexivity.
  - injection E as <-. intros c [<-|[<-|[<-|[]]]]; reflexivity.
Qed.
Lemma demo_four : four_columns demo_boxes.
Proof. intros row [<-|[]]. cbn. lia. Qed.
Lemma demo_excludes : excludes "3901960" demo_other.
Proof. intros s. unfold demo_other. pose proof (str_contains_occurs "3901960" s) as E. destruct (str_contains _ s); cbn; intuition congruence. Qed.

(* one box with two CTD casts of one level, a single bottle cast, and the Argo casts *)
Definition small_ctd : list (cast ZN) :=
  [ mkCast (Some 50)%Z (Some 350)%Z (Some 20100101120000)%Z [lv 10 34 5] "ctd1";
    mkCast (Some 51)%Z (Some 10)%Z (Some 20100102120000)%Z [lv 10 34 6] "ctd2" ].
Definition small_bottle : list (cast ZN) :=
  [ mkCast (Some 60)%Z (Some 10)%Z (Some 20100102120000)%Z [lv 10 34 6; lv 200 35 4] "bot1" ].
Definition small_db : database ZN := fun p =>
  if String.eqb p "/db/ctd_3505.mat" then Some small_ctd
  else if String.eqb p "/db/bot_3505.mat" then Some small_bottle
  else if String.eqb p "/db/argo_3505.mat" then Some demo_casts_argo else None.
Definition small_read (p : string) : res (ref_data ZN) :=
  match small_db p with Some cs => Ok (stored cs) | None => Raise FileNotFoundError end.
Lemma small_reads : reads small_db small_read.
Proof.
  intros p. unfold small_read. destruct (small_db p) as [cs|] eqn:E; [|eauto]. split; [|reflexivity].
  unfold small_db in E. destruct (String.eqb p _); [|destruct (String.eqb p _); [|destruct (String.eqb p _)]]; [| | |discriminate].
  - exists 1%nat. injection E as <-. intros c [<-|[<-|[]]]; reflexivity.
  - exists 2%nat. injection E as <-. intros c [<-|[]]; reflexivity.
  - exists 2%nat. injection E as <-. intros c [<-|[<-|[<-|[]]]]; reflexivity.
Qed.
Lemma small_files_demo : exists (db : database ZN) read_mat cfg name other (boxes : list (list ZN)) lat long dates o,
  reads db read_mat /\ excludes name other /\ four_columns boxes /\
  (exists c, db "/db/bot_3505.mat" = Some [c] /\ c_lat c = Some 60%Z) /\
  get_region_hist_locations read_mat demo_date boxes name cfg = Ok (lat, long, dates) /\
  lat = [Some 50; Some 51; Some 52; Some 54]%Z /\
  forallb (has_data (Some 10000)%Z) (region_casts db cfg other boxes) = true /\
  get_region_data read_mat demo_date boxes name cfg [0; 1; 2; 3]%nat [Some 9750]%Z = Ok o /\
  nadd (nanmax [Some 9750]%Z) (map_p_delta cfg) = (Some 10000)%Z /\
  o_lat o = [Some 52; Some 54]%Z.
Proof.
  exists small_db, small_read, demo_cfg, "3901960", demo_other, demo_boxes. do 4 eexists.
  split; [exact small_reads|]. split; [exact demo_excludes|]. split; [exact demo_four|].
  split; [eexists; split; reflexivity|].
  split; [vm_compute; reflexivity|]. split; [reflexivity|]. split; [vm_compute; reflexivity|].
  split; [vm_compute; reflexivity|]. split; [vm_compute; reflexivity|]. reflexivity.
Qed.
Definition small_read' (p : string) : res (ref_data ZN) :=
  match without_single small_db p with Some cs => Ok (stored cs) | None => Raise FileNotFoundError end.
Lemma small_reads' : reads (without_single small_db) small_read'.
Proof.
  intros p. unfold small_read'. destruct (without_single small_db p) as [cs|] eqn:E; [|eauto]. split; [|reflexivity].
  pose proof (small_reads p) as HR. unfold without_single in E. destruct (small_db p) as [[|c [|c' cs']]|]; try discriminate.
  - injection E as <-. now exists 0%nat.
  - injection E as <-. exact (proj1 HR).
Qed.
Lemma small_index : forall i, In i [2]%nat <-> In i [0; 2]%nat /\
    exists c, nth_error (region_casts small_db demo_cfg demo_other demo_boxes) i = Some c /\ (2 <= length (c_levels c))%nat.
Proof.
  intros i. split.
  - intros [<-|[]]. split; [right; left; reflexivity|]. eexists. split; [vm_compute; reflexivity|]. cbn. lia.
  - intros [[<-|[<-|[]]] (c & Hc & HL)]; [|now left].
    exfalso. vm_compute in Hc. injection Hc as <-. cbn in HL. lia.
Qed.
