(* Properties C68, C69, C71, C93: pyowc/configuration.py *)
From Coq Require Import String Ascii.
From Coq Require Import ZArith List Bool Reals Lra Lia Permutation Sorting.Sorted.
From Verif Require Import Num Np Spec_Mapping Proofs_MappingEx Config Spec_Config Proofs_Config Proofs_Calseries.
Import ListNotations.
Local Open Scope nat_scope.

(* ---- C71 ---- *)
(* whatever was called and assigned before (ops1), and after (ops2) except to the objects of this result *)
Theorem C71_load_pure : forall ops1 ops2, let h1 := execute ops1 [] in let h2 := fst (load h1) in
  leaves (length h1) (length h2) ops2 ->
  exists a, snd (load h1) = VRef a /\ length h1 <= a < length h2 /\ reads (execute ops2 h2) (VRef a) (TDict parameters).
Proof. exact load_pure. Qed.
Print Assumptions C71_load_pure.
Theorem C71_keys_ascending : StronglySorted key_lt parameters.
Proof. exact parameters_sorted. Qed.
Print Assumptions C71_keys_ascending.
(* two calls, the bounds of the first result overwritten before and after the second call *)
Example C71_witness : let ops1 := [Load; Assign 2 (OList [])] in let ops2 := [Assign 4 (ODict []); Load; Assign 10 (OList [])] in
  let h1 := execute ops1 [] in leaves (length h1) (length (fst (load h1))) ops2 /\ length h1 = 5 /\ length (fst (load h1)) = 10.
Proof.
  cbv zeta. assert (E1 : length (execute [Load; Assign 2 (OList [])] []) = 5) by (vm_compute; reflexivity).
  assert (E2 : length (fst (load (execute [Load; Assign 2 (OList [])] []))) = 10) by (vm_compute; reflexivity).
  rewrite E1, E2. split; [|split; reflexivity]. intros x o [E|[E|[E|[]]]]; [..|discriminate|]; injection E as <- _; lia.
Qed.

(* ---- C68 ---- *)
Theorem C68_default_series : forall qs, sorting qs -> forall rs, NoDup rs -> forall src, cs_no src = map Fin rs -> complete src ->
  ascends rs ->
  exists es, set_calseries qs src None = Ok (file_of es default_settings) /\ map fst es = rs /\
    forall p, p < length rs -> (has_data src p -> snd (nth p es (0, 0)%R) = 1%R) /\ (~ has_data src p -> snd (nth p es (0, 0)%R) = 0%R).
Proof. exact fresh_correct. Qed.
Print Assumptions C68_default_series.
(* in any order: the flags go to the right profiles exactly if a profile has data whenever the profile
   at its place in the order of the numbers has *)
Theorem C68_right_profiles : forall qs, sorting qs -> forall rs, NoDup rs -> forall src, cs_no src = map Fin rs -> complete src ->
  exists es, set_calseries qs src None = Ok (file_of es default_settings) /\
    ((forall p f, p < length rs -> In (nth p rs 0%R, f) es -> (f = 1%R <-> has_data src p)) <->
     (forall p, p < length rs -> (has_data src (rank rs (nth p rs 0%R)) <-> has_data src p))).
Proof. exact fresh_labels_right. Qed.
Print Assumptions C68_right_profiles.
Theorem C68_unsorted_refuted : exists rs src, NoDup rs /\ cs_no src = map Fin rs /\ complete src /\
  forall qs, sorting qs -> exists es f p, set_calseries qs src None = Ok f /\ f = file_of es default_settings /\
    p < length rs /\ has_data src p /\ In (nth p rs 0%R, 0%R) es /\
    exists p', p' < length rs /\ ~ has_data src p' /\ In (nth p' rs 0%R, 1%R) es.
Proof. exact fresh_wrong. Qed.
Print Assumptions C68_unsorted_refuted.
Example C68_witness : sorting (T := XR) argsort /\ NoDup [1%R; 2%R] /\ cs_no src_sorted = map Fin [1%R; 2%R] /\ complete src_sorted /\
  ascends [1%R; 2%R] /\ has_data src_sorted 0 /\ ~ has_data src_sorted 1.
Proof.
  split; [exact argsort_sorting|]. split; [apply two_distinct; lra|]. split; [reflexivity|]. split; [repeat split|].
  split. { intros i j [H1 H2]. cbn in H2. destruct i, j as [|[|j]]; try lia. cbn. lra. }
  split; [repeat split; exact full_value|]. intros [D _]. now apply empty_value in D.
Qed.

(* ---- C69 ---- *)
(* a file covering the source: entry j loses its flag if the source's profile j has no data *)
Theorem C69_existing_file : forall qs, sorting qs -> forall rs, NoDup rs -> forall src, cs_no src = map Fin rs -> complete src ->
  forall es o, NoDup (map fst es) -> incl rs (map fst es) ->
  exists es', set_calseries qs src (Some (file_of es o)) = Ok (file_of es' (reset o)) /\
    Permutation (map fst es') (map fst es) /\ ascends (map fst es') /\
    (forall j, j < length es' -> let e := nth j es' (0, 0)%R in
       j < length rs /\ ~ has_data src j /\ snd e = 0%R \/ (length rs <= j \/ has_data src j) /\ In e es).
Proof. exact existing_file. Qed.
Print Assumptions C69_existing_file.
(* the right profiles, if the file has no others *)
Theorem C69_flags_kept : forall qs, sorting qs -> forall rs, NoDup rs -> forall src, cs_no src = map Fin rs -> complete src ->
  forall es o, ascends rs -> Permutation (map fst es) rs ->
  exists es', set_calseries qs src (Some (file_of es o)) = Ok (file_of es' (reset o)) /\ map fst es' = rs /\
    forall p, p < length rs -> (has_data src p -> In (nth p rs 0%R, snd (nth p es' (0, 0)%R)) es) /\
                               (~ has_data src p -> snd (nth p es' (0, 0)%R) = 0%R).
Proof. exact existing_kept. Qed.
Print Assumptions C69_flags_kept.
Theorem C69_other_profiles_refuted : exists rs src es o, ascends rs /\ cs_no src = map Fin rs /\ complete src /\ NoDup (map fst es) /\ incl rs (map fst es) /\
  forall qs, sorting qs -> exists es', set_calseries qs src (Some (file_of es o)) = Ok (file_of es' o) /\
    exists p f, p < length rs /\ ~ has_data src p /\ f <> 0%R /\ In (nth p rs 0%R, f) es'.
Proof. exact existing_wrong. Qed.
Print Assumptions C69_other_profiles_refuted.
Theorem C69_missing_profile : forall (T : Type) (N : Num T) (qs : list T -> list nat) src file i,
  i < length (cs_no src) -> cf_percent file <> None ->
  (forall x, In x (cf_no file) -> neqb x (nth i (cs_no src) nnan) = false) ->
  set_calseries qs src (Some file) = Raise AttributeError.
Proof. exact @missing_profile. Qed.
Print Assumptions C69_missing_profile.
Theorem C69_missing_percentage : forall (T : Type) (N : Num T) (qs : list T -> list nat) src file,
  cf_percent file = None -> set_calseries qs src (Some file) = Raise KeyError.
Proof. exact @missing_percent. Qed.
Print Assumptions C69_missing_percentage.
(* any number of calls leaves what the first one left *)
Theorem C69_repeated_calls : forall qs, sorting qs -> forall rs, NoDup rs -> forall src, cs_no src = map Fin rs -> complete src ->
  forall k file f,
  file = None \/ (exists es o, file = Some (file_of es o) /\ NoDup (map fst es) /\ incl rs (map fst es)) ->
  set_calseries qs src file = Ok f -> calls qs src (S k) file = Ok (Some f).
Proof. exact calls_same. Qed.
Print Assumptions C69_repeated_calls.
Example C69_witness : let es := [(2, 3); (1, 2)]%R in
  Permutation (map fst es) [1%R; 2%R] /\ NoDup (map fst es) /\ incl [1%R; 2%R] (map fst es) /\ ascends [1%R; 2%R] /\
  cs_no src_sorted = map Fin [1%R; 2%R] /\ has_data src_sorted 0 /\ ~ has_data src_sorted 1 /\
  (exists o, ~ bounds_single o) /\
  (forall x, In x (cf_no (file_of [(1, 5)%R] default_settings)) -> neqb x (nth 1 (cs_no src_sorted) nnan) = false).
Proof.
  cbv zeta. split; [apply perm_swap|]. split; [apply two_distinct; cbn; lra|].
  split; [intros x [<-|[<-|[]]]; [right; now left|now left]|].
  split. { intros i j [H1 H2]. cbn in H2. destruct i, j as [|[|j]]; try lia. cbn. lra. }
  split; [reflexivity|]. split; [repeat split; exact full_value|]. split; [intros [D _]; now apply empty_value in D|].
  split. { exists (mkOthers [] [] [[Fin 1%R]; [Fin 2%R]] [] [] [] []). intros [B _]. unfold single in B. cbn in B. lia. }
  intros x [<-|[]]. cbn. unfold Reqb. destruct (Req_EM_T 1 2); [lra|reflexivity].
Qed.

(* ---- C93 ---- *)
Theorem C93_print : forall V (show : V -> string) cfg,
  (forall k v, In (k, v) cfg -> one_line k = true /\ one_line (show v) = true) ->
  exists ls, lines (print_cfg show cfg) = ("" :: ls ++ [""])%string%list /\
    Forall2 (fun e l => exists blanks, all_blank blanks = true /\ l = (blanks ++ fst e ++ ": " ++ show (snd e))%string /\
                        String.length (blanks ++ fst e) = Nat.max 30 (String.length (fst e))) cfg ls.
Proof. exact @printed. Qed.
Print Assumptions C93_print.
Example C93_witness : lines (print_cfg (fun s => s) [("MAP_P_DELTA", "250"); ("FLOAT_PLOTS_FORMAT", "eps")]%string)
  = ["" ; "                   MAP_P_DELTA: 250"; "            FLOAT_PLOTS_FORMAT: eps"; ""]%string.
Proof. vm_compute. reflexivity. Qed.
