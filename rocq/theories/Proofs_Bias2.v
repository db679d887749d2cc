(* Interpolation on the float's temperatures, and the points of a level, under a constant added to the salinities *)
From Coq Require Import String Ascii.
From Coq Require Import ZArith List Bool Reals Lra Lia.
From Verif Require Import Num NumFacts Np Utilities Finders Stats Wrangling Topo Fetchers Saf Helper MapProfile
  Spec_Stats Spec_Helper Spec_MapLevel Spec_FitCond Proofs_MapLevel Spec_Bias Proofs_Bias.
Import Helper ListNotations.
Local Open Scope nat_scope.

Section Interp.
  Variable c : R.
  Notation f := (raised c).
  Notation ff := (map (map f)).
  Lemma raised_nan : f NaN = NaN. Proof. reflexivity. Qed.
  Lemma raised_isnan x : nisnan (f x) = nisnan x. Proof. now destruct x. Qed.
  Lemma raised_isfin x : nisfin (f x) = nisfin x. Proof. now destruct x. Qed.
  Lemma raised_sub a b : nsub (f b) (f a) = nsub b a.
  Proof. destruct a, b; try reflexivity. cbn. f_equal. lra. Qed.
  Lemma raised_add a x : nadd (f a) x = f (nadd a x).
  Proof. destruct a, x; try reflexivity. cbn. f_equal. lra. Qed.
  Lemma raised_interpolate w r : interpolate w (f (fst r), f (snd r)) = f (interpolate w r).
  Proof. unfold interpolate. cbn [fst snd]. now rewrite raised_sub, raised_add. Qed.

  Lemma biased_fref d : biased c d = fref f d.
  Proof. reflexivity. Qed.
  Lemma biased_fread read_mat path : biased_database c read_mat path = fread f read_mat path.
  Proof. unfold biased_database, fread, fres. now destruct (read_mat path). Qed.

  Notation g3 := (f3 f).
  Lemma finite3_f (q : XR * XR * XR) : finite3 (g3 q) = finite3 q.
  Proof. destruct q as [[s t] p]. unfold finite3, f3. cbn [fst snd]. now rewrite raised_isfin. Qed.
  Lemma filter_map' {A B} (h : A -> B) p q l : (forall x, p (h x) = q x) -> filter p (map h l) = map h (filter q l).
  Proof. intros E. induction l as [|a l IH]; cbn; [reflexivity|]. rewrite E, IH. now destruct (q a). Qed.

  Lemma get_f cols i j : a_get (to_array2 (ff cols)) i j = f (a_get (to_array2 cols) i j).
  Proof.
    cbn [to_array2 a_get]. change (nth j (ff cols) []) with (nth j (ff cols) (map f [])). rewrite (map_nth (map f)).
    exact (map_nth f _ NaN i).
  Qed.
  Lemma rows_f cols : a_rows (to_array2 (ff cols)) = a_rows (to_array2 cols).
  Proof. cbn [to_array2 a_rows]. destruct cols; [reflexivity|]. cbn. now rewrite map_length. Qed.
  Lemma cols_f cols : a_cols (to_array2 (ff cols)) = a_cols (to_array2 cols).
  Proof. cbn [to_array2 a_cols]. now rewrite map_length. Qed.
  Lemma column_f cols j : column (to_array2 (ff cols)) j = map f (column (to_array2 cols) j).
  Proof. unfold column. rewrite rows_f, map_map. apply map_ext. intros i. apply get_f. Qed.
  Lemma station_f cols gt gp j : station_levels (to_array2 (ff cols)) gt gp j = map g3 (station_levels (to_array2 cols) gt gp j).
  Proof.
    unfold station_levels. rewrite column_f, (combine_map_l f), (combine_map_l). rewrite (filter_map' _ _ finite3); [reflexivity|].
    intros [[s t] p]. exact (finite3_f (s, t, p)).
  Qed.
  Lemma pad_f n l : pad n (map g3 l) = map g3 (pad n l).
  Proof. unfold pad. rewrite map_app, map_length. f_equal. induction (n - length l); cbn; [reflexivity|]. now f_equal. Qed.
  Lemma cleaned_f cols gt gp : cleaned_grid_data (to_array2 (ff cols)) gt gp
    = match cleaned_grid_data (to_array2 cols) gt gp with Ok o => Ok (option_map (map (map g3)) o) | Raise e => Raise e end.
  Proof.
    unfold cleaned_grid_data. cbv zeta. rewrite cols_f. destruct (Nat.eqb _ 0); [reflexivity|].
    assert (E : map (station_levels (to_array2 (ff cols)) gt gp) (seq 0 (a_cols (to_array2 cols)))
                = map (map g3) (map (station_levels (to_array2 cols) gt gp) (seq 0 (a_cols (to_array2 cols))))).
    { rewrite map_map. apply map_ext. intros j. apply station_f. }
    rewrite E. assert (EL : forall ll : list (list (XR * XR * XR)), map (@length _) (map (map g3) ll) = map (@length _) ll).
    { intros ll. rewrite map_map. apply map_ext. intros l. apply map_length. }
    rewrite EL. destruct (Nat.eqb _ 0); [reflexivity|]. cbn [option_map]. do 2 f_equal. rewrite !map_map. apply map_ext. intros j. apply pad_f.
  Qed.

  Definition g2 (q : XR * XR) : XR * XR := (f (fst q), snd q).
  Lemma steps_map {A B} (h : A -> B) l : steps (map h l) = map (fun q => (h (fst q), h (snd q))) (steps l).
  Proof.
    unfold steps. destruct l as [|a l]; [reflexivity|]. cbn [map tl].
    assert (G : forall x, combine (h x :: map h l) (map h l) = map (fun q => (h (fst q), h (snd q))) (combine (x :: l) l)).
    { clear a. induction l as [|b l IH]; intros x; [reflexivity|]. change (map h (b :: l)) with (h b :: map h l).
      change (combine (h x :: h b :: map h l) (h b :: map h l)) with ((h x, h b) :: combine (h b :: map h l) (map h l)). rewrite IH. reflexivity. }
    apply G.
  Qed.
  Lemma interp_station_f v p col : interp_station v p (map g3 col) = match interp_station v p col with Ok q => Ok (g2 q) | Raise e => Raise e end.
  Proof.
    unfold interp_station. cbv zeta.
    assert (E1 : map (fun q : XR * XR * XR => snd (fst q)) (map g3 col) = map (fun q => snd (fst q)) col) by now rewrite map_map.
    assert (E2 : map (fun q : XR * XR * XR => fst (fst q)) (map g3 col) = map f (map (fun q => fst (fst q)) col)) by now rewrite !map_map.
    assert (E3 : map snd (map g3 col) = map snd col) by now rewrite map_map.
    rewrite E1, E2, E3. set (th := map (fun q => snd (fst q)) col). set (sl := map (fun q => fst (fst q)) col). set (pr := map snd col).
    set (changes := map sign_change _). set (factors := map _ (steps th)). destruct (existsb _ changes); [|reflexivity].
    destruct (nanargmin _) as [k|]; [|reflexivity]. cbn [bind]. unfold g2. cbn [fst snd]. do 2 f_equal.
    rewrite steps_map. rewrite <- (map_nth f _ NaN k). f_equal. rewrite map_map.
    generalize (combine changes factors). intros cf. revert cf. induction (steps sl) as [|r l IH]; intros [|[b w] cf]; [reflexivity..|].
    cbn [map combine fst snd]. rewrite IH. f_equal. destruct b; [|reflexivity]. apply raised_interpolate.
  Qed.
  Lemma mapM_map {A B C} (h : A -> B) (k : B -> res C) l : mapM k (map h l) = mapM (fun a => k (h a)) l.
  Proof. induction l as [|a l IH]; cbn; [reflexivity|]. destruct (k (h a)); [|reflexivity]. cbn. now rewrite IH. Qed.
  Lemma mapM_post {A B C} (h : B -> C) (k : A -> res B) l : mapM (fun a => match k a with Ok b => Ok (h b) | Raise e => Raise e end) l
    = match mapM k l with Ok bs => Ok (map h bs) | Raise e => Raise e end.
  Proof. induction l as [|a l IH]; cbn; [reflexivity|]. destruct (k a); [|reflexivity]. cbn. rewrite IH. now destruct (mapM k l). Qed.
  Lemma mapM_ext' {A B} (h k : A -> res B) l : (forall a, h a = k a) -> mapM h l = mapM k l.
  Proof. intros E. induction l as [|a l IH]; cbn; [reflexivity|]. rewrite E. destruct (k a); [|reflexivity]. cbn. now rewrite IH. Qed.
  Lemma interp_level_f grid q : interp_level (map (map g3) grid) q = match interp_level grid q with Ok r => Ok (map g2 r) | Raise e => Raise e end.
  Proof.
    unfold interp_level. destruct q as [[s t] p]. destruct (finite3 (s, t, p)).
    - assert (E : length (hd [] (map (map g3) grid)) = length (hd [] grid)) by (destruct grid; [reflexivity|cbn; apply map_length]).
      rewrite E. destruct (Nat.eqb _ 1); [reflexivity|]. rewrite mapM_map, <- mapM_post. apply mapM_ext'. intros col. apply interp_station_f.
    - rewrite map_length. f_equal. induction (length grid); cbn; [reflexivity|]. now f_equal.
  Qed.
  Theorem interp_f cols ct cp float :
    interp_climatology (to_array2 (ff cols)) (to_array2 ct) (to_array2 cp) float
    = match interp_climatology (to_array2 cols) (to_array2 ct) (to_array2 cp) float with Ok r => Ok (map (map g2) r) | Raise e => Raise e end.
  Proof.
    unfold interp_climatology. cbv zeta. rewrite rows_f, cols_f.
    assert (EM : map (fun _ : XR * XR * XR => repeat (NaN, NaN) (a_cols (to_array2 cols))) float
                 = map (map g2) (map (fun _ => repeat (NaN, NaN) (a_cols (to_array2 cols))) float)).
    { rewrite map_map. apply map_ext. intros _. induction (a_cols (to_array2 cols)); cbn; [reflexivity|]. now f_equal. }
    destruct (negb _); [f_equal; exact EM|]. rewrite cleaned_f. destruct (cleaned_grid_data _ _ _) as [[grid|]|]; [| |reflexivity]; cbn [option_map bind].
    - rewrite <- mapM_post. apply mapM_ext'. intros q. apply interp_level_f.
    - f_equal. exact EM.
  Qed.

  (* ---- the values are numbers or missing ---- *)
  Definition clean (x : XR) : Prop := x = NaN \/ number x.
  Lemma pad_rows n l : (forall q, In q l -> finite3 q = true) -> forall q, In q (pad n l) -> finite3 q = true \/ q = (NaN, NaN, NaN).
  Proof. intros H q Hq. apply in_app_or in Hq as [Hq|Hq]; [left; now apply H|right]. now apply repeat_spec in Hq. Qed.
  Lemma fin_isfin x : nisfin x = true -> exists r, x = Fin r.
  Proof. destruct x; try discriminate. now eexists. Qed.
  Lemma in_steps {A} (l : list A) a b : In (a, b) (steps l) -> In a l /\ In b l.
  Proof.
    intros H. split; [exact (in_combine_l _ _ _ _ H)|]. apply in_combine_r in H. destruct l; [destruct H|right; exact H].
  Qed.
  Lemma interp_station_clean v p col r : (forall q, In q col -> finite3 q = true \/ q = (NaN, NaN, NaN)) ->
    interp_station (Fin v) p col = Ok r -> clean (fst r).
  Proof.
    intros HC. unfold interp_station. cbv zeta. destruct (existsb _ _); [|intros E; injection E as <-; now left].
    destruct (nanargmin _) as [k|]; [|discriminate]. cbn [bind]. intros E. injection E as <-. cbn [fst].
    rewrite !steps_map, !map_map. unfold clean.
    assert (G : forall k st, (forall ab, In ab st -> In (fst ab) col /\ In (snd ab) col) ->
      let ph := map (fun q : bool * XR * (XR * XR) => if fst (fst q) then interpolate (snd (fst q)) (snd q) else nnan)
          (combine (combine (map (fun x : XR * XR * XR * (XR * XR * XR) => sign_change (nsub (snd (fst (fst x))) (Fin v), nsub (snd (fst (snd x))) (Fin v))) st)
                            (map (fun x => interpolation_weight (Fin v) (snd (fst (fst x)), snd (fst (snd x)))) st))
                   (map (fun q => (fst (fst (fst q)), fst (fst (snd q)))) st)) in
      nth k ph NaN = NaN \/ number (nth k ph NaN)).
    { clear k. intros k st. revert k. induction st as [|[a b] st IH]; intros k HS; cbv zeta; [left; now destruct k|].
      destruct k as [|k]; cbn [map combine nth fst snd]; [|apply IH; intros ab Hab; apply HS; now right].
      destruct (HS (a, b) (or_introl eq_refl)) as [Ha Hb]. cbn [fst snd] in Ha, Hb. clear IH HS.
      destruct a as [[sa ta] pa], b as [[sb tb] pb]. cbn [fst snd].
      destruct (HC _ Ha) as [Fa|Fa]; [|injection Fa as -> -> ->; left; unfold sign_change; cbn; now destruct (xsub tb (Fin v))].
      destruct (HC _ Hb) as [Fb|Fb]; [|injection Fb as -> -> ->; now left].
      unfold finite3 in Fa, Fb. apply andb_true_iff in Fa as [Fa _], Fb as [Fb _]. apply andb_true_iff in Fa as [Sa Ta], Fb as [Sb Tb].
      apply fin_isfin in Sa as [x ->], Ta as [y ->], Sb as [x' ->], Tb as [y' ->].
      unfold sign_change. cbn [fst snd]. change (nleb (nmul (nsub (Fin y') (Fin v)) (nsub (Fin y) (Fin v))) (nofZ 0)) with (Rleb ((y' - v) * (y - v)) 0).
      destruct (Rleb ((y' - v) * (y - v)) 0) eqn:EC; [|now left]. rb. unfold interpolate, interpolation_weight. cbn [fst snd].
      change (nsub (Fin y') (Fin y)) with (Fin (y' - y)). change (nsub (Fin v) (Fin y)) with (Fin (v - y)). change (nsub (Fin x') (Fin x)) with (Fin (x' - x)).
      destruct (Req_dec (y' - y) 0) as [Z|Z].
      - left. assert (v - y = 0)%R as -> by (assert (y' = y) by lra; subst; nra). rewrite Z. cbn. destruct (Req_EM_T 0 0); [|lra]. destruct (Rlt_dec 0 0); [lra|reflexivity].
      - right. rewrite ndiv_fin by exact Z. eexists. reflexivity. }
    apply (G k (steps col)). intros [a b] H. exact (in_steps _ _ _ H).
  Qed.
  Lemma mapM_in {A B} (k : A -> res B) : forall l r, mapM k l = Ok r -> forall b, In b r -> exists a, In a l /\ k a = Ok b.
  Proof.
    induction l as [|a l IH]; intros r E b Hb; cbn in E; [injection E as <-; destruct Hb|].
    destruct (k a) as [b0|] eqn:EK; [|discriminate]. cbn in E. destruct (mapM k l) as [bs|]; [|discriminate]. cbn in E. injection E as <-.
    destruct Hb as [<-|Hb]; [exists a; split; [now left|exact EK]|]. destruct (IH bs eq_refl b Hb) as (a' & Ha & E). exists a'. split; [now right|exact E].
  Qed.
  Theorem interp_clean gs gt gp float r : interp_climatology gs gt gp float = Ok r -> forall row q, In row r -> In q row -> clean (fst q).
  Proof.
    unfold interp_climatology. cbv zeta.
    assert (HM : forall row q, In row (map (fun _ : XR * XR * XR => repeat (NaN, NaN) (a_cols gs)) float) -> In q row -> clean (fst q)).
    { intros row q Hr Hq. apply in_map_iff in Hr as (x & <- & _). apply repeat_spec in Hq. subst. now left. }
    destruct (negb _); [intros E; injection E as <-; exact HM|].
    destruct (cleaned_grid_data gs gt gp) as [[grid|]|] eqn:EC; cbn [bind]; [|intros E; injection E as <-; exact HM|discriminate].
    assert (HG : forall col, In col grid -> forall q, In q col -> finite3 q = true \/ q = (NaN, NaN, NaN)).
    { unfold cleaned_grid_data in EC. cbv zeta in EC. destruct (Nat.eqb _ 0); [discriminate|]. destruct (Nat.eqb _ 0); [discriminate|]. injection EC as <-.
      intros col Hc. apply in_map_iff in Hc as (l & <- & Hl). apply in_map_iff in Hl as (j & <- & _). apply pad_rows.
      intros q Hq. unfold station_levels in Hq. now apply filter_In in Hq. }
    intros E row q Hr Hq. destruct (mapM_in _ _ _ E row Hr) as (fl & _ & EL). unfold interp_level in EL. destruct fl as [[s t] p].
    destruct (finite3 (s, t, p)) eqn:EF; [|injection EL as <-; apply repeat_spec in Hq; subst; now left].
    destruct (Nat.eqb _ 1); [discriminate|]. destruct (mapM_in _ _ _ EL q Hq) as (col & Hc & ES).
    unfold finite3 in EF. apply andb_true_iff in EF as [EF _]. apply andb_true_iff in EF as [_ EF]. apply fin_isfin in EF as [v ->].
    exact (interp_station_clean v p col q (HG col Hc) ES).
  Qed.

  (* ---- the points of a level ---- *)
  Definition raised_hist (h : hist XR) : hist XR := mkHist (map f (h_sal h)) (h_pres h) (h_long h) (h_lat h) (h_dates h) (h_z h).
  Theorem window_f lo la da z p level delta :
    process_profile_hist_variables lo la da z p (map g2 level) delta
    = match process_profile_hist_variables lo la da z p level delta with Ok h => Ok (raised_hist h) | Raise e => Raise e end.
  Proof.
    unfold process_profile_hist_variables. cbv zeta.
    rewrite (argwhere_map g2 _ (fun q : XR * XR => negb (nisnan (fst q)))) by (intros q; cbn [g2 fst]; now rewrite raised_isnan).
    set (idx := argwhere _ level).
    assert (ET : take (@nnan XR _, @nnan XR _) (map g2 level) idx = map g2 (take (@nnan XR _, @nnan XR _) level idx)) by exact (take_map g2 (NaN, NaN) level idx).
    rewrite ET. rewrite !map_map. cbn [g2 fst snd].
    destruct (index_array _ lo idx); [|reflexivity]. cbn [bind]. destruct (index_array _ la idx); [|reflexivity]. cbn [bind].
    destruct (index_array _ da idx); [|reflexivity]. cbn [bind]. destruct (index_array _ z idx); [|reflexivity]. cbn [bind].
    unfold raised_hist. cbn [h_sal h_pres h_long h_lat h_dates h_z]. do 2 f_equal.
    rewrite <- (take_map f). now rewrite !map_map.
  Qed.

  Definition hist_numbers (nz : bool) (h : hist XR) : Prop := exists l : list (hpoint R),
    h_sal h = map (fun q => Fin (hp_sal q)) l /\ h_long h = map (fun q => Fin (hp_long q)) l /\ h_lat h = map (fun q => Fin (hp_lat q)) l /\
    h_dates h = map (fun q => Fin (hp_date q)) l /\ h_z h = map (fun q => Fin (hp_z q)) l /\ (nz = true -> forall q, In q l -> hp_z q <> 0%R) /\
    length (h_pres h) = length l.
  Lemma take_numbers (Q : R -> Prop) l idx : Forall (fun x => exists r, x = Fin r /\ Q r) l -> (forall i, In i idx -> i < length l) ->
    exists rs, take NaN l idx = map Fin rs /\ Forall Q rs.
  Proof.
    intros F H. induction idx as [|i idx IH]; [exists []; split; [reflexivity|constructor]|].
    destruct IH as (rs & E & FQ); [intros j Hj; apply H; now right|]. rewrite Forall_forall in F.
    destruct (F (nth i l NaN)) as (r & ER & HQ); [apply nth_In, H; now left|]. exists (r :: rs). split; [|now constructor].
    unfold take in *. cbn [map]. now rewrite ER, E.
  Qed.
  Lemma index_numbers (Q : R -> Prop) l idx r : Forall (fun x => exists r, x = Fin r /\ Q r) l -> index_array NaN l idx = Ok r ->
    Forall (fun x => exists r, x = Fin r /\ Q r) r /\ length r = length idx.
  Proof.
    intros F. unfold index_array. destruct (forallb _ idx) eqn:EF; [|discriminate]. intros E. injection E as <-. split; [|apply map_length].
    rewrite forallb_forall in EF. destruct (take_numbers Q l idx F) as (rs & -> & FQ); [intros i Hi; now apply Nat.ltb_lt, EF|].
    apply Forall_forall. intros x Hx. apply in_map_iff in Hx as (y & <- & Hy). exists y. split; [reflexivity|]. rewrite Forall_forall in FQ. now apply FQ.
  Qed.
  Lemma argwhere_bound {A} (p : A -> bool) l i : In i (argwhere p l) -> i < length l.
  Proof.
    unfold argwhere. assert (G : forall l k, In i (argwhere_from k p l) -> k <= i < k + length l).
    { induction l0 as [|a l0 IH]; intros k H; cbn in H; [destruct H|]. cbn [length]. destruct (p a); [destruct H as [<-|H]; [lia|]|]; specialize (IH _ H); lia. }
    intros H. apply G in H. lia.
  Qed.
  Lemma argwhere_true {A} (p : A -> bool) l i d : In i (argwhere p l) -> p (nth i l d) = true.
  Proof.
    unfold argwhere. assert (G : forall l k, In i (argwhere_from k p l) -> p (nth (i - k) l d) = true).
    { induction l0 as [|a l0 IH]; intros k H; cbn in H; [destruct H|]. destruct (p a) eqn:EP.
      - destruct H as [<-|H]; [now rewrite Nat.sub_diag|]. assert (S k <= i). { clear - H. revert H. generalize (S k). intros m. revert m. induction l0 as [|b l0 IH]; intros m; cbn; [tauto|].
          destruct (p b); [intros [<-|H]; [lia|]|intros H]; apply IH in H; lia. }
        specialize (IH _ H). replace (i - k) with (S (i - S k)) by lia. exact IH.
      - assert (S k <= i). { clear - H. revert H. generalize (S k). intros m. revert m. induction l0 as [|b l0 IH]; intros m; cbn; [tauto|].
          destruct (p b); [intros [<-|H]; [lia|]|intros H]; apply IH in H; lia. }
        specialize (IH _ H). replace (i - k) with (S (i - S k)) by lia. exact IH. }
    intros H. apply G in H. now rewrite Nat.sub_0_r in H.
  Qed.
  Definition any (r : R) : Prop := True.
  Lemma number_any x : number x <-> exists r, x = Fin r /\ any r.
  Proof. split; [intros (r & E)|intros (r & E & _)]; exists r; [split; [exact E|exact I]|exact E]. Qed.
  Lemma five_lists (a b e d z : list R) n : length a = n -> length b = n -> length e = n -> length d = n -> length z = n ->
    exists l : list (hpoint R), map hp_sal l = a /\ map hp_long l = b /\ map hp_lat l = e /\ map hp_date l = d /\ map hp_z l = z.
  Proof.
    revert b e d z n. induction a as [|x a IH]; intros b e d z n La Lb Le Ld Lz; cbn in La; subst n; destruct b, e, d, z; try discriminate.
    - exists []. now repeat split.
    - cbn in *. destruct (IH b e d z (length a) eq_refl) as (l & A & B & C & D & E); try lia.
      exists (mkHpoint x 0%R r r0 r1 r2 :: l). cbn. rewrite A, B, C, D, E. now repeat split.
  Qed.
  Theorem window_numbers nz lo la da z p level delta h :
    Forall number lo -> Forall number la -> Forall number da -> Forall (fun x => exists r, x = Fin r /\ (nz = true -> r <> 0%R)) z ->
    (forall q, In q level -> clean (fst q)) ->
    process_profile_hist_variables lo la da z p level delta = Ok h -> hist_numbers nz h.
  Proof.
    intros FL FA FD FZ HC. unfold process_profile_hist_variables. cbv zeta. set (idx := argwhere _ level).
    assert (FN : forall l, Forall number l -> Forall (fun x => exists r, x = Fin r /\ any r) l).
    { intros l F. eapply Forall_impl; [|exact F]. intros x Hx. now apply number_any. }
    destruct (index_array _ lo idx) as [lo'|] eqn:E1; [|discriminate]. cbn [bind]. apply (index_numbers any) in E1 as [F1 L1]; [|now apply FN].
    destruct (index_array _ la idx) as [la'|] eqn:E2; [|discriminate]. cbn [bind]. apply (index_numbers any) in E2 as [F2 L2]; [|now apply FN].
    destruct (index_array _ da idx) as [da'|] eqn:E3; [|discriminate]. cbn [bind]. apply (index_numbers any) in E3 as [F3 L3]; [|now apply FN].
    destruct (index_array _ z idx) as [z'|] eqn:E4; [|discriminate]. cbn [bind]. apply (index_numbers _) with (1 := FZ) in E4 as [F4 L4].
    assert (FS : Forall (fun x => exists r, x = Fin r /\ any r) (map fst (take (NaN, NaN) level idx))).
    { apply Forall_forall. intros x Hx. unfold take in Hx. rewrite map_map in Hx. apply in_map_iff in Hx as (i & <- & Hi).
      pose proof (argwhere_true _ level i (NaN, NaN) Hi) as HT. cbn beta in HT. apply number_any. apply argwhere_bound in Hi.
      destruct (HC (nth i level (NaN, NaN))) as [C|C]; [now apply nth_In| |exact C]. rewrite C in HT. discriminate. }
    set (dx := argwhere _ _). assert (LX : forall i, In i dx -> i < length idx).
    { intros i Hi. apply argwhere_bound in Hi. unfold take in Hi. now rewrite !map_length in Hi. }
    assert (LS : length (map fst (take (NaN, NaN) level idx)) = length idx) by (unfold take; now rewrite !map_length).
    destruct (take_numbers any _ dx F1) as (r1 & T1 & _); [intros i Hi; rewrite L1; now apply LX|].
    destruct (take_numbers any _ dx F2) as (r2 & T2 & _); [intros i Hi; rewrite L2; now apply LX|].
    destruct (take_numbers any _ dx F3) as (r3 & T3 & _); [intros i Hi; rewrite L3; now apply LX|].
    destruct (take_numbers _ _ dx F4) as (r4 & T4 & Q4); [intros i Hi; rewrite L4; now apply LX|].
    destruct (take_numbers any _ dx FS) as (r5 & T5 & _); [intros i Hi; rewrite LS; now apply LX|].
    intros E. injection E as <-.
    assert (LL : forall l r, take NaN l dx = map Fin r -> length r = length dx).
    { intros l r T. apply (f_equal (@length _)) in T. unfold take in T. now rewrite !map_length in T. }
    destruct (five_lists r5 r1 r2 r3 r4 (length dx)) as (l & A5 & A1 & A2 & A3 & A4);
      [exact (LL _ _ T5)|exact (LL _ _ T1)|exact (LL _ _ T2)|exact (LL _ _ T3)|exact (LL _ _ T4)|].
    exists l. cbn [h_sal h_pres h_long h_lat h_dates h_z]. change (@nnan XR _) with NaN.
    assert (MM : forall (k : hpoint R -> R), map (fun q => Fin (k q)) l = map Fin (map k l)) by (intros k; now rewrite map_map).
    rewrite !MM, A1, A2, A3, A4, A5. split; [exact T5|]. split; [exact T1|]. split; [exact T2|]. split; [exact T3|]. split; [exact T4|]. split.
    - intros HZ q Hq. rewrite Forall_forall in Q4. apply Q4; [|exact HZ]. rewrite <- A4. now apply in_map.
    - apply LL in T5. rewrite <- A5, map_length in T5. unfold take. rewrite map_length. congruence.
  Qed.
End Interp.
