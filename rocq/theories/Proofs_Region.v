(* Proofs about get_region_data *)
From Coq Require Import String Ascii ZArith List Bool Lia Arith.
From Verif Require Import Proofs_Interp Num Np NumFacts NpFacts Utilities Topo Fetchers Spec_Fetchers Proofs_Fetchers.
Import ListNotations.

Lemma chunks_app {A} cols (g : list (list A)) (l : list A) :
  (forall r, In r g -> length r = cols) -> length l = cols ->
  chunks (length g + 1) cols (concat g ++ l) = g ++ [l].
Proof.
  intros Hg Hl. induction g as [|r g IH].
  - cbn. now rewrite <- Hl, firstn_all.
  - cbn [length plus chunks concat]. rewrite <- app_assoc.
    assert (E : length r = cols) by (apply Hg; now left).
    rewrite <- E at 1. rewrite firstn_app, Nat.sub_diag, firstn_all, firstn_O, app_nil_r.
    rewrite <- E at 2. rewrite skipn_app, Nat.sub_diag, skipn_all, skipn_O. cbn [app].
    f_equal. apply IH. intros x Hx. apply Hg. now right.
Qed.

Lemma concat_length_const {A} cols (g : list (list A)) :
  (forall r, In r g -> length r = cols) -> length (concat g) = length g * cols.
Proof.
  induction g as [|r g IH]; intros Hg; [reflexivity|].
  cbn [concat length]. rewrite app_length, (Hg r), IH; [lia| |now left].
  intros; apply Hg; now right.
Qed.

Lemma reshape_app {A} cols (g : list (list A)) (l : list A) :
  (forall r, In r g -> length r = cols) -> length l = cols ->
  reshape (length g + 1) cols (concat g ++ l) = Some (g ++ [l]).
Proof.
  intros Hg Hl. unfold reshape.
  rewrite app_length, (concat_length_const cols) by assumption.
  replace (Nat.eqb _ _) with true by (symmetry; apply Nat.eqb_eq; lia).
  f_equal. now apply chunks_app.
Qed.

Lemma reshape_bad {A} rows cols (l : list A) : length l <> rows * cols -> reshape rows cols l = None.
Proof. intros N. unfold reshape. apply Nat.eqb_neq in N. now rewrite N. Qed.

Lemma nth_error_map' {A B} (f : A -> B) l i x : nth_error l i = Some x -> nth_error (map f l) i = Some (f x).
Proof. intros E. rewrite nth_error_map, E. reflexivity. Qed.

Section R.
  Context {T : Type} `{Num T}.
  Variable limit : T.

  Definition raw (f : level T -> T) (d : nat) (c : cast T) : list T :=
    map f (levels limit c) ++ repeat nnan (d - length (levels limit c)).

  Lemma raw_length f d c : length (levels limit c) <= d -> length (raw f d c) = d.
  Proof. intros L. unfold raw. rewrite app_length, map_length, repeat_length. lia. Qed.

  (* the state after the casts [cs] *)
  Definition st (cs : list (cast T)) : region :=
    let d := depth limit cs in
    mkRegion (map (raw l_sal d) cs) (map (raw l_ptmp d) cs) (map (raw l_pres d) cs)
             (map c_lat cs) (map c_long cs) (map c_date cs) d (length cs).

  Lemma depth_le c cs : In c cs -> length (levels limit c) <= depth limit cs.
  Proof.
    intros Hc. unfold depth.
    pose proof (proj1 (list_max_le (map (fun c => length (levels limit c)) cs) _) (Nat.le_refl _)) as F.
    rewrite Forall_forall in F. apply F. apply in_map_iff. eauto.
  Qed.

  Lemma depth_app cs c : depth limit (cs ++ [c]) = Nat.max (depth limit cs) (length (levels limit c)).
  Proof.
    unfold depth. rewrite map_app, list_max_app. cbn. lia.
  Qed.

  Lemma cast_levels_holds d cs i c : arrays d cs -> nth_error cs i = Some c ->
    cast_levels limit d i =
    Some (map l_pres (levels limit c), map l_sal (levels limit c), map l_ptmp (levels limit c)).
  Proof.
    intros (_ & _ & _ & Hp & Hs & Ht) Hi. unfold cast_levels. rewrite Hp, Hs, Ht. cbn [mat_col].
    rewrite !(nth_error_map' _ cs i c Hi).
    rewrite !gather_argwhere.
    rewrite !np_delete_argwhere.
    assert (E : filter (fun x => negb (nltb limit (l_pres x)))
                  (filter (fun x => negb (nisnan (l_pres x))) (c_levels c)) = levels limit c).
    { unfold levels. induction (c_levels c) as [|l ls IH]; [reflexivity|]. cbn [filter].
      destruct (negb (nisnan (l_pres l))); cbn [filter andb]; [|exact IH].
      destruct (negb (nltb limit (l_pres l))); [now f_equal|exact IH]. }
    rewrite !E. reflexivity.
  Qed.

  Lemma widen_raw f d k cs : (forall c, In c cs -> length (levels limit c) <= d) ->
    widen k (map (raw f d) cs) = map (raw f (d + k)) cs.
  Proof.
    intros Hd. unfold widen. rewrite map_map. apply map_ext_in. intros c Hc. unfold raw.
    specialize (Hd c Hc). rewrite <- app_assoc. f_equal. rewrite <- repeat_app. f_equal. lia.
  Qed.

  Lemma hd_raw f d cs : cs <> [] -> (forall c, In c cs -> length (levels limit c) <= d) ->
    length (hd [] (map (raw f d) cs)) = d.
  Proof.
    intros N Hd. destruct cs as [|c cs]; [now elim N|]. cbn. apply raw_length. apply Hd. now left.
  Qed.

  (* one more cast, as long as the depth reached so far is not zero (or nothing was stored) *)
  Lemma add_cast_ok d cs0 i c cs : arrays d cs0 -> nth_error cs0 i = Some c ->
    (cs = [] \/ depth limit cs <> 0) ->
    add_cast limit d i (st cs) = (st (cs ++ [c]), true).
  Proof.
    intros Hh Hi Hcs. unfold add_cast. rewrite (cast_levels_holds d cs0 i c Hh Hi).
    destruct Hh as (Hla & Hlo & Hda & _).
    rewrite Hla, Hlo, Hda. cbn [vec_at]. rewrite !(nth_error_map' _ cs0 i c Hi).
    rewrite map_length. set (n := length (levels limit c)).
    cbn [st g_max_depth g_pres g_sal g_ptmp g_lat g_long g_dates g_cols].
    rewrite map_length.
    set (D := depth limit cs) in *.
    destruct cs as [|c0 cs'].
    - (* first cast *)
      subst D. unfold depth. cbn [map list_max fold_right length Nat.eqb andb negb].
      rewrite andb_false_r. cbn [negb andb]. change (n <? 0) with false. cbn [andb].
      rewrite map_length. fold n.
      assert (R : forall f : level T -> T, reshape 1 n (map f (levels limit c)) = Some [map f (levels limit c)]).
      { intros f. unfold reshape. rewrite map_length. fold n. rewrite Nat.mul_1_l, Nat.eqb_refl.
        cbn [chunks]. f_equal. f_equal. apply firstn_all2. rewrite map_length. fold n. lia. }
      rewrite !R. cbn [hd app map length].
      unfold st, depth. cbn [map list_max fold_right app length].
      fold n. rewrite Nat.max_0_r.
      assert (RR : forall f : level T -> T, raw f n c = map f (levels limit c)).
      { intros f. unfold raw. fold n. rewrite Nat.sub_diag. cbn. now rewrite app_nil_r. }
      rewrite !RR. rewrite map_length. fold n. reflexivity.
    - destruct Hcs as [Hcs|Hcs]; [discriminate|].
      assert (Hd : forall x, In x (c0 :: cs') -> length (levels limit x) <= D) by (intros; now apply depth_le).
      set (cs := c0 :: cs') in *.
      assert (Hne : cs <> []) by discriminate.
      replace (Nat.eqb (length cs) 0) with false by reflexivity.
      set (M := Nat.max D n).
      replace (Nat.max n D) with M by (unfold M; lia).
      set (grow := (D <? n) && negb (Nat.eqb D 0)).
      assert (Hg : grow = (D <? n)).
      { unfold grow. replace (Nat.eqb D 0) with false by (symmetry; apply Nat.eqb_neq; exact Hcs).
        apply andb_true_r. }
      assert (W : forall f : level T -> T,
        (if grow then widen (n - D) (map (raw f D) cs) else map (raw f D) cs) = map (raw f M) cs).
      { intros f. rewrite Hg. destruct (D <? n) eqn:E.
        - apply Nat.ltb_lt in E. rewrite widen_raw by assumption. do 2 f_equal. unfold M. lia.
        - apply Nat.ltb_ge in E. do 2 f_equal. unfold M. lia. }
      assert (P : forall f : level T -> T,
        (if negb grow && (n <? D) then map f (levels limit c) ++ repeat nnan (D - n) else map f (levels limit c)) = raw f M c).
      { intros f. unfold raw. fold n. rewrite Hg. destruct (n <? D) eqn:E.
        - apply Nat.ltb_lt in E. replace (D <? n) with false by (symmetry; apply Nat.ltb_ge; lia).
          cbn [negb andb]. do 2 f_equal. unfold M. lia.
        - apply Nat.ltb_ge in E. rewrite andb_false_r. replace (M - n) with 0 by (unfold M; lia).
          cbn. now rewrite app_nil_r. }
      rewrite !W, !P.
      assert (HM : forall x, In x cs -> length (levels limit x) <= M).
      { intros x Hx. specialize (Hd x Hx). unfold M. lia. }
      assert (R : forall f : level T -> T, reshape (length cs + 1) M (concat (map (raw f M) cs) ++ raw f M c)
                          = Some (map (raw f M) (cs ++ [c]))).
      { intros f. rewrite <- (map_length (raw f M) cs), reshape_app.
        - now rewrite map_app.
        - intros r Hr. apply in_map_iff in Hr. destruct Hr as (x & <- & Hx). apply raw_length. auto.
        - apply raw_length. fold n. unfold M. lia. }
      rewrite !R.
      unfold st. rewrite depth_app. fold D n M. rewrite !map_app. cbn [map].
      f_equal. f_equal.
      + rewrite <- (map_app (raw l_pres M) cs [c]) at 1. unfold cs. cbn [map app hd].
        apply raw_length. apply HM. now left.
      + now rewrite !app_length, !map_length.
  Qed.

  (* once an empty column is stored, no cast with data can be added *)
  Definition st0 (cs : list (cast T)) : region :=
    mkRegion (map (fun _ => []) cs) (map (fun _ => []) cs) (map (fun _ => []) cs)
             (map c_lat cs) (map c_long cs) (map c_date cs) 0 (length cs).

  Lemma add_cast_stuck d cs0 i c cs : arrays d cs0 -> nth_error cs0 i = Some c -> cs <> [] ->
    levels limit c <> [] -> add_cast limit d i (st0 cs) = (st0 cs, false).
  Proof.
    intros Hh Hi Hne Hl. unfold add_cast. rewrite (cast_levels_holds d cs0 i c Hh Hi).
    rewrite map_length. set (n := length (levels limit c)).
    assert (Hn : n <> 0) by (unfold n; destruct (levels limit c); [now elim Hl|cbn; lia]).
    cbn [st0 g_max_depth g_pres g_sal g_ptmp g_lat g_long g_dates g_cols].
    rewrite map_length. cbv zeta.
    cbn [Nat.eqb negb]. rewrite !andb_false_r. cbn [negb andb].
    change (n <? 0) with false. cbv iota.
    replace (Nat.eqb (length cs) 0) with false
      by (symmetry; apply Nat.eqb_neq; destruct cs; [now elim Hne|discriminate]).
    rewrite reshape_bad; [reflexivity|].
    rewrite app_length, map_length, (concat_length_const 0).
    - fold n. rewrite Nat.max_0_r, Nat.mul_0_r. cbn [plus].
      destruct cs; [now elim Hne|]. cbn [length]. nia.
    - intros r Hr. apply in_map_iff in Hr. destruct Hr as (x & <- & _). reflexivity.
  Qed.

  Lemma add_cast_empty d cs0 i c cs : arrays d cs0 -> nth_error cs0 i = Some c ->
    levels limit c = [] -> add_cast limit d i (st0 cs) = (st0 (cs ++ [c]), true).
  Proof.
    intros Hh Hi Hl. unfold add_cast. rewrite (cast_levels_holds d cs0 i c Hh Hi).
    destruct Hh as (Hla & Hlo & Hda & _).
    rewrite Hla, Hlo, Hda. cbn [vec_at]. rewrite !(nth_error_map' _ cs0 i c Hi). rewrite Hl.
    cbn [st0 g_max_depth g_pres g_sal g_ptmp g_lat g_long g_dates g_cols map length].
    rewrite map_length. cbn [Nat.ltb Nat.leb andb negb Nat.eqb Nat.max].
    destruct cs as [|c0 cs'].
    - reflexivity.
    - set (cs := c0 :: cs').
      replace (Nat.eqb (length cs) 0) with false by reflexivity.
      assert (R : reshape (length cs + 1) 0 (concat (map (fun _ : cast T => @nil T) cs) ++ [])
                  = Some (map (fun _ : cast T => @nil T) (cs ++ [c]))).
      { rewrite <- (map_length (fun _ : cast T => @nil T) cs), reshape_app.
        - now rewrite map_app.
        - intros r Hr. apply in_map_iff in Hr. destruct Hr as (x & <- & Hx). reflexivity.
        - reflexivity. }
      rewrite !R. unfold st0. rewrite !map_app. cbn [map hd app].
      f_equal. f_equal. now rewrite !app_length, !map_length.
  Qed.

  (* the casts of a file that are selected, from cast i on *)
  Variable index : list nat.
  Definition sel (start : nat) (cs : list (cast T)) : list (cast T) :=
    map snd (filter (fun p => existsb (Nat.eqb (fst p)) index) (combine (seq start (length cs)) cs)).

  Lemma sel_cons start c cs : sel start (c :: cs) =
    (if existsb (Nat.eqb start) index then [c] else []) ++ sel (S start) cs.
  Proof. unfold sel. cbn [length seq combine filter fst]. now destruct (existsb _ index). Qed.

  Lemma sel_app start a b : sel start (a ++ b) = sel start a ++ sel (start + length a) b.
  Proof.
    revert start; induction a as [|c a IH]; intros start.
    - cbn. now rewrite Nat.add_0_r.
    - cbn [app length]. rewrite !sel_cons, IH, <- app_assoc.
      replace (start + S (length a)) with (S start + length a) by lia. reflexivity.
  Qed.

  Lemma depth_mono cs c : depth limit cs <> 0 -> depth limit (cs ++ [c]) <> 0.
  Proof. rewrite depth_app. lia. Qed.

  (* no loss as long as the first cast selected has data *)
  Definition good_first (cs : list (cast T)) : Prop :=
    match cs with [] => True | c :: _ => levels limit c <> [] end.

  Lemma good_first_depth cs : good_first cs -> cs = [] \/ depth limit cs <> 0.
  Proof.
    destruct cs as [|c cs]; [now left|]. cbn. intros Hc. right.
    pose proof (depth_le c (c :: cs) (or_introl eq_refl)) as HD.
    assert (length (levels limit c) <> 0) by (intros E; apply length_zero_iff_nil in E; contradiction).
    lia.
  Qed.
  Lemma good_first_app a b : good_first (a ++ b) -> good_first a.
  Proof. destruct a; [cbn; auto|auto]. Qed.

  Lemma add_casts_ok d cs0 start rest i acc : arrays d cs0 ->
    (forall k, nth_error rest k = nth_error cs0 (i + k)) ->
    good_first (acc ++ sel (start + i) rest) ->
    add_casts index limit d start i (length rest) (st acc) = st (acc ++ sel (start + i) rest).
  Proof.
    intros Hh. revert i acc; induction rest as [|c rest IH]; intros i acc Hn Hg.
    - cbn. now rewrite app_nil_r.
    - cbn [length add_casts]. rewrite sel_cons in *.
      assert (Hn' : forall k, nth_error rest k = nth_error cs0 (S i + k)).
      { intros k. specialize (Hn (S k)). cbn in Hn. rewrite Hn. f_equal. lia. }
      replace (S (start + i)) with (start + S i) in * by lia.
      destruct (existsb (Nat.eqb (start + i)) index).
      + assert (Hc : nth_error cs0 i = Some c).
        { specialize (Hn 0). cbn in Hn. rewrite Nat.add_0_r in Hn. now rewrite <- Hn. }
        rewrite (add_cast_ok d cs0 i c acc Hh Hc).
        * rewrite IH; [|exact Hn'|].
          -- now rewrite <- app_assoc.
          -- rewrite <- app_assoc. exact Hg.
        * apply good_first_depth. eapply good_first_app. exact Hg.
      + cbn [app] in *. now apply IH.
  Qed.

  Lemma add_casts_lost d cs0 start rest i acc : arrays d cs0 ->
    (forall k, nth_error rest k = nth_error cs0 (i + k)) -> acc <> [] ->
    exists more, add_casts index limit d start i (length rest) (st0 acc) = st0 (acc ++ more).
  Proof.
    intros Hh. revert i acc; induction rest as [|c rest IH]; intros i acc Hn Hne.
    - exists []. cbn. now rewrite app_nil_r.
    - cbn [length add_casts].
      assert (Hn' : forall k, nth_error rest k = nth_error cs0 (S i + k)).
      { intros k. specialize (Hn (S k)). cbn in Hn. rewrite Hn. f_equal. lia. }
      destruct (existsb (Nat.eqb (start + i)) index).
      + assert (Hc : nth_error cs0 i = Some c).
        { specialize (Hn 0). cbn in Hn. rewrite Nat.add_0_r in Hn. now rewrite <- Hn. }
        destruct (levels limit c) as [|l0 ls] eqn:El.
        * rewrite (add_cast_empty d cs0 i c acc Hh Hc El).
          destruct (IH (S i) (acc ++ [c]) Hn') as [more E]; [destruct acc; discriminate|].
          exists (c :: more). rewrite E, <- app_assoc. reflexivity.
        * rewrite (add_cast_stuck d cs0 i c acc Hh Hc Hne); [|rewrite El; discriminate].
          exists []. now rewrite app_nil_r.
      + now apply IH.
  Qed.

  (* nothing is read from a file without two-dimensional arrays *)
  Lemma add_casts_blind d start k i s : (forall j, cast_levels limit d j = None) ->
    add_casts index limit d start i k s = s.
  Proof.
    intros Hb. revert i; induction k as [|k IH]; intros i; [reflexivity|]. cbn [add_casts].
    destruct (existsb (Nat.eqb (start + i)) index); [|apply IH].
    unfold add_cast. rewrite Hb. reflexivity.
  Qed.

  (* the casts selected that can be loaded *)
  Definition lsel (start : nat) (cs : list (cast T)) : list (cast T) := filter loadable (sel start cs).
  Lemma filter_app' {A} (f : A -> bool) a b : filter f (a ++ b) = filter f a ++ filter f b.
  Proof. induction a as [|x a IH]; [reflexivity|]. cbn [app filter]. rewrite IH. now destruct (f x). Qed.
  Lemma lsel_app start a b : lsel start (a ++ b) = lsel start a ++ lsel (start + length a) b.
  Proof. unfold lsel. now rewrite sel_app, filter_app'. Qed.
  Lemma sel_incl start cs c : In c (sel start cs) -> In c cs.
  Proof.
    revert start; induction cs as [|x cs IH]; intros start; [intros []|]. rewrite sel_cons, in_app_iff.
    intros [Hx|Hx]; [|right; eauto]. destruct (existsb _ index); [|destruct Hx]. destruct Hx as [<-|[]]. now left.
  Qed.
  Lemma lsel_all start cs : (forall c, In c cs -> loadable c = true) -> lsel start cs = sel start cs.
  Proof. intros Hl. apply filter_true. intros c Hc. apply Hl. now apply (sel_incl start). Qed.
  Lemma lsel_none start cs : (forall c, In c cs -> loadable c = false) -> lsel start cs = [].
  Proof. intros Hl. apply filter_none. intros c Hc. apply Hl. now apply (sel_incl start). Qed.

  (* what one file does *)
  Lemma add_file_arrays d l s start : arrays d l -> (forall c, In c l -> loadable c = true) ->
    add_file index limit (s, start) (Ok (Some d)) = (add_casts index limit d start 0 (length l) s, start + length l).
  Proof.
    intros (El & _ & _ & Ep & _) HL. cbn [add_file]. rewrite El, Ep. cbn [mat_len]. rewrite map_length.
    destruct l as [|c l]; [reflexivity|]. cbn [map hd]. pose proof (HL c (or_introl eq_refl)) as Hc.
    unfold loadable in Hc. apply Nat.leb_le in Hc. rewrite map_length.
    destruct (length (c_levels c)) as [|[|m]]; try lia. reflexivity.
  Qed.
  Lemma add_file_blind d l s start : blind d l ->
    add_file index limit (s, start) (Ok (Some d)) = (s, start + length l).
  Proof.
    intros (El & _ & _ & _ & v & Ep & Hv). cbn [add_file]. rewrite El, Ep. cbn [mat_len]. rewrite map_length.
    assert (Hb : forall j, cast_levels limit d j = None) by (intros j; unfold cast_levels; now rewrite Ep).
    destruct (length v) as [|[|m]]; [|lia|]; now rewrite add_casts_blind.
  Qed.
  Lemma add_file_scal d x s start : d_lat d = Scal x -> add_file index limit (s, start) (Ok (Some d)) = (s, start).
  Proof. intros El. cbn [add_file]. rewrite El. now destruct (mat_len (d_pres d)) as [[|[|m]]|]. Qed.

  (* all files *)
  Lemma add_files_ok rs ls acc start : Forall2 result_holds rs ls ->
    good_first (acc ++ lsel start (concat ls)) ->
    fold_left (add_file index limit) rs (st acc, start) =
    (st (acc ++ lsel start (concat ls)), start + length (concat ls)).
  Proof.
    intros HF. revert acc start; induction HF as [|r l rs ls HR HF IH]; intros acc start Hg.
    - cbn. now rewrite app_nil_r, Nat.add_0_r.
    - cbn [fold_left concat] in *. rewrite lsel_app in *.
      unfold result_holds in HR. destruct r as [[d|]|e].
      + destruct HR as [[HA HL]|[HB|[-> [x Hx]]]].
        * rewrite (add_file_arrays d l) by assumption. rewrite (lsel_all start l HL) in *.
          rewrite (add_casts_ok d l start l 0 acc HA); [|reflexivity|].
          -- rewrite Nat.add_0_r. rewrite IH by (rewrite <- app_assoc; exact Hg).
             rewrite <- app_assoc, app_length. f_equal. lia.
          -- rewrite Nat.add_0_r. eapply good_first_app. rewrite <- app_assoc. exact Hg.
        * rewrite (add_file_blind d l) by assumption. destruct HB as (_ & _ & _ & HL & _).
          rewrite (lsel_none start l HL) in *. cbn [app] in *. rewrite IH by exact Hg.
          rewrite app_length. f_equal. lia.
        * rewrite (add_file_scal d x) by assumption. cbn [app length] in *. rewrite Nat.add_0_r in *.
          change (lsel start []) with (@nil (cast T)) in *. cbn [app] in *. now rewrite IH.
      + subst l. cbn [app length add_file] in *. rewrite Nat.add_0_r in *.
        change (lsel start []) with (@nil (cast T)) in *. cbn [app] in *. now rewrite IH.
      + subst l. cbn [app length add_file] in *. rewrite Nat.add_0_r in *.
        change (lsel start []) with (@nil (cast T)) in *. cbn [app] in *. now rewrite IH.
  Qed.

  Lemma add_files_lost rs ls acc start : Forall2 result_holds rs ls -> acc <> [] ->
    exists more n, fold_left (add_file index limit) rs (st0 acc, start) = (st0 (acc ++ more), n).
  Proof.
    intros HF. revert acc start; induction HF as [|r l rs ls HR HF IH]; intros acc start Hne.
    - exists [], start. cbn. now rewrite app_nil_r.
    - cbn [fold_left]. unfold result_holds in HR. destruct r as [[d|]|e].
      + destruct HR as [[HA HL]|[HB|[-> [x Hx]]]].
        * rewrite (add_file_arrays d l) by assumption.
          destruct (add_casts_lost d l start l 0 acc HA) as [more ->]; [reflexivity|exact Hne|].
          destruct (IH (acc ++ more) (start + length l)) as (more' & n & E).
          { destruct acc; [now elim Hne|discriminate]. }
          exists (more ++ more'), n. now rewrite E, app_assoc.
        * rewrite (add_file_blind d l) by assumption. now apply IH.
        * rewrite (add_file_scal d x) by assumption. now apply IH.
      + apply IH. exact Hne.
      + apply IH. exact Hne.
  Qed.

  (* up to the first selected cast nothing happens *)
  Lemma add_casts_first d cs0 start rest i : arrays d cs0 ->
    (forall k, nth_error rest k = nth_error cs0 (i + k)) ->
    match sel (start + i) rest with
    | [] => add_casts index limit d start i (length rest) region0 = region0
    | c :: _ => levels limit c = [] ->
        exists acc, acc <> [] /\ add_casts index limit d start i (length rest) region0 = st0 acc
    end.
  Proof.
    intros Hh. revert i; induction rest as [|c rest IH]; intros i Hn; [reflexivity|].
    rewrite sel_cons. cbn [length add_casts].
    assert (Hn' : forall k, nth_error rest k = nth_error cs0 (S i + k)).
    { intros k. specialize (Hn (S k)). cbn in Hn. rewrite Hn. f_equal. lia. }
    replace (S (start + i)) with (start + S i) by lia.
    destruct (existsb (Nat.eqb (start + i)) index).
    - cbn [app]. intros El.
      assert (Hc : nth_error cs0 i = Some c).
      { specialize (Hn 0). cbn in Hn. rewrite Nat.add_0_r in Hn. now rewrite <- Hn. }
      change region0 with (st0 []).
      rewrite (add_cast_empty d cs0 i c [] Hh Hc El). cbn [app].
      destruct (add_casts_lost d cs0 start rest (S i) [c] Hh Hn') as [more E]; [discriminate|].
      exists ([c] ++ more). split; [discriminate|exact E].
    - cbn [app]. now apply IH.
  Qed.

  Lemma add_files_first rs ls start c more0 : Forall2 result_holds rs ls ->
    lsel start (concat ls) = c :: more0 -> levels limit c = [] ->
    exists acc n, acc <> [] /\ fold_left (add_file index limit) rs (region0, start) = (st0 acc, n).
  Proof.
    intros HF. revert start; induction HF as [|r l rs ls HR HF IH]; intros start Hs Hl.
    - discriminate.
    - cbn [fold_left concat] in *. rewrite lsel_app in Hs.
      unfold result_holds in HR. destruct r as [[d|]|e].
      + destruct HR as [[HA HL]|[HB|[-> [x Hx]]]].
        * rewrite (add_file_arrays d l) by assumption. rewrite (lsel_all start l HL) in Hs.
          pose proof (add_casts_first d l start l 0 HA (fun k => eq_refl)) as HA1.
          rewrite Nat.add_0_r in HA1.
          destruct (sel start l) as [|c' s'].
          -- rewrite HA1. apply IH; auto.
          -- injection Hs as -> _. destruct (HA1 Hl) as (acc & Hne & ->).
             destruct (add_files_lost rs ls acc (start + length l) HF Hne) as (more & n & E).
             exists (acc ++ more), n. split; [|exact E]. destruct acc; [now elim Hne|discriminate].
        * rewrite (add_file_blind d l) by assumption. destruct HB as (_ & _ & _ & HL & _).
          rewrite (lsel_none start l HL) in Hs. now apply IH.
        * rewrite (add_file_scal d x) by assumption. cbn [length] in Hs. rewrite Nat.add_0_r in Hs. now apply IH.
      + subst l. cbn [length] in Hs. rewrite Nat.add_0_r in Hs. apply IH; auto.
      + subst l. cbn [length] in Hs. rewrite Nat.add_0_r in Hs. apply IH; auto.
  Qed.
End R.

(* ---------------------------------------------------------------- *)
(* after the loops *)
Section Final.
  Context {T : Type} `{Num T}.

  (* columns as records *)
  Record colr : Type := mkCol { q_sal : list T; q_ptmp : list T; q_pres : list T; q_lat : T; q_long : T; q_date : T }.
  Definition unzip (l : list colr) : out :=
    mkOut (map q_sal l) (map q_ptmp l) (map q_pres l) (map q_lat l) (map q_long l) (map q_date l).
  Definition keepc (c : colr) : bool := negb (forallb nisnan (q_sal c) || forallb nisnan (q_pres c)).

  Lemma np_delete_map {A B} (f : A -> B) pre x rest :
    np_delete (map f (pre ++ x :: rest)) [length pre] = map f (pre ++ rest).
  Proof.
    rewrite !map_app. cbn [map]. rewrite <- (map_length f pre). apply np_delete_at.
  Qed.

  Lemma nth_mid {A B} (f : A -> B) pre x rest d : nth (length pre) (map f (pre ++ x :: rest)) d = f x.
  Proof.
    rewrite map_app, app_nth2 by (rewrite map_length; lia). rewrite map_length, Nat.sub_diag. reflexivity.
  Qed.

  Lemma drop_nan_cols_filter rest pre column nans : nans <= column -> length pre = column - nans ->
    drop_nan_cols (length rest) column nans (unzip (pre ++ rest)) = unzip (pre ++ filter keepc rest).
  Proof.
    revert pre column nans; induction rest as [|c rest IH]; intros pre column nans Hle Hlen.
    - reflexivity.
    - cbn [length drop_nan_cols filter]. rewrite <- Hlen.
      cbn [unzip o_sal o_pres o_ptmp o_lat o_long o_dates].
      rewrite !nth_mid. unfold keepc at 1.
      destruct (forallb nisnan (q_sal c) || forallb nisnan (q_pres c)); cbn [negb].
      + rewrite !np_delete_map. apply (IH pre (S column) (S nans)); lia.
      + change (mkOut (map q_sal (pre ++ c :: rest)) (map q_ptmp (pre ++ c :: rest)) (map q_pres (pre ++ c :: rest))
                 (map q_lat (pre ++ c :: rest)) (map q_long (pre ++ c :: rest)) (map q_date (pre ++ c :: rest)))
          with (unzip (pre ++ c :: rest)).
        replace (pre ++ c :: rest) with ((pre ++ [c]) ++ rest) by (now rewrite <- app_assoc).
        rewrite (IH (pre ++ [c]) (S column) nans); [now rewrite <- app_assoc|lia|].
        rewrite app_length. cbn [length]. lia.
  Qed.
End Final.

Section Result.
  Context {T : Type} `{NumNan T}.
  Variable limit : T.

  Lemma sync3_blank (l : level T) : sync3 (l_sal l, l_pres l, l_ptmp l) =
    (l_sal (blank l), l_pres (blank l), l_ptmp (blank l)).
  Proof.
    unfold sync3, blank, complete. pose proof nan_isnan as N.
    destruct (nisnan (l_sal l)) eqn:Es, (nisnan (l_pres l)) eqn:Ep, (nisnan (l_ptmp l)) eqn:Et;
      cbn [negb andb l_sal l_pres l_ptmp]; rewrite ?N, ?Es, ?Ep, ?Et, ?N; try reflexivity.
    now rewrite (nan_unique _ Et).
  Qed.

  Lemma sync3_nan : sync3 (nnan, nnan, nnan) = (nnan, nnan, nnan : T).
  Proof. unfold sync3. now rewrite !nan_isnan. Qed.

  Lemma sync_rows_raw d c : 
    sync_rows (raw limit l_sal d c) (raw limit l_pres d c) (raw limit l_ptmp d c) =
    map (fun l => (l_sal l, l_pres l, l_ptmp l)) (col limit d c).
  Proof.
    unfold sync_rows, zip3, raw, col.
    set (ls := levels limit c). set (k := d - length ls).
    assert (R : repeat (nnan : T) k = map (fun _ => nnan) (repeat tt k)).
    { clear. induction k; cbn; [reflexivity|now f_equal]. }
    assert (E : forall f : level T -> T, map f ls ++ repeat nnan k = map (fun x => match x with inl l => f l | inr _ => nnan end)
                   (map inl ls ++ map inr (repeat tt k))).
    { intros f. rewrite R. now rewrite map_app, !map_map. }
    rewrite !E, !combine_maps, map_map, !map_app, !map_map. f_equal.
    - apply map_ext. intros l. apply sync3_blank.
    - clearbody k. clear - H0. induction k; cbn; [reflexivity|]. f_equal; [apply sync3_nan|assumption].
  Qed.

  Lemma nan_col (d : nat) (c : cast T) :
    forallb nisnan (map l_sal (col limit d c)) || forallb nisnan (map l_pres (col limit d c)) = negb (has_data limit c).
  Proof.
    assert (G : forall f : level T -> T, (forall l, complete l = true -> nisnan (f l) = false) ->
      f (mkLevel nnan nnan nnan) = nnan ->
      forallb nisnan (map f (col limit d c)) = negb (has_data limit c)).
    { intros f Hf Hn. unfold col, has_data. rewrite map_app, forallb_app.
      assert (E2 : forallb nisnan (map f (repeat (mkLevel nnan nnan nnan) (d - length (levels limit c)))) = true).
      { clear - Hn H0. induction (d - _); cbn; [reflexivity|]. rewrite Hn, nan_isnan. assumption. }
      rewrite E2, andb_true_r. clear E2.
      induction (levels limit c) as [|l ls IH]; [reflexivity|].
      cbn [map forallb existsb]. rewrite IH, negb_orb. f_equal.
      unfold blank. destruct (complete l) eqn:El; cbn [negb]; [now apply Hf|].
      rewrite Hn. apply nan_isnan. }
    rewrite !G; try reflexivity.
    - apply orb_diag.
    - intros l Hl. unfold complete in Hl. apply andb_prop in Hl as [Hl _]. apply andb_prop in Hl as [Hl _].
      now apply negb_true_iff in Hl.
    - intros l Hl. unfold complete in Hl. apply andb_prop in Hl as [Hl _]. apply andb_prop in Hl as [_ Hl].
      now apply negb_true_iff in Hl.
  Qed.
End Result.

Section Main.
  Context {T : Type} `{NumNan T}.
  Variables (db : database T) (read_mat : string -> res (ref_data T)) (cfg : db_config T) (name : string).
  Hypothesis Hdb : reads db read_mat.
  Variable date_str : T -> list ascii.
  Variables (boxes : list (list T)) (index : list nat) (float_pres : list T).
  Hypothesis H4 : four_columns boxes.
  Hypothesis Hpres : float_pres <> [].

  Let limit := nadd (nanmax float_pres) (map_p_delta cfg).
  Let other := fun s => negb (str_contains name s).
  Let chosen := selected index (region_casts db cfg other boxes).
  Let call := get_region_data read_mat date_str boxes name cfg index float_pres.

  Theorem region_data_none : chosen = [] -> call = Raise RuntimeError.
  Proof.
    intros Hc. unfold call, get_region_data. destruct float_pres as [|p0 ps]; [now elim Hpres|].
    fold limit.
    destruct (requests_holds db read_mat cfg name Hdb boxes H4) as (ls & HF & HC).
    pose proof (add_files_ok limit index _ ls [] 0 HF) as HA.
    assert (Hsel : lsel index 0 (concat ls) = chosen) by (unfold lsel, sel, chosen, selected, numbered; now rewrite HC).
    rewrite Hsel, Hc in HA. specialize (HA I).
    change (st limit []) with (@region0 T) in HA. rewrite HA. reflexivity.
  Qed.

  Theorem region_data_ok c0 rest : chosen = c0 :: rest -> levels limit c0 <> [] ->
    let d := depth limit chosen in
    let kept := filter (fun p => has_data limit (fst p)) (combine chosen (wrap_longitude (map c_long chosen))) in
    call = Ok (mkOut (map (fun p => map l_sal (col limit d (fst p))) kept)
                     (map (fun p => map l_ptmp (col limit d (fst p))) kept)
                     (map (fun p => map l_pres (col limit d (fst p))) kept)
                     (map (fun p => c_lat (fst p)) kept) (map snd kept)
                     (map (fun p => change_date (date_str (c_date (fst p)))) kept)).
  Proof.
    intros Hc Hl. cbv zeta. unfold call, get_region_data. destruct float_pres as [|p0 ps]; [now elim Hpres|].
    fold limit.
    destruct (requests_holds db read_mat cfg name Hdb boxes H4) as (ls & HF & HC).
    pose proof (add_files_ok limit index _ ls [] 0 HF) as HA.
    assert (Hsel : lsel index 0 (concat ls) = chosen) by (unfold lsel, sel, chosen, selected, numbered; now rewrite HC).
    rewrite Hsel in HA. cbn [app] in HA.
    assert (Hg : good_first limit chosen) by (rewrite Hc; exact Hl).
    specialize (HA Hg). change (st limit []) with (@region0 T) in HA. rewrite HA.
    set (d := depth limit chosen).
    cbn [st g_long g_sal g_pres g_ptmp g_lat g_dates]. fold d.
    assert (Hlong : exists x xs, map c_long chosen = x :: xs) by (rewrite Hc; cbn; eauto).
    destruct Hlong as (x & xs & Hlong). rewrite Hlong at 1. cbv iota.
    assert (Hd : forall f c, In c chosen -> length (raw limit f d c) = d)
      by (intros f c Hin; apply raw_length; now apply depth_le).
    assert (SS : forall f g : level T -> T, same_shape (map (raw limit f d) chosen) (map (raw limit g d) chosen) = true).
    { intros f g. unfold same_shape. rewrite !map_length, Nat.eqb_refl. cbn [andb].
      rewrite Hc. cbn [map hd]. rewrite !Hd by (rewrite Hc; now left). apply Nat.eqb_refl. }
    rewrite !SS. cbn [andb]. f_equal.
    assert (SN : sync_nans (map (raw limit l_sal d) chosen) (map (raw limit l_pres d) chosen) (map (raw limit l_ptmp d) chosen)
              = map (fun c => map (fun l => (l_sal l, l_pres l, l_ptmp l)) (col limit d c)) chosen).
    { unfold sync_nans. rewrite !combine_maps, map_map. apply map_ext. intros c. cbn [fst snd]. apply sync_rows_raw. }
    rewrite SN. rewrite map_length, !map_map.
    (* columns as records *)
    set (mk := fun p : cast T * T => mkCol (map l_sal (col limit d (fst p))) (map l_ptmp (col limit d (fst p)))
                  (map l_pres (col limit d (fst p))) (c_lat (fst p)) (snd p) (change_date (date_str (c_date (fst p))))).
    set (pairs := combine chosen (wrap_longitude (map c_long chosen))).
    assert (LW : length (wrap_longitude (map c_long chosen)) = length chosen).
    { unfold wrap_longitude. destruct (existsb _ _); rewrite !map_length; reflexivity. }
    assert (P1 : map fst pairs = chosen) by (apply map_fst_combine; now rewrite LW).
    assert (P2 : map snd pairs = wrap_longitude (map c_long chosen)) by (apply map_snd_combine; now rewrite LW).
    assert (U : mkOut (map (fun c => map (fun q => fst (fst q)) (map (fun l => (l_sal l, l_pres l, l_ptmp l)) (col limit d c))) chosen)
                (map (fun c => map snd (map (fun l => (l_sal l, l_pres l, l_ptmp l)) (col limit d c))) chosen)
                (map (fun c => map (fun q => snd (fst q)) (map (fun l => (l_sal l, l_pres l, l_ptmp l)) (col limit d c))) chosen)
                (map c_lat chosen) (wrap_longitude (map c_long chosen))
                (change_dates (map (fun x => date_str (c_date x)) chosen)) = unzip (map mk pairs)).
    { unfold unzip. rewrite !map_map. change (map (fun x => q_long (mk x)) pairs) with (map snd pairs).
      rewrite P2. unfold change_dates. rewrite map_map. rewrite <- P1 at 1 2 3 4 6. rewrite !map_map.
      f_equal; apply map_ext; intros; rewrite ?map_map; reflexivity. }
    rewrite U. replace (length chosen) with (length (map mk pairs))
      by (rewrite map_length; unfold pairs; rewrite combine_length, LW; lia).
    pose proof (drop_nan_cols_filter (map mk pairs) [] 0 0 (Nat.le_refl 0) eq_refl) as HD.
    cbn [app] in HD. rewrite HD.
    assert (KF : filter keepc (map mk pairs) = map mk (filter (fun p => has_data limit (fst p)) pairs)).
    { clearbody pairs. clear - H0. induction pairs as [|pp prs IH]; [reflexivity|]. cbn [map filter].
      unfold keepc at 1. cbn [mk q_sal q_pres]. rewrite nan_col, negb_involutive.
      destruct (has_data limit (fst pp)); cbn [map]; [now f_equal|exact IH]. }
    rewrite KF. unfold unzip. rewrite !map_map. reflexivity.
  Qed.

  Theorem region_data_lost c0 rest : chosen = c0 :: rest -> levels limit c0 = [] ->
    call = Ok (mkOut [] [] [] [] [] []).
  Proof.
    intros Hc Hl. unfold call, get_region_data. destruct float_pres as [|p0 ps]; [now elim Hpres|].
    fold limit.
    destruct (requests_holds db read_mat cfg name Hdb boxes H4) as (ls & HF & HC).
    assert (Hsel : lsel index 0 (concat ls) = chosen) by (unfold lsel, sel, chosen, selected, numbered; now rewrite HC).
    rewrite Hc in Hsel.
    destruct (add_files_first limit index _ ls 0 c0 rest HF Hsel Hl) as (acc & n & Hne & E).
    rewrite E. cbn [st0 g_long g_sal g_pres g_ptmp g_lat g_dates].
    destruct acc as [|a0 acc]; [now elim Hne|].
    set (cs := a0 :: acc) in *.
    change (map c_long cs) with (c_long a0 :: map c_long acc) at 1. cbv iota.
    unfold same_shape. rewrite !map_length, Nat.eqb_refl. cbn [andb hd map length]. cbn [cs map hd length Nat.eqb].
    fold cs. f_equal.
    assert (SN : sync_nans (map (fun _ => []) cs) (map (fun _ => []) cs) (map (fun _ => []) cs) = map (fun _ : cast T => @nil (T*T*T)) cs).
    { unfold sync_nans. rewrite !combine_maps, map_map. reflexivity. }
    change (@nil T :: map (fun _ : cast T => @nil T) acc) with (map (fun _ : cast T => @nil T) cs).
    rewrite SN, map_length, !map_map. cbn [map].
    set (lo := wrap_longitude (map c_long cs)).
    change (c_lat a0 :: map c_lat acc) with (map c_lat cs).
    set (pairs := combine cs lo).
    assert (LW : length lo = length cs).
    { unfold lo, wrap_longitude. destruct (existsb _ _); rewrite !map_length; reflexivity. }
    assert (P1 : map fst pairs = cs) by (apply map_fst_combine; now rewrite LW).
    assert (P2 : map snd pairs = lo) by (apply map_snd_combine; now rewrite LW).
    set (mk := fun p : cast T * T => mkCol (@nil T) [] [] (c_lat (fst p)) (snd p) (change_date (date_str (c_date (fst p))))).
    assert (U : mkOut (map (fun _ => []) cs) (map (fun _ => []) cs) (map (fun _ => []) cs) (map c_lat cs) lo
                (change_dates (map (fun x => date_str (c_date x)) cs)) = unzip (map mk pairs)).
    { unfold unzip. rewrite !map_map. change (map (fun x => q_long (mk x)) pairs) with (map snd pairs).
      rewrite P2. unfold change_dates. rewrite map_map. rewrite <- P1. rewrite !map_map. reflexivity. }
    cbn [andb]. f_equal.
    match goal with |- drop_nan_cols _ _ _ ?o = _ => replace o with (unzip (map mk pairs)) by (symmetry; exact U) end.
    replace (length cs) with (length (map mk pairs))
      by (rewrite map_length; unfold pairs; rewrite combine_length, LW; lia).
    pose proof (drop_nan_cols_filter (map mk pairs) [] 0 0 (Nat.le_refl 0) eq_refl) as HD.
    cbn [app] in HD. rewrite HD.
    assert (KF : filter keepc (map mk pairs) = []).
    { clear. induction pairs as [|pp prs IH]; [reflexivity|]. cbn [map filter]. exact IH. }
    rewrite KF. reflexivity.
  Qed.
End Main.
