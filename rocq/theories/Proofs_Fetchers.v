(* Proofs about the readers and get_region_hist_locations *)
From Coq Require Import String Ascii ZArith List Bool Lia Arith.
From Verif Require Import Proofs_Interp Num Np NumFacts NpFacts Utilities Topo Fetchers Spec_Fetchers.
Import ListNotations.

(* ---------------------------------------------------------------- *)
(* arrays given as maps over a common list *)
Lemma take_argwhere_map {X A B} (f : X -> A) (g : X -> B) (q : A -> bool) (d : B) L pre :
  map (fun i => nth i (map g (pre ++ L)) d) (argwhere_from (length pre) q (map f L)) = map g (filter (fun x => q (f x)) L).
Proof.
  revert pre; induction L as [|x L IH]; intros pre; [reflexivity|].
  cbn [map argwhere_from filter].
  assert (E : pre ++ x :: L = (pre ++ [x]) ++ L) by (rewrite <- app_assoc; reflexivity).
  specialize (IH (pre ++ [x])). rewrite app_length in IH. cbn [length] in IH.
  rewrite Nat.add_1_r in IH. rewrite <- E in IH.
  destruct (q (f x)); cbn [map]; [|exact IH]. f_equal; [|exact IH].
  rewrite map_app, app_nth2 by (rewrite map_length; lia).
  rewrite map_length, Nat.sub_diag. reflexivity.
Qed.

Lemma gather_argwhere {X A B} (f : X -> A) (g : X -> B) (q : A -> bool) L :
  gather (map g L) (argwhere q (map f L)) = Some (map g (filter (fun x => q (f x)) L)).
Proof.
  unfold gather.
  assert (E : forallb (fun i => Nat.ltb i (length (map g L))) (argwhere q (map f L)) = true).
  { apply forallb_forall. intros i Hi. apply Nat.ltb_lt. rewrite map_length.
    destruct L as [|x L]; [destruct Hi|].
    apply (argwhere_spec (f x)) in Hi. rewrite map_length in Hi. tauto. }
  rewrite E. destruct L as [|x L]; [reflexivity|].
  change (map g (x :: L)) with (g x :: map g L) at 1. cbv iota.
  f_equal. exact (take_argwhere_map f g q (g x) (x :: L) []).
Qed.

Lemma delete_from_map {X A B} (f : X -> A) (g : X -> B) (q : A -> bool) L pre k :
  k = length pre ->
  delete_from k (argwhere_from 0 q (map f (pre ++ L))) (map g L) = map g (filter (fun x => negb (q (f x))) L).
Proof.
  revert pre k; induction L as [|x L IH]; intros pre k ->; [reflexivity|].
  cbn [map delete_from filter].
  assert (E : pre ++ x :: L = (pre ++ [x]) ++ L) by (rewrite <- app_assoc; reflexivity).
  assert (M : existsb (Nat.eqb (length pre)) (argwhere_from 0 q (map f (pre ++ x :: L))) = q (f x)).
  { apply Bool.eq_iff_eq_true. rewrite existsb_exists. split.
    - intros (i & Hi & He). apply Nat.eqb_eq in He. subst i.
      apply (argwhere_spec (f x)) in Hi. destruct Hi as [_ Hi].
      rewrite map_app, app_nth2 in Hi by (rewrite map_length; lia).
      rewrite map_length, Nat.sub_diag in Hi. exact Hi.
    - intros Hq. exists (length pre). split; [|apply Nat.eqb_refl].
      apply (argwhere_spec (f x)). rewrite map_length, app_length. cbn [length]. split; [lia|].
      rewrite map_app, app_nth2 by (rewrite map_length; lia).
      rewrite map_length, Nat.sub_diag. exact Hq. }
  rewrite M. rewrite E. rewrite (IH (pre ++ [x]) (S (length pre))) by (rewrite app_length; cbn; lia).
  destruct (q (f x)); reflexivity.
Qed.

Lemma np_delete_argwhere {X A B} (f : X -> A) (g : X -> B) (q : A -> bool) L :
  np_delete (map g L) (argwhere q (map f L)) = map g (filter (fun x => negb (q (f x))) L).
Proof. exact (delete_from_map f g q L [] 0 eq_refl). Qed.

Lemma np_delete_at {A} (pre : list A) x rest : np_delete (pre ++ x :: rest) [length pre] = pre ++ rest.
Proof.
  unfold np_delete.
  assert (G : forall k (l : list A), (forall i, k <= i < k + length l -> i <> length pre) ->
                       delete_from k [length pre] l = l).
  { intros k l; revert k; induction l as [|y l IH]; intros k Hk; [reflexivity|].
    cbn [delete_from existsb].
    replace (Nat.eqb k (length pre)) with false
      by (symmetry; apply Nat.eqb_neq; apply Hk; cbn; lia).
    cbn [orb]. f_equal. apply IH. intros i Hi. apply Hk. cbn. lia. }
  assert (H : forall k (l : list A), k + length l = length pre ->
            delete_from k [length pre] (l ++ x :: rest) = l ++ rest).
  { intros k l; revert k; induction l as [|y l IH]; intros k Hk.
    - cbn [length] in Hk. rewrite Nat.add_0_r in Hk. subst k.
      cbn [app delete_from existsb]. rewrite Nat.eqb_refl. cbn [orb].
      apply G. lia.
    - cbn [app delete_from existsb length] in *.
      replace (Nat.eqb k (length pre)) with false by (symmetry; apply Nat.eqb_neq; lia).
      cbn [orb]. f_equal. apply IH. lia. }
  apply (H 0 pre). reflexivity.
Qed.

(* ---------------------------------------------------------------- *)
(* strings *)
Lemma prefix_app sub s : String.prefix sub s = true <-> exists b, s = (sub ++ b)%string.
Proof.
  revert s; induction sub as [|c sub IH]; intros s.
  - split; [intros _; now exists s|]. intros _. now destruct s.
  - destruct s as [|c' s]; [split; [discriminate|intros [b Hb]; discriminate]|].
    cbn [String.prefix String.append]. destruct (ascii_dec c c') as [->|N].
    + rewrite IH. split; intros [b Hb]; exists b; [now rewrite Hb|now injection Hb].
    + split; [discriminate|]. intros [b Hb]. injection Hb as -> _. now elim N.
Qed.

Lemma str_contains_occurs sub s : str_contains sub s = true <-> occurs sub s.
Proof.
  unfold occurs. induction s as [|c s IH].
  - cbn [str_contains]. rewrite orb_false_r. rewrite prefix_app. split.
    + intros [b Hb]. exists EmptyString, b. exact Hb.
    + intros (a & b & E). destruct a as [|x a]; [|discriminate]. now exists b.
  - cbn [str_contains]. rewrite orb_true_iff, IH, prefix_app. split.
    + intros [[b Hb]|(a & b & E)].
      * exists EmptyString, b. exact Hb.
      * exists (String c a), b. now rewrite E.
    + intros (a & b & E). destruct a as [|x a].
      * left. now exists b.
      * right. injection E as -> E. now exists a, b.
Qed.

Section P.
  Context {T : Type} `{Num T}.

  Lemma del_map {X B} (f : X -> string) (g : X -> B) (q : string -> bool) (L : list X) :
    del (map g L) (argwhere q (map f L)) = Ok (map g (filter (fun x => negb (q (f x))) L)).
  Proof.
    unfold del.
    assert (E : forallb (fun i => Nat.ltb i (length (map g L))) (argwhere q (map f L)) = true).
    { apply forallb_forall. intros i Hi. apply Nat.ltb_lt. rewrite map_length.
      apply (argwhere_spec EmptyString) in Hi. rewrite map_length in Hi. tauto. }
    rewrite E. f_equal. apply np_delete_argwhere.
  Qed.

  (* ---- what squeezing makes of the arrays ---- *)
  Lemma squeeze_row_vec {A} (l : list A) : length l <> 1 -> squeeze_row l = Vec l.
  Proof. destruct l as [|x [|y l]]; cbn [length]; [reflexivity|lia|reflexivity]. Qed.
  Lemma squeeze_row_scal {X A} (f : X -> A) x : squeeze_row (map f [x]) = Scal (f x).
  Proof. reflexivity. Qed.
  Lemma squeeze_mat {X A} (f : X -> list A) (cs : list X) :
    (forall c, In c cs -> 2 <= length (f c)) -> 2 <= length cs -> squeeze (map f cs) = Mat (map f cs).
  Proof.
    intros HL Hn. destruct cs as [|c [|c' cs]]; cbn [length] in Hn; try lia.
    pose proof (HL c (or_introl eq_refl)) as Hc. cbn [map squeeze].
    destruct (f c) as [|x [|y l]]; cbn [length] in Hc; try lia. reflexivity.
  Qed.
  Lemma concat_one {A} (ls : list (list A)) : (forall l, In l ls -> length l = 1) -> length (concat ls) = length ls.
  Proof.
    induction ls as [|l ls IH]; intros Hl; [reflexivity|]. cbn [concat length]. rewrite app_length, IH.
    - rewrite (Hl l (or_introl eq_refl)). reflexivity.
    - intros; apply Hl; now right.
  Qed.
  Lemma concat_zero {A} (ls : list (list A)) : (forall l, In l ls -> length l = 0) -> length (concat ls) = 0.
  Proof.
    induction ls as [|l ls IH]; intros Hl; [reflexivity|]. cbn [concat]. rewrite app_length, IH.
    - rewrite (Hl l (or_introl eq_refl)). reflexivity.
    - intros; apply Hl; now right.
  Qed.
  Lemma squeeze_flat {X A} (f : X -> list A) (cs : list X) m :
    (forall c, In c cs -> length (f c) = m) -> m <= 1 -> length cs <> 1 ->
    squeeze (map f cs) = MVec (concat (map f cs)) /\ length (concat (map f cs)) = m * length cs.
  Proof.
    intros HL Hm Hn. split.
    - destruct cs as [|c [|c' cs]]; cbn [length] in Hn; try lia; [reflexivity|].
      pose proof (HL c (or_introl eq_refl)) as Hc. cbn [map].
      destruct (f c) as [|x [|y l]]; cbn [length] in Hc; [reflexivity|reflexivity|lia].
    - assert (HL' : forall l, In l (map f cs) -> length l = m).
      { intros l Hl. apply in_map_iff in Hl as (c & <- & Hc). now apply HL. }
      destruct m as [|[|m]]; [now apply concat_zero| |lia].
      rewrite concat_one by exact HL'. rewrite map_length. lia.
  Qed.
  Lemma squeeze_not_mat {X A} (f : X -> list A) (cs : list X) m :
    (forall c, In c cs -> length (f c) = m) -> m <= 1 -> length cs <> 1 -> exists l, squeeze (map f cs) = MVec l.
  Proof. intros A1 A2 A3. destruct (squeeze_flat f cs m A1 A2 A3) as [E _]. eauto. Qed.
  Lemma squeeze_single {X A} (f : X -> list A) c : (exists x, squeeze (map f [c]) = MScal x) \/ exists l, squeeze (map f [c]) = MVec l.
  Proof. cbn [map squeeze]. destruct (f c) as [|x [|y l]]; eauto. Qed.
  Lemma concat_many {A} (ls : list (list A)) : (forall l, In l ls -> 2 <= length l) -> ls <> [] -> length ls < length (concat ls).
  Proof.
    intros HL Hne. assert (G : 2 * length ls <= length (concat ls)).
    { clear Hne. induction ls as [|l ls IH]; [cbn; lia|]. cbn [concat length]. rewrite app_length.
      pose proof (HL l (or_introl eq_refl)). assert (2 * length ls <= length (concat ls)) by (apply IH; intros; apply HL; now right). lia. }
    destruct ls; [now elim Hne|cbn [length] in *; lia].
  Qed.

  (* the two kinds of arrays that can be handed out besides numbers *)
  Lemma arrays_stored (cs : list (cast T)) : (forall c, In c cs -> loadable c = true) -> 2 <= length cs -> arrays (stored cs) cs.
  Proof.
    intros HL Hn. unfold arrays, stored. cbn [d_lat d_long d_dates d_pres d_sal d_ptmp].
    assert (HL' : forall (f : level T -> T) c, In c cs -> 2 <= length (map f (c_levels c))).
    { intros f c Hc. rewrite map_length. apply Nat.leb_le. exact (HL c Hc). }
    rewrite !squeeze_row_vec by (rewrite map_length; lia).
    rewrite !squeeze_mat by (assumption || (intros; now apply HL')). repeat split.
  Qed.
  Definition blind (d : ref_data T) (cs : list (cast T)) : Prop :=
    d_lat d = Vec (map c_lat cs) /\ d_long d = Vec (map c_long cs) /\ d_dates d = Vec (map c_date cs) /\
    (forall c, In c cs -> loadable c = false) /\ exists l, d_pres d = MVec l /\ length l <> 1.
  Lemma blind_stored (cs : list (cast T)) m : (forall c, In c cs -> length (c_levels c) = m) -> m <= 1 -> length cs <> 1 -> blind (stored cs) cs.
  Proof.
    intros HL Hm Hn. unfold blind, stored. cbn [d_lat d_long d_dates d_pres].
    rewrite !squeeze_row_vec by (rewrite map_length; exact Hn). repeat (split; [reflexivity|]).
    split.
    - intros c Hc. unfold loadable. rewrite (HL c Hc). apply Nat.leb_gt. lia.
    - destruct (squeeze_flat (fun c => map l_pres (c_levels c)) cs m) as [E L]; try assumption.
      { intros c Hc. rewrite map_length. now apply HL. }
      eexists. split; [exact E|]. rewrite L. destruct m as [|[|m]]; cbn; lia.
  Qed.

  (* read_mat_argo on a well-formed file *)
  Lemma remove_float_arrays name (cs : list (cast T)) : (forall c, In c cs -> loadable c = true) -> 2 <= length cs ->
    let kept := filter (fun c => negb (str_contains name (c_source c))) cs in
    exists d, remove_float name (stored cs) = Ok d /\ arrays d kept.
  Proof.
    intros HL Hn. cbv zeta. destruct (arrays_stored cs HL Hn) as (E1 & E2 & E3 & E4 & E5 & E6).
    unfold remove_float, not_use. rewrite E1, E2, E3, E4, E5, E6.
    cbn [stored d_source]. rewrite !map_length. rewrite Nat.ltb_irrefl.
    rewrite firstn_all2 by (rewrite map_length; lia). unfold del_row, del_cols.
    rewrite !del_map. cbn [bind]. eexists. split; [reflexivity|]. repeat split.
  Qed.
  Lemma remove_float_flat name (cs : list (cast T)) m : (forall c, In c cs -> length (c_levels c) = m) -> m <= 1 \/ length cs = 1 ->
    exists e, remove_float name (stored cs) = Raise e.
  Proof.
    intros HL Hm. destruct (Nat.eq_dec (length cs) 1) as [E1|N1].
    - destruct cs as [|c [|c' cs]]; try discriminate. unfold remove_float. cbn [stored d_lat map squeeze_row]. eauto.
    - destruct Hm as [Hm|Hm]; [|contradiction].
      unfold remove_float, not_use. cbn [stored d_lat d_long d_dates d_sal d_source].
      rewrite !squeeze_row_vec by (rewrite map_length; exact N1). rewrite !map_length, Nat.ltb_irrefl.
      rewrite firstn_all2 by (rewrite map_length; lia). unfold del_row.
      rewrite !del_map. cbn [bind]. unfold del_cols.
      destruct (squeeze_not_mat (fun c => map l_sal (c_levels c)) cs m) as [l ->]; try assumption; [|cbn; eauto].
      intros c Hc. rewrite map_length. now apply HL.
  Qed.

  (* read_mat_bottle *)
  Lemma fix_bottle_single (c : cast T) : exists e, fix_bottle (stored [c]) = Raise e.
  Proof. unfold fix_bottle. cbn. eauto. Qed.
  Lemma fix_bottle_ok (cs : list (cast T)) m : (forall c, In c cs -> length (c_levels c) = m) -> m <> 1 -> 2 <= length cs ->
    fix_bottle (stored cs) = Ok (stored cs).
  Proof.
    intros HL Hm Hn. unfold fix_bottle. cbn [stored d_lat d_pres]. rewrite squeeze_row_vec by (rewrite map_length; lia).
    rewrite map_length. unfold mat_size.
    destruct (Nat.leb_spec 2 m) as [G|G].
    - rewrite squeeze_mat; [|intros c Hc; rewrite map_length, (HL c Hc); exact G|exact Hn].
      cbn [bind].
      assert (L : length (map (fun c => map l_pres (c_levels c)) cs) < length (concat (map (fun c => map l_pres (c_levels c)) cs))).
      { apply concat_many.
        - intros l Hl. apply in_map_iff in Hl as (c & <- & Hc). rewrite map_length, (HL c Hc). exact G.
        - destruct cs; [cbn in Hn; lia|discriminate]. }
      rewrite map_length in L. replace (Nat.eqb _ _) with false by (symmetry; apply Nat.eqb_neq; lia). reflexivity.
    - destruct (squeeze_flat (fun c => map l_pres (c_levels c)) cs m) as [E L]; [intros c Hc; rewrite map_length; now apply HL|lia|lia|].
      rewrite E. cbn [bind]. rewrite L. replace m with 0 by lia.
      replace (Nat.eqb _ _) with false by (symmetry; apply Nat.eqb_neq; cbn; lia). reflexivity.
  Qed.
  Lemma fix_bottle_one (cs : list (cast T)) : (forall c, In c cs -> length (c_levels c) = 1) -> length cs <> 1 ->
    exists e, fix_bottle (stored cs) = Raise e.
  Proof.
    intros HL Hn. unfold fix_bottle. cbn [stored d_lat d_pres]. rewrite squeeze_row_vec by (rewrite map_length; lia).
    destruct (squeeze_flat (fun c => map l_pres (c_levels c)) cs 1) as [E L]; [intros c Hc; rewrite map_length; now apply HL|lia|lia|].
    rewrite E. cbn [mat_size bind]. rewrite L, map_length, Nat.mul_1_l, Nat.eqb_refl. eauto.
  Qed.

  (* the data get_data hands out, as the list of casts it counts for: two-dimensional arrays, arrays
     without levels to read, or a number *)
  Definition result_holds (r : res (option (ref_data T))) (cs : list (cast T)) : Prop :=
    match r with
    | Ok (Some d) => (arrays d cs /\ forall c, In c cs -> loadable c = true) \/ blind d cs \/
                     (cs = [] /\ exists x, d_lat d = Scal x)
    | _ => cs = []
    end.

  Lemma holds_stored (cs : list (cast T)) : matrix cs -> result_holds (Ok (Some (stored cs))) (several cs).
  Proof.
    intros [m HL]. unfold result_holds. destruct (Nat.eq_dec (length cs) 1) as [E1|N1].
    - right. right. destruct cs as [|c [|c' cs]]; try discriminate. split; [reflexivity|]. cbn. eauto.
    - assert (ES : several cs = cs) by (destruct cs as [|c [|c' cs]]; [reflexivity|now elim N1|reflexivity]). rewrite ES.
      destruct (Nat.leb_spec 2 m) as [G|G]; [|right; left; apply (blind_stored cs m); [exact HL|lia|exact N1]].
      destruct cs as [|c0 cs]; [right; left; apply (blind_stored [] 0); [intros ? []|lia|discriminate]|].
      left. assert (HL' : forall c, In c (c0 :: cs) -> loadable c = true).
      { intros c Hc. unfold loadable. rewrite (HL c Hc). now apply Nat.leb_le. }
      split; [|exact HL']. apply arrays_stored; [exact HL'|]. destruct cs; cbn [length] in *; [now elim N1|lia].
  Qed.

  Lemma filter_none {A} (f : A -> bool) l : (forall x, In x l -> f x = false) -> filter f l = [].
  Proof.
    induction l as [|a l IH]; intros Hf; [reflexivity|]. cbn [filter]. rewrite (Hf a (or_introl eq_refl)).
    apply IH. intros; apply Hf; now right.
  Qed.
  Lemma filter_true {A} (f : A -> bool) l : (forall x, In x l -> f x = true) -> filter f l = l.
  Proof.
    induction l as [|a l IH]; intros Hf; [reflexivity|]. cbn [filter]. rewrite (Hf a (or_introl eq_refl)).
    f_equal. apply IH. intros; apply Hf; now right.
  Qed.
  Lemma several_incl (cs : list (cast T)) c : In c (several cs) -> In c cs.
  Proof. destruct cs as [|a [|b cs]]; cbn [several]; auto. intros []. Qed.
  Lemma several_many (cs : list (cast T)) : length cs <> 1 -> several cs = cs.
  Proof. destruct cs as [|c [|c' cs]]; cbn [length]; [reflexivity|lia|reflexivity]. Qed.
  Lemma several_nil (cs : list (cast T)) : length cs = 1 -> several cs = [].
  Proof. destruct cs as [|c [|c' cs]]; cbn [length]; try lia. reflexivity. Qed.

  Lemma bottle_holds (cs : list (cast T)) : matrix cs ->
    result_holds (let* d := fix_bottle (stored cs) in Ok (Some d)) (filter (fun c => negb (one_level c)) (several cs)).
  Proof.
    intros [m HL].
    destruct (Nat.eq_dec (length cs) 1) as [E1|N1].
    { rewrite several_nil by exact E1. destruct cs as [|c [|c' cs]]; try discriminate.
      destruct (fix_bottle_single c) as [e ->]. reflexivity. }
    rewrite several_many by exact N1.
    destruct cs as [|c0 cs0]; [cbn; reflexivity|]. set (cs := c0 :: cs0) in *.
    assert (Hn : 2 <= length cs) by (unfold cs in *; cbn [length] in *; lia).
    destruct (Nat.eq_dec m 1) as [->|Nm].
    - destruct (fix_bottle_one cs HL N1) as [e ->]. cbn [bind result_holds].
      apply filter_none. intros c Hc. unfold one_level. now rewrite (HL c Hc).
    - rewrite (fix_bottle_ok cs m HL Nm Hn). cbn [bind]. rewrite filter_true.
      + rewrite <- (several_many cs N1) at 2. apply holds_stored. now exists m.
      + intros c Hc. unfold one_level. rewrite (HL c Hc). apply negb_true_iff, Nat.eqb_neq. exact Nm.
  Qed.

  Lemma argo_holds name (cs : list (cast T)) : matrix cs ->
    result_holds (let* d := remove_float name (stored cs) in Ok (Some d))
      (filter (fun c => negb (str_contains name (c_source c)) && loadable c) (several cs)).
  Proof.
    intros [m HL]. destruct (Nat.eq_dec (length cs) 1) as [E1|N1].
    { rewrite several_nil by exact E1. destruct (remove_float_flat name cs m HL (or_intror E1)) as [e ->]. reflexivity. }
    rewrite several_many by exact N1.
    destruct (Nat.leb_spec 2 m) as [G|G].
    - assert (HL' : forall c, In c cs -> loadable c = true) by (intros c Hc; unfold loadable; rewrite (HL c Hc); now apply Nat.leb_le).
      assert (EF : filter (fun c => negb (str_contains name (c_source c)) && loadable c) cs =
                   filter (fun c => negb (str_contains name (c_source c))) cs).
      { apply filter_ext_in. intros c Hc. rewrite (HL' c Hc). apply andb_true_r. }
      rewrite EF.
      destruct cs as [|c0 cs0].
      { destruct (remove_float_flat name [] 0) as [e ->]; [intros ? []|left; lia|reflexivity]. }
      set (cs := c0 :: cs0) in *.
      destruct (remove_float_arrays name cs HL') as (d & -> & Hd); [unfold cs in *; cbn [length] in *; lia|].
      cbn [bind result_holds]. left. split; [exact Hd|]. intros c Hc. apply filter_In in Hc. now apply HL'.
    - assert (Gm : m <= 1) by lia. destruct (remove_float_flat name cs m HL (or_introl Gm)) as [e ->]. cbn [bind result_holds].
      apply filter_none. intros c Hc. unfold loadable. rewrite (HL c Hc). replace (2 <=? m) with false by (symmetry; apply Nat.leb_gt; lia).
      apply andb_false_r.
  Qed.

  Variables (db : database T) (read_mat : string -> res (ref_data T)) (cfg : db_config T) (name : string).
  Hypothesis Hdb : reads db read_mat.
  Let other := fun s => negb (str_contains name s).

  Lemma get_data_holds n c b a rest :
    let row := n :: c :: b :: a :: rest in
    exists l1 l2 l3,
      result_holds (get_data read_mat cfg name row 1) l1 /\
      result_holds (get_data read_mat cfg name row 2) l2 /\
      result_holds (get_data read_mat cfg name row 3) l3 /\
      box_casts db cfg other row = l1 ++ l2 ++ l3.
  Proof.
    cbv zeta. unfold get_data. cbn [nth_error box_casts].
    destruct (int_of_float n) as [box|e]; cbn [bind].
    2:{ exists [], [], []. repeat split. }
    eexists _, _, _. split; [|split; [|split; [|reflexivity]]].
    - unfold if_used, of_file. destruct (neqb c (nofZ 1)); [|reflexivity].
      pose proof (Hdb (box_file (historical_directory cfg) (ctd_prefix cfg) box)) as HR.
      destruct (db _) as [cs|]; [destruct HR as [HM ->]; now apply holds_stored|destruct HR as [e ->]; reflexivity].
    - unfold if_used, of_file. destruct (neqb b (nofZ 1)); [|reflexivity].
      pose proof (Hdb (box_file (historical_directory cfg) (bottle_prefix cfg) box)) as HR.
      destruct (db _) as [cs|]; [|destruct HR as [e ->]; reflexivity].
      destruct HR as [HM ->]. cbn [bind]. now apply bottle_holds.
    - unfold if_used, of_file. destruct (neqb a (nofZ 1)); [|reflexivity].
      pose proof (Hdb (box_file (historical_directory cfg) (argo_prefix cfg) box)) as HR.
      destruct (db _) as [cs|]; [|destruct HR as [e ->]; reflexivity].
      destruct HR as [HM ->]. cbn [bind]. now apply argo_holds.
  Qed.

  (* the data of all requests, as casts *)
  Lemma requests_holds boxes : four_columns boxes ->
    exists ls, Forall2 result_holds (map (fun r => get_data read_mat cfg name (fst r) (snd r)) (requests boxes)) ls /\
               concat ls = region_casts db cfg other boxes.
  Proof.
    induction boxes as [|row boxes IH]; intros H4.
    - exists []. split; [constructor|reflexivity].
    - destruct IH as (ls & HF & HC). { intros r Hr. apply H4. now right. }
      assert (L : 4 <= length row) by (apply H4; now left).
      destruct row as [|n [|c [|b [|a rest]]]]; cbn in L; try lia.
      destruct (get_data_holds n c b a rest) as (l1 & l2 & l3 & H1 & H2 & H3 & HE).
      exists (l1 :: l2 :: l3 :: ls). split.
      + cbn [requests flat_map map app fst snd].
        repeat (constructor; [assumption|]). exact HF.
      + change (region_casts db cfg other ((n :: c :: b :: a :: rest) :: boxes))
          with (box_casts db cfg other (n :: c :: b :: a :: rest) ++ region_casts db cfg other boxes).
        rewrite HE, <- HC. cbn [concat]. now rewrite <- !app_assoc.
  Qed.

  Variable date_str : T -> list ascii.

  Theorem hist_locations boxes : four_columns boxes ->
    let cs := region_casts db cfg other boxes in
    get_region_hist_locations read_mat date_str boxes name cfg =
    match cs with
    | [] => Raise ValueError
    | _ => Ok (map c_lat cs, wrap_longitude (map c_long cs), map (fun c => change_date (date_str (c_date c))) cs)
    end.
  Proof.
    intros H4. cbv zeta.
    destruct (requests_holds boxes H4) as (ls & HF & HC). rewrite <- HC. clear HC.
    unfold get_region_hist_locations.
    match goal with |- context [fold_left ?f _ _] => set (step := f) end.
    assert (G : forall rs ls, Forall2 result_holds (map (fun r => get_data read_mat cfg name (fst r) (snd r)) rs) ls ->
      forall pre, fold_left step rs (map c_lat pre, map c_long pre, map c_date pre) =
        (map c_lat (pre ++ concat ls), map c_long (pre ++ concat ls), map c_date (pre ++ concat ls))).
    { induction rs as [|r rs IH]; intros ls' HF' pre; inversion HF'; subst.
      - cbn. now rewrite app_nil_r.
      - cbn [fold_left concat]. rewrite app_assoc.
        match goal with H : Forall2 _ (map _ rs) ?l |- _ => rename H into HFr; rename l into lr end.
        match goal with H : result_holds _ ?y |- _ => rename H into HR; rename y into y0 end.
        assert (E : step (map c_lat pre, map c_long pre, map c_date pre) r =
                    (map c_lat (pre ++ y0), map c_long (pre ++ y0), map c_date (pre ++ y0))).
        { unfold step. cbn in HR. unfold result_holds in HR.
          destruct (get_data read_mat cfg name (fst r) (snd r)) as [[d|]|].
          - destruct HR as [[(-> & -> & -> & _) _]|[(-> & -> & -> & _)|[-> [x ->]]]].
            + now rewrite !map_app.
            + now rewrite !map_app.
            + now rewrite app_nil_r.
          - subst y0. now rewrite app_nil_r.
          - subst y0. now rewrite app_nil_r. }
        rewrite E. now apply IH. }
    specialize (G _ _ HF []). cbn [map app] in G. rewrite G.
    destruct (concat ls) as [|c0 cs]; [reflexivity|].
    cbn [map]. unfold change_dates. cbn [map]. rewrite !map_map. reflexivity.
  Qed.
End P.
