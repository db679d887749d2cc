(* Proofs for find_besthist *)
From Coq Require Import ZArith List Bool Reals Lra Lia Permutation Sorted.
From Flocq Require Import Core.Raux.
From Verif Require Import Num Np NumFacts NpFacts Utilities Finders Spec_Utilities Spec_Finders
  Proofs_Utilities Proofs_Utilities2 Proofs_Utilities4 Proofs_Finders.
Import ListNotations.
Local Open Scope R_scope.

(* ---- rounding ---- *)
Lemma Rrint_bounds x : x - 1/2 <= IZR (Rrint x) <= x + 1/2.
Proof.
  unfold Rrint. pose proof (Zfloor_lb x) as Hl. pose proof (Zfloor_ub x) as Hu.
  destruct (Rlt_dec (x - IZR (Zfloor x)) (1/2)); [lra|].
  destruct (Rlt_dec (1/2) (x - IZR (Zfloor x))); [rewrite plus_IZR; lra|].
  destruct (Z.even (Zfloor x)); rewrite ?plus_IZR; lra.
Qed.

(* position drawn by u among n *)
Definition draw (n : nat) (u : R) : Z :=
  let z := Rrint (u * IZR (Z.of_nat n) - 1) in if Z.eqb z (-1) then 0%Z else z.

Lemma draw_range n u : (0 < n)%nat -> 0 <= u < 1 -> (0 <= draw n u < Z.of_nat n)%Z.
Proof.
  intros Hn Hu. unfold draw. set (z := Rrint _).
  pose proof (Rrint_bounds (u * IZR (Z.of_nat n) - 1)) as [A B]. fold z in A, B.
  assert (Hp : 0 < IZR (Z.of_nat n)) by (apply IZR_lt; lia).
  assert (-2 < z)%Z. { apply lt_IZR. simpl. nra. }
  assert (z < Z.of_nat n)%Z.
  { apply lt_IZR. nra. }
  destruct (Z.eqb_spec z (-1)); lia.
Qed.

(* ---- unique of integers ---- *)
Fixpoint zdedup (l : list Z) : list Z :=
  match l with
  | [] => []
  | x :: r => match r with [] => [x] | y :: _ => if Z.eqb x y then zdedup r else x :: zdedup r end
  end.

Definition finZ (z : Z) : XR := Fin (IZR z).

Lemma dedup_finZ l : dedup (map finZ l) = map finZ (zdedup l).
Proof.
  induction l as [|x l IH]; [reflexivity|]. destruct l as [|y l]; [reflexivity|].
  cbn [map dedup zdedup] in *. unfold finZ at 1 2. cbn [neqb XR_Num xeqb].
  destruct (Z.eqb_spec x y) as [->|N].
  - rewrite (proj2 (Reqb_true _ _)) by auto. exact IH.
  - rewrite (proj2 (Reqb_false _ _)); [|intros E; apply eq_IZR in E; auto].
    cbn [map]. f_equal. exact IH.
Qed.

Lemma zdedup_in l x : In x (zdedup l) <-> In x l.
Proof.
  induction l as [|y l IH]; [reflexivity|]. destruct l as [|z l]; [reflexivity|].
  cbn [zdedup] in *. destruct (Z.eqb_spec y z) as [->|N].
  - rewrite IH. simpl. tauto.
  - simpl In at 1. rewrite IH. reflexivity.
Qed.

Lemma zdedup_length l : (length (zdedup l) <= length l)%nat.
Proof.
  induction l as [|y l IH]; [reflexivity|]. destruct l as [|z l]; [reflexivity|].
  cbn [zdedup] in *. destruct (Z.eqb y z); cbn [length] in *; lia.
Qed.

Lemma zdedup_sorted l : StronglySorted Z.le l -> StronglySorted Z.lt (zdedup l).
Proof.
  induction 1 as [|x l Hs IH Hx]; [constructor|]. destruct l as [|y l]; [repeat constructor|].
  cbn [zdedup] in *. destruct (Z.eqb_spec x y) as [->|N]; [exact IH|].
  constructor; auto. apply Forall_forall. intros z Hz.
  change (match l with [] => [y] | z0 :: _ => if (y =? z0)%Z then zdedup l else y :: zdedup l end)
    with (zdedup (y :: l)) in Hz.
  apply (zdedup_in (y :: l)) in Hz.
  assert (x <= y)%Z by (inversion Hx; auto).
  assert (y <= z)%Z.
  { destruct Hz as [<-|Hz]; [lia|]. inversion Hs; subst. rewrite Forall_forall in H3. auto. }
  lia.
Qed.

Lemma slt_finZ a b : slt (finZ a) (finZ b) = Z.ltb a b.
Proof.
  unfold slt, finZ. cbn [nltb nisnan XR_Num xltb]. rewrite andb_false_r, orb_false_r.
  destruct (Z.ltb_spec a b).
  - apply Rltb_true. now apply IZR_lt.
  - apply Rltb_false. now apply IZR_le.
Qed.

Lemma np_sort_finZ l : np_sort (map finZ l) = map finZ (sort_by Z.ltb l).
Proof. symmetry. apply (sort_by_map Z.ltb slt). intros. apply slt_finZ. Qed.

Lemma zsort_sorted l : StronglySorted Z.le (sort_by Z.ltb l).
Proof.
  assert (S : sorted_by Z.ltb (sort_by Z.ltb l)).
  { apply sort_by_sorted.
    - intros a b. rewrite Z.ltb_lt, Z.ltb_ge. lia.
    - intros a b c. rewrite !Z.ltb_ge. lia. }
  unfold sorted_by in S. induction S; constructor; auto.
  eapply Forall_impl; [|exact H]. intros z. cbv beta. rewrite Z.ltb_ge. auto.
Qed.

Lemma zsort_id l : StronglySorted Z.lt l -> sort_by Z.ltb l = l.
Proof.
  intros Hs. apply sort_by_id. unfold sorted_by. induction Hs; constructor; auto.
  eapply Forall_impl; [|exact H]. intros z. cbv beta. rewrite Z.ltb_ge. lia.
Qed.

Lemma index_rand_spec n us : (0 < n)%nat -> Forall (fun u => 0 <= u < 1) us ->
  exists zs : list nat,
    index_rand n (map Fin us) = map (fun k => finZ (Z.of_nat k)) zs
    /\ StronglySorted lt zs /\ (forall k, In k zs -> (k < n)%nat)
    /\ (length zs <= length us)%nat /\ (us <> [] -> zs <> [])
    /\ (forall k, In k zs <-> exists u, In u us /\ Z.of_nat k = draw n u).
Proof.
  intros Hn Hu. unfold index_rand.
  assert (E : map (fun x : XR => if neqb x (nofZ (-1)) then nofZ 0 else x)
      (map (fun u => nrint (nsub (nmul u (nofZ (Z.of_nat n))) (nofZ 1))) (map Fin us)) = map finZ (map (draw n) us)).
  { rewrite !map_map. apply map_ext. intros u. cbn. unfold finZ, draw.
    set (z := Rrint _). destruct (Z.eqb_spec z (-1)) as [->|N].
    - now rewrite (proj2 (Reqb_true _ _)) by auto.
    - rewrite (proj2 (Reqb_false _ _)); [reflexivity|]. intros E. apply N. now apply eq_IZR. }
  rewrite E. clear E. unfold np_unique. rewrite np_sort_finZ, dedup_finZ, np_sort_finZ.
  set (ws := zdedup (sort_by Z.ltb (map (draw n) us))).
  assert (Sw : StronglySorted Z.lt ws) by (apply zdedup_sorted, zsort_sorted).
  rewrite (zsort_id ws) by auto.
  assert (Hin : forall w, In w ws <-> exists u, In u us /\ w = draw n u).
  { intros w. unfold ws. rewrite zdedup_in. split.
    - intros Hw. apply (Permutation_in _ (sort_by_perm _ _)) in Hw. apply in_map_iff in Hw as (u & <- & Hi). eauto.
    - intros (u & Hi & ->). apply (Permutation_in _ (Permutation_sym (sort_by_perm _ _))).
      now apply in_map. }
  assert (Hr : forall w, In w ws -> (0 <= w < Z.of_nat n)%Z).
  { intros w Hw. apply Hin in Hw as (u & Hi & ->). apply draw_range; auto.
    rewrite Forall_forall in Hu. auto. }
  exists (map Z.to_nat ws). split; [|split; [|split; [|split; [|split]]]].
  - rewrite map_map. apply map_ext_in. intros w Hw. f_equal. rewrite Z2Nat.id; auto. apply Hr in Hw. lia.
  - clear Hin. induction Sw as [|w ws' Sw IH Hw]; [constructor|]. cbn [map]. constructor.
    + apply IH. intros x Hx. apply Hr. now right.
    + apply Forall_forall. intros k Hk. apply in_map_iff in Hk as (x & <- & Hx).
      rewrite Forall_forall in Hw. specialize (Hw x Hx).
      pose proof (Hr w (or_introl eq_refl)). pose proof (Hr x (or_intror Hx)). lia.
  - intros k Hk. apply in_map_iff in Hk as (w & <- & Hw). apply Hr in Hw. lia.
  - rewrite map_length. unfold ws. pose proof (zdedup_length (sort_by Z.ltb (map (draw n) us))).
    rewrite sort_by_length, map_length in H. lia.
  - intros Hne E. apply map_eq_nil in E. destruct us as [|u us]; [congruence|].
    assert (Hi : In (draw n u) ws) by (apply Hin; exists u; split; [now left|auto]).
    rewrite E in Hi. destruct Hi.
  - intros k. rewrite in_map_iff. split.
    + intros (w & <- & Hw). pose proof (Hr w Hw). apply Hin in Hw as (u & Hi & ->).
      exists u. split; auto. lia.
    + intros (u & Hi & E). exists (draw n u). split; [lia|]. apply Hin. eauto.
Qed.

(* ---- lists of positions ---- *)
Lemma nth_map {A B} (f : A -> B) l i d e : (i < length l)%nat -> nth i (map f l) d = f (nth i l e).
Proof.
  intros Hi. rewrite (nth_indep _ d (f e)) by (now rewrite map_length). apply map_nth.
Qed.

Lemma take_length {A} (d : A) l idx : length (take d l idx) = length idx.
Proof. apply map_length. Qed.

Lemma take_seq {A} (d : A) l : take d l (seq 0 (length l)) = l.
Proof.
  unfold take. apply nth_ext with d d; [now rewrite map_length, seq_length|].
  rewrite map_length, seq_length. intros i Hi.
  rewrite (nth_map (fun i => nth i l d) _ i d 0%nat) by (now rewrite seq_length).
  now rewrite seq_nth by auto.
Qed.

Lemma take_perm {A} (d : A) l idx idx' : Permutation idx idx' -> Permutation (take d l idx) (take d l idx').
Proof. apply Permutation_map. Qed.

Lemma take_perm_full {A} (d : A) l idx : Permutation idx (seq 0 (length l)) -> Permutation (take d l idx) l.
Proof. intros Hp. rewrite (take_perm d l _ _ Hp). rewrite take_seq. reflexivity. Qed.

Lemma take_app {A} (d : A) l a b : take d l (a ++ b) = (take d l a ++ take d l b)%list.
Proof. apply map_app. Qed.

Lemma take_take {A} (d : A) (l : list A) (idx jdx : list nat) :
  (forall j, In j jdx -> (j < length idx)%nat) ->
  take d l (take 0%nat idx jdx) = take d (take d l idx) jdx.
Proof.
  intros Hj. unfold take. rewrite map_map. apply map_ext_in. intros j Hi.
  symmetry. apply (nth_map (fun i => nth i l d)). auto.
Qed.

Lemma take_firstn {A} (d : A) l k idx : take d l (firstn k idx) = firstn k (take d l idx).
Proof. unfold take. symmetry. apply firstn_map. Qed.

Lemma take_skipn_seq {A} (d : A) l k : take d l (seq k (length l - k)) = skipn k l.
Proof.
  revert k; induction l as [|x l IH]; intros k.
  - simpl. now destruct k.
  - destruct k as [|k].
    + change (skipn 0 (x :: l)) with (x :: l). rewrite Nat.sub_0_r. apply take_seq.
    + cbn [skipn length]. rewrite <- IH. replace (S (length l) - S k)%nat with (length l - k)%nat by lia.
      unfold take. rewrite <- seq_shift, map_map. reflexivity.
Qed.

Lemma py_prefix_nonneg {A} k (l : list A) : (0 <= k)%Z -> py_prefix k l = firstn (Z.to_nat k) l.
Proof. intros Hk. unfold py_prefix. destruct (Z.ltb_spec k 0); [lia|auto]. Qed.

Definition prefix_len (k : Z) (n : nat) : nat :=
  if Z.ltb k 0 then Z.to_nat (Z.of_nat n + k) else Z.to_nat k.
Lemma py_prefix_eq {A} k (l : list A) : py_prefix k l = firstn (prefix_len k (length l)) l.
Proof. unfold py_prefix, prefix_len. destruct (Z.ltb k 0); auto. Qed.

Lemma filter_split_perm {A} (p : A -> bool) l : Permutation (filter p l ++ filter (fun x => negb (p x)) l) l.
Proof.
  induction l as [|x l IH]; simpl; auto. destruct (p x); simpl.
  - now constructor.
  - rewrite <- Permutation_middle. now constructor.
Qed.

Lemma sorted_perm_filter zs n : StronglySorted lt zs -> (forall k, In k zs -> (k < n)%nat) ->
  Permutation zs (filter (fun i => existsb (Nat.eqb i) zs) (seq 0 n)).
Proof.
  intros Hs Hz. apply NoDup_Permutation.
  - now apply sorted_lt_NoDup.
  - apply NoDup_filter, seq_NoDup.
  - intros x. rewrite filter_In, in_seq, existsb_exists. split.
    + intros Hx. split; [specialize (Hz x Hx); lia|]. exists x. split; auto. apply Nat.eqb_refl.
    + intros [_ (y & Hy & E)]. apply Nat.eqb_eq in E. now subst.
Qed.

Lemma existsb_finZ i zs :
  existsb (fun x : XR => neqb (nofZ (Z.of_nat i)) x) (map (fun k => finZ (Z.of_nat k)) zs)
  = existsb (Nat.eqb i) zs.
Proof.
  induction zs as [|k zs IH]; [reflexivity|]. cbn [map existsb]. rewrite IH. f_equal. unfold finZ. cbn.
  destruct (Nat.eqb_spec i k) as [->|N].
  - now apply Reqb_true.
  - apply Reqb_false. intros E. apply eq_IZR in E. lia.
Qed.

Lemma py_index_in {A} (l : list A) k d : (k < length l)%nat -> py_index l (Z.of_nat k) = Some (nth k l d).
Proof.
  intros Hk. unfold py_index.
  destruct (Z.leb_spec 0 (Z.of_nat k)); [|lia]. destruct (Z.ltb_spec (Z.of_nat k) (Z.of_nat (length l))); [|lia].
  cbn [andb]. rewrite Nat2Z.id. now apply nth_error_nth'.
Qed.

Lemma ntoZ_finZ z : ntoZ (finZ z) = z.
Proof. cbn. apply Ztrunc_IZR. Qed.

(* ---- the selection ---- *)
Section Select.
  Context {rng : Type} (seed : Z -> rng) (rand : rng -> nat -> list XR * rng) (qs : list XR -> list nat).
  Hypothesis Hrand : rand_ok rand.
  Hypothesis Hqs : argsort_ok qs.
  Variables lat long date zv latL latS longL longS phiL phiS ageL ageS : XR.
  Variable pvu : Z.

  Notation corr := (correlations lat long date pvu).
  Notation select := (besthist_select seed rand qs lat long date latL latS longL longS phiL phiS ageL ageS pvu).

  Lemma qs_length l : length (qs l) = length l.
  Proof. rewrite (Permutation_length (proj1 (Hqs l))). apply seq_length. Qed.

  (* Everything that can be said without knowing the values: r are the drawn casts, l the
     large-scale share, s the small-scale share, d the casts left out. *)
  Lemma select_spec (grid : list (cast R)) (fincast : cast R -> cast XR) (pvf : XR) (ie : list nat) (m : Z) (g0 : rng)
     (sepL sepS : cast R -> R) (d0 : cast R) :
    (0 < m)%Z -> (m < Z.of_nat (length ie))%Z ->
    (2 * ceil3 m < Z.of_nat (length ie))%Z ->
    (forall i, In i ie -> (i < length grid)%nat) ->
    (forall cs, cs <> [] -> incl cs grid -> corr longL latL ageL phiL pvf (map fincast cs) = Ok (map Fin (map sepL cs))) ->
    (forall cs, cs <> [] -> incl cs grid -> corr longS latS ageS phiS pvf (map fincast cs) = Ok (map Fin (map sepS cs))) ->
    let sL i := sepL (nth i grid d0) in
    let sS i := sepS (nth i grid d0) in
    exists r l s d,
      fst (select (map fincast grid) pvf ie m g0)
        = (if Nat.eqb (length s) 0 then Raise ValueError else Ok (r ++ l ++ s)%list)
      /\ Permutation (r ++ l ++ s ++ d) ie
      /\ (1 <= length r <= Z.to_nat (ceil3 m))%nat
      /\ (length r + length l = 2 * Z.to_nat (ceil3 m))%nat
      /\ length s = Nat.min (prefix_len (m - 2 * ceil3 m) (length ie - 2 * Z.to_nat (ceil3 m))) (length ie - 2 * Z.to_nat (ceil3 m))
      /\ (forall i, In i r <-> exists u, In (Fin u) (fst (rand (seed (Z.of_nat (length ie))) (Z.to_nat (ceil3 m))))
                                   /\ i = nth (Z.to_nat (draw (length ie) u)) ie 0%nat)
      /\ (forall i j, In i l -> In j (s ++ d) -> sL i <= sL j)
      /\ (forall i j, In i s -> In j d -> sS i <= sS j).
  Proof.
    intros Hm Hn Hn2 Hie HcL HcS sL sS.
    set (n := length ie) in *. set (c := Z.to_nat (ceil3 m)).
    assert (Hc : (0 < ceil3 m)%Z).
    { unfold ceil3. assert ((- m) / 3 < 0)%Z by (apply Z.div_lt_upper_bound; lia). lia. }
    unfold besthist_select. fold n.
    destruct (Z.ltb_spec (ceil3 m) 0); [lia|]. fold c.
    destruct (Hrand (seed (Z.of_nat n)) c) as (us & Eus & Lus & Hus).
    destruct (rand (seed (Z.of_nat n)) c) as [draws g2] eqn:Er. cbn [fst] in *. subst draws.
    destruct (index_rand_spec n us) as (zs & Ez & Sz & Hz & Lz & Nz & Mz); [lia|auto|].
    cbn [fst]. rewrite Ez. clear Ez.
    assert (Lz1 : (1 <= length zs)%nat).
    { destruct zs; [|simpl; lia]. exfalso. apply Nz; auto. intros ->. simpl in Lus. lia. }
    assert (Ef : filter (fun i => negb (existsb (fun x : XR => neqb (nofZ (Z.of_nat i)) x)
                     (map (fun k => finZ (Z.of_nat k)) zs))) (seq 0 n)
                 = filter (fun i => negb (existsb (Nat.eqb i) zs)) (seq 0 n)).
    { apply filter_ext. intros i. now rewrite existsb_finZ. }
    rewrite Ef. clear Ef. set (rem := filter (fun i => negb (existsb (Nat.eqb i) zs)) (seq 0 n)).
    assert (Pz : Permutation (zs ++ rem) (seq 0 n)).
    { rewrite (sorted_perm_filter zs n Sz Hz) at 1. apply filter_split_perm. }
    assert (Lrem : (length zs + length rem = n)%nat).
    { rewrite <- app_length, (Permutation_length Pz). apply seq_length. }
    assert (Hrem : forall i, In i rem -> (i < n)%nat).
    { intros i Hi. unfold rem in Hi. apply filter_In in Hi as [Hi _]. apply in_seq in Hi. lia. }
    rewrite map_length.
    set (rr := length rem) in *. set (L := (2 * c - length zs)%nat).
    assert (HLz : (ceil3 m + ceil3 m - Z.of_nat (length zs))%Z = Z.of_nat L) by lia.
    rewrite HLz. rewrite Nat2Z.id.
    (* remaining casts *)
    set (hist := take dcast (map fincast grid) ie).
    set (gtake := fun idx => take d0 (take d0 grid ie) idx).
    assert (Egt : forall idx, (forall i, In i idx -> (i < n)%nat) ->
              take dcast hist idx = map fincast (gtake idx)).
    { intros idx Hi. unfold hist, gtake, take. rewrite !map_map. apply map_ext_in. intros i Hii.
      specialize (Hi i Hii).
      rewrite (nth_map (fun i => nth i (map fincast grid) dcast) ie i dcast 0%nat) by auto.
      rewrite (nth_map (fun i => nth i grid d0) ie i d0 0%nat) by auto.
      apply nth_map, Hie, nth_In; auto. }
    assert (Hincl : forall idx, (forall i, In i idx -> (i < n)%nat) -> incl (gtake idx) grid).
    { intros idx Hi x Hx. unfold gtake, take in Hx. apply in_map_iff in Hx as (i & <- & Hii).
      rewrite (nth_map (fun i => nth i grid d0) ie i d0 0%nat) by auto. apply nth_In, Hie, nth_In. auto. }
    rewrite (Egt rem) by auto.
    assert (Lr0 : (0 < rr - L)%nat) by (unfold L; lia).
    rewrite HcL.
    2:{ intros E. apply (f_equal (@length _)) in E. unfold gtake in E. rewrite take_length in E. simpl in E. lia. }
    2:{ apply Hincl; auto. }
    cbn [bind].
    set (vL := map sepL (gtake rem)).
    assert (LvL : length vL = rr) by (unfold vL, gtake; now rewrite map_length, take_length).
    destruct (Hqs (map Fin vL)) as [PqL SqL]. rewrite map_length, LvL in PqL.
    set (q := qs (map Fin vL)) in *.
    assert (Lq : length q = rr) by (rewrite (Permutation_length PqL); apply seq_length).
    assert (Hq : forall i, In i q -> (i < rr)%nat).
    { intros i Hi. apply (Permutation_in _ PqL) in Hi. apply in_seq in Hi. lia. }
    rewrite take_length, Lq.
    (* positions of the remaining casts in order of large-scale separation *)
    set (rq := take 0%nat rem q).
    assert (Prq : Permutation rq rem) by (apply take_perm_full; auto).
    assert (Lrq : length rq = rr) by (unfold rq; now rewrite take_length).
    assert (Hrq : forall i, In i rq -> (i < n)%nat) by (intros i Hi; apply Hrem; eapply Permutation_in; eauto).
    assert (Ezr : take dcast (map fincast (gtake rem)) q = map fincast (gtake rq)).
    { unfold gtake, rq. rewrite take_take by (intros; apply Hq; auto).
      change (map (fun i => nth i (map fincast (take d0 (take d0 grid ie) rem)) dcast) q
              = map fincast (map (fun i => nth i (take d0 (take d0 grid ie) rem) d0) q)).
      rewrite map_map. apply map_ext_in. intros i Hi.
      apply nth_map. rewrite take_length. apply Hq; auto. }
    rewrite Ezr.
    set (idz := seq L (rr - L)).
    assert (Esr : take dcast (map fincast (gtake rq)) idz = map fincast (gtake (skipn L rq))).
    { unfold idz, gtake. rewrite <- Lrq at 1.
      replace (length rq) with (length (map fincast (take d0 (take d0 grid ie) rq)))
        by (now rewrite map_length, take_length).
      rewrite take_skipn_seq. rewrite skipn_map. f_equal. unfold take. now rewrite skipn_map. }
    rewrite Esr.
    assert (Hsk : forall i, In i (skipn L rq) -> (i < n)%nat).
    { intros i Hi. apply Hrq. rewrite <- (firstn_skipn L rq). apply in_or_app. now right. }
    assert (Lsk : length (skipn L rq) = (rr - L)%nat) by (rewrite skipn_length; lia).
    rewrite HcS.
    2:{ intros E. apply (f_equal (@length _)) in E. unfold gtake in E. rewrite take_length, Lsk in E. simpl in E. lia. }
    2:{ apply Hincl; auto. }
    cbn [bind].
    set (vS := map sepS (gtake (skipn L rq))).
    assert (LvS : length vS = (rr - L)%nat) by (unfold vS, gtake; now rewrite map_length, take_length).
    destruct (Hqs (map Fin vS)) as [PqS SqS]. rewrite map_length, LvS in PqS.
    set (q2 := qs (map Fin vS)) in *.
    assert (Lq2 : length q2 = (rr - L)%nat) by (rewrite (Permutation_length PqS); apply seq_length).
    assert (Hq2 : forall i, In i q2 -> (i < rr - L)%nat).
    { intros i Hi. apply (Permutation_in _ PqS) in Hi. apply in_seq in Hi. lia. }
    assert (Er1 : mapM (fun x : XR => match py_index ie (ntoZ x) with Some k => Ok k | None => Raise IndexError end)
               (map (fun k => finZ (Z.of_nat k)) zs) = Ok (take 0%nat ie zs)).
    { transitivity (mapM (fun k => Ok (nth k ie 0%nat) : res nat) zs).
      - clear -Hz n. induction zs as [|k zs IH]; [reflexivity|]. cbn [map mapM].
        rewrite ntoZ_finZ. rewrite (py_index_in ie k 0%nat) by (apply Hz; now left).
        rewrite IH; auto. intros; apply Hz; now right.
      - apply mapM_map. auto. }
    rewrite Er1. cbn [bind].
    assert (Ecr : np_concat1 (take 0%nat ie zs) = Ok (take 0%nat ie zs)).
    { destruct zs; [simpl in Lz1; lia|reflexivity]. }
    rewrite Ecr. cbn [bind].
    (* large share *)
    rewrite (py_prefix_nonneg (Z.of_nat L)) by lia. rewrite Nat2Z.id.
    rewrite take_firstn. fold rq.
    set (A := firstn L rq). set (C := skipn L rq).
    assert (LA : length A = L) by (unfold A; rewrite firstn_length; lia).
    assert (EA : np_concat1 (take 0%nat ie A) = Ok (take 0%nat ie A)).
    { assert (length (take 0%nat ie A) = L) by (now rewrite take_length).
      destruct (take 0%nat ie A); [simpl in *; lia|reflexivity]. }
    rewrite EA. cbn [bind].
    (* small share *)
    replace (m - Z.of_nat (length zs) - Z.of_nat L)%Z with (m - 2 * ceil3 m)%Z by lia.
    rewrite py_prefix_eq, Lq2. set (k := prefix_len (m - 2 * ceil3 m) (rr - L)).
    set (B := take 0%nat C (firstn k q2)).
    assert (EB : take 0%nat rem (take 0%nat q (take 0%nat idz (firstn k q2))) = B).
    { assert (Hk : forall i, In i (firstn k q2) -> (i < rr - L)%nat).
      { intros i Hi. apply Hq2. rewrite <- (firstn_skipn k q2). apply in_or_app. now left. }
      rewrite take_take.
      2:{ intros j Hj. unfold take in Hj. apply in_map_iff in Hj as (i & <- & Hi).
          specialize (Hk i Hi). unfold idz. rewrite seq_nth by lia. lia. }
      fold rq. rewrite take_take.
      2:{ intros j Hj. unfold idz. rewrite seq_length. auto. }
      unfold idz. rewrite <- Lrq. rewrite take_skipn_seq. reflexivity. }
    rewrite EB.
    set (rest := take 0%nat C (skipn k q2)).
    assert (PC : Permutation (B ++ rest) C).
    { unfold B, rest. rewrite <- take_app, firstn_skipn. apply take_perm_full. unfold C. now rewrite Lsk. }
    assert (LB : length B = Nat.min k (rr - L)) by (unfold B; rewrite take_length, firstn_length, Lq2; auto).
    exists (take 0%nat ie zs), (take 0%nat ie A), (take 0%nat ie B), (take 0%nat ie rest).
    split; [|split; [|split; [|split; [|split; [|split; [|split]]]]]].
    - rewrite take_length. destruct B as [|b B']; [reflexivity|]. cbn [length Nat.eqb take map np_concat1 bind].
      reflexivity.
    - rewrite <- !take_app. apply take_perm_full. fold n.
      rewrite PC. unfold A, C. rewrite firstn_skipn. now rewrite Prq.
    - rewrite take_length. lia.
    - rewrite !take_length, LA. unfold L. lia.
    - rewrite take_length, LB. unfold k, L. f_equal; [f_equal|]; lia.
    - intros i. unfold take. rewrite in_map_iff. split.
      + intros (z & <- & Hzz). apply Mz in Hzz as (u & Hu & E). exists u. split; [now apply in_map|].
        now rewrite <- E, Nat2Z.id.
      + intros (u & Hu & ->). apply in_map_iff in Hu as (u' & E & Hu). injection E as ->.
        exists (Z.to_nat (draw n u)). split; auto. apply Mz. exists u. split; auto.
        rewrite Z2Nat.id; auto. rewrite Forall_forall in Hus. pose proof (draw_range n u ltac:(lia) (Hus u Hu)). lia.
    - intros i j Hi Hj. rewrite <- take_app in Hj.
      unfold take in Hi, Hj. apply in_map_iff in Hi as (a & <- & Ha). apply in_map_iff in Hj as (b & <- & Hb).
      assert (Hb' : In b C) by (eapply Permutation_in; eauto).
      apply In_nth with (d := 0%nat) in Ha as (x & Hx & <-). apply In_nth with (d := 0%nat) in Hb' as (y & Hy & <-).
      rewrite LA in Hx. unfold C in Hy. rewrite Lsk in Hy.
      assert (E1 : nth x A 0%nat = nth x rq 0%nat).
      { unfold A. rewrite <- (firstn_skipn L rq) at 2. rewrite app_nth1; auto. fold A. lia. }
      assert (E2 : nth y C 0%nat = nth (L + y) rq 0%nat).
      { unfold C. rewrite <- (firstn_skipn L rq) at 2. rewrite app_nth2; fold A; rewrite LA; [|lia].
        f_equal. lia. }
      rewrite E1, E2. unfold sL.
      specialize (SqL vL eq_refl x (L + y)%nat). rewrite map_length, LvL in SqL.
      specialize (SqL ltac:(lia)). fold q in SqL.
      assert (G : forall z, (z < rr)%nat -> nth (nth z q 0%nat) vL 0 = sepL (nth (nth (nth z rq 0%nat) ie 0%nat) grid d0)).
      { intros z Hzr. unfold vL. assert (Hqz : (nth z q 0%nat < rr)%nat) by (apply Hq, nth_In; lia).
        rewrite (nth_map sepL _ _ 0 d0) by (unfold gtake; rewrite take_length; auto).
        f_equal. unfold gtake, take.
        rewrite (nth_map (fun i => nth i (map (fun i0 => nth i0 grid d0) ie) d0) _ _ d0 0%nat) by auto.
        assert (Hrz : (nth (nth z q 0%nat) rem 0%nat < n)%nat) by (apply Hrem, nth_In; auto).
        rewrite (nth_map (fun i => nth i grid d0) _ _ d0 0%nat) by auto. f_equal. f_equal. unfold rq, take.
        symmetry. apply (nth_map (fun i => nth i rem 0%nat)). lia. }
      rewrite !G in SqL by lia. exact SqL.
    - intros i j Hi Hj.
      unfold take in Hi, Hj. apply in_map_iff in Hi as (a & <- & Ha). apply in_map_iff in Hj as (b & <- & Hb).
      unfold B, rest, take in Ha, Hb. apply in_map_iff in Ha as (x & <- & Hx). apply in_map_iff in Hb as (y & <- & Hy).
      apply In_nth with (d := 0%nat) in Hx as (x' & Hx' & <-). apply In_nth with (d := 0%nat) in Hy as (y' & Hy' & <-).
      assert (E1 : nth x' (firstn k q2) 0%nat = nth x' q2 0%nat).
      { rewrite <- (firstn_skipn k q2) at 2. now rewrite app_nth1. }
      rewrite firstn_length in Hx'. rewrite skipn_length in Hy'.
      assert (E2 : nth y' (skipn k q2) 0%nat = nth (k + y') q2 0%nat).
      { rewrite <- (firstn_skipn k q2) at 2. rewrite app_nth2; rewrite firstn_length; [|lia]. f_equal. lia. }
      rewrite E1, E2. unfold sS.
      specialize (SqS vS eq_refl x' (k + y')%nat). rewrite map_length, LvS in SqS.
      specialize (SqS ltac:(lia)). fold q2 in SqS.
      assert (G : forall z, (z < rr - L)%nat -> nth (nth z q2 0%nat) vS 0 = sepS (nth (nth (nth (nth z q2 0%nat) C 0%nat) ie 0%nat) grid d0)).
      { intros z Hzr. unfold vS. assert (Hqz : (nth z q2 0%nat < rr - L)%nat) by (apply Hq2, nth_In; lia).
        rewrite (nth_map sepS _ _ 0 d0) by (unfold gtake; rewrite take_length, Lsk; auto).
        f_equal. fold C. unfold gtake, take.
        assert (LC : length C = (rr - L)%nat) by exact Lsk.
        rewrite (nth_map (fun i => nth i (map (fun i0 => nth i0 grid d0) ie) d0) _ _ d0 0%nat) by lia.
        assert (Hrz : (nth (nth z q2 0%nat) C 0%nat < n)%nat) by (apply Hsk, nth_In; fold C; lia).
        now rewrite (nth_map (fun i => nth i grid d0) _ _ d0 0%nat) by auto. }
      rewrite !G in SqS by lia. exact SqS.
  Qed.
End Select.

Lemma sorted_lt_unique (a b : list nat) : StronglySorted lt a -> StronglySorted lt b ->
  (forall i, In i a <-> In i b) -> a = b.
Proof.
  revert b. induction a as [|x a IH]; intros b Ha Hb Hi.
  - destruct b as [|y b]; auto. exfalso. apply (Hi y). now left.
  - destruct b as [|y b]; [exfalso; apply (Hi x); now left|].
    inversion Ha as [|? ? Ha' Fa]; inversion Hb as [|? ? Hb' Fb]; subst.
    rewrite Forall_forall in Fa, Fb.
    assert (E : x = y).
    { destruct (proj1 (Hi x) (or_introl eq_refl)) as [E|Hx]; auto.
      destruct (proj2 (Hi y) (or_introl eq_refl)) as [E|Hy]; auto.
      specialize (Fa y Hy). specialize (Fb x Hx). lia. }
    subst y. f_equal. apply IH; auto. intros i. split; intros Hx.
    + destruct (proj1 (Hi i) (or_intror Hx)) as [E|]; auto. subst. specialize (Fa _ Hx). lia.
    + destruct (proj2 (Hi i) (or_intror Hx)) as [E|]; auto. subst. specialize (Fb _ Hx). lia.
Qed.

Lemma inside_list_exists p grid : exists ie, inside_list p grid ie.
Proof.
  exists (argwhere (fun c => Rltb (ellipse2 (c_long c) (b_long p) (b_longL p) (c_lat c) (b_lat p) (b_latL p)
           (b_phiL p) (vort_cast p c) (vort_float p)) 1) grid).
  split; [apply argwhere_sorted|]. intros i. rewrite (argwhere_spec dcastR). unfold inside. rewrite Rltb_true.
  reflexivity.
Qed.

Lemma list_eq_nil_dec {A} (l : list A) : {l = []} + {l <> []}.
Proof. destruct l; [now left|right; discriminate]. Qed.

Lemma NoDup_app_l {A} (a b : list A) : NoDup (a ++ b) -> NoDup a.
Proof.
  induction a as [|x a IH]; simpl; intros Hn; [constructor|]. inversion Hn; subst. constructor; auto.
  intros Hx. apply H1. apply in_or_app. now left.
Qed.

(* ---- evaluation on real inputs ---- *)
Lemma vectorize_ok {A B} (f : A -> res B) (g : A -> B) l : l <> [] ->
  (forall a, In a l -> f a = Ok (g a)) -> vectorize f l = Ok (map g l).
Proof. intros Hl Hf. destruct l; [congruence|]. unfold vectorize. now apply mapM_map. Qed.

Section Eval.
  Variable p : problem.
  Variable grid : list (cast R).
  Hypothesis Hs : scales_ok p.
  Hypothesis Hd : depths_ok p grid.

  Lemma pv_float_eval :
    pv_float (Fin (b_lat p)) (Fin (b_z p)) (b_use p) = Ok (Fin (vort_float p)).
  Proof.
    unfold pv_float, use_pv, vort_float. fold (b_pv p). destruct (b_pv p) eqn:E; [|reflexivity].
    apply pv_vort. apply Hs. auto.
  Qed.

  Lemma pv_casts_eval cs : cs <> [] -> incl cs grid ->
    pv_casts (b_use p) (map fcast cs) = Ok (map (fun c => Fin (vort_cast p c)) cs).
  Proof.
    intros Hne Hi. unfold pv_casts, use_pv. fold (b_pv p).
    destruct (b_pv p) eqn:E.
    - rewrite (vectorize_ok _ (fun c => Fin (vort (fin_val (c_lat c)) (fin_val (c_z c))))).
      + rewrite map_map. f_equal. apply map_ext. intros c. unfold vort_cast. now rewrite E.
      + destruct cs; [congruence|discriminate].
      + intros a Ha. apply in_map_iff in Ha as (c & <- & Hc). cbn [fcast c_lat c_z fin_val].
        apply pv_vort. apply Hd; auto.
    - rewrite map_map. f_equal. apply map_ext. intros c. unfold vort_cast. now rewrite E.
  Qed.

  Lemma combine_map2 {A B C} (f : A -> B) (g : A -> C) l :
    combine (map f l) (map g l) = map (fun a => (f a, g a)) l.
  Proof. induction l; simpl; congruence. Qed.

  Lemma mapM_Map {A B C} (f : A -> B) (g : B -> res C) l : mapM g (map f l) = mapM (fun a => g (f a)) l.
  Proof. induction l; simpl; auto. now rewrite IHl. Qed.
  Lemma vectorize_map {A B C} (f : A -> B) (g : B -> res C) l : vectorize g (map f l) = vectorize (fun a => g (f a)) l.
  Proof. destruct l; [reflexivity|]. exact (mapM_Map f g (a :: l)). Qed.

  Lemma correlations_eval slong slat sage sphi cs :
    slong <> 0 -> slat <> 0 -> sage <> 0 -> cs <> [] -> incl cs grid ->
    correlations (Fin (b_lat p)) (Fin (b_long p)) (Fin (b_date p)) (b_use p)
       (Fin slong) (Fin slat) (Fin sage) (Fin sphi) (Fin (vort_float p)) (map fcast cs)
    = Ok (map Fin (map (fun c => scaled_distance2 (c_long c) (b_long p) slong (c_lat c) (b_lat p) slat
                                   (c_date c) (b_date p) sage
         + (if b_pv p then vorticity_distance2 (vort_cast p c) (vort_float p) sphi else 0)) cs)).
  Proof.
    intros H1 H2 H3 Hne Hi. unfold correlations. rewrite pv_casts_eval by auto. cbn [bind].
    rewrite combine_map2, vectorize_map, map_map. apply vectorize_ok; auto.
    intros c Hc. cbn [fst snd fcast c_lat c_long c_date]. rewrite spatial_correlation_formula; auto.
    - do 3 f_equal. unfold vort_float. destruct (b_pv p) eqn:E; auto.
      unfold vorticity_distance2. destruct (Req_EM_T 0 0); [auto|congruence].
    - intros Hvf _. unfold vort_cast, vort_float in *. destruct (b_pv p) eqn:E; [|congruence].
      apply vort_nonzero. apply Hd; auto.
  Qed.

  Lemma correlations_nil slong slat sage sphi pvf :
    correlations (Fin (b_lat p)) (Fin (b_long p)) (Fin (b_date p)) (b_use p)
       slong slat sage sphi pvf (@nil (cast XR)) = Raise ValueError.
  Proof.
    unfold correlations, pv_casts. destruct (use_pv (b_use p)); reflexivity.
  Qed.

  Lemma large_eval cs : cs <> [] -> incl cs grid ->
    correlations (Fin (b_lat p)) (Fin (b_long p)) (Fin (b_date p)) (b_use p)
       (Fin (b_longL p)) (Fin (b_latL p)) (Fin (b_ageL p)) (Fin (b_phiL p)) (Fin (vort_float p)) (map fcast cs)
    = Ok (map Fin (map (rank_large p) cs)).
  Proof. intros. apply correlations_eval; auto; apply Hs. Qed.

  Lemma small_eval cs : cs <> [] -> incl cs grid ->
    correlations (Fin (b_lat p)) (Fin (b_long p)) (Fin (b_date p)) (b_use p)
       (Fin (b_longS p)) (Fin (b_latS p)) (Fin (b_ageS p)) (Fin (b_phiS p)) (Fin (vort_float p)) (map fcast cs)
    = Ok (map Fin (map (rank_small p) cs)).
  Proof. intros. apply correlations_eval; auto; apply Hs. Qed.

  Lemma ellipse_index_eval ie : grid <> [] -> inside_list p grid ie ->
    ellipse_index (Fin (b_lat p)) (Fin (b_long p)) (Fin (b_z p)) (Fin (b_latL p)) (Fin (b_longL p)) (Fin (b_phiL p))
      (b_use p) (map fcast grid) = Ok (Fin (vort_float p), ie).
  Proof.
    intros Hne [Sie Hie]. unfold ellipse_index. rewrite pv_float_eval. cbn [bind].
    rewrite pv_casts_eval by (auto using incl_refl). cbn [bind].
    rewrite combine_map2, vectorize_map.
    set (v := fun c => ellipse2 (c_long c) (b_long p) (b_longL p) (c_lat c) (b_lat p) (b_latL p)
           (b_phiL p) (vort_cast p c) (vort_float p)).
    rewrite (vectorize_ok _ (fun c => Fin (sqrt (v c)))); auto.
    2:{ intros c Hc. cbn [fst snd fcast c_lat c_long]. rewrite find_ellipse_eval; auto; try apply Hs.
        intros _ Hvf. unfold vort_float in Hvf. destruct (b_pv p) eqn:E; [|congruence]. apply Hs. auto. }
    cbn [bind]. do 2 f_equal.
    apply sorted_lt_unique; auto using argwhere_sorted.
    intros i. rewrite (argwhere_spec (Fin 0)), map_length. rewrite Hie.
    split; intros [Hl Hi]; split; auto.
    - rewrite (nth_map _ _ _ _ dcastR) in Hi by auto. cbn in Hi. apply Rltb_true in Hi.
      apply (proj1 (sqrt_lt_1_iff (v (nth i grid dcastR)) (ellipse2_nonneg _ _ _ _ _ _ _ _ _))) in Hi. exact Hi.
    - rewrite (nth_map _ _ _ _ dcastR) by auto. cbn. apply Rltb_true.
      apply (proj2 (sqrt_lt_1_iff (v (nth i grid dcastR)) (ellipse2_nonneg _ _ _ _ _ _ _ _ _))). exact Hi.
  Qed.
End Eval.

Lemma ceil3_third m : ceil3 m = third m.
Proof.
  unfold ceil3, third. pose proof (Z.div_mod (-m) 3 ltac:(lia)). pose proof (Z.mod_pos_bound (-m) 3 ltac:(lia)).
  pose proof (Z.div_mod (m+2) 3 ltac:(lia)). pose proof (Z.mod_pos_bound (m+2) 3 ltac:(lia)). lia.
Qed.

Lemma third_bounds m : (m <= 3 * third m <= m + 2)%Z.
Proof.
  unfold third. pose proof (Z.div_mod (m+2) 3 ltac:(lia)). pose proof (Z.mod_pos_bound (m+2) 3 ltac:(lia)). lia.
Qed.

Lemma draw_drawn n u : (0 < n)%nat -> 0 <= u < 1 -> drawn n u (Z.to_nat (draw n u)).
Proof.
  intros Hn Hu. pose proof (draw_range n u Hn Hu) as Hr. unfold drawn. split; [lia|].
  unfold draw in *. set (z := Rrint _) in *.
  pose proof (Rrint_bounds (u * IZR (Z.of_nat n) - 1)) as [A B]. fold z in A, B.
  rewrite <- INR_IZR_INZ in A, B.
  destruct (Z.eqb_spec z (-1)) as [E|N].
  - right. rewrite E in *. split; [reflexivity|]. lra.
  - left. rewrite INR_IZR_INZ, Z2Nat.id by lia. apply Rabs_le. lra.
Qed.

Section Main.
  Context {rng : Type} (seed : Z -> rng) (rand : rng -> nat -> list XR * rng) (qs : list XR -> list nat).
  Hypothesis Hrand : rand_ok rand.
  Hypothesis Hqs : argsort_ok qs.
  Variable p : problem.
  Variable grid : list (cast R).
  Hypothesis Hs : scales_ok p.
  Hypothesis Hd : depths_ok p grid.
  Notation run := (besthist seed rand qs p grid).

  Lemma run_empty m g0 : grid = [] -> fst (run m g0) = Raise ValueError.
  Proof.
    intros ->. unfold besthist, find_besthist, ellipse_index.
    rewrite pv_float_eval by auto. cbn [bind map]. unfold pv_casts. destruct (use_pv (b_use p)); reflexivity.
  Qed.

  Lemma run_all m g0 ie : grid <> [] -> inside_list p grid ie -> (Z.of_nat (length ie) <= m)%Z ->
    run m g0 = (Ok ie, g0).
  Proof.
    intros Hne Hie Hm. unfold besthist, find_besthist. rewrite (ellipse_index_eval _ _ Hs Hd ie) by auto.
    destruct (Z.ltb_spec m (Z.of_nat (length ie))); [lia|reflexivity].
  Qed.

  Lemma run_select m g0 ie : grid <> [] -> inside_list p grid ie -> (m < Z.of_nat (length ie))%Z ->
    run m g0 = besthist_select seed rand qs (Fin (b_lat p)) (Fin (b_long p)) (Fin (b_date p))
    (Fin (b_latL p)) (Fin (b_latS p)) (Fin (b_longL p)) (Fin (b_longS p)) (Fin (b_phiL p)) (Fin (b_phiS p))
    (Fin (b_ageL p)) (Fin (b_ageS p)) (b_use p) (map fcast grid) (Fin (vort_float p)) ie m g0.
  Proof.
    intros Hne Hie Hm. unfold besthist, find_besthist. rewrite (ellipse_index_eval _ _ Hs Hd ie) by auto.
    destruct (Z.ltb_spec m (Z.of_nat (length ie))); [reflexivity|lia].
  Qed.

  Lemma inside_valid ie i : inside_list p grid ie -> In i ie -> (i < length grid)%nat.
  Proof. intros [_ Hi] Hx. now apply Hi. Qed.

  (* correlations of any casts of the grid, without knowing whether there are any *)
  Lemma fcast_take_incl ie idx : inside_list p grid ie -> (forall i, In i idx -> (i < length ie)%nat) ->
    exists cs, take dcast (take dcast (map fcast grid) ie) idx = map fcast cs /\ incl cs grid /\ length cs = length idx.
  Proof.
    intros Hie Hidx. exists (take dcastR (take dcastR grid ie) idx). split; [|split; [|apply take_length]].
    - unfold take. rewrite !map_map. apply map_ext_in. intros i Hi. specialize (Hidx i Hi).
      rewrite (nth_map (fun i => nth i (map fcast grid) dcast) ie i dcast 0%nat) by auto.
      rewrite (nth_map (fun i => nth i grid dcastR) ie i dcastR 0%nat) by auto.
      apply nth_map. apply (inside_valid ie); auto. now apply nth_In.
    - intros x Hx. unfold take in Hx. apply in_map_iff in Hx as (i & <- & Hi). specialize (Hidx i Hi).
      rewrite (nth_map (fun i => nth i grid dcastR) ie i dcastR 0%nat) by auto.
      apply nth_In. apply (inside_valid ie); auto. now apply nth_In.
  Qed.

  Lemma run_nonpos m g0 ie : grid <> [] -> inside_list p grid ie -> (m < Z.of_nat (length ie))%Z -> (m <= 0)%Z ->
    fst (run m g0) = Raise ValueError.
  Proof.
    intros Hne Hie Hm Hm0. rewrite (run_select m g0 ie) by auto. unfold besthist_select.
    set (n := length ie) in *. pose proof (third_bounds m) as Tb. rewrite ceil3_third.
    destruct (Z.ltb_spec (third m) 0); [reflexivity|].
    assert (T0 : third m = 0%Z) by lia. rewrite T0. cbn [Z.to_nat].
    destruct (Hrand (seed (Z.of_nat n)) 0%nat) as (us & Eus & Lus & _).
    destruct (rand (seed (Z.of_nat n)) 0%nat) as [draws g2]. cbn [fst] in Eus |- *. subst draws.
    destruct us; [|discriminate]. cbn [map]. change (index_rand n (@nil XR)) with (@nil XR). cbn [existsb negb length].
    set (rem := filter _ (seq 0 n)).
    assert (Hrem : forall i, In i rem -> (i < n)%nat).
    { intros i Hi. apply filter_In in Hi as [Hi _]. apply in_seq in Hi. lia. }
    destruct (fcast_take_incl ie rem Hie Hrem) as (cs & Ecs & Ics & Lcs). rewrite Ecs.
    destruct cs as [|c cs].
    { cbn [map]. now rewrite correlations_nil. }
    rewrite (large_eval p grid Hs Hd) by (auto; discriminate). cbn [bind].
    set (q := qs _).
    assert (Hq : Permutation q (seq 0 (length (c :: cs)))).
    { unfold q. destruct (Hqs (map Fin (map (rank_large p) (c :: cs)))) as [Pq _]. now rewrite !map_length in Pq. }
    set (zr := take dcast (map fcast (c :: cs)) q).
    assert (Pz : Permutation zr (map fcast (c :: cs))).
    { unfold zr. apply take_perm_full. now rewrite map_length. }
    cbn [Z.of_nat Z.add Z.sub Z.to_nat Z.opp]. rewrite Nat.sub_0_r. rewrite take_seq.
    apply Permutation_map_inv in Pz as (cs' & Ez & Pc). rewrite Ez.
    rewrite (small_eval p grid Hs Hd).
    - reflexivity.
    - intros ->. apply Permutation_length in Pc. discriminate.
    - intros x Hx. apply Ics. eapply Permutation_in; [|exact Hx]. now apply Permutation_sym.
  Qed.

  Lemma run_1_2 g0 ie : grid <> [] -> inside_list p grid ie -> length ie = 2%nat ->
    fst (run 1 g0) = Raise ValueError.
  Proof.
    intros Hne Hie Hn. rewrite (run_select 1 g0 ie) by (auto; lia). unfold besthist_select. rewrite Hn.
    change (ceil3 1) with 1%Z. cbn [Z.ltb Z.compare]. change (Z.to_nat 1) with 1%nat.
    destruct (Hrand (seed (Z.of_nat 2)) 1%nat) as (us & Eus & Lus & Hus).
    destruct (rand (seed (Z.of_nat 2)) 1%nat) as [draws g2]. cbn [fst] in Eus |- *. subst draws.
    destruct (index_rand_spec 2 us) as (zs & Ez & Sz & Hz & Lz & Nz & Mz); [lia|auto|].
    rewrite Ez. destruct zs as [|z [|]]; [|clear Ez|simpl in Lz; lia].
    { exfalso. apply Nz; auto. intros ->. discriminate. }
    assert (Ef : filter (fun i => negb (existsb (fun x : XR => neqb (nofZ (Z.of_nat i)) x)
                     (map (fun k => finZ (Z.of_nat k)) [z]))) (seq 0 2)
                 = filter (fun i => negb (existsb (Nat.eqb i) [z])) (seq 0 2)).
    { apply filter_ext. intros i. now rewrite existsb_finZ. }
    rewrite Ef. clear Ef.
    assert (Hz1 : (z < 2)%nat) by (apply Hz; now left).
    assert (Er : exists y, filter (fun i => negb (existsb (Nat.eqb i) [z])) (seq 0 2) = [y] /\ (y < 2)%nat).
    { destruct z as [|[|]]; [exists 1%nat|exists 0%nat|lia]; split; auto. }
    destruct Er as (y & -> & Hy).
    destruct (fcast_take_incl ie [y] Hie) as (cs & Ecs & Ics & Lcs).
    { intros i [<-|[]]. lia. }
    rewrite Ecs. rewrite (large_eval p grid Hs Hd); auto.
    2:{ intros ->. discriminate. }
    cbn [bind]. rewrite take_length.
    set (q := qs _). assert (Lq : length q = 1%nat).
    { unfold q. destruct (Hqs (map Fin (map (rank_large p) cs))) as [Pq _].
      rewrite (Permutation_length Pq), seq_length, !map_length, Lcs. reflexivity. }
    rewrite Lq. cbn [map length]. change (Z.to_nat (1 + 1 - Z.of_nat 1)) with 1%nat. cbn [Nat.sub seq take map].
    now rewrite correlations_nil.
  Qed.

  (* the general case *)
  Lemma run_core m g0 ie : grid <> [] -> inside_list p grid ie ->
    (0 < m < Z.of_nat (length ie))%Z -> (2 * third m < Z.of_nat (length ie))%Z ->
    let n := length ie in
    let c := Z.to_nat (third m) in
    exists r l s d,
      fst (run m g0) = (if Nat.eqb (length s) 0 then Raise ValueError else Ok (r ++ l ++ s)%list)
      /\ Permutation (r ++ l ++ s ++ d) ie
      /\ (1 <= length r <= c)%nat /\ (length r + length l = 2 * c)%nat
      /\ length s = Nat.min (prefix_len (m - 2 * third m) (n - 2 * c)) (n - 2 * c)
      /\ (forall i, In i r -> exists u k, In (Fin u) (fst (rand (seed (Z.of_nat n)) c)) /\ drawn n u k /\ i = nth k ie 0%nat)
      /\ (forall u, In (Fin u) (fst (rand (seed (Z.of_nat n)) c)) -> exists k, drawn n u k /\ In (nth k ie 0%nat) r)
      /\ (forall i j, In i l -> In j (s ++ d) -> rank_large p (nth i grid dcastR) <= rank_large p (nth j grid dcastR))
      /\ (forall i j, In i s -> In j d -> rank_small p (nth i grid dcastR) <= rank_small p (nth j grid dcastR)).
  Proof.
    intros Hne Hie Hm Hm2 n c. rewrite (run_select m g0 ie) by (auto; lia).
    destruct (select_spec seed rand qs Hrand Hqs (Fin (b_lat p)) (Fin (b_long p)) (Fin (b_date p))
      (Fin (b_latL p)) (Fin (b_latS p)) (Fin (b_longL p)) (Fin (b_longS p)) (Fin (b_phiL p)) (Fin (b_phiS p))
      (Fin (b_ageL p)) (Fin (b_ageS p)) (b_use p) grid fcast (Fin (vort_float p)) ie m g0 (rank_large p) (rank_small p)
      dcastR) as (r & l & s & d & E & P & Lr & Ll & Ls & Dr & OL & OS); try (rewrite ?ceil3_third; lia).
    - intros i Hi. now apply (inside_valid ie).
    - intros. now apply (large_eval p grid).
    - intros. now apply (small_eval p grid).
    - rewrite !ceil3_third in *. fold n c in Lr, Ll, Ls, Dr |- *.
      assert (Hu01 : forall u, In (Fin u) (fst (rand (seed (Z.of_nat n)) c)) -> 0 <= u < 1).
      { intros u Hu. destruct (Hrand (seed (Z.of_nat n)) c) as (us & Eus & _ & Hus). rewrite Eus in Hu.
        apply in_map_iff in Hu as (u' & Eu & Hu). injection Eu as ->. rewrite Forall_forall in Hus. auto. }
      exists r, l, s, d. repeat (split; [assumption|]). split; [|split; [|split]]; auto.
      + intros i Hi. apply Dr in Hi as (u & Hu & ->). exists u, (Z.to_nat (draw n u)).
        split; auto. split; auto. apply draw_drawn; auto. unfold n. lia.
      + intros u Hu. exists (Z.to_nat (draw n u)). split; [apply draw_drawn; auto; unfold n; lia|].
        apply Dr. eauto.
  Qed.

  Lemma inside_NoDup ie : inside_list p grid ie -> NoDup ie.
  Proof. intros [S _]. now apply sorted_lt_NoDup. Qed.

  (* ---- C14 ---- *)
  Lemma besthist_valid m g0 l : fst (run m g0) = Ok l ->
    NoDup l /\ forall i, In i l -> (i < length grid)%nat /\ inside p (nth i grid dcastR).
  Proof.
    intros E. destruct (list_eq_nil_dec grid) as [Hg|Hne].
    { rewrite run_empty in E by auto. discriminate. }
    destruct (inside_list_exists p grid) as (ie & Hie).
    assert (Hin : forall i, In i ie -> (i < length grid)%nat /\ inside p (nth i grid dcastR)).
    { intros i Hi. now apply (proj2 Hie). }
    destruct (Z_lt_le_dec m (Z.of_nat (length ie))) as [Hm|Hm].
    2:{ rewrite (run_all m g0 ie) in E by auto. injection E as <-. split; auto. now apply inside_NoDup. }
    destruct (Z_lt_le_dec 0 m) as [Hm0|Hm0].
    2:{ rewrite (run_nonpos m g0 ie) in E by auto. discriminate. }
    destruct (Z_lt_le_dec (2 * third m) (Z.of_nat (length ie))) as [H2|H2].
    - destruct (run_core m g0 ie Hne Hie) as (r & a & s & d & E' & P & _); [lia|auto|].
      rewrite E in E'. destruct (Nat.eqb (length s) 0); [discriminate|]. injection E' as ->.
      assert (P' : Permutation ((r ++ a ++ s) ++ d) ie) by (now rewrite <- !app_assoc).
      split.
      + apply (NoDup_app_l _ d). eapply Permutation_NoDup; [apply Permutation_sym, P'|]. now apply inside_NoDup.
      + intros i Hi. apply Hin. eapply Permutation_in; [exact P'|]. apply in_or_app. now left.
    - pose proof (third_bounds m).
      assert (m = 1)%Z by lia. subst m. change (third 1) with 1%Z in H2.
      rewrite (run_1_2 g0 ie) in E by (auto; lia). discriminate.
  Qed.

  (* ---- C15 ---- *)
  Lemma besthist_count m g0 ie : grid <> [] -> inside_list p grid ie ->
    ((Z.of_nat (length ie) <= m)%Z -> fst (run m g0) = Ok ie) /\
    ((m < Z.of_nat (length ie))%Z -> (m = 3 \/ 5 <= m)%Z ->
       exists l, fst (run m g0) = Ok l /\ Z.of_nat (length l) = m).
  Proof.
    intros Hne Hie. split.
    - intros Hm. now rewrite (run_all m g0 ie).
    - intros Hm Hv. pose proof (third_bounds m).
      destruct (run_core m g0 ie Hne Hie) as (r & a & s & d & E' & P & Lr & La & Ls & _); [lia|lia|].
      exists (r ++ a ++ s)%list. unfold prefix_len in Ls.
      destruct (Z.ltb_spec (m - 2 * third m) 0); [lia|].
      rewrite E'. destruct (Nat.eqb_spec (length s) 0); [lia|]. split; auto.
      rewrite !app_length. lia.
  Qed.

  (* ---- C16 ---- *)
  Lemma besthist_small m g0 ie : grid <> [] -> inside_list p grid ie -> (m < Z.of_nat (length ie))%Z ->
    (((m <= 0) \/ m = 2 \/ m = 4)%Z -> fst (run m g0) = Raise ValueError) /\
    (m = 1%Z -> (length ie <= 3)%nat -> fst (run m g0) = Raise ValueError) /\
    (m = 1%Z -> (4 <= length ie)%nat -> exists l, fst (run m g0) = Ok l /\ length l = (length ie - 1)%nat).
  Proof.
    intros Hne Hie Hm. split; [|split].
    - intros [H0|[->| ->]].
      + now apply (run_nonpos m g0 ie).
      + destruct (run_core 2 g0 ie Hne Hie) as (r & a & s & d & E' & P & Lr & La & Ls & _); [lia|change (third 2) with 1%Z; lia|].
        rewrite E'. change (length s = 0%nat) in Ls. now rewrite Ls.
      + destruct (run_core 4 g0 ie Hne Hie) as (r & a & s & d & E' & P & Lr & La & Ls & _); [lia| |].
        { change (third 4) with 2%Z. lia. }
        rewrite E'. change (length s = 0%nat) in Ls. now rewrite Ls.
    - intros -> Hn. destruct (Nat.eq_dec (length ie) 2) as [H2|H2]; [now apply (run_1_2 g0 ie)|].
      destruct (run_core 1 g0 ie Hne Hie) as (r & a & s & d & E' & P & Lr & La & Ls & _); [lia| |].
      { change (third 1) with 1%Z. lia. }
      rewrite E'. assert (E3 : length ie = 3%nat) by lia. rewrite E3 in Ls. change (length s = 0%nat) in Ls. now rewrite Ls.
    - intros -> Hn.
      destruct (run_core 1 g0 ie Hne Hie) as (r & a & s & d & E' & P & Lr & La & Ls & _); [lia| |].
      { change (third 1) with 1%Z. lia. }
      change (third 1) with 1%Z in *. change (Z.to_nat 1) with 1%nat in *.
      unfold prefix_len in Ls. change (Z.ltb (1 - 2 * 1) 0) with true in Ls. cbv iota in Ls.
      exists (r ++ a ++ s)%list. rewrite E'. destruct (Nat.eqb_spec (length s) 0); [lia|]. split; auto.
      rewrite !app_length. lia.
  Qed.

  (* ---- C17, C19 ---- *)
  Lemma besthist_optimal m g0 ie : grid <> [] -> inside_list p grid ie -> (m < Z.of_nat (length ie))%Z ->
    (m = 3 \/ 5 <= m)%Z ->
    let n := length ie in let c := Z.to_nat (third m) in
    exists r l s,
      fst (run m g0) = Ok (r ++ l ++ s)%list
      /\ (1 <= length r <= c)%nat /\ (length r + length l = 2 * c)%nat /\ Z.of_nat (length s) = (m - 2 * third m)%Z
      /\ (forall i, In i r -> exists u k, In (Fin u) (fst (rand (seed (Z.of_nat n)) c)) /\ drawn n u k /\ i = nth k ie 0%nat)
      /\ (forall u, In (Fin u) (fst (rand (seed (Z.of_nat n)) c)) -> exists k, drawn n u k /\ In (nth k ie 0%nat) r)
      /\ (forall i j, In i l -> In j ie -> ~ In j (r ++ l) ->
            rank_large p (nth i grid dcastR) <= rank_large p (nth j grid dcastR))
      /\ (forall i j, In i s -> In j ie -> ~ In j (r ++ l ++ s) ->
            rank_small p (nth i grid dcastR) <= rank_small p (nth j grid dcastR)).
  Proof.
    intros Hne Hie Hm Hv n c. pose proof (third_bounds m).
    destruct (run_core m g0 ie Hne Hie) as (r & a & s & d & E' & P & Lr & La & Ls & D1 & D2 & OL & OS); [lia|lia|].
    exists r, a, s. unfold prefix_len in Ls. fold n c in Ls, Lr, La, D1, D2.
    destruct (Z.ltb_spec (m - 2 * third m) 0); [lia|].
    rewrite E'. destruct (Nat.eqb_spec (length s) 0); [lia|].
    repeat (split; [first [assumption|reflexivity|lia]|]). split.
    - intros i j Hi Hj Hnj. apply OL; auto. apply (Permutation_in _ (Permutation_sym P)) in Hj.
      rewrite app_assoc in Hj. apply in_app_or in Hj as [Hj|Hj]; [contradiction|auto].
    - intros i j Hi Hj Hnj. apply OS; auto. apply (Permutation_in _ (Permutation_sym P)) in Hj.
      rewrite !app_assoc in Hj. apply in_app_or in Hj as [Hj|Hj]; [|auto]. rewrite <- app_assoc in Hj. contradiction.
  Qed.
End Main.

(* ---- C18 ---- *)
Lemma besthist_state {T} `{Num T} `{NumT T} {rng} (seed : Z -> rng) (rand : rng -> nat -> list T * rng) qs
   lat long date z latL latS longL longS phiL phiS ageL ageS use (grid : list (cast T)) m g g' :
  let run := find_besthist seed rand qs lat long date z latL latS longL longS phiL phiS ageL ageS use grid m in
  fst (run g) = fst (run g') /\ (snd (run g) = snd (run g') \/ (snd (run g) = g /\ snd (run g') = g')).
Proof.
  cbv zeta. unfold find_besthist. destruct (ellipse_index _ _ _ _ _ _ _ _) as [[pvf ie]|e]; [|auto].
  destruct (Z.ltb m (Z.of_nat (length ie))); [|auto].
  unfold besthist_select. destruct (Z.ltb (ceil3 m) 0); [auto|].
  destruct (rand _ _). auto.
Qed.
