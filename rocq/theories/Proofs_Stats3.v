(* Proofs for covarxy_pv and build_cov *)
From Coq Require Import ZArith List Bool Reals Lra Lia.
From Verif Require Import Num Np NumFacts NpFacts Utilities Finders Stats Spec_Utilities Spec_Finders Spec_Stats
  LinR Proofs_Finders Proofs_Besthist Proofs_Thetas Proofs_Thetas2 Proofs_Thetas3 Proofs_Stats2.
Import ListNotations.
Local Open Scope R_scope.

Lemma mapM_raise {A B} (f : A -> res B) e l :
  (forall x, In x l -> (exists y, f x = Ok y) \/ f x = Raise e) ->
  (exists x, In x l /\ f x = Raise e) -> mapM f l = Raise e.
Proof.
  induction l as [|a l IH]; intros T (x & Hx & Ex); [destruct Hx|]. cbn [mapM].
  destruct (T a (or_introl eq_refl)) as [[y Ey]|Ea]; [|now rewrite Ea].
  rewrite Ey. cbn [bind]. rewrite IH; auto.
  - intros z Hz. apply T. now right.
  - destruct Hx as [->|Hx]; [congruence|]. eauto.
Qed.

Lemma seg_step x x0 y0 x1 y1 p r : x0 < x1 ->
  interp_seg (Fin x) (Fin x0) (Fin y0) ((Fin x1, Fin y1) :: p :: r)
  = if Rleb x x1 then Fin ((y1 - y0) / (x1 - x0) * (x - x0) + y0)
    else interp_seg (Fin x) (Fin x1) (Fin y1) (p :: r).
Proof.
  intros Hx. cbn [interp_seg]. cbn [nsub XR_Num xsub]. rewrite ndiv_fin by lra. reflexivity.
Qed.
Lemma seg_last x x0 y0 x1 y1 : x0 < x1 ->
  interp_seg (Fin x) (Fin x0) (Fin y0) [(Fin x1, Fin y1)]
  = Fin ((y1 - y0) / (x1 - x0) * (x - x0) + y0).
Proof.
  intros Hx. cbn [interp_seg]. cbn [nsub XR_Num xsub]. rewrite ndiv_fin by lra. reflexivity.
Qed.

Ltac scale_case :=
  repeat match goal with |- context [Rle_dec ?a ?b] => destruct (Rle_dec a b) end; try lra; try (f_equal; field).

Lemma scale_down_value t : -2 <= t <= 30 -> interp_scale pt_down (Fin t) = Ok (Fin (scale_down t)).
Proof.
  intros [H1 H2]. unfold interp_scale, pt_down. rewrite !nq_fin by discriminate. cbn [nofZ nltb XR_Num xltb].
  reval. cbn [orb]. f_equal. rewrite !seg_step by lra. rewrite seg_last by lra.
  repeat (rcase; rb; [unfold scale_down; scale_case|]). unfold scale_down; scale_case.
Qed.
Lemma scale_up_value t : -2 <= t <= 30 -> interp_scale pt_up (Fin t) = Ok (Fin (scale_up t)).
Proof.
  intros [H1 H2]. unfold interp_scale, pt_up. rewrite !nq_fin by discriminate. cbn [nofZ nltb XR_Num xltb].
  reval. cbn [orb]. f_equal. rewrite !seg_step by lra. rewrite seg_last by lra.
  repeat (rcase; rb; [unfold scale_up; scale_case|]). unfold scale_up; scale_case.
Qed.
Lemma scale_down_pos t : -2 <= t <= 30 -> 1 <= scale_down t <= 6.
Proof. intros H. unfold scale_down. repeat (destruct (Rle_dec _ _)); lra. Qed.
Lemma scale_up_pos t : -2 <= t <= 30 -> 1 <= scale_up t <= 6.
Proof. intros H. unfold scale_up. repeat (destruct (Rle_dec _ _)); lra. Qed.

Lemma gauss_value x y s : s <> 0 ->
  nexp (nmul (nofZ (-1)) (nsq (nsub (Fin y) (Fin x))) / nsq (Fin s))%num = Fin (exp (- ((y - x) / s) ^ 2)).
Proof.
  intros Hs. unfold nsq. cbn [nmul nsub nofZ XR_Num xmul xsub].
  rewrite ndiv_fin by nra. cbn. do 2 f_equal. field. auto.
Qed.


Lemma nan_mul a : nmul a (@nnan XR _) = NaN.
Proof. destruct a; reflexivity. Qed.

Lemma interp_scale_total tab p r x : tab = p :: r -> tabulated x -> exists v, interp_scale tab x = Ok v.
Proof.
  intros -> [->|(t & -> & Ht)]; unfold interp_scale; destruct p; cbn [nltb nofZ XR_Num xltb]; [cbn; eauto|].
  reval. cbn; eauto.
Qed.

Lemma vert_cov_value (t : nat -> nat -> option R) p i j :
  in_table (t i p) ->
  vert_cov (fun i p => oX (t i p)) p i j = Ok (Fin (vertical (fun i => t i p) i j)).
Proof.
  intros Hi. unfold vert_cov, vertical.
  destruct (t i p) as [x|] eqn:Ei; cbn [oX].
  - cbn [in_table] in Hi. destruct (t j p) as [y|] eqn:Ej; cbn [oX].
    + rewrite scale_down_value, scale_up_value by auto. cbn [bind].
      pose proof (scale_down_pos x Hi). pose proof (scale_up_pos x Hi).
      rewrite !gauss_value by lra.
      destruct (Nat.ltb_spec i j).
      * cbn. rewrite (proj2 (Nat.eqb_neq i j)) by lia. reflexivity.
      * destruct (Nat.ltb_spec j i); cbn.
        -- rewrite (proj2 (Nat.eqb_neq i j)) by lia. reflexivity.
        -- rewrite (proj2 (Nat.eqb_eq i j)) by lia. reflexivity.
    + rewrite scale_down_value, scale_up_value by auto. cbn [bind].
      destruct (Nat.ltb i j); [reflexivity|]. destruct (Nat.ltb j i); reflexivity.
  - assert (D : tabulated NaN) by now left.
    destruct (interp_scale_total pt_down _ _ _ eq_refl D) as [v1 E1].
    destruct (interp_scale_total pt_up _ _ _ eq_refl D) as [v2 E2]. rewrite E1, E2. cbn [bind].
    assert (G : forall v, nexp (nmul (nofZ (-1)) (nsq (nsub (oX (t j p)) NaN)) / nsq v)%num = NaN).
    { intros v. destruct (t j p); destruct v; reflexivity. }
    rewrite !G. destruct (Nat.ltb i j); [reflexivity|]. destruct (Nat.ltb j i); reflexivity.
Qed.

Lemma vertical_unit t i j : in_table (t i) -> 0 < vertical t i j <= 1.
Proof.
  intros H. unfold vertical. destruct (t i); [|lra]. destruct (t j); [|lra].
  destruct (Nat.eqb i j); [lra|]. apply exp_neg_unit, pow2_ge_0.
Qed.
Lemma vertical_self t i : vertical t i i = 1.
Proof. unfold vertical. destruct (t i); auto. now rewrite Nat.eqb_refl. Qed.

(* ---- covarxy_pv ---- *)
Lemma planetary_value c : c_2 c <> 0 ->
  planetary_vorticity (c_0 (fcoord c)) (c_2 (fcoord c)) = Fin (planetary c).
Proof.
  intros H. unfold planetary_vorticity, fcoord. cbn [c_0 c_2].
  rewrite !nq_fin by discriminate.
  assert (E : (Fin (c_0 c) * npi / nofZ 180)%num = Fin (c_0 c * PI / 180)).
  { change (npi : XR) with (Fin PI). cbn [nmul nofZ XR_Num xmul]. now rewrite ndiv_fin by lra. }
  rewrite E. cbn [nsin XR_NumT nmul nofZ XR_Num xmul].
  rewrite ndiv_fin by auto. f_equal. unfold planetary. field. auto.
Qed.

Lemma pv_term0 u v phi : u <> 0 -> phi <> 0 ->
  nsq (ndiv (ndiv (nsub (Fin u) (Fin v)) (nsqrt (nadd (nsq (Fin u)) (nsq (Fin v))))) (Fin phi))
  = Fin ((u - v) ^ 2 / (u ^ 2 + v ^ 2) / phi ^ 2).
Proof.
  intros Hu Hp.
  assert (S : 0 < u * u + v * v) by nra.
  assert (Q : sqrt (u * u + v * v) <> 0) by (apply Rgt_not_eq, sqrt_lt_R0; auto).
  unfold nsq. cbn [nadd nsub nmul XR_Num xadd xsub xmul].
  rewrite xsqrt_fin by lra. rewrite ndiv_fin by auto. rewrite ndiv_fin by auto.
  cbn [nmul XR_Num xmul]. f_equal.
  assert (E : sqrt (u * u + v * v) * sqrt (u * u + v * v) = u * u + v * v) by (apply sqrt_sqrt; lra).
  replace (u ^ 2 + v ^ 2) with (sqrt (u * u + v * v) * sqrt (u * u + v * v)) by (rewrite E; ring).
  generalize dependent (sqrt (u * u + v * v)). intros r Hr _. field. split; auto.
Qed.

Lemma combine_map_self {A B} (f : A -> B) l : combine l (map f l) = map (fun a => (a, f a)) l.
Proof. induction l; simpl; congruence. Qed.

Lemma vectorize_ok {A B} (g : A -> B) l : l <> [] -> vectorize (fun a => Ok (g a)) l = Ok (map g l).
Proof. intros H. unfold vectorize. destruct l; [congruence|]. now apply mapM_map. Qed.

Lemma covarxy_value h (l : list (coord R)) a : hscales_ok h l -> In a l ->
  covarxy_pv (fcoord a) (map fcoord l) (Fin (h_long h)) (Fin (h_lat h)) (Fin (h_phi h)) (h_pv h)
  = Ok (map (fun b => Fin (horizontal h a b)) l).
Proof.
  intros (Ha & Hb & Hz & Hp) Hin. unfold covarxy_pv.
  rewrite vectorize_ok by (destruct l; [destruct Hin|discriminate]). cbn [bind].
  f_equal. rewrite combine_map_self, !map_map. cbn [fst snd].
  rewrite planetary_value by auto.
  apply map_ext_in. intros b Hb'. rewrite planetary_value by auto.
  cbn [fcoord c_0 c_1]. rewrite !sq_term by auto. unfold horizontal.
  change (neqb (Fin (planetary a)) 0%num) with (Reqb (planetary a) 0).
  destruct (h_pv h) eqn:Epv; [|cbn; do 2 f_equal; ring]. cbn [andb].
  unfold Reqb. destruct (Req_EM_T (planetary a) 0) as [e|n]; [cbn; do 2 f_equal; ring|]. cbn [negb andb].
  replace (existsb _ _) with true.
  - rewrite pv_term0 by auto. cbn. do 2 f_equal; ring.
  - symmetry. apply existsb_exists. exists (Fin (planetary a)). split.
    + apply in_map_iff. exists a. split; [apply (planetary_value a); auto|auto].
    + change (neqb (Fin (planetary a)) 0%num) with (Reqb (planetary a) 0). unfold Reqb.
      now destruct (Req_EM_T (planetary a) 0).
Qed.

Lemma horizontal_unit h a b : 0 < horizontal h a b <= 1.
Proof.
  unfold horizontal. apply exp_neg_unit.
  pose proof (pow2_ge_0 ((c_0 a - c_0 b) / h_lat h)). pose proof (pow2_ge_0 ((c_1 a - c_1 b) / h_long h)).
  assert (0 <= if h_pv h then if Req_EM_T (planetary a) 0 then 0
     else (planetary a - planetary b) ^ 2 / (planetary a ^ 2 + planetary b ^ 2) / h_phi h ^ 2 else 0).
  { destruct (h_pv h); [|lra]. destruct (Req_EM_T _ _) as [|n]; [lra|].
    unfold Rdiv. apply Rmult_le_pos; [apply Rmult_le_pos; [apply pow2_ge_0|]|].
    - left. apply Rinv_0_lt_compat. pose proof (pow2_ge_0 (planetary b)).
      assert (0 < planetary a ^ 2) by nra. lra.
    - destruct (Req_dec (h_phi h) 0) as [E|E]; [rewrite E; simpl; rewrite Rmult_0_l, Rinv_0; lra|].
      left. apply Rinv_0_lt_compat. nra. }
  lra.
Qed.
Lemma horizontal_self h a : horizontal h a a = 1.
Proof.
  unfold horizontal. rewrite <- exp_0. f_equal.
  destruct (h_pv h); [destruct (Req_EM_T _ _)|]; unfold Rdiv; ring.
Qed.

(* ---- build_cov ---- *)
Lemma mapM_seq {B} (f : nat -> res B) (g : nat -> B) n :
  (forall i, (i < n)%nat -> f i = Ok (g i)) -> mapM f (seq 0 n) = Ok (map g (seq 0 n)).
Proof.
  intros Hf. assert (G : forall k m, (k + m <= n)%nat -> mapM f (seq k m) = Ok (map g (seq k m))).
  { intros k m. revert k. induction m as [|m IH]; intros k Hk; [reflexivity|].
    cbn [seq mapM map]. rewrite Hf by lia. cbn [bind]. rewrite IH by lia. reflexivity. }
  apply G. lia.
Qed.
Lemma nth_map_seq {B} (g : nat -> B) n i d : (i < n)%nat -> nth i (map g (seq 0 n)) d = g i.
Proof. intros Hi. rewrite (nth_map _ _ _ _ 0%nat) by (now rewrite seq_length). now rewrite seq_nth. Qed.

Lemma block_div nr a i : (i < nr)%nat -> Nat.div (a * nr + i) nr = a /\ Nat.modulo (a * nr + i) nr = i.
Proof.
  intros Hi. assert (N : nr <> 0%nat) by lia. split.
  - rewrite Nat.add_comm, Nat.div_add by auto. rewrite Nat.div_small; auto.
  - rewrite Nat.add_comm, Nat.mod_add by auto. now apply Nat.mod_small.
Qed.

Lemma vert_cov_single (ptmp : nat -> nat -> XR) p : vert_cov ptmp p 0 0 = Ok (Fin 1).
Proof. reflexivity. Qed.


Lemma vert_cov_needed nr nc t p i j : table_needed nr nc t ->
  (i < nr)%nat -> (j < nr)%nat -> (p < nc)%nat ->
  vert_cov (fun i p => oX (t i p)) p i j = Ok (Fin (vertical (fun i => t i p) i j)).
Proof.
  intros Ht Hi Hj Hp. destruct (le_lt_dec 2 nr) as [H2|H2].
  - apply vert_cov_value. apply Ht; auto.
  - assert (i = 0%nat) by lia. assert (j = 0%nat) by lia. subst. rewrite vertical_self. reflexivity.
Qed.

Theorem build_cov_blocks nr nc t l h : length l = nc -> table_needed nr nc t -> hscales_ok h l ->
  exists m, build_cov nr nc (fun i p => oX (t i p)) (map fcoord l) (hconfig h) = Ok m /\
    forall a b i j, (a < nc)%nat -> (b < nc)%nat -> (i < nr)%nat -> (j < nr)%nat ->
      m (a * nr + i)%nat (b * nr + j)%nat
      = Fin (horizontal h (nth a l dcoord) (nth b l dcoord) * vertical (fun i => t i a) i j).
Proof.
  intros Hl Ht Hh. unfold build_cov.
  rewrite (mapM_seq _ (fun p => map (fun i => map (fun j => Fin (vertical (fun i => t i p) i j)) (seq 0 nr)) (seq 0 nr))).
  2:{ intros p Hp. apply mapM_seq. intros i Hi. apply mapM_seq. intros j Hj. eapply vert_cov_needed; eauto. }
  cbn [bind]. rewrite map_length, Hl, Nat.eqb_refl, orb_true_r. cbn [bind].
  rewrite (mapM_seq _ (fun p => map (fun b => Fin (horizontal h (nth p l dcoord) b)) l)).
  2:{ intros p Hp. rewrite (nth_map _ _ _ _ dcoord) by lia. apply covarxy_value; auto. apply nth_In. lia. }
  cbn [bind]. eexists. split; [reflexivity|]. intros a b i j Ha Hb Hi Hj.
  destruct (block_div nr a i Hi) as [-> ->]. destruct (block_div nr b j Hj) as [-> ->].
  rewrite !nth_map_seq by auto. rewrite (nth_map _ _ _ _ dcoord) by lia. reflexivity.
Qed.

Theorem build_cov_unit nr nc t l h : length l = nc -> table_needed nr nc t -> hscales_ok h l ->
  exists m, build_cov nr nc (fun i p => oX (t i p)) (map fcoord l) (hconfig h) = Ok m /\
    (forall p q, (p < nc * nr)%nat -> (q < nc * nr)%nat -> exists v, m p q = Fin v /\ 0 < v <= 1) /\
    (forall p, (p < nc * nr)%nat -> m p p = Fin 1).
Proof.
  intros Hl Ht Hh. destruct (build_cov_blocks nr nc t l h Hl Ht Hh) as (m & Em & Hm).
  exists m. split; auto.
  assert (D : forall p, (p < nc * nr)%nat -> exists a i, (a < nc)%nat /\ (i < nr)%nat /\ p = (a * nr + i)%nat).
  { intros p Hp. assert (N : nr <> 0%nat) by lia. exists (p / nr)%nat, (p mod nr)%nat.
    split; [apply Nat.div_lt_upper_bound; lia|]. split; [now apply Nat.mod_upper_bound|].
    rewrite Nat.mul_comm. now apply Nat.div_mod. }
  split.
  - intros p q Hp Hq. destruct (D p Hp) as (a & i & Ha & Hi & ->). destruct (D q Hq) as (b & j & Hb & Hj & ->).
    eexists. split; [now apply Hm|].
    pose proof (horizontal_unit h (nth a l dcoord) (nth b l dcoord)).
    assert (0 < vertical (fun i => t i a) i j <= 1).
    { destruct (le_lt_dec 2 nr).
      - apply vertical_unit. now apply Ht.
      - assert (i = j) by lia. subst. rewrite vertical_self. lra. }
    nra.
  - intros p Hp. destruct (D p Hp) as (a & i & Ha & Hi & ->). rewrite Hm by auto.
    rewrite horizontal_self, vertical_self. f_equal. ring.
Qed.

(* ---- symmetry ---- *)
Lemma horizontal_sym h a b : (h_pv h = true -> planetary a <> 0 /\ planetary b <> 0) ->
  horizontal h a b = horizontal h b a.
Proof.
  intros Hp. unfold horizontal. f_equal. f_equal. destruct (h_pv h).
  - destruct (Hp eq_refl). destruct (Req_EM_T (planetary a) 0); [contradiction|].
    destruct (Req_EM_T (planetary b) 0); [contradiction|].
    rewrite (Rplus_comm (planetary b ^ 2)). unfold Rdiv. ring.
  - unfold Rdiv. ring.
Qed.

Lemma vertical_isothermal nr t i j : isothermal nr t -> (i < nr)%nat -> (j < nr)%nat -> vertical t i j = 1.
Proof.
  intros Hi Hin Hjn. unfold vertical. destruct (t i) as [x|] eqn:Ei; auto. destruct (t j) as [y|] eqn:Ej; auto.
  destruct (Nat.eqb i j); auto. rewrite (Hi i j x y) by auto.
  unfold Rminus, Rdiv. rewrite Rplus_opp_r, Rmult_0_l, <- exp_0. f_equal. ring.
Qed.

Theorem build_cov_symmetric nr nc t l h : length l = nc -> table_needed nr nc t -> hscales_ok h l ->
  (forall p, (p < nc)%nat -> isothermal nr (fun i => t i p)) ->
  (h_pv h = true -> forall c, In c l -> planetary c <> 0) ->
  exists m, build_cov nr nc (fun i p => oX (t i p)) (map fcoord l) (hconfig h) = Ok m /\
    forall p q, (p < nc * nr)%nat -> (q < nc * nr)%nat -> m p q = m q p.
Proof.
  intros Hl Ht Hh Hi Hp. destruct (build_cov_blocks nr nc t l h Hl Ht Hh) as (m & Em & Hm).
  exists m. split; auto.
  assert (D : forall p, (p < nc * nr)%nat -> exists a i, (a < nc)%nat /\ (i < nr)%nat /\ p = (a * nr + i)%nat).
  { intros p Hlt. assert (N : nr <> 0%nat) by lia. exists (p / nr)%nat, (p mod nr)%nat.
    split; [apply Nat.div_lt_upper_bound; lia|]. split; [now apply Nat.mod_upper_bound|].
    rewrite Nat.mul_comm. now apply Nat.div_mod. }
  intros p q Hlp Hlq. destruct (D p Hlp) as (a & i & Ha & Hi' & ->). destruct (D q Hlq) as (b & j & Hb & Hj & ->).
  rewrite !Hm by auto. rewrite !(vertical_isothermal nr) by auto.
  rewrite horizontal_sym; auto. intros E. split; apply Hp; auto; apply nth_In; lia.
Qed.

(* ---- range error ---- *)
Lemma interp_scale_raise tab x : ~ tabulated x -> interp_scale tab x = Raise ValueError.
Proof.
  intros H. unfold interp_scale. destruct x as [t| | |].
  - cbn [nltb nofZ XR_Num xltb]. destruct (Rltb t (-2)) eqn:E1; [reflexivity|].
    destruct (Rltb 30 t) eqn:E2; [reflexivity|]. rb. exfalso. apply H. right. exists t. split; auto; lra.
  - reflexivity.
  - reflexivity.
  - exfalso. apply H. now left.
Qed.

Lemma vert_cov_cases (ptmp : nat -> nat -> XR) p i j :
  (tabulated (ptmp i p) \/ i = j) /\ (exists v, vert_cov ptmp p i j = Ok v)
  \/ (~ tabulated (ptmp i p) /\ i <> j /\ vert_cov ptmp p i j = Raise ValueError).
Proof.
  unfold vert_cov.
  assert (Dec : tabulated (ptmp i p) \/ ~ tabulated (ptmp i p)).
  { unfold tabulated. destruct (ptmp i p) as [t| | |].
    - destruct (Rle_dec (-2) t), (Rle_dec t 30); [left; right; eauto| | |];
        right; intros [X|(z & X & Hz)]; try discriminate; injection X as ->; lra.
    - right. intros [X|(r & X & _)]; discriminate.
    - right. intros [X|(r & X & _)]; discriminate.
    - left. now left. }
  destruct Dec as [D|D].
  - left. split; auto.
    destruct (interp_scale_total pt_down _ _ _ eq_refl D) as [v1 E1].
    destruct (interp_scale_total pt_up _ _ _ eq_refl D) as [v2 E2].
    rewrite E1, E2. destruct (Nat.ltb i j); [cbn; eauto|]. destruct (Nat.ltb j i); cbn; eauto.
  - destruct (Nat.eq_dec i j) as [->|N].
    + left. split; auto. rewrite Nat.ltb_irrefl. cbn. eauto.
    + right. split; auto. split; auto. rewrite !interp_scale_raise by auto.
      destruct (Nat.ltb_spec i j); [reflexivity|]. destruct (Nat.ltb_spec j i); [reflexivity|lia].
Qed.

Theorem build_cov_range nr nc (ptmp : nat -> nat -> XR) (coords : list (coord XR)) cfg :
  length coords = nc ->
  ((2 <= nr)%nat /\ (exists i p, (i < nr)%nat /\ (p < nc)%nat /\ ~ tabulated (ptmp i p))
     -> build_cov nr nc ptmp coords cfg = Raise ValueError) /\
  ((nr <= 1)%nat \/ (forall i p, (i < nr)%nat -> (p < nc)%nat -> tabulated (ptmp i p))
     -> exists m, build_cov nr nc ptmp coords cfg = Ok m).
Proof.
  intros Hl.
  assert (T3 : forall p i j, (exists v, vert_cov ptmp p i j = Ok v) \/ vert_cov ptmp p i j = Raise ValueError).
  { intros p i j. destruct (vert_cov_cases ptmp p i j) as [[_ H]|(_ & _ & H)]; auto. }
  assert (T2 : forall p i, (exists v, mapM (fun j => vert_cov ptmp p i j) (seq 0 nr) = Ok v)
                \/ mapM (fun j => vert_cov ptmp p i j) (seq 0 nr) = Raise ValueError).
  { intros p i. generalize (seq 0 nr) as s. intros s. induction s as [|j s IH]; [left; cbn; eauto|].
    cbn [mapM]. destruct (T3 p i j) as [[v ->]| ->]; [|now right]. cbn [bind].
    destruct IH as [[w ->]| ->]; cbn; eauto. }
  assert (T1 : forall p, (exists v, mapM (fun i => mapM (fun j => vert_cov ptmp p i j) (seq 0 nr)) (seq 0 nr) = Ok v)
                \/ mapM (fun i => mapM (fun j => vert_cov ptmp p i j) (seq 0 nr)) (seq 0 nr) = Raise ValueError).
  { intros p. generalize (seq 0 nr) at 2 4 as s. intros s. induction s as [|i s IH]; [left; cbn; eauto|].
    cbn [mapM]. destruct (T2 p i) as [[v ->]| ->]; [|now right]. cbn [bind].
    destruct IH as [[w ->]| ->]; cbn; eauto. }
  split.
  - intros (H2 & i & p & Hi & Hp & Hbad). unfold build_cov.
    rewrite (mapM_raise _ ValueError); [reflexivity| |].
    + intros q _. apply T1.
    + exists p. split; [apply in_seq; lia|]. apply mapM_raise; [intros; apply T2|].
      exists i. split; [apply in_seq; lia|]. apply mapM_raise; [intros; apply T3|].
      destruct (Nat.eq_dec i 0) as [->|N].
      * exists 1%nat. split; [apply in_seq; lia|].
        destruct (vert_cov_cases ptmp p 0 1) as [[[H|H] _]|(_ & _ & H)]; auto; [contradiction|discriminate].
      * exists 0%nat. split; [apply in_seq; lia|].
        destruct (vert_cov_cases ptmp p i 0) as [[[H|H] _]|(_ & _ & H)]; auto; contradiction.
  - intros Hok. unfold build_cov.
    destruct (mapM_total (fun p => mapM (fun i => mapM (fun j => vert_cov ptmp p i j) (seq 0 nr)) (seq 0 nr)) (seq 0 nc)) as [cov Ec].
    { intros p Hp. apply mapM_total. intros i Hi. apply mapM_total. intros j Hj.
      apply in_seq in Hp. apply in_seq in Hi. apply in_seq in Hj.
      destruct (vert_cov_cases ptmp p i j) as [[_ H]|(Hb & Hn & _)]; auto. exfalso.
      destruct Hok as [H|H]; [lia|]. apply Hb, H; lia. }
    rewrite Ec. cbn [bind]. rewrite Hl, Nat.eqb_refl, orb_true_r. cbn [bind].
    match goal with |- context [mapM ?f (seq 0 nc)] => destruct (mapM_total f (seq 0 nc)) as [hc Eh] end.
    { intros p Hp. apply in_seq in Hp. unfold covarxy_pv.
      rewrite vectorize_ok by (destruct coords; [simpl in Hl; lia|discriminate]). cbn [bind]. eauto. }
    rewrite Eh. cbn [bind]. eauto.
Qed.
