(* Cases for the theorems about the data of the float that the mapping depends on *)
From Coq Require Import String Ascii.
From Coq Require Import ZArith List Bool Reals Lra Lia.
From Verif Require Import Num Np Topo Fetchers Saf MapProfile Mapping Spec_Saf Spec_Mapping Spec_Own Spec_Bias DemoNum
  Proofs_MappingEx Proofs_BiasEx Proofs_Own Proofs_Own3.
Import Mapping ListNotations.
Local Open Scope nat_scope.

(* the float of Proofs_BiasEx with other salinities *)
Definition six_other : source XR :=
  mkSource [Fin 1] [Fin 2] [Fin 10] [Fin 2010] [[Fin 31; Fin 38]] [[Fin 9; Fin 9]] [[Fin 6; Fin 6]] [[Fin 100; Fin 1000]] 2.
Lemma six_other_ok : other_salinities six_source six_other /\ forall box, no_front (six_cfg box) six_source.
Proof. split; [repeat split; repeat constructor|]. intros box. left. discriminate. Qed.
(* the salinity of its first level marked as missing, the temperature there far away *)
Definition six_marked : source XR :=
  mkSource [Fin 1] [Fin 2] [Fin 10] [Fin 2010] [[NaN; Fin 35]] [[Fin 6; Fin 6]] [[Fin 20; Fin 6]] [[Fin 100; Fin 1000]] 2.
Lemma six_marked_ok : marked_source six_source six_marked 0 /\ same_station six_source six_marked 0 /\ same_sample six_source six_marked 0 1.
Proof.
  split; [|split; [repeat split|split; [reflexivity|split; reflexivity]]]. split; [repeat split|]. repeat (split; [reflexivity|]). 
  intros n x y EX EY. destruct n as [|[|n]]; cbn in EX, EY.
  - injection EX as <-. injection EY as <-. right. split; reflexivity.
  - injection EX as <-. injection EY as <-. left. split; reflexivity.
  - destruct n; discriminate.
Qed.
Lemma six_marked_run : exists box lev lev' o, six_levels box six_source 0 = Ok lev /\ lev 1 = Ok (Some o) /\ lo_noise o = Fin (1 / 2) /\
  six_levels box six_marked 0 = Ok lev' /\ lev' 0 = Ok None /\ lev' 1 = Ok (Some o).
Proof.
  destruct six_profile as (box & lev & o & EL & _ & E1 & EN & _).
  destruct (profile_marked _ _ _ _ _ _ _ _ _ _ _ _ _ _ _ six_source six_marked 0 lev (proj2 six_other_ok box) (proj1 six_marked_ok) EL) as (lev' & EL' & HN).
  exists box, lev, lev', o. repeat (split; [assumption|]). split.
  - apply (proj1 (HN 0 (Fin 35) NaN eq_refl eq_refl)); [split; reflexivity|cbn; lia].
  - rewrite <- E1. apply (proj2 (HN 1 (Fin 35) (Fin 35) eq_refl eq_refl)). intros [X _]. discriminate.
Qed.

(* a reading at the given points only, where every interpolation agrees *)
Definition at_node (x : ZN) (xp fp : list ZN) : ZN := match find (fun q => neqb (fst q) x) (combine xp fp) with Some q => snd q | None => nnan end.
Definition row5 (a b c d e : Z) : list ZN := [Some a; Some b; Some c; Some d; Some e].
Definition row7 (a b c d e : Z) : list ZN := Some 0%Z :: Some 0%Z :: row5 a b c d e.
(* south of the front 4 degrees at a salinity of 34, north of it 4 degrees at 38 *)
Definition two_sides : saf_profile ZN :=
  mkSaf (row7 34 35 36 37 38) (row7 38 38 38 38 38) (row7 0 0 0 0 0) (row7 1 1 1 1 1) (row7 1 1 1 1 1)
        (row7 1 1 1 1 1) (row7 4 4 4 9 9) (row7 6 5 4 3 2) (row7 200 300 400 2000 2000).
Definition side_cast (t : Z) : gcast ZN :=
  mkGcast (row5 34 34 34 34 34) (row5 t t t t t) (row5 100 200 300 400 500) (Some (-40))%Z (Some 10)%Z (Some 2010)%Z (Some 3000)%Z.
Definition side_float (sal : Z) : float_profile ZN :=
  mkFloat (Some (-45))%Z (row5 100 200 300 400 500) (row5 4 4 4 4 4) (row5 sal sal sal sal sal).
Lemma other_side :
  frontal_constraint_saf at_node (fun s _ _ _ => s) (fun _ t => t) (fun _ t _ => t) two_sides (grid_of [side_cast 2; side_cast 6] []) (side_float 34)
    = Ok (grid_of [side_cast 2] []) /\
  frontal_constraint_saf at_node (fun s _ _ _ => s) (fun _ t => t) (fun _ t _ => t) two_sides (grid_of [side_cast 2; side_cast 6] []) (side_float 38)
    = Ok (grid_of [side_cast 6] []).
Proof. split; vm_compute; reflexivity. Qed.
