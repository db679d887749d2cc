(* Integers with a NaN, a computable carrier.  Used only to evaluate the models in examples. *)
From Coq Require Import ZArith List Bool.
From Verif Require Import Num Spec_Fetchers.

Definition ZN := option Z.
Definition lift1 (f : Z -> Z) (a : ZN) : ZN := match a with Some x => Some (f x) | None => None end.
Definition lift2 (f : Z -> Z -> Z) (a b : ZN) : ZN := match a, b with Some x, Some y => Some (f x y) | _, _ => None end.
Definition cmp (f : Z -> Z -> bool) (a b : ZN) : bool := match a, b with Some x, Some y => f x y | _, _ => false end.
#[global] Instance ZN_Num : Num ZN := {|
  nofZ := fun z => Some z; nadd := lift2 Z.add; nsub := lift2 Z.sub; nmul := lift2 Z.mul; ndiv := lift2 Z.div;
  nopp := lift1 Z.opp; nabs := lift1 Z.abs; nsqrt := lift1 Z.sqrt; nfloor := fun a => a; nceil := fun a => a;
  nrint := fun a => a; ntoZ := fun a => match a with Some z => z | None => 0%Z end; nnan := None;
  nltb := cmp Z.ltb; nleb := cmp Z.leb; neqb := cmp Z.eqb;
  nisnan := fun a => match a with Some _ => false | None => true end;
  nisfin := fun a => match a with Some _ => true | None => false end |}.
#[global] Instance ZN_NumNan : NumNan ZN.
Proof. constructor; [reflexivity|]. intros [z|]; [discriminate|reflexivity]. Qed.
