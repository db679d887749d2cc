(* Numbers, exceptions and the error monad used by every model file.

   Nothing in this file models a function of /repo; it fixes the vocabulary:
   - [exc]/[res]: Python exceptions as values;
   - [Num]: the float operations the Python sources use, without laws;
   - [XR]: exact reals extended with +inf, -inf and NaN, the instance used for numeric theorems. *)
From Coq Require Import ZArith List Bool Reals Lra Lia.
From Flocq Require Import Core.Raux.
Import ListNotations.

Declare Scope num_scope.
Delimit Scope num_scope with num.

(* Exceptions that the Python code can raise on the modelled paths. *)
Inductive exc : Type :=
  | ValueError | IndexError | TypeError | AttributeError | UnboundLocalError
  | KeyError | ZeroDivisionError | RuntimeError | LinAlgError | FileNotFoundError
  | NameError | OverflowError | OSError | StructError.

Inductive res (A : Type) : Type :=
  | Ok (a : A)
  | Raise (e : exc).
Arguments Ok {A} a.
Arguments Raise {A} e.

Definition bind {A B} (x : res A) (f : A -> res B) : res B :=
  match x with Ok a => f a | Raise e => Raise e end.

Notation "'let*' x ':=' e1 'in' e2" := (bind e1 (fun x => e2))
  (at level 200, x pattern, e1 at level 100, e2 at level 200, right associativity).

Fixpoint mapM {A B} (f : A -> res B) (l : list A) : res (list B) :=
  match l with
  | [] => Ok []
  | a :: r => let* b := f a in let* bs := mapM f r in Ok (b :: bs)
  end.

Definition is_ok {A} (r : res A) : bool := match r with Ok _ => true | Raise _ => false end.

(* The operations of Python/numpy floats used by the sources.  No laws are attached. *)
Class Num (T : Type) : Type := {
  nofZ : Z -> T;
  nadd : T -> T -> T;
  nsub : T -> T -> T;
  nmul : T -> T -> T;
  ndiv : T -> T -> T;          (* numpy division: x/0 is inf or nan *)
  nopp : T -> T;
  nabs : T -> T;
  nsqrt : T -> T;
  nfloor : T -> T;
  nceil : T -> T;
  nrint : T -> T;              (* np.round: nearest integer, ties to even *)
  ntoZ : T -> Z;               (* int(x) on finite x (truncation); 0 otherwise *)
  nnan : T;
  nltb : T -> T -> bool;
  nleb : T -> T -> bool;
  neqb : T -> T -> bool;
  nisnan : T -> bool;
  nisfin : T -> bool
}.

(* Transcendental functions, kept apart. *)
Class NumT (T : Type) : Type := {
  nexp : T -> T;
  nlog : T -> T;
  nsin : T -> T;
  npi : T
}.

Notation "x + y" := (nadd x y) : num_scope.
Notation "x - y" := (nsub x y) : num_scope.
Notation "x * y" := (nmul x y) : num_scope.
Notation "x / y" := (ndiv x y) : num_scope.
Notation "- x" := (nopp x) : num_scope.
Notation "x <? y" := (nltb x y) : num_scope.
Notation "x <=? y" := (nleb x y) : num_scope.
Notation "x =? y" := (neqb x y) : num_scope.
Notation "x >? y" := (nltb y x) (only parsing) : num_scope.
Notation "x >=? y" := (nleb y x) (only parsing) : num_scope.
Notation "0" := (nofZ 0%Z) : num_scope.
Notation "1" := (nofZ 1%Z) : num_scope.

Definition nsq {T} `{Num T} (x : T) : T := nmul x x.
(* decimal literal a/b, e.g. 0.01 = nq 1 100 (a correctly rounded quotient of exact integers is
   the correctly rounded literal) *)
Definition nq {T} `{Num T} (a b : Z) : T := ndiv (nofZ a) (nofZ b).

(* Python-float division: raises on a zero divisor. *)
Definition pydiv {T} `{Num T} (a b : T) : res T :=
  if (neqb b (nofZ 0)) then Raise ZeroDivisionError else Ok (ndiv a b).

Definition nsum {T} `{Num T} (l : list T) : T := fold_left nadd l (nofZ 0).

(* ------------------------------------------------------------------ *)
(* Exact extended reals *)

Inductive XR : Type := Fin (r : R) | PInf | NInf | NaN.

Definition Rltb (a b : R) : bool := if Rlt_dec a b then true else false.
Definition Rleb (a b : R) : bool := if Rle_dec a b then true else false.
Definition Reqb (a b : R) : bool := if Req_EM_T a b then true else false.

Arguments Rltb : simpl never.
Arguments Rleb : simpl never.
Arguments Reqb : simpl never.

Definition xadd (a b : XR) : XR :=
  match a, b with
  | Fin x, Fin y => Fin (x + y)
  | NaN, _ | _, NaN => NaN
  | PInf, NInf | NInf, PInf => NaN
  | PInf, _ | _, PInf => PInf
  | NInf, _ | _, NInf => NInf
  end.

Definition xopp (a : XR) : XR :=
  match a with Fin x => Fin (- x) | PInf => NInf | NInf => PInf | NaN => NaN end.

(* sub is kept separate so that Fin a - Fin b reduces to Fin (a - b) *)
Definition xsub (a b : XR) : XR :=
  match a, b with
  | Fin x, Fin y => Fin (x - y)
  | _, _ => xadd a (xopp b)
  end.

Definition xabs (a : XR) : XR :=
  match a with Fin x => Fin (Rabs x) | NaN => NaN | _ => PInf end.

(* infinity times a finite number *)
Definition xinf_mul (pos : bool) (x : R) : XR :=
  if Rlt_dec 0 x then (if pos then PInf else NInf)
  else if Rlt_dec x 0 then (if pos then NInf else PInf)
  else NaN.

Definition xmul (a b : XR) : XR :=
  match a, b with
  | Fin x, Fin y => Fin (x * y)
  | NaN, _ | _, NaN => NaN
  | PInf, Fin y => xinf_mul true y
  | Fin x, PInf => xinf_mul true x
  | NInf, Fin y => xinf_mul false y
  | Fin x, NInf => xinf_mul false x
  | PInf, PInf | NInf, NInf => PInf
  | PInf, NInf | NInf, PInf => NInf
  end.

Definition xdiv (a b : XR) : XR :=
  match a, b with
  | Fin x, Fin y => if Req_EM_T y 0
                    then (if Rlt_dec 0 x then PInf else if Rlt_dec x 0 then NInf else NaN)
                    else Fin (x / y)
  | NaN, _ | _, NaN => NaN
  | Fin _, _ => Fin 0
  | PInf, Fin y => if Rlt_dec y 0 then NInf else PInf
  | NInf, Fin y => if Rlt_dec y 0 then PInf else NInf
  | _, _ => NaN
  end.

Definition xsqrt (a : XR) : XR :=
  match a with
  | Fin x => if Rlt_dec x 0 then NaN else Fin (sqrt x)
  | PInf => PInf
  | _ => NaN
  end.

Definition Rrint (x : R) : Z :=
  let f := Zfloor x in
  if Rlt_dec (x - IZR f) (1/2) then f
  else if Rlt_dec (1/2) (x - IZR f) then (f + 1)%Z
  else if Z.even f then f else (f + 1)%Z.

Definition xlift (f : R -> R) (a : XR) : XR :=
  match a with Fin x => Fin (f x) | o => o end.

Definition xltb (a b : XR) : bool :=
  match a, b with
  | NaN, _ | _, NaN => false
  | Fin x, Fin y => Rltb x y
  | NInf, NInf => false
  | NInf, _ => true
  | _, NInf => false
  | PInf, _ => false
  | _, PInf => true
  end.

Definition xleb (a b : XR) : bool :=
  match a, b with
  | NaN, _ | _, NaN => false
  | Fin x, Fin y => Rleb x y
  | NInf, _ => true
  | _, NInf => false
  | _, PInf => true
  | PInf, _ => false
  end.

Definition xeqb (a b : XR) : bool :=
  match a, b with
  | Fin x, Fin y => Reqb x y
  | PInf, PInf | NInf, NInf => true
  | _, _ => false
  end.

Definition xtoZ (a : XR) : Z := match a with Fin x => Ztrunc x | _ => 0%Z end.

#[global] Instance XR_Num : Num XR := {|
  nofZ := fun z => Fin (IZR z);
  nadd := xadd; nsub := xsub; nmul := xmul; ndiv := xdiv; nopp := xopp; nabs := xabs;
  nsqrt := xsqrt;
  nfloor := xlift (fun x => IZR (Zfloor x));
  nceil := xlift (fun x => IZR (Zceil x));
  nrint := xlift (fun x => IZR (Rrint x));
  ntoZ := xtoZ;
  nnan := NaN;
  nltb := xltb; nleb := xleb; neqb := xeqb;
  nisnan := fun a => match a with NaN => true | _ => false end;
  nisfin := fun a => match a with Fin _ => true | _ => false end
|}.

#[global] Instance XR_NumT : NumT XR := {|
  nexp := fun a => match a with Fin x => Fin (exp x) | PInf => PInf | NInf => Fin 0 | NaN => NaN end;
  nlog := fun a => match a with
                   | Fin x => if Rlt_dec 0 x then Fin (ln x) else if Req_EM_T x 0 then NInf else NaN
                   | PInf => PInf | _ => NaN end;
  nsin := fun a => match a with Fin x => Fin (sin x) | _ => NaN end;
  npi := Fin PI
|}.
