(* Model of pyowc/utilities.py *)
From Coq Require Import ZArith List Bool Lia Ascii.
From Verif Require Import Num Np.
Import ListNotations.
Local Open Scope num_scope.

Section Utilities.
  Context {T : Type} `{Num T} `{NumT T}.

  (* utilities.py 8-49, spatial_correlation.  Scalars are Python floats (the function is called
     through np.vectorize), so a zero divisor raises ZeroDivisionError.  x ** 2 is x*x. *)
  Definition spatial_correlation (longitude_1 longitude_2 ellipse_longitude latitude_1 latitude_2
      ellipse_latitude dates_1 dates_2 ellipse_age phi pv_1 pv_2 : T) : res T :=
    let* a := pydiv (nsq (longitude_1 - longitude_2)) (nsq ellipse_longitude) in
    let* b := pydiv (nsq (latitude_1 - latitude_2)) (nsq ellipse_latitude) in
    let* c := pydiv (nsq (dates_1 - dates_2)) (nsq ellipse_age) in
    let correlation := a + b + c in
    if negb (pv_1 =? 0) && negb (pv_2 =? 0) then
      let* d := pydiv (pv_2 - pv_1) (nsqrt (nsq pv_2 + nsq pv_1)) in
      let* e := pydiv d phi in
      Ok (correlation + nsq e)
    else Ok (correlation + 0).

  (* utilities.py 52-77, sorter.  Arrays are 1-d, so msites.__len__() is the number of
     boundaries (the code flattens them anyway). *)
  Definition sorter (msites sites : list T) : list Z :=
    let all_sites := (msites ++ sites)%list in
    let index := argsort all_sites in
    let pos := argwhere (fun i => Z.ltb (Z.of_nat (length msites) - 1) (Z.of_nat i)) index in
    map (fun pk => (Z.of_nat (fst pk) - Z.of_nat (snd pk))%Z)
        (combine pos (seq 1 (length sites))).

  (* utilities.py 80-109, wrap_longitude (the argument is also overwritten in place by the
     returned values; the model returns the new value). *)
  Definition wrap_longitude (grid_long : list T) : list T :=
    let l1 := map (fun x => if x <? 0 then x + nofZ 360 else x) grid_long in
    if existsb (fun x => nofZ 320 <=? x) l1
    then map (fun x => if x <=? nofZ 40 then nofZ 360 + x else x) l1
    else l1.

  (* utilities.py 112-136, potential_vorticity on Python floats *)
  Definition potential_vorticity (lat z_value : T) : res T :=
    let earth_angular_velocity := nofZ 2 * nq 7292 1000 * nq 1 100000 in
    let lat_radians := lat * npi / nofZ 180 in
    let* p_v := pydiv (earth_angular_velocity * nsin lat_radians) z_value in
    if p_v =? 0 then Ok (nq 1 100000) else Ok p_v.

  (* utilities.py 154: np.cumsum([0, 31, 28, ...]) *)
  Definition cumulative_months : list Z :=
    [0; 31; 59; 90; 120; 151; 181; 212; 243; 273; 304; 334; 365]%Z.

  (* python/numpy indexing with negative wrap-around *)
  Definition py_index {A} (l : list A) (i : Z) : option A :=
    let n := Z.of_nat (length l) in
    if (Z.leb 0 i && Z.ltb i n)%bool then nth_error l (Z.to_nat i)
    else if (Z.leb (- n) i && Z.ltb i 0)%bool then nth_error l (Z.to_nat (i + n))
    else None.

  (* utilities.py 139-165, cal2dec on integer fields *)
  Definition cal2dec (pa_month pa_day pa_hour pa_minute : Z) : res T :=
    match py_index cumulative_months pa_month with
    | None => Raise ValueError
    | Some m =>
        let dec_date := nofZ (m + pa_day - 1)%Z + nofZ pa_hour / nofZ 24
                        + nofZ pa_minute / nofZ 60 / nofZ 24 in
        if nofZ 366 <? dec_date then Raise ValueError else Ok dec_date
    end.
End Utilities.

(* Text of dates: lists of ASCII characters. *)
Definition slice {A} (a b : nat) (s : list A) : list A := firstn (b - a) (skipn a s).

Definition is_digit (c : ascii) : bool :=
  let n := nat_of_ascii c in (48 <=? n)%nat && (n <=? 57)%nat.
Definition digit_val (c : ascii) : Z := (Z.of_nat (nat_of_ascii c) - 48)%Z.
Definition is_space (c : ascii) : bool :=
  let n := nat_of_ascii c in
  ((9 <=? n) && (n <=? 13) || (28 <=? n) && (n <=? 32))%nat.

Fixpoint lstrip (s : list ascii) : list ascii :=
  match s with [] => [] | c :: r => if is_space c then lstrip r else s end.
Definition strip (s : list ascii) : list ascii := rev (lstrip (rev (lstrip s))).

(* digits with single underscores between digits *)
Fixpoint parse_digits (acc : Z) (s : list ascii) : option Z :=
  match s with
  | [] => Some acc
  | c :: r => if is_digit c then parse_digits (10 * acc + digit_val c) r
              else if Nat.eqb (nat_of_ascii c) 95 then
                match r with
                | d :: r' => if is_digit d then parse_digits (10 * acc + digit_val d) r' else None
                | [] => None
                end
              else None
  end.

(* Python's int(str) on ASCII text: optional surrounding white space, sign, digits.
   ValueError = None.  (Non-ASCII digits are not modelled.) *)
Definition py_int (s : list ascii) : option Z :=
  let t := strip s in
  let '(neg, u) := match t with
                   | c :: r => if Nat.eqb (nat_of_ascii c) 45 then (true, r)
                               else if Nat.eqb (nat_of_ascii c) 43 then (false, r) else (false, t)
                   | [] => (false, t)
                   end in
  match u with
  | c :: r => if is_digit c
              then match parse_digits (digit_val c) r with
                   | Some v => Some (if neg then - v else v)%Z
                   | None => None
                   end
              else None
  | [] => None
  end.

Section ChangeDates.
  Context {T : Type} `{Num T}.

  (* utilities.py 194-214: one iteration of the loop of change_dates; the result is the value
     left in dec_dates[i] (initially 0; ValueError of int()/cal2dec is caught). *)
  Definition change_date (s : list ascii) : T :=
    match py_int (slice 0 4 s), py_int (slice 4 6 s), py_int (slice 6 8 s) with
    | Some year, Some month, Some day =>
        let hour := if (9 <? length s)%nat then py_int (slice 8 10 s) else Some 0%Z in
        let minute := if (11 <? length s)%nat then py_int (slice 10 12 s) else Some 0%Z in
        match hour, minute with
        | Some hour, Some minute =>
            if ((month <? 13) && (0 <? month) && (day <? 32) && (0 <? day))%Z then
              match cal2dec (month - 1) day hour minute with
              | Ok d => nofZ year + d / nofZ 365
              | Raise _ => 0
              end
            else 0
        | _, _ => 0
        end
    | _, _, _ => 0
    end.

  (* utilities.py 168-216, change_dates; the argument is the list of str(date) *)
  Definition change_dates (cal_dates_string : list (list ascii)) : list T :=
    map change_date cal_dates_string.
End ChangeDates.

(* str(n) for a non-negative Python int (used by list(map(str, cal_dates)), utilities.py 190) *)
Fixpoint str_fuel (fuel : nat) (n : Z) : list ascii :=
  let d := ascii_of_nat (Z.to_nat (48 + n mod 10)) in
  match fuel with
  | O => [d]
  | S f => if (n <? 10)%Z then [d] else (str_fuel f (n / 10) ++ [d])%list
  end.
Definition str_Z (n : Z) : list ascii :=
  if (n <? 0)%Z then ascii_of_nat 45 :: str_fuel (Z.to_nat (Z.log2 (- n))) (- n)%Z
  else str_fuel (Z.to_nat (Z.log2 n)) n.
