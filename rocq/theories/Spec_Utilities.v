(* Specification vocabulary for the properties of pyowc/utilities.py.  Independent of the model:
   plain reals, integers, calendar tables and digit strings. *)
From Coq Require Import Bool ZArith List Reals Ascii.
Import ListNotations.

(* number of boundaries at or below a site *)
Fixpoint count_le (s : R) (bs : list R) : nat :=
  match bs with
  | [] => 0
  | b :: r => (if Rle_dec b s then 1 else 0) + count_le s r
  end.

Definition ascending (l : list R) : Prop :=
  forall i j, (i <= j < length l)%nat -> (nth i l 0 <= nth j l 0)%R.

(* two longitudes denote the same meridian *)
Definition same_meridian (a b : R) : Prop := exists k : Z, b = (a + 360 * IZR k)%R.

(* meridians within 40 degrees west / east of Greenwich, for longitudes in [-360,360] *)
Definition west_of_seam (x : R) : Prop := (-40 <= x < 0)%R \/ (320 <= x)%R.
Definition east_of_seam (x : R) : Prop := (0 <= x <= 40)%R \/ (x <= -320)%R.

(* ---- calendar (non-leap year) ---- *)
Definition month_length : list Z := [31; 28; 31; 30; 31; 30; 31; 31; 30; 31; 30; 31]%Z.

Fixpoint zsum (l : list Z) : Z := match l with [] => 0 | x :: r => x + zsum r end%Z.

(* days before month number m (0 = January) *)
Definition days_before (m : Z) : Z := zsum (firstn (Z.to_nat m) month_length).

(* minutes since new year of month m (0..), day d (1..), hour, minute *)
Definition minute_of_year (m d h mi : Z) : Z := (((days_before m + d - 1) * 24 + h) * 60 + mi)%Z.

Definition real_date (m d h mi : Z) : Prop :=
  (0 <= m <= 11 /\ 1 <= d <= nth (Z.to_nat m) month_length 0 /\ 0 <= h <= 23 /\ 0 <= mi <= 59)%Z.

(* chronological order on fields *)
Definition earlier (a b : Z * Z * Z * Z) : Prop :=
  let '(m, d, h, i) := a in let '(m', d', h', i') := b in
  (m < m' \/ m = m' /\ (d < d' \/ d = d' /\ (h < h' \/ h = h' /\ i < i')))%Z.

(* ---- decimal digit strings ---- *)
Definition dig (n : Z) : ascii := ascii_of_nat (Z.to_nat (48 + n)).

(* value of a list of digits, most significant first *)
Definition dval (l : list Z) : Z := fold_left (fun a d => 10 * a + d)%Z l 0%Z.

Definition is_dig (d : Z) : Prop := (0 <= d <= 9)%Z.

(* two decimal digits, four decimal digits *)
Definition d2 (n : Z) : list Z := [n / 10; n mod 10]%Z.
Definition d4 (n : Z) : list Z := [n / 1000; n / 100 mod 10; n / 10 mod 10; n mod 10]%Z.

(* the integer timestamps YYYYMMDD, YYYYMMDDhh, YYYYMMDDhhmm, YYYYMMDDhhmmss; months 1..12 *)
Definition stamp8 (y mo d : Z) : Z := ((y * 100 + mo) * 100 + d)%Z.
Definition stamp10 (y mo d h : Z) : Z := (stamp8 y mo d * 100 + h)%Z.
Definition stamp12 (y mo d h mi : Z) : Z := (stamp10 y mo d h * 100 + mi)%Z.
Definition stamp14 (y mo d h mi s : Z) : Z := (stamp12 y mo d h mi * 100 + s)%Z.

(* meaning of a digit string of at least eight digits as (year, month, day, hour, minute) *)
Definition fields (ds : list Z) : Z * Z * Z * Z * Z :=
  (dval (firstn 4 ds), dval (firstn 2 (skipn 4 ds)), dval (firstn 2 (skipn 6 ds)),
   (if (10 <=? length ds)%nat then dval (firstn 2 (skipn 8 ds)) else 0%Z),
   (if (12 <=? length ds)%nat then dval (firstn 2 (skipn 10 ds)) else 0%Z)).

(* decimal year of the fields, 0 when they are not acceptable *)
Definition decimal_year (f : Z * Z * Z * Z * Z) : R :=
  let '(y, mo, d, h, mi) := f in
  if ((1 <=? mo) && (mo <=? 12) && (1 <=? d) && (d <=? 31)
      && (minute_of_year (mo - 1) d h mi <=? 366 * 1440))%Z
  then (IZR y + IZR (minute_of_year (mo - 1) d h mi) / 1440 / 365)%R else 0%R.

(* characters that may occur in text accepted by Python's int() *)
Definition int_char (c : ascii) : Prop :=
  (exists d, is_dig d /\ c = dig d) \/ In (nat_of_ascii c) [9;10;11;12;13;28;29;30;31;32;43;45;95].

(* squared distance between two casts in units of the scales *)
Definition scaled_distance2 (lo1 lo2 el la1 la2 ea d1 d2 eg : R) : R :=
  (((lo1 - lo2) / el) ^ 2 + ((la1 - la2) / ea) ^ 2 + ((d1 - d2) / eg) ^ 2)%R.

(* squared relative vorticity difference in units of phi; 0 when a vorticity is absent (0) *)
Definition vorticity_distance2 (phi p1 p2 : R) : R :=
  if Req_EM_T p1 0 then 0%R else if Req_EM_T p2 0 then 0%R
  else ((p1 - p2) ^ 2 / (p1 ^ 2 + p2 ^ 2) / phi ^ 2)%R.

(* text of the timestamps *)
Definition text8 (y mo d : Z) := map dig (d4 y ++ d2 mo ++ d2 d).
Definition text10 (y mo d h : Z) := map dig (d4 y ++ d2 mo ++ d2 d ++ d2 h).
Definition text12 (y mo d h mi : Z) := map dig (d4 y ++ d2 mo ++ d2 d ++ d2 h ++ d2 mi).
Definition text14 (y mo d h mi s : Z) := map dig (d4 y ++ d2 mo ++ d2 d ++ d2 h ++ d2 mi ++ d2 s).
Definition dot_zero : list ascii := [ascii_of_nat 46; ascii_of_nat 48].  (* ".0" *)

Definition is_stamp (y mo d h mi : Z) (s : list ascii) : Prop :=
  s = text12 y mo d h mi \/ exists sec, (0 <= sec <= 99)%Z /\ s = text14 y mo d h mi sec.
