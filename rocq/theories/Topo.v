(* Model of get_topo_grid, pyowc/data/fetchers.py 63-159 *)
From Coq Require Import ZArith List Bool Lia.
From Verif Require Import Num Np.
Import ListNotations.
Local Open Scope num_scope.

(* int(x) of a float *)
Definition int_of_float {T} `{Num T} (x : T) : res Z :=
  if nisnan x then Raise ValueError
  else if nisfin x then Ok (ntoZ x) else Raise OverflowError.

(* the binary file tbase.int: the byte at each position, None past the end *)
Definition binfile := Z -> option Z.

(* struct.unpack('h', ...) of two bytes: a 16-bit two's complement integer.  Native order, taken
   to be little-endian. *)
Definition unpack_h (lo hi : Z) : Z :=
  let w := (lo + 256 * hi)%Z in if (w <? 32768)%Z then w else (w - 65536)%Z.

(* fetchers.py 128-129, 135-136, 150-151: n times elev_file.read(2), from the current position *)
Fixpoint read_words (f : binfile) (pos : Z) (n : nat) : res (list Z) :=
  match n with
  | O => Ok []
  | S k => match f pos, f (pos + 1)%Z with
           | Some lo, Some hi =>
               let* r := read_words f (pos + 2) k in Ok (unpack_h lo hi :: r)
           | _, _ => Raise StructError
           end
  end.

(* elev_file.seek(pos) followed by the reads of one row *)
Definition seek_read (f : binfile) (pos : Z) (n : nat) : res (list Z) :=
  if (pos <? 0)%Z then Raise OSError else read_words f pos n.

(* np.zeros((a, b)) refuses negative sizes *)
Definition np_zeros_ok (a b : Z) : bool := (0 <=? a)%Z && (0 <=? b)%Z.

(* fetchers.py 126-129 / 133-136 / 148-151: nlat rows of n words; row i starts at byte
   (i + decoder[3]) * 360 * 12 * 2 + start * 2 *)
Definition read_block (f : binfile) (nlat n top start : Z) : res (list (list Z)) :=
  if np_zeros_ok nlat n
  then mapM (fun i => seek_read f ((Z.of_nat i + top) * 360 * 12 * 2 + start * 2) (Z.to_nat n))
            (seq 0 (Z.to_nat nlat))
  else Raise ValueError.

(* fetchers.py 117-151: the elevations of the decoded window [decoder].  The rounding of integer
   differences (round) is the identity. *)
Definition read_topo (f : binfile) (d0 d1 d2 d3 : Z) : res (list (list Z)) :=
  let nlat := (d2 - d3 + 1)%Z in
  if (4319 <? d1)%Z then
    let nlgr := (d1 - 4320 + 1)%Z in
    let nlgl := (4320 - d0)%Z in
    let* topo_end := read_block f nlat nlgr d3 0 in
    let* topo_beg := read_block f nlat nlgl d3 d0 in
    Ok (map (fun p => fst p ++ snd p)%list (combine topo_beg topo_end))
  else
    read_block f nlat (d1 - d0 + 1) d3 d0.

(* np.arange(a, b + 1, 1) of integers *)
Definition arangeZ (a b : Z) : list Z := map (fun k => (a + Z.of_nat k)%Z) (seq 0 (Z.to_nat (b + 1 - a))).

(* fetchers.py 103-109: longitudes moved into the columns of the file *)
Definition fold_long (llong rlong : Z) : Z * Z :=
  let '(llong, rlong) := if (360 * 12 - 1 <? rlong)%Z then (llong - 360 * 12, rlong - 360 * 12)%Z
                         else (llong, rlong) in
  if (llong <? 0)%Z then (llong + 360 * 12, rlong + 360 * 12)%Z else (llong, rlong).

Section Topo.
  Context {T : Type} `{Num T}.
  (* the content of CONFIG_DIRECTORY/tbase.int *)
  Variable f : binfile.

  (* fetchers.py 94: np.max((a, b)), NaN when an entry is NaN *)
  Definition np_max2 (a b : T) : T :=
    if nisnan a then a else if nisnan b then b else if a <? b then b else a.

  (* fetchers.py 63-159.  The file exists; the order of the reads of the two blocks is that of the
     code; np.meshgrid spelled out (lines 154). *)
  Definition get_topo_grid (min_long max_long min_lat max_lat : T)
      : res (list (list Z) * list (list T) * list (list T)) :=
    let '(min_lat, max_lat) := if max_lat >? nofZ 90 then (min_lat, nofZ 90)
                               else if min_lat <? nofZ (-90) then (nofZ (-90), max_lat)
                               else (min_lat, max_lat) in
    let* blat := int_of_float (np_max2 (nfloor (min_lat * nofZ 12)) (nofZ (-90 * 12 + 1))) in
    let* tlat := int_of_float (nceil (max_lat * nofZ 12)) in
    let* llong := int_of_float (nfloor (min_long * nofZ 12)) in
    let* rlong := int_of_float (nceil (max_long * nofZ 12)) in
    let lgs := map (fun k => nofZ k / nofZ 12) (arangeZ llong rlong) in
    let lts := rev (map (fun k => nofZ k / nofZ 12) (arangeZ blat tlat)) in
    let '(d0, d1) := fold_long llong rlong in
    let* topo := read_topo f d0 d1 (90 * 12 - blat) (90 * 12 - tlat) in
    Ok (topo, map (fun _ => lgs) lts, map (fun y => map (fun _ => y) lgs) lts).
End Topo.
