(** numpy operations used by the code, on lists of reals.  Definitions only.
    These are library functions, not craterstats code; they follow the numpy
    documentation for the (sorted) arguments the code passes. *)
From Coq Require Import List ZArith Reals Bool.
From Verif Require Import Base.
Import ListNotations.
Local Open Scope R_scope.

(** as in gm/maths/range.py 18-19: np.min / np.max of a non-empty list given by head and tail. *)
Definition list_min (x : R) (l : list R) : R := fold_right Rmin x l.
(** np.max of a non-empty list, as in gm/maths/range.py 19 *)
Definition list_max (x : R) (l : list R) : R := fold_right Rmax x l.

(** as in Cratercount.py 268 and gm/idl/value_locate.py 14: np.searchsorted(l, v) (side='left') on an ascending list: number of leading
    entries < v. *)
Fixpoint searchsorted (l : list R) (v : R) : nat :=
  match l with
  | [] => O
  | x :: r => if Rltb x v then S (searchsorted r v) else O
  end.

(** as in Cratercount.py 295: np.digitize(v, l) on an ascending list: number of leading entries <= v. *)
Fixpoint digitize (l : list R) (v : R) : nat :=
  match l with
  | [] => O
  | x :: r => if Rleb x v then S (digitize r v) else O
  end.

(** membership in one interval, as in Cratercount.py 296: np.histogram(d, weights=w, bins=l): total weight of the (d,w) pairs in
    [l_i, l_(i+1)), the last interval being closed on the right. *)
Definition in_bin (lo hi : R) (closed : bool) (x : R) : bool :=
  Rleb lo x && (if closed then Rleb x hi else Rltb x hi).
(** one entry of np.histogram, as in Cratercount.py 296 *)
Definition hist1 (lo hi : R) (closed : bool) (dw : list (R * R)) : R :=
  Rsum (map snd (filter (fun p => in_bin lo hi closed (fst p)) dw)).
(** np.histogram, as called in Cratercount.py 294-296 *)
Fixpoint histogram (bins : list R) (dw : list (R * R)) : list R :=
  match bins with
  | lo :: ((hi :: rest') as rest) =>
      hist1 lo hi (match rest' with [] => true | _ => false end) dw :: histogram rest dw
  | _ => []
  end.

(** as in Craterpdf.py 71, Productionfn.py 54: np.cumsum *)
Fixpoint cumsum_from (acc : R) (l : list R) : list R :=
  match l with [] => [] | x :: r => (acc + x) :: cumsum_from (acc + x) r end.
(** np.cumsum, as in Craterpdf.py 71, Productionfn.py 54 *)
Definition cumsum (l : list R) : list R := cumsum_from 0 l.

(** as in Cratercount.py 265: np.arange(start, stop): start, start+1, ... below stop. *)
Definition arange (start stop : R) : list R :=
  map (fun i => start + INR i) (seq 0 (Z.to_nat (Rceil (stop - start)))).

(** as in Cratercount.py 254: [range(a,b)] on integers *)
Definition zrange (a b : Z) : list Z :=
  map (fun i => (a + Z.of_nat i)%Z) (seq 0 (Z.to_nat (b - a))).

(** as in Chronologyfn.py 84, Craterpdf.py 81: np.interp(v, xs, ys) with the table given as pairs, xs non-decreasing:
    constant outside the table, linear between the last entry <= v and its
    successor.  numpy raises ValueError on an empty table. *)
Fixpoint interp_from (x0 y0 : R) (rest : list (R * R)) (v : R) : R :=
  match rest with
  | [] => y0
  | (x1, y1) :: r =>
      if Rltb v x1 then y0 + (y1 - y0) / (x1 - x0) * (v - x0) else interp_from x1 y1 r v
  end.
(** np.interp, as in Chronologyfn.py 84, Craterpdf.py 81 *)
Definition interp (v : R) (tbl : list (R * R)) : res R :=
  match tbl with
  | [] => Err ValueError
  | (x0, y0) :: r => if Rltb v x0 then Ok y0 else Ok (interp_from x0 y0 r v)
  end.

(** sorted(): stable insertion sort for a given order test. *)
Section Sort.
  Context {A : Type} (leb : A -> A -> bool).
  (** one step of sorted(), as in Cratercount.py 155, 175 *)
  Fixpoint insert (x : A) (l : list A) : list A :=
    match l with
    | [] => [x]
    | y :: r => if leb x y then x :: l else y :: insert x r
    end.
  (** sorted(), as in Cratercount.py 155, 175 *)
  Fixpoint sort (l : list A) : list A :=
    match l with [] => [] | x :: r => insert x (sort r) end.
End Sort.

(** as in sorted(zip(..)), Cratercount.py 143, 286: order of Python tuples of two numbers *)
Definition pair_leb (p q : R * R) : bool :=
  Rltb (fst p) (fst q) || (Reqb (fst p) (fst q) && Rleb (snd p) (snd q)).

(** as in Chronologyfn.py 58: np.linspace(a, b, n): n equidistant values, the first a, the last b (n=1 gives [a]) *)
Definition linspace (a b : R) (n : nat) : list R :=
  map (fun i => a + INR i * ((b - a) / INR (n - 1))) (seq 0 n).
