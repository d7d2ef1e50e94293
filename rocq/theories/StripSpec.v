(** Vocabulary for the statements about the strip of the randomness analysis. *)
From Coq Require Import String Ascii List ZArith Reals Bool.
From Verif Require Import Base StrModel FmtModel FmtSpec RaModel RaFileModel.
Import ListNotations.
Local Open Scope R_scope.

(** the bins of the analysis lie between the half powers of two, and are named by the exponent of the lower edge *)
Definition edge (z : Z) : R := Rpower 2 (IZR z / 2).
Definition bin_label (z : Z) : str := fmt_g 3 (IZR z / 2).
Definition root2_bins (s : store) : Prop :=
  Forall (fun p => Forall (fun q => exists z, (Z.abs z < 200)%Z /\ fst q = bin_label z) (trials (snd p))) s.
(** the measure has a value for the bin *)
Definition measured (s : store) (m : str) (z : Z) : Prop := exists r v, stored s m = Some r /\ In (bin_label z, v) (trials r).

(** the height of a value in the strip: the power 3/5, with its sign; that of the second measure is reversed, so that separated
    populations are above and clustered ones below for both *)
Definition level (y : R) : R := if Rlt_dec 0 y then Rpower y (3 / 5) else if Rlt_dec y 0 then - Rpower (- y) (3 / 5) else 0.
Inductive drawn_at : str -> sigma -> sigma -> Prop :=
| drawn_up x y : significant 4 x y -> drawn_at (L "m2cnd") (SNum x) (SNum (level y))
| drawn_down x y : significant 4 x y -> drawn_at (L "sdaa") (SNum x) (SNum (- level y))
| drawn_nan m : drawn_at m SNan SNan
| drawn_inf b : drawn_at (L "m2cnd") (SInf b) (SInf b)
| drawn_inf_down b : drawn_at (L "sdaa") (SInf b) (SInf (negb b)).
