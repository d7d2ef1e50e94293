(** Number formatting: gm/string/sigfigs.py, scientific_notation.py, diameter_range.py,
    percentile_sigfigs.py and miscellaneous.py str_age.  Definitions only.

    Python's format codes e, f and g are modelled as correct rounding (half to even) of the exact
    decimal value, on exact reals; nan, infinities and negative zero are left out. *)
From Coq Require Import String Ascii List ZArith Reals Bool.
From Verif Require Import Base StrModel.
Import ListNotations.
Local Open Scope Z_scope.

(** ** a power of ten, as in scientific_notation.py 37-38 and in Python's formats Python's format codes *)
Definition ten (e : Z) : R := powerRZ 10 e.
(** how Python's formats round (sigfigs.py 12, miscellaneous.py 189, percentile_sigfigs.py 14-17): *)
Definition round_even (x : R) : Z :=
  let f := Rfloor x in
  if Rltb (x - IZR f) (1 / 2) then f
  else if Rltb (1 / 2) (x - IZR f) then f + 1
  else if Z.even f then f else f + 1.
(** the digits and the exponent of format code e (sigfigs.py 12, scientific_notation.py 31-34): d significant digits m and decimal exponent e of x >= 0, so that x is about m * 10^(e-d+1) *)
Definition sci (d : nat) (x : R) : Z * Z :=
  if Reqb x 0 then (0, 0)
  else
    let e := Rfloor (log10 x) in
    let m := round_even (x / ten (e - Z.of_nat d + 1))%R in
    if Z.eqb m (10 ^ Z.of_nat d) then (10 ^ (Z.of_nat d - 1), e + 1) else (m, e).
(** one character of a printed number (sigfigs.py 12) *)
Definition digit (z : Z) : ascii := ascii_of_nat (48 + Z.to_nat z).
(** one printed digit after another (sigfigs.py 12-14): the last k decimal digits of m *)
Fixpoint digits (k : nat) (m : Z) : str :=
  match k with O => [] | S k => digits k (m / 10) ++ [digit (m mod 10)] end.
(** str of an integer, by recursion (scientific_notation.py 46, 49) *)
Fixpoint dec_fuel (fuel : nat) (m : Z) : str :=
  match fuel with
  | O => [digit (m mod 10)]
  | S f => if Z.ltb m 10 then [digit m] else dec_fuel f (m / 10) ++ [digit (m mod 10)]
  end.
(** str of an integer that is not negative (scientific_notation.py 46, 49) *)
Definition dec_str (m : Z) : str := dec_fuel (Z.to_nat (Z.log2 m)) m.
(** str of an integer (scientific_notation.py 46, 49; miscellaneous.py 217) *)
Definition int_str (z : Z) : str := if Z.ltb z 0 then L "-" ++ dec_str (- z) else dec_str z.
(** '0'*k (sigfigs.py 19, 25) *)
Definition zeros (k : nat) : str := repeat (ch "0") k.
(** the sign in a printed number (sigfigs.py 13, 27) *)
Definition sign (x : R) : str := if Rltb x 0 then L "-" else [].
(** k digits, a decimal point and the others, as in sigfigs.py 21 and in Python's formats; no point if none follow *)
Definition point (sf : str) (k : nat) : str :=
  match skipn k sf with [] => firstn k sf | r => firstn k sf ++ L "." ++ r end.
(** format(x, '.kf'): percentile_sigfigs.py 17, Craterplotset.py 203-204 *)
Definition fmt_f (k : nat) (x : R) : str :=
  let m := round_even (Rabs x * ten (Z.of_nat k))%R in
  sign x ++ dec_str (m / 10 ^ Z.of_nat k) ++
  match k with O => [] | _ => L "." ++ digits k (m mod 10 ^ Z.of_nat k) end.
(** scientific_notation.py 31-34: the mantissa and the exponent of format(x, '.(d-1)e') *)
Definition fmt_e (d : nat) (x : R) : str * Z :=
  let '(m, e) := sci d (Rabs x) in (sign x ++ point (digits d m) 1, e).
(** part of the g format (miscellaneous.py 189): removal of trailing zeros after the decimal point, as done by the g format *)
Definition strip_zeros (s : str) : str :=
  if mem (ch ".") s then
    let t := rstrip (fun c => aeqb c (ch "0")) s in rstrip (fun c => aeqb c (ch ".")) t
  else s.
(** part of the g format (miscellaneous.py 189): the exponent of the e and g formats: sign and at least two digits *)
Definition exp_str (e : Z) : str :=
  L "e" ++ (if Z.ltb e 0 then L "-" else L "+") ++ (if Z.ltb (Z.abs e) 10 then L "0" else []) ++ dec_str (Z.abs e).
(** format(x, '.pg'), as in percentile_sigfigs.py 14, miscellaneous.py 189: p = 6 for 'g' *)
Definition fmt_g (p : nat) (x : R) : str :=
  let p := Nat.max p 1 in
  let '(m, e) := sci p (Rabs x) in
  let sf := digits p m in
  sign x ++
  (if Z.ltb e (-4) || Z.leb (Z.of_nat p) e then strip_zeros (point sf 1) ++ exp_str e
   else if Z.ltb e 0 then strip_zeros (L "0." ++ zeros (Z.to_nat (- e) - 1) ++ sf)
   else strip_zeros (point sf (Z.to_nat (e + 1)))).

(** ** sigfigs.py 7-29.  The text of format code e is taken apart again by a regular expression (13-16); here
    the three pieces are passed on directly.  digits = 0 is a ValueError (negative precision). *)
Definition sigfigs (n : R) (d : nat) : res str :=
  match d with
  | O => Err ValueError
  | _ =>
      let '(m, e) := sci d (Rabs n) in
      let sf := digits d m in
      Ok (sign n ++
          (if Z.ltb e 0 then L "0." ++ zeros (Z.to_nat (Z.abs e) - 1) ++ sf
           else if Z.ltb e (Z.of_nat d - 1) then firstn (Z.to_nat (e + 1)) sf ++ L "." ++ skipn (Z.to_nat (e + 1)) sf
           else sf ++ zeros (Z.to_nat (e - Z.of_nat d + 1))))
  end.

(** ** miscellaneous.py 207, diameter_range.py 22-25: characters outside Latin-1, as their UTF-8 bytes miscellaneous.py 162-209: str_age.  Characters outside Latin-1 are written as their UTF-8 bytes. *)
Definition bytes (l : list nat) : str := map ascii_of_nat l.
(** miscellaneous.py 207: the italic mu *)
Definition mu_sign : str := bytes [240; 157; 156; 135]%nat.
(** miscellaneous.py 178-179: f and unit0 *)
Definition units : list (R * str) := [(1, L "Ga"); (1 / 10 ^ 3, L "Ma"); (1 / 10 ^ 6, L "ka"); (1 / 10 ^ 9, L "a")]%R.
(** miscellaneous.py 181-184 *)
Definition choose_unit (age : R) (unit : option str) : res (R * str) :=
  match find (fun p => match unit with
                       | Some u => seqb u (snd p)
                       | None => Rleb (fst p) age || seqb (snd p) (L "a")
                       end) units with
  | Some p => Ok p
  | None => Err OtherException     (* StopIteration *)
  end.
(** miscellaneous.py 196-199, scientific_notation.py 39-42 *)
Definition with_errors (mathml : bool) (st e1s e2s : str) : str :=
  if mathml then L "<msubsup><mtext>" ++ st ++ L "</mtext><mtext>&#x2212;" ++ e2s ++ L "</mtext><mtext>+" ++ e1s ++ L "</mtext></msubsup>"
  else st ++ L "^{+" ++ e1s ++ L "}_{-" ++ e2s ++ L "}".
(** miscellaneous.py 204, scientific_notation.py 45 *)
Definition math_open : str := L "<math xmlns=" ++ [dq] ++ L "http://www.w3.org/1998/Math/MathML" ++ [dq] ++ L ">".
(** the keyword arguments of str_age, miscellaneous.py 162 *)
Record age_style := { sf : nat; unit : option str; simple : bool; no_error : bool; mu : bool; mathml : bool }.
(** miscellaneous.py 186-209 *)
Definition str_age (age e1 e2 : R) (o : age_style) : res str :=
  do! a <- choose_unit age (unit o);
  let v := (age / fst a)%R in
  do! st <- (if simple o then Ok (fmt_g 6 v) else sigfigs v (sf o));
  do! st <- (if Rltb 0 e1 && negb (no_error o) then
               do! e1s <- sigfigs (e1 / fst a) (sf o - 1);
               do! e2s <- sigfigs (e2 / fst a) (sf o - 1);
               Ok (with_errors (mathml o) st e1s e2s)
             else Ok st);
  Ok (if simple o then st ++ L " " ++ snd a
      else if mathml o then math_open ++ (if mu o then L "<mi>&#956;</mi>" else []) ++ st ++ L "<mtext>&#8239;" ++ snd a ++ L "</mtext></math>"
      else L "$" ++ (if mu o then mu_sign else []) ++ st ++ L "$ " ++ snd a).

(** ** scientific_notation.py 8-51; [u] are the unit texts of 21-25 *)
Definition scientific_notation (v : R) (errors : option (R * R)) (sf : nat) (force mathml : bool) (u : str * str) : res str :=
  do! (st, e) <- (if Reqb v 0 || (Rltb (-2) (log10 (Rabs v)) && Rltb (log10 (Rabs v)) 4 && negb force) then
                    do! s <- sigfigs v sf; Ok (s, 0)
                  else match sf with O => Err ValueError | _ => Ok (fmt_e sf v) end);
  do! st <- match errors with
            | Some (e1, e2) =>
                do! e1s <- sigfigs ((e1 - v) / ten e) (sf - 1);
                do! e2s <- sigfigs ((v - e2) / ten e) (sf - 1);
                Ok (with_errors mathml st e1s e2s)
            | None => Ok st
            end;
  Ok (if mathml then
        math_open ++ st ++ (if Z.eqb e 0 then [] else L "<mo>&#183;</mo><msup><mtext>10</mtext><mtext>" ++ int_str e ++ L "</mtext></msup>")
        ++ snd u ++ L "</math>"
      else L "$" ++ st ++ (if Z.eqb e 0 then [] else L "\cdot10^{" ++ int_str e ++ L "}") ++ fst u ++ L "$").

(** ** diameter_range.py 22, 25: the dash between the diameters diameter_range.py 7-25; an infinite upper end is None *)
Definition en_dash : str := bytes [226; 128; 147]%nat.
(** diameter_range.py 17-25 *)
Definition diameter_range (lo : R) (hi : option R) (sf : nat) : res str :=
  match hi with
  | None => Ok (L "unconstrained")
  | Some hi =>
      let k := if Rleb 1 hi then 1%R else 1000%R in
      do! a <- sigfigs (lo * k) sf;
      do! b <- sigfigs (hi * k) sf;
      Ok (a ++ en_dash ++ b ++ (if Rleb 1 hi then L " km" else L " m"))
  end.

(** ** percentile_sigfigs.py 6-18 *)
Definition percentile_sigfigs (p : R) (sf : nat) : str :=
  if Rltb p 50 then fmt_g sf p
  else fmt_f (length (fmt_g sf (100 - p)) - 2) p.
