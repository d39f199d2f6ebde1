(** Model of the number formatting in lulua/report.py:32-61. *)
From Verif Require Import Base TextModel.
Open Scope string_scope.
Open Scope list_scope.

(** decimal.Decimal: [dcoef] / 10^[dscale], finite values only *)
Record decimal := mkDec { dcoef : Z; dscale : nat }.
Definition pow10 (n : nat) : Z := (10 ^ Z.of_nat n)%Z.
(** Division of integers, rounded half to even; 0 < b *)
Definition round_he (a b : Z) : Z :=
  let q := (a / b)%Z in let r := (a mod b)%Z in
  if (2 * r <? b)%Z then q else if (b <? 2 * r)%Z then (q + 1)%Z else if Z.even q then q else (q + 1)%Z.
(** [round (d, 1)] in tenths: quantize raises InvalidOperation, here None, if the
    result has more than 28 digits. *)
Definition dround1 (d : decimal) : option Z :=
  let r := round_he (10 * dcoef d) (pow10 (dscale d)) in
  if (Z.abs r <? pow10 28)%Z then Some r else None.
(** How many digits there are beyond 28 *)
Fixpoint excess (fuel e : nat) (c : Z) : nat :=
  match fuel with
  | O => e
  | S fuel' => if (Z.abs c <? pow10 (28 + e))%Z then e else excess fuel' (S e) c
  end.
(** Division by 1000 with 28 digits of precision, half to even.  The result is used
    only if the quotient is so small that digits are cut after the point. *)
Definition ddiv1000 (d : decimal) : decimal :=
  let e := excess (Z.to_nat (Z.log2 (Z.abs (dcoef d)))) 0 (dcoef d) in
  mkDec (round_he (dcoef d) (pow10 e)) (dscale d + 3 - e).

(** report.py:35-36 *)
Definition units (lang : string) : res (list text) :=
  if eqb lang "en" then
    Ok [[]; [116; 104; 111; 117; 115; 97; 110; 100]; [109; 105; 108; 108; 105; 111; 110]; [98; 105; 108; 108; 105; 111; 110]]%N
  else if eqb lang "ar" then
    Ok [[]; [0x623; 0x644; 0x641]; [0x645; 0x644; 0x64A; 0x648; 0x646]; [0x645; 0x644; 0x64A; 0x627; 0x631]]%N
  else Raise KeyError.
(** report.py:39-42: the result is the number in tenths and the unit *)
Fixpoint approx_loop (us : list text) (d : decimal) : option (Z * text) :=
  match us with
  | [] => None          (* not reached: one unit always remains *)
  | u :: us' =>
      match dround1 d with
      | None => None
      | Some r =>
          if (10000 <=? r)%Z && negb (Nat.eqb (List.length us') 0) then approx_loop us' (ddiv1000 d) else Some (r, u)
      end
  end.
Definition approx (lang : string) (d : decimal) : res (option (Z * text)) :=
  do us <- units lang; Ok (approx_loop us d).

(** report.py:49-51 *)
Definition numspace (s : text) : text := map (fun c => if N.eqb c 32 then 0x2007%N else c) s.
(** report.py:60 *)
Definition arabmap : list (N * N) :=
  [(0x30, 0x660); (0x31, 0x661); (0x32, 0x662); (0x33, 0x663); (0x34, 0x664); (0x35, 0x665); (0x36, 0x666);
   (0x37, 0x667); (0x38, 0x668); (0x39, 0x669); (0x2C, 0x66C); (0x2E, 0x66B)]%N.
(** report.py:61 *)
Definition arab1 (c : N) : N := match dget arabmap c with Some d => d | None => c end.
Definition arabnum (s : text) : text := map arab1 s.

(** * report.py:44-47: fraction.  A Fraction is a numerator and a positive
    denominator; floats are converted exactly. *)
Definition frac := (Z * Z)%type.
(** [Fraction (n, d)] for 0 < d *)
Definition frac_new (n d : Z) : frac := (n / Z.gcd n d, d / Z.gcd n d)%Z.
(** [abs (a - b)] as numerator and positive denominator, not reduced *)
Definition frac_dist (a b : frac) : frac := (Z.abs (fst a * snd b - fst b * snd a), snd a * snd b)%Z.
Definition frac_le (a b : frac) : bool := (fst a * snd b <=? fst b * snd a)%Z.
(** Fraction.limit_denominator of the standard library: the loop *)
Fixpoint ld_loop (fuel : nat) (max p0 q0 p1 q1 n d : Z) : res (Z * Z * Z * Z) :=
  match fuel with
  | O => Raise OutOfFuel
  | S fuel' =>
      if (d =? 0)%Z then Raise ZeroDivisionError else
      let a := (n / d)%Z in
      let q2 := (q0 + a * q1)%Z in
      if (max <? q2)%Z then Ok (p0, q0, p1, q1)
      else ld_loop fuel' max p1 q1 (p0 + a * p1) q2 d (n - a * d)
  end.
Definition limit_denominator (x : frac) (max : Z) : res frac :=
  if (max <? 1)%Z then Raise ValueError else
  if (snd x <=? max)%Z then Ok x else
  do r <- ld_loop (Z.to_nat max + 3) max 0 1 1 0 (fst x) (snd x);
  let '(p0, q0, p1, q1) := r in
  let k := ((max - q0) / q1)%Z in
  let bound1 := frac_new (p0 + k * p1) (q0 + k * q1) in
  let bound2 := frac_new p1 q1 in
  Ok (if frac_le (frac_dist bound2 x) (frac_dist bound1 x) then bound2 else bound1).
(** [str (n)] *)
Fixpoint digits_of (fuel : nat) (n : N) (acc : text) : text :=
  match fuel with
  | O => acc
  | S fuel' =>
      let acc' := (48 + n mod 10)%N :: acc in
      if (n / 10 =? 0)%N then acc' else digits_of fuel' (n / 10) acc'
  end.
Definition str_int (z : Z) : text :=
  (if (z <? 0)%Z then [45%N] else []) ++ digits_of (S (N.size_nat (Z.abs_N z))) (Z.abs_N z) [].
Definition fraction (x : frac) (maxdenom : Z) : res text :=
  do f <- limit_denominator x maxdenom;
  Ok (str_int (fst f) ++ [0x2044%N] ++ str_int (snd f)).
