(** Model of the time conversions: src/rtpp_time.c:61-80. A nonnegative double is m * 2^e with 0 <= m < 2^53 and
    -1074 <= e. Operations whose exact result is a double again (trunc, the conversion of the seconds, the subtraction) are exact; the product
    is rounded to 53 bits, ties to even. Products so small that they would have fewer bits (below 2^-1022) are not
    treated apart; they all become 0 seconds and 0 units. *)
From Verif Require Import Base.

Record dbl := mkD { d_m : Z; d_e : Z }.
Definition is_dbl (d : dbl) : Prop := 0 <= d_m d < 2 ^ 53 /\ -1074 <= d_e d <= 971.

(** The double next to a whole number: IEEE 754 round to nearest, ties to even *)
Definition rn53 (m : Z) : Z :=
  let n := Z.log2 m + 1 - 53 in
  if n <=? 0 then m
  else let q := m / 2 ^ n in
       let r := m mod 2 ^ n in
       (if (2 * r <? 2 ^ n) || ((2 * r =? 2 ^ n) && Z.even q) then q else q + 1) * 2 ^ n.

(** d = d_num / 2^d_den *)
Definition d_den (d : dbl) : Z := Z.max 0 (- d_e d).
Definition d_num (d : dbl) : Z := d_m d * 2 ^ Z.max 0 (d_e d).
(** SEC(x) = trunc(dtime) *)
Definition d_sec (d : dbl) : Z := d_num d / 2 ^ d_den d.
(** round(max * (dtime - (double)SEC)): round() is half away from zero *)
Definition d_units (max : Z) (d : dbl) : Z :=
  let f := d_num d mod 2 ^ d_den d in (2 * rn53 (max * f) + 2 ^ d_den d) / (2 * 2 ^ d_den d).

Inductive tm := Tm (sec frac : Z).
(** dtime2mtimespec, lines 61-67; [None]: the seconds do not fit a 64 bit time_t *)
Definition dtime2mtimespec (d : dbl) : option tm :=
  if d_sec d <? 9223372036854775808 then Some (Tm (d_sec d) (d_units 1000000000 d)) else None.
(** dtime2timeval, lines 69-80 *)
Definition dtime2timeval (d : dbl) : option tm :=
  if d_sec d <? 9223372036854775808 then
    let u := d_units 1000000 d in
    if u =? 1000000 then if d_sec d + 1 <? 9223372036854775808 then Some (Tm (d_sec d + 1) 0) else None
    else Some (Tm (d_sec d) u)
  else None.
