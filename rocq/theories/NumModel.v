(** Model of the integer parsers of src/rtpp_util.c:363-425. A C string is the list of its bytes
    before the terminating NUL; reading at its end gives 0. *)
From Verif Require Import Base.

Definition head0 (s : list Z) : Z := match s with [] => 0 | c :: _ => c end.

(** isspace() and isdigit() in the C locale. *)
Definition is_space (c : Z) : bool := (c =? 32) || ((9 <=? c) && (c <=? 13)).
Definition is_digit (c : Z) : bool := (48 <=? c) && (c <=? 57).

Fixpoint skip_space (s : list Z) : list Z :=
  match s with c :: t => if is_space c then skip_space t else s | [] => [] end.

(** Digits from the front of [s]: accumulated value, number of digits, rest. *)
Fixpoint digits (acc : Z) (n : nat) (s : list Z) : Z * nat * list Z :=
  match s with
  | c :: t => if is_digit c then digits (acc * 10 + (c - 48)) (S n) t else (acc, n, s)
  | [] => (acc, n, [])
  end.

Definition LONG_MAX : Z := 9223372036854775807.
Definition LONG_MIN : Z := -9223372036854775808.

(** strtol(s, &cp, 10) of the C library with a 64-bit long (ISO C 7.22.1.4): value, what cp points
    to ([None]: cp == s, no conversion), errno == ERANGE. *)
Definition strtol (s : list Z) : Z * option (list Z) * bool :=
  let s1 := skip_space s in
  let neg := head0 s1 =? 45 in
  let s2 := if neg || (head0 s1 =? 43) then tl s1 else s1 in
  let '(v, n, rest) := digits 0 0 s2 in
  if (n =? 0)%nat then (0, None, false)
  else let v := if neg then - v else v in
       if v >? LONG_MAX then (LONG_MAX, Some rest, true)
       else if v <? LONG_MIN then (LONG_MIN, Some rest, true)
       else (v, Some rest, false).

(** enum atoi_rval, src/rtpp_util.h:60, with the stored results on success. *)
Inductive atoi_rval (A : Type) := ATOI_OK (x : A) | ATOI_NOTINT | ATOI_OUTRANGE.
Arguments ATOI_OK {A}. Arguments ATOI_NOTINT {A}. Arguments ATOI_OUTRANGE {A}.

(** atoi_safe_sep, src/rtpp_util.c:363-378. The long result is stored in an int (line 369).
    [tl rest] is what *next points to; it is beyond the terminator when sep is NUL, and then no
    caller asks for it. *)
Definition atoi_safe_sep (s : list Z) (sep : Z) : atoi_rval (Z * list Z) :=
  let '(v, cp, _) := strtol s in
  let rval := s32 v in
  match cp with
  | None => ATOI_NOTINT
  | Some rest => if negb (head0 rest =? sep) then ATOI_NOTINT else ATOI_OK (rval, tl rest)
  end.

(** atoi_safe, src/rtpp_util.c:380-385 *)
Definition atoi_safe (s : list Z) : atoi_rval Z :=
  match atoi_safe_sep s 0 with ATOI_OK (v, _) => ATOI_OK v | ATOI_NOTINT => ATOI_NOTINT | ATOI_OUTRANGE => ATOI_OUTRANGE end.

(** atoi_saferange, src/rtpp_util.c:387-400 *)
Definition atoi_saferange (s : list Z) (min max : Z) : atoi_rval Z :=
  match atoi_safe s with
  | ATOI_OK rval => if (rval <? min) || ((max >=? min) && (rval >? max)) then ATOI_OUTRANGE else ATOI_OK rval
  | _ => ATOI_NOTINT
  end.

(** strtol_saferange, src/rtpp_util.c:402-425 *)
Definition strtol_saferange (s : list Z) (min max : Z) : atoi_rval (Z * list Z) :=
  let '(rval, cp, erange) := strtol s in
  match cp with
  | None => ATOI_NOTINT
  | Some rest =>
      if erange then ATOI_OUTRANGE
      else if (rval <? min) || ((max >=? min) && (rval >? max)) then ATOI_OUTRANGE
      else ATOI_OK (rval, rest)
  end.
