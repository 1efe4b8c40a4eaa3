(** What a decimal integer is (C46), independent of the parser. *)
From Verif Require Import Base.

Definition blank (c : Z) : Prop := c = 32 \/ 9 <= c <= 13.
Definition digit (c : Z) : Prop := 48 <= c <= 57.

(** Positional value, most significant digit first. *)
Fixpoint place_value (ds : list Z) : Z :=
  match ds with [] => 0 | d :: t => (d - 48) * 10 ^ Z.of_nat (length t) + place_value t end.

Inductive sign : list Z -> Z -> Prop :=
| sign_none : sign [] 1
| sign_plus : sign [43] 1
| sign_minus : sign [45] (-1).

(** [s] starts with the numeral of value [v] (blanks, sign, one or more digits, as many as there
    are) and goes on with [rest]. *)
Definition numeral (s : list Z) (v : Z) (rest : list Z) : Prop :=
  exists ws sg k ds, s = ws ++ sg ++ ds ++ rest /\ Forall blank ws /\ sign sg k /\ ds <> [] /\ Forall digit ds /\
    (forall c t, rest = c :: t -> ~ digit c) /\ v = k * place_value ds.

Definition is_int (v : Z) : Prop := -2147483648 <= v <= 2147483647.
Definition is_long (v : Z) : Prop := -9223372036854775808 <= v <= 9223372036854775807.
(** The documented range of the *_saferange functions: no upper bound when [max < min]. *)
Definition in_range (v min max : Z) : Prop := min <= v /\ (min <= max -> v <= max).
(** The bytes of a C string before its terminator. *)
Definition cstring (s : list Z) : Prop := Forall (fun c => 0 < c < 256) s.
