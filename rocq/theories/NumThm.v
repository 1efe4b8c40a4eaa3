(** C46: numeric arguments. Full claim for the int parsers:
    [forall s x, cstring s -> (atoi_safe s = ATOI_OK x <-> numeral s x [] /\ is_int x)].
    It is false of the code ([atoi_safe_truncates_refuted]): the long returned by strtol is stored
    in an int. Proved for every string whose numeral, if it is one, fits an int. *)
From Verif Require Import Base NumModel NumSpec NumProof.

Theorem atoi_safe_exact_partial : forall s, cstring s -> (forall v, numeral s v [] -> is_int v) ->
  forall x, atoi_safe s = ATOI_OK x <-> numeral s x [].
Proof. exact atoi_exact. Qed.
Print Assumptions atoi_safe_exact_partial.

(** What is not a decimal integer is always rejected, and everything else is accepted. *)
Theorem atoi_safe_rejects_non_numbers : forall s, cstring s ->
  ((forall v, ~ numeral s v []) <-> atoi_safe s = ATOI_NOTINT).
Proof. exact atoi_reject. Qed.
Print Assumptions atoi_safe_rejects_non_numbers.

Theorem atoi_saferange_exact_partial : forall s min max, cstring s -> (forall v, numeral s v [] -> is_int v) ->
  forall x, atoi_saferange s min max = ATOI_OK x <-> numeral s x [] /\ in_range x min max.
Proof. exact saferange_exact. Qed.
Print Assumptions atoi_saferange_exact_partial.

(** With a separator: the text after it is returned. *)
Theorem atoi_safe_sep_exact_partial : forall s sep, sep <> 0 -> (forall v rest, numeral s v rest -> is_int v) ->
  forall x next, atoi_safe_sep s sep = ATOI_OK (x, next) <-> numeral s x (sep :: next).
Proof. exact sep_exact. Qed.
Print Assumptions atoi_safe_sep_exact_partial.

(** The long parser is exact for every string. *)
Theorem strtol_saferange_exact : forall s min max x next,
  strtol_saferange s min max = ATOI_OK (x, next) <-> numeral s x next /\ is_long x /\ in_range x min max.
Proof. exact strtol_saferange_iff. Qed.
Print Assumptions strtol_saferange_exact.

(** "4294967297" is accepted as 1, and within the range 1..65535 of a port number. *)
Theorem atoi_safe_truncates_refuted : exists s x v,
  cstring s /\ atoi_safe s = ATOI_OK x /\ atoi_saferange s 1 65535 = ATOI_OK x /\ numeral s v [] /\ x <> v /\ ~ is_int v.
Proof.
  exists [52; 50; 57; 52; 57; 54; 55; 50; 57; 55], 1, 4294967297.
  split; [repeat constructor; lia|]. split; [vm_compute; reflexivity|]. split; [vm_compute; reflexivity|].
  split; [|split; unfold is_int; lia].
  exists [], [], 1, [52; 50; 57; 52; 57; 54; 55; 50; 57; 55].
  repeat split; try constructor; try (repeat constructor; unfold digit; lia); discriminate.
Qed.
Print Assumptions atoi_safe_truncates_refuted.

(** " -42:7" with separator ':', and the hypotheses of the exactness theorems. *)
Example atoi_ex :
  atoi_safe_sep [32; 45; 52; 50; 58; 55] 58 = ATOI_OK (-42, [55]) /\ numeral [32; 45; 52; 50; 58; 55] (-42) [58; 55] /\
  atoi_safe [32; 45; 52; 50; 58; 55] = ATOI_NOTINT /\ atoi_saferange [49; 50; 56] 0 127 = ATOI_OUTRANGE /\
  (cstring [49; 50; 56] /\ forall v, numeral [49; 50; 56] v [] -> is_int v).
Proof.
  split; [vm_compute; reflexivity|]. split.
  { exists [32], [45], (-1), [52; 50]. repeat split; try constructor; try (repeat constructor; unfold digit, blank; lia); try discriminate.
    intros c t [= <- <-]. unfold digit. lia. }
  split; [vm_compute; reflexivity|]. split; [vm_compute; reflexivity|]. split; [repeat constructor; lia|].
  intros v H. apply strtol_numeral in H. change (strtol [49; 50; 56]) with (128, Some (@nil Z), false) in H.
  pose proof (clamp_val v []) as [A _]. rewrite <- H in A. cbn [fst] in A. unfold is_int, LONG_MIN, LONG_MAX in *. lia.
Qed.
