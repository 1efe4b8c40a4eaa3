(** Model of the smoothing filter: src/rtpp_math.c:32-78. Only the order of the values matters for the peaks, so a
    double (not a NaN) is a whole number that stands for its place in the order, and the computation of the next
    value, lines 36 and 51, is a parameter [mix]. *)
From Verif Require Import Base.

(** struct recfilter, src/rtpp_math.h:44-51 *)
Record filt := mkF { lastval : Z; minval : Z; maxval : Z; peak_detect : bool }.
(** recfilter_init, lines 62-78 *)
Definition init (initval : Z) (peak : bool) (zero : Z) : filt := if peak then mkF initval initval initval true else mkF initval zero zero false.
(** recfilter_apply, lines 32-45 *)
Definition apply (mix : Z -> Z -> Z) (f : filt) (x : Z) : filt :=
  let v := mix x (lastval f) in
  if peak_detect f then
    let mx := if maxval f <? v then v else maxval f in
    let mn := if v <? minval f then mx else minval f in
    mkF v mn mx true
  else mkF v (minval f) (maxval f) false.
(** recfilter_apply_int, lines 47-60 *)
Definition apply_int (mix : Z -> Z -> Z) (f : filt) (x : Z) : filt :=
  let v := mix x (lastval f) in
  if peak_detect f then
    let mx := if maxval f <? v then v else maxval f in
    let mn := if v <? minval f then v else minval f in
    mkF v mn mx true
  else mkF v (minval f) (maxval f) false.

(** A history of either; the values returned *)
Inductive op := Apply (x : Z) | ApplyInt (x : Z).
Definition step (mix : Z -> Z -> Z) (f : filt) (o : op) : filt := match o with Apply x => apply mix f x | ApplyInt x => apply_int mix f x end.
Fixpoint run (mix : Z -> Z -> Z) (f : filt) (os : list op) : filt * list Z :=
  match os with [] => (f, []) | o :: t => let f1 := step mix f o in let '(f2, vs) := run mix f1 t in (f2, lastval f1 :: vs) end.
