(** C48: the smoothing filter. *)
From Verif Require Import Base FiltModel FiltSpec FiltProof.

(** The maximum is the greatest of the first value and all values returned. *)
Theorem max_is_greatest : forall mix v0 zero os, greatest (maxval (fst (run mix (init v0 true zero) os))) (v0 :: outputs mix v0 os) /\ snd (run mix (init v0 true zero) os) = outputs mix v0 os.
Proof.
  intros mix v0 zero os. pose proof (run_out mix os (init v0 true zero)) as R. split; [|exact R].
  change (outputs mix v0 os) with (outputs mix (lastval (init v0 true zero)) os). rewrite <- R. apply (run_max mix os (init v0 true zero) [v0]); [reflexivity|]. split; [left; reflexivity|]. intros v [<-|[]]. cbn. lia.
Qed.
Print Assumptions max_is_greatest.
(** The minimum is the least of them when values are given as integers. Missing: values given as doubles (false, see below). *)
Theorem min_is_least_partial : forall mix v0 zero os, Forall is_int os -> least (minval (fst (run mix (init v0 true zero) os))) (v0 :: outputs mix v0 os).
Proof.
  intros mix v0 zero os F. change (outputs mix v0 os) with (outputs mix (lastval (init v0 true zero)) os). rewrite <- run_out. apply (run_min mix os (init v0 true zero) [v0] F); [reflexivity|]. split; [left; reflexivity|]. intros v [<-|[]]. cbn. lia.
Qed.
Print Assumptions min_is_least_partial.
Example filter_ex : let mix x v := (x + v) / 2 in let r := run mix (init 100 true 0) [ApplyInt 0; ApplyInt 400; ApplyInt 0; ApplyInt 0] in
  snd r = [50; 225; 112; 56] /\ minval (fst r) = 50 /\ maxval (fst r) = 225.
Proof. vm_compute. auto. Qed.

(** With doubles the minimum is replaced by the maximum: it is wrong as soon as there is a new minimum. *)
Theorem min_is_least_refuted : exists mix os, let r := run mix (init 100 true 0) os in snd r = [50] /\ minval (fst r) = 100 /\ ~ least (minval (fst r)) (100 :: snd r).
Proof.
  exists (fun x v => (x + v) / 2), [Apply 0]. split; [reflexivity|]. split; [reflexivity|]. intros [_ L]. specialize (L 50 (or_intror (or_introl eq_refl))). vm_compute in L. congruence.
Qed.
Print Assumptions min_is_least_refuted.
