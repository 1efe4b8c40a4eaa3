(** C42: conversions of time. *)
From Verif Require Import Base TimeModel TimeSpec TimeProof.

(** Every time becomes a valid timeval within half a microsecond. *)
Theorem timeval_valid : forall d t, is_dbl d -> dtime2timeval d = Some t -> valid_tm 1000000 t /\ close 1000000 d t.
Proof.
  intros d t I E. unfold dtime2timeval in E. destruct (d_sec d <? 9223372036854775808); [|discriminate].
  pose proof (units_range d 1000000 ltac:(change (2 ^ 53) with 9007199254740992; lia)) as U. pose proof (sec_nonneg d I) as S0. pose proof (close_ok d 1000000 _ ltac:(lia) eq_refl) as C.
  destruct (Z.eqb_spec (d_units 1000000 d) 1000000) as [X|X].
  - destruct (d_sec d + 1 <? 9223372036854775808); [|discriminate]. injection E as <-. split; [cbn; lia|]. unfold close in *. rewrite X in C. replace ((d_sec d + 1) * 1000000 + 0) with (d_sec d * 1000000 + 1000000) by lia. exact C.
  - injection E as <-. split; [cbn; lia|exact C].
Qed.
Print Assumptions timeval_valid.
Theorem timeval_defined : forall d, is_dbl d -> below 9223372036854775807 d -> exists t, dtime2timeval d = Some t.
Proof.
  intros d I B. unfold dtime2timeval. assert (S : d_sec d < 9223372036854775807).
  { unfold below in B. apply Z.div_lt_upper_bound; [apply (den_pos d)|]. unfold d_num, d_den. lia. }
  destruct (Z.ltb_spec (d_sec d) 9223372036854775808); [|lia]. destruct (d_units 1000000 d =? 1000000); [|eauto]. destruct (Z.ltb_spec (d_sec d + 1) 9223372036854775808); [eauto|lia].
Qed.
Print Assumptions timeval_defined.

(** A timespec is as close, and at most one nanosecond too large; it is valid for times not just below a full second,
    and for all times from 2^22 seconds (48.5 days) on. Missing: all times (false, see below). *)
Theorem timespec_valid_partial : forall d t, is_dbl d -> dtime2mtimespec d = Some t ->
  close 1000000000 d t /\ valid_tm 1000000001 t /\ (not_close_to_full d \/ at_least 4194304 d -> valid_tm 1000000000 t).
Proof.
  intros d t I E. unfold dtime2mtimespec in E. destruct (d_sec d <? 9223372036854775808); [|discriminate]. injection E as <-.
  pose proof (units_range d 1000000000 ltac:(change (2 ^ 53) with 9007199254740992; lia)) as U. pose proof (sec_nonneg d I) as S0.
  split; [apply (close_ok d); [lia|reflexivity]|]. split; [cbn; lia|]. intros H. assert (N : not_close_to_full d) by (destruct H; [assumption|apply (old_is_fine d I); assumption]).
  pose proof (units_valid d N). cbn. lia.
Qed.
Print Assumptions timespec_valid_partial.

(** Examples: 100000.25 s; a microsecond count that carries; a time of 60 days. *)
Example time_ex : is_dbl (mkD 400001 (-2)) /\ dtime2timeval (mkD 400001 (-2)) = Some (Tm 100000 250000) /\ dtime2mtimespec (mkD 400001 (-2)) = Some (Tm 100000 250000000) /\ not_close_to_full (mkD 400001 (-2)) /\
  is_dbl (mkD (7 * 2 ^ 30 - 1) (-30)) /\ dtime2timeval (mkD (7 * 2 ^ 30 - 1) (-30)) = Some (Tm 7 0) /\
  is_dbl (mkD (5184000 * 2 ^ 30 - 1) (-30)) /\ at_least 4194304 (mkD (5184000 * 2 ^ 30 - 1) (-30)) /\ dtime2mtimespec (mkD (5184000 * 2 ^ 30 - 1) (-30)) = Some (Tm 5183999 999999999).
Proof. unfold is_dbl, not_close_to_full, at_least. cbn [d_m d_e]. repeat split; try reflexivity; vm_compute; discriminate. Qed.

(** Not every time becomes a valid timespec: 2^-36 seconds before 100000 seconds after boot. *)
Theorem timespec_valid_refuted : exists d, is_dbl d /\ below 100000 d /\ dtime2mtimespec d = Some (Tm 99999 1000000000) /\ ~ valid_tm 1000000000 (Tm 99999 1000000000).
Proof.
  exists (mkD (100000 * 2 ^ 36 - 1) (-36)). split; [unfold is_dbl; cbn [d_m d_e]; lia|]. split; [vm_compute; reflexivity|]. split; [vm_compute; reflexivity|]. cbn. lia.
Qed.
Print Assumptions timespec_valid_refuted.
