(** C19: the statistics counters. *)
From Coq Require Import String.
From Verif Require Import Base StatsModel StatsSpec StatsProof.

(** Whatever random() returned while the table was built, for any list of at most 255 counters: a name is found at its place, and
    a string that is not a counter's name is not found. *)
Theorem names_found_exactly : forall tries rs names r s, (length names <= 255)%nat -> ctor tries rs names = Some r ->
  (forall i, nth_error names i = Some s -> lookup r s = Z.of_nat i) /\ (~ In s names -> lookup r s = -1).
Proof.
  intros tries rs names r s L C. apply ctor_good in C as [<- G]. split; [intros i; apply lookup_in; assumption|apply lookup_out; assumption].
Qed.
Print Assumptions names_found_exactly.

(** A counter that is only counted up with integers holds their sum (mod 2^64) whatever the order and whatever is done to other
    counters, and this is what is reported under its name. *)
Theorem counter_is_the_sum : forall dadd tries rs names r i s xs, (length names <= 255)%nat -> ctor tries rs names = Some r ->
  nth_error names i = Some s -> (forall x, In x xs -> target names x = Z.of_nat i -> is_double x = false) ->
  let total := fold_right Z.add 0 (amounts names (Z.of_nat i) xs) in
  nth i (run dadd r (init names) xs) 0 = total mod 18446744073709551616 /\
  (0 <= total < 9223372036854775808 -> getlval r (run dadd r (init names) xs) s = total).
Proof.
  intros dadd tries rs names r i s xs L C H D total. apply ctor_good in C as [Eg G]. subst names.
  assert (Li : (i < length (init (gv r)))%nat) by (unfold init; rewrite map_length; apply nth_error_Some; congruence).
  pose proof (run_u64 dadd r i xs _ G L Li D) as E. pose proof (run_range dadd r i xs _ G L Li D) as R. rewrite init_nth in E, R. specialize (R ltac:(lia)).
  unfold u64 in E. rewrite (Z.mod_small _ _ R) in E. split; [exact E|]. intros T. unfold getlval. rewrite (lookup_in r i s G L H). cbv zeta.
  destruct (Z.ltb_spec (Z.of_nat i) 0); [lia|]. rewrite Nat2Z.id, E. fold total. change (0 + total) with total. rewrite (Z.mod_small total) by lia.
  rewrite Z.mod_small by lia. lia.
Qed.
Print Assumptions counter_is_the_sum.

(** A floating point counter holds the floating point sum of its updates in the order they were made. *)
Theorem double_counter_is_the_sum : forall dadd tries rs names r i xs, (length names <= 255)%nat -> ctor tries rs names = Some r ->
  (i < length names)%nat -> (forall x, In x xs -> target names x = Z.of_nat i -> is_double x = true) ->
  nth i (run dadd r (init names) xs) 0 = fold_left dadd (amounts names (Z.of_nat i) xs) 0.
Proof.
  intros dadd tries rs names r i xs L C H D. apply ctor_good in C as [Eg G]. subst names.
  rewrite run_dbl; auto; [rewrite init_nth; reflexivity|unfold init; rewrite map_length; assumption].
Qed.
Print Assumptions double_counter_is_the_sum.

(** An update succeeds exactly when it is for an existing counter. *)
Theorem update_succeeds : forall dadd tries rs names r xs x, (length names <= 255)%nat -> ctor tries rs names = Some r ->
  snd (step dadd r (run dadd r (init names) xs) x) = if (0 <=? target names x) && (target names x <? Z.of_nat (length names)) then 0 else -1.
Proof.
  intros dadd tries rs names r xs x L C. apply ctor_good in C as [Eg G]. subst names.
  assert (Ln : forall xs s, length (run dadd r s xs) = length s) by (induction xs0 as [|y ys IH]; intros s0; cbn [run]; [reflexivity|]; rewrite IH; apply step_length).
  assert (Ll : length (run dadd r (init (gv r)) xs) = length (gv r)) by (rewrite Ln; unfold init; apply map_length).
  assert (U : forall idx f, snd (upd_int (run dadd r (init (gv r)) xs) idx f) = if (0 <=? idx) && (idx <? Z.of_nat (length (gv r))) then 0 else -1).
  { intros idx f. unfold upd_int. rewrite Ll. destruct (Z.ltb_spec idx 0), (Z.leb_spec (Z.of_nat (length (gv r))) idx), (Z.leb_spec 0 idx), (Z.ltb_spec idx (Z.of_nat (length (gv r)))); cbn; lia. }
  destruct x; cbn [step target]; rewrite U; rewrite ?lookup_index by assumption; reflexivity.
Qed.
Print Assumptions update_succeeds.

(** The table cannot be built when two counters have the same name. *)
Theorem names_are_distinct : forall tries rs names r, (length names <= 255)%nat -> ctor tries rs names = Some r -> NoDup names.
Proof. intros tries rs names r L C. apply ctor_good in C as [<- G]. apply good_nodup; assumption. Qed.
Print Assumptions names_are_distinct.

(** The counters of the proxy have different names, and are few enough. *)
Theorem proxy_names_distinct : NoDup (map fst default_stats) /\ (length default_stats <= 255)%nat.
Proof.
  split; [|vm_compute; lia].
  repeat (apply NoDup_cons; [vm_compute; intuition discriminate|]). apply NoDup_nil.
Qed.
Print Assumptions proxy_names_distinct.

(** The 29 counters of the proxy with a linear congruential random(); the addition of doubles is replaced by that of integers. *)
Fixpoint lcg (n : nat) (x : Z) : list Z :=
  match n with O => [] | S n' => let y := (x * 1103515245 + 12345) mod 2147483648 in y / 65536 :: lcg n' y end.
Definition names29 := map fst default_stats.
Definition rs_ex := lcg (Z.to_nat 40000) 1.
Example stats_ex :
  length names29 = 29%nat /\
  match ctor 50 rs_ex names29 with
  | None => False
  | Some r =>
      map (lookup r) names29 = map Z.of_nat (seq 0 29) /\ lookup r (bytes "npkts_rcv") = -1 /\
      let s := run Z.add r (init names29) [UpdName (bytes "npkts_rcvd") 5; UpdIdx 10 7; UpdNameD (bytes "total_duration") 3; UpdName (bytes "nosuch") 9; UpdIdx 29 1] in
      getlval r s (bytes "npkts_rcvd") = 12 /\ getlval r s (bytes "nosuch") = -1 /\ nth 17 s 0 = 3
  end.
Proof. vm_compute. repeat split; reflexivity. Qed.
