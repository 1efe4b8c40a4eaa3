(** C70: lines logged through the thread. *)
From Verif Require Import Base SyslModel SyslSpec SyslProof.

(** The pool of linked items does what the log without pointers does, in every order of the steps of all threads *)
Theorem sysl_refines size ops : out (run (init size) ops) = b_out (b_run (b_init size) ops)
  /\ drp (run (init size) ops) = b_drop (b_run (b_init size) ops).
Proof. destruct (rel_run ops _ _ _ _ (rel_init size)) as (fl & ql & R). split; [exact (r_out _ _ _ _ R) | exact (r_drop _ _ _ _ R)]. Qed.
Print Assumptions sysl_refines.

(** What is put is written once, in that order: the lines put are those written, the one in hand and those waiting;
    and no more than [size] items are in use *)
Theorem sysl_order size ops : let b := b_run (b_init size) ops in
  b_put b = map Some (out (run (init size) ops)) ++ taken (b_w b) ++ b_q b
  /\ (b_free b + length (b_held b) + length (b_q b) <= size)%nat.
Proof.
  cbv zeta. rewrite (proj1 (sysl_refines size ops)). destruct (inv_run size ops _ (inv_init size)) as [I1 I2]. split; [exact I1 | lia].
Qed.
Print Assumptions sysl_order.
Example sysl_order_ex : out (run (init 2) [OGet 3 [1]; OGet 4 [2]; OGet 5 [3]; OPut 1; OPut 0; OTake; OWrite; OFree; OTake; OWrite]) = [(4, [2]); (3, [1])]
  /\ drp (run (init 2) [OGet 3 [1]; OGet 4 [2]; OGet 5 [3]]) = 1.
Proof. split; reflexivity. Qed.

(** A line is dropped exactly when all items are in use: held by threads, waiting or with the thread of the log *)
Theorem sysl_dropped size ops p t : let b := b_run (b_init size) ops in
  drp (run (init size) (ops ++ [OGet p t])) = drp (run (init size) ops) + 1
  <-> (length (b_held b) + length (b_q b) + match b_w b with BIdle => 0 | _ => 1 end = size)%nat.
Proof.
  cbv zeta. rewrite !(proj2 (sysl_refines size _)). destruct (inv_run size ops _ (inv_init size)) as [_ I2]. unfold b_run in *. rewrite fold_left_app. cbn [fold_left b_step].
  destruct (b_free (fold_left b_step ops (b_init size))); cbn [b_drop]; split; intros; lia.
Qed.
Print Assumptions sysl_dropped.

(** The thread writes all that waits, if it is let run and none of it ends it *)
Theorem sysl_written size ops ls : let b := b_run (b_init size) ops in
  b_w b = BIdle -> b_q b = map Some ls ->
  out (run (init size) (ops ++ concat (repeat [OTake; OWrite; OFree] (length ls)))) = out (run (init size) ops) ++ ls.
Proof.
  cbv zeta. rewrite !(proj1 (sysl_refines size _)). unfold b_run. rewrite fold_left_app. generalize (fold_left b_step ops (b_init size)).
  induction ls as [|l ls IH]; intros b W Q; cbn [length repeat concat]; [cbn [fold_left]; now rewrite app_nil_r|].
  rewrite fold_left_app. cbn [map] in Q.
  assert (E : fold_left b_step [OTake; OWrite; OFree] b = Ab (S (b_free b)) (b_held b) (map Some ls) BIdle (b_out b ++ [l]) (b_drop b) (b_put b)).
  { cbn [fold_left]. unfold b_step at 3. rewrite W, Q. reflexivity. }
  rewrite E, IH; [|reflexivity|reflexivity]. cbn [b_out]. now rewrite <- app_assoc.
Qed.
Print Assumptions sysl_written.
Example sysl_written_ex : let b := b_run (b_init 3) [OGet 3 [1]; OGet 4 [2]; OPut 1; OPut 0] in b_w b = BIdle /\ b_q b = map Some [(4, [2]); (3, [1])].
Proof. split; reflexivity. Qed.

(** At the end of the process every line put before the item that ends the thread is written when the thread ends *)
Theorem sysl_exit size ops : let b := b_run (b_init size) ops in
  wrk (run (init size) ops) = WExit -> exists late, b_put b = map Some (out (run (init size) ops)) ++ None :: late.
Proof.
  cbv zeta. intros W. destruct (rel_run ops _ _ _ _ (rel_init size)) as (fl & ql & R). pose proof (r_w _ _ _ _ R) as X. rewrite W in X. unfold wrel in X.
  destruct (b_w (b_run (b_init size) ops)) eqn:E; try contradiction. destruct (sysl_order size ops) as [O _]. rewrite E in O. eexists. exact O.
Qed.
Print Assumptions sysl_exit.
Example sysl_exit_ex : wrk (run (init 3) [OGet 3 [1]; OGetExit; OPut 0; OPut 0; OTake; OWrite; OFree; OTake; OWrite]) = WExit.
Proof. reflexivity. Qed.

(** "Every line that was not dropped is written in the end" is false: a thread that has got its item when the process
    ends puts it after the item that ends the thread *)
Theorem sysl_late_refuted : ~ (forall size ops, wrk (run (init size) ops) = WExit -> held (run (init size) ops) = [] ->
  forall p t, In (Some (p, t)) (b_put (b_run (b_init size) ops)) -> In (p, t) (out (run (init size) ops))).
Proof. intros H. exact (H 3%nat [OGet 3 [1]; OGetExit; OPut 1; OPut 0; OTake; OWrite] eq_refl eq_refl 3 [1] (or_intror (or_introl eq_refl))). Qed.
Print Assumptions sysl_late_refuted.

(** The text is the prefix, the message and the suffix, cut to the buffer *)
Theorem sysl_text m pre msg post : 1 <= m ->
  compose m pre (Some msg) post = TText (firstn (Z.to_nat (m - 1)) (pre ++ msg ++ match post with Some p => p | None => [] end)).
Proof.
  intros Hm. unfold compose, cutz.
  destruct (Z.leb_spec m (Z.of_nat (length pre))) as [A|A].
  - replace (m - (m - 1) <=? 1) with true by lia. rewrite firstn_app. replace (Z.to_nat (m - 1) - length pre)%nat with 0%nat by lia. cbn [firstn]. now rewrite app_nil_r.
  - rewrite Nat2Z.id, firstn_all. rewrite (firstn_app _ pre), (firstn_all2 pre) by lia.
    destruct (Z.leb_spec (m - Z.of_nat (length pre)) 1) as [C|C].
    + replace (Z.to_nat (m - 1) - length pre)%nat with 0%nat by lia. cbn [firstn]. now rewrite app_nil_r.
    + destruct (Z.leb_spec (m - Z.of_nat (length pre)) (Z.of_nat (length msg))) as [D|D].
      * replace (Z.to_nat (m - Z.of_nat (length pre) - 1)) with (Z.to_nat (m - 1) - length pre)%nat by lia.
        rewrite (firstn_app _ msg). replace (Z.to_nat (m - 1) - length pre - length msg)%nat with 0%nat by lia. cbn [firstn]. rewrite app_nil_r.
        replace (_ <=? 1) with true by lia. now destruct post.
      * rewrite Nat2Z.id, firstn_all. rewrite (firstn_app _ msg), (firstn_all2 msg) by lia. destruct post as [p|].
        -- destruct (Z.leb_spec (m - Z.of_nat (length pre) - Z.of_nat (length msg)) 1) as [E|E].
           ++ replace (Z.to_nat (m - 1) - length pre - length msg)%nat with 0%nat by lia. cbn [firstn]. now rewrite app_nil_r.
           ++ rewrite <- app_assoc. do 4 f_equal. lia.
        -- rewrite firstn_nil. now rewrite app_nil_r.
Qed.
Print Assumptions sysl_text.
Example sysl_text_ex : compose 6 [1; 2] (Some [3; 4]) (Some [5; 6]) = TText [1; 2; 3; 4; 5].
Proof. reflexivity. Qed.

(** "The buffer is never left" is false when vsnprintf() fails and the prefix is empty *)
Theorem sysl_text_error_refuted : ~ (forall m pre msg post, 1 <= m -> compose m pre msg post <> TOob).
Proof. intros H. exact (H 2048 [] None (Some [10]) ltac:(lia) eq_refl). Qed.
Print Assumptions sysl_text_error_refuted.
