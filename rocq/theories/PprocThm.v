(** C18: the packet processor chain. *)
From Verif Require Import Base PprocModel PprocSpec PprocProof PprocProof2.

(** Whatever happened before and whatever other threads do meanwhile (registering and unregistering processors included), a
    thread that hands a packet to a chain goes through the processors registered at that moment, from position [sa] on, in
    their order, each once, until one takes or drops the packet; then the packet is released exactly once unless it was taken,
    and counted as discarded exactly when it was released and did not come from the proxy itself. *)
Theorem packet_handled_once : forall n os0 s0 tr0 t m ps sa pk lg os s tr,
  run (start n) os0 = (s0, tr0) -> out s0 = Ok -> idle s0 t = true -> registered s0 m = Some ps ->
  forallb (fun x => negb (starts t x)) os = true ->
  run s0 (Start t m sa pk lg :: os) = (s, tr) ->
  handled ps sa pk lg t (filter (mine t) tr) (idle s t).
Proof.
  intros n os0 s0 tr0 t m ps sa pk lg os s tr _ O I R F H. unfold idle in I. destruct (nth_error (thrs s0) t) as [[|? ? ? ? ? ?]|] eqn:T; try discriminate.
  exact (handling _ _ _ _ _ _ _ _ _ _ O T R F H).
Qed.
Print Assumptions packet_handled_once.

(** The registered processors are always in ascending order of their positions. *)
Theorem processors_ascend : forall n os s tr m ps, run (start n) os = (s, tr) -> registered s m = Some ps -> ascending ps.
Proof.
  intros n os s tr m ps R Rg. unfold registered in Rg. destruct (nth_error (mgrs s) m) as [[k|]|]; try discriminate.
  destruct (nth_error (tabs s) k) as [tb|] eqn:K; [|discriminate]. injection Rg as <-. apply sorted_ascending. exact (run_sorted _ _ _ _ (start_sorted n) R _ _ K).
Qed.
Print Assumptions processors_ascend.

(** Registering adds the processor after all those with the same or a smaller position and changes nothing else. *)
Theorem register_adds : forall n os s tr m ps p s' e, run (start n) os = (s, tr) -> out s = Ok -> registered s m = Some ps ->
  (forall o, p_obj p = Some o -> 0 < own s o) -> step s (Reg m p true) = (s', e) ->
  (exists a b, ps = a ++ b /\ registered s' m = Some (a ++ p :: b) /\ (forall q, In q a -> p_ord q <= p_ord p) /\ (forall q, In q b -> p_ord p < p_ord q)) /\
  (forall m' qs, m' <> m -> registered s m' = Some qs -> registered s' m' = Some qs).
Proof.
  intros n os s tr m ps p s' e R O Rg Ow H. pose proof (run_sorted _ _ _ _ (start_sorted n) R) as Srt.
  destruct (registered_table _ _ _ Rg) as (k & tb & T & _ & K & <-). specialize (Srt _ _ K). unfold step in H. rewrite O, T in H.
  assert (G : (match p_obj p with Some o => own s o <=? 0 | None => false end) = false) by (destruct (p_obj p) as [o|]; [specialize (Ow o eq_refl); lia|reflexivity]).
  rewrite G in H. cbn [negb] in H. destruct (swap_registered _ _ _ _ _ _ _ Rg H) as [A B]. split; [|exact B].
  destruct (insert_split p (t_ps tb)) as (a & b & Es & Ei & F & C). exists a, b. split; [assumption|]. rewrite A, Ei. split; [reflexivity|].
  rewrite Forall_forall in F. split; [exact F|]. intros q Iq. destruct C as [->|(q0 & b' & -> & L)]; [destruct Iq|].
  rewrite Es in Srt. apply sorted_app in Srt as (_ & Sb & _). apply Sorted.StronglySorted_inv in Sb as [_ Fq]. rewrite Forall_forall in Fq.
  destruct Iq as [<-|Iq]; [assumption|]. specialize (Fq _ Iq). unfold le_ord in Fq. lia.
Qed.
Print Assumptions register_adds.

(** Unregistering removes the first processor with the key and changes nothing else; a key that is not registered aborts the proxy. *)
Theorem unregister_removes : forall n os s tr m ps key s' e, run (start n) os = (s, tr) -> out s = Ok -> registered s m = Some ps ->
  step s (Unreg m key true) = (s', e) ->
  (out s' = Aborted <-> forall q, In q ps -> p_key q <> key) /\
  (out s' <> Aborted ->
   (exists a p b, ps = a ++ p :: b /\ registered s' m = Some (a ++ b) /\ p_key p = key /\ forall q, In q a -> p_key q <> key) /\
   (forall m' qs, m' <> m -> registered s m' = Some qs -> registered s' m' = Some qs)).
Proof.
  intros n os s tr m ps key s' e R O Rg H. destruct (registered_table _ _ _ Rg) as (k & tb & T & _ & K & <-). unfold step in H. rewrite O, T in H.
  destruct (remove key (t_ps tb)) as [ps'|] eqn:Rm.
  - cbn [negb] in H. destruct (swap_registered _ _ _ _ _ _ _ Rg H) as [A B]. apply remove_split in Rm as (a & p & b & E & -> & Kp & F). rewrite Forall_forall in F.
    assert (No : out s' <> Aborted).
    { intros X. apply (swap_out _ _ _ _ _ _ H) in X. congruence. }
    split; [split; [intros X; congruence|intros X; exfalso; apply (X p); [rewrite E; apply in_app_iff; cbn; auto|assumption]]|].
    intros _. split; [|exact B]. exists a, p, b. auto.
  - inj H. apply remove_none in Rm. rewrite Forall_forall in Rm. cbn [out set_out]. split; [split; auto|]. congruence.
Qed.
Print Assumptions unregister_removes.

(** As long as only managers without counted processors are cloned, a processor that can still be called has not been freed, and
    nobody ever uses a freed one. *)
Theorem processors_outlive_their_use : forall n os s tr, run (start n) os = (s, tr) -> plain_clones tr ->
  out s <> UseAfterFree /\ forall p o, in_use s p -> p_obj p = Some o -> ~ In (EFree o) tr.
Proof.
  intros n os s tr R P. destruct (run_inv _ _ _ _ (start_inv n) P R) as [I F]. split; [apply (i_out _ _ I)|]. intros p o U O X.
  assert (0 < refs s o).
  { destruct U as [(m & ps & Rg & Ip)|(t & k & i & res & sa & pk & lg & tb & T & K & Ip)].
    - destruct (registered_table _ _ _ Rg) as (k & tb & T & _ & K & <-). destruct (mgr_live _ _ _ _ I T) as (_ & tb1 & K1 & E1 & L1). rewrite <- E1 in Ip.
      eapply inv_alive; [exact I|exact K1|exact L1|exact Ip|exact O].
    - eapply inv_alive; [exact I|exact K|eapply thr_live; eassumption|exact Ip|exact O]. }
  pose proof (proj2 (F o) (or_intror X)). lia.
Qed.
Print Assumptions processors_outlive_their_use.

(** They are freed as soon as nobody needs them: no user has a reference, no manager and no thread has them on its list. *)
Theorem processors_are_freed : forall n os s tr o, run (start n) os = (s, tr) -> plain_clones tr -> small_tables tr ->
  (o < nobj s)%nat -> own s o = 0 -> (forall k tb, nth_error (tabs s) k = Some tb -> 0 < t_rc tb -> ~ In o (objs (t_ps tb))) ->
  In (EFree o) tr.
Proof.
  intros n os s tr o R P Sm Lo Ow Nt. destruct (run_inv _ _ _ _ (start_inv n) P R) as [I F].
  assert (L : leak s o = 0) by (rewrite (run_leak _ _ _ _ R Sm eq_refl); reflexivity).
  assert (Hh : held_listed s) by (eapply run_held; [apply start_held|exact P|exact R]).
  assert (Z0 : zsum (hs o) (tabs s) = 0).
  { apply zsum_zero. intros tb It. apply In_nth_error in It as [k K]. unfold hs. destruct (Z.ltb_spec 0 (t_rc tb)); [|reflexivity].
    destruct (Z.le_gt_cases (cnt o (t_held tb)) 0) as [|G]; [pose proof (cnt_nonneg o (t_held tb)); lia|]. apply cnt_in in G. exfalso. apply (Nt _ _ K); [assumption|]. exact (Hh _ _ _ K G). }
  assert (E : refs s o = 0) by (rewrite (i_refs _ _ I); lia). destruct (proj1 (F o) (conj Lo E)) as [[X _]|X]; [cbn in X; lia|exact X].
Qed.
Print Assumptions processors_are_freed.

(** Three processors at positions 12, 8 and 4, the last one with a taste callback. Thread 0 handles a packet from position 5 on while
    thread 1 handles another from the beginning and the processor at 8 is unregistered: both still call it; its object goes
    away when the last of them is through. *)
Definition relay := mkProc 12 1 None false.
Definition witness := mkProc 8 2 (Some 0%nat) false.
Definition analyze := mkProc 4 3 None true.
Example pproc_ex :
  let os0 := [Reg 0 relay true; New; Reg 0 witness true; Reg 0 analyze true; Disown 0] in
  let os := [Start 1 0 0 78 true; Unreg 0 2 true; Step 0 true 0; Step 1 false 0; Step 0 true 1; Step 1 true 4; Step 0 true 2; Step 0 true 0; Step 1 true 0; Start 1 0 0 79 false] in
  let s0 := fst (run (start 2) os0) in
  let r := run s0 (Start 0 0 5 77 false :: os) in
  registered s0 0 = Some [analyze; witness; relay] /\ idle s0 0 = true /\ plain_clones (snd (run (start 2) os0)) /\
  snd r = [ETable 0; ETaste 1 analyze false; ECall 0 witness 1; ECall 1 witness 4; ECall 0 relay 2; EReturn 0 3; EFree 0; ERelease 1 78; EReturn 1 4] /\
  registered (fst r) 0 = Some [analyze; relay] /\ idle (fst r) 0 = true /\ out (fst r) = Ok.
Proof.
  cbv zeta. split; [vm_compute; reflexivity|]. split; [vm_compute; reflexivity|]. split; [apply no_clone_plain; vm_compute; reflexivity|].
  split; [vm_compute; reflexivity|]. split; [vm_compute; reflexivity|]. split; vm_compute; reflexivity.
Qed.

(** A clone of a manager with counted processors does not keep them alive: after the original has unregistered its processor, the
    clone calls a freed one. (In this release only the global manager is cloned, and it has no counted processors.) *)
Theorem clone_keeps_processors_refuted : exists os, out (fst (run (start 1) os)) = UseAfterFree.
Proof. exists [New; Reg 0 witness true; Disown 0; Clone 0; Unreg 0 2 true; Start 0 1 0 77 false; Step 0 true 0]. vm_compute. reflexivity. Qed.
Print Assumptions clone_keeps_processors_refuted.

(** Beyond 23 counted processors on a list the last ones are never released. *)
Theorem processors_are_freed_refuted : exists os, let '(s, tr) := run (start 1) os in plain_clones tr /\ out s = Ok /\ (23 < nobj s)%nat /\
  own s 23 = 0 /\ registered s 0 = Some [] /\ ~ In (EFree 23) tr.
Proof.
  set (os := flat_map (fun i => [New; Reg 0 (mkProc 8 (Z.of_nat i) (Some i) false) true; Disown i]) (seq 0 24) ++
          map (fun i => Unreg 0 (Z.of_nat i) true) (seq 0 24)).
  exists os. destruct (run (start 1) os) as [s tr] eqn:R.
  assert (C : (let '(s, tr) := run (start 1) os in
     forallb (fun e => match e with EClone _ | EFree 23 => false | _ => true end) tr &&
     (23 <? nobj s)%nat && (own s 23%nat =? 0) && match out s with Ok => true | _ => false end && match registered s 0 with Some [] => true | _ => false end) = true)
    by (vm_compute; reflexivity).
  rewrite R in C. clear R. clearbody os. rewrite !andb_true_iff in C. destruct C as ((((C1 & C2) & C3) & C4) & C5). rewrite forallb_forall in C1.
  split; [intros ps p H; apply C1 in H; discriminate|]. split; [destruct (out s); auto; discriminate|]. split; [lia|]. split; [lia|].
  split; [destruct (registered s 0) as [[|]|]; auto; discriminate|]. intros H. apply C1 in H. discriminate.
Qed.
Print Assumptions processors_are_freed_refuted.
