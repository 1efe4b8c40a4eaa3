(** C53: notifications: every one accepted is dealt with once and in order, over descriptors that are used and closed well. *)
From Verif Require Import Base NotfModel NotfSpec NotfProof.

(** Target 0 is an inherited descriptor (fd:7), target 1 a socket with a local address, the others plain sockets. *)
Definition kinds0 (t : nat) : bool * bool * nat := match t with O => (true, false, 7%nat) | 1%nat => (false, true, O) | _ => (false, false, O) end.
(** Two notifications are scheduled while the first is being delivered; the first connection of target 2 breaks. *)
Definition os0 : list op :=
  [Sched 2 [65] true; Step ANone; Step ANone; Sched 0 [66] true; Step (ASocket (Some 8%nat)); Step (AConnect true); Step ANone;
   Sched 2 [67] true; Step (ASend Intr); Step (ASend Fail); Step ANone; Step (ASocket (Some 9%nat)); Step (AConnect true); Step ANone; Step (ASend (Took 2));
   Step ANone; Step ANone; Step (ASend (Took 2)); Destroy; Step ANone; Step ANone; Step (ASend (Took 2)); Step ANone].
Definition ev0 : list event := snd (run (init kinds0) os0).
Example ex_ev0 : ev0 =
  [EAccept 0 2 [65]; EAccept 1 0 [66]; ESocket (Some 8%nat); EConnect 8 2 true; EAccept 2 2 [67]; EIntr 8 2; ESend 8 2 None; EClose 8;
   ESocket (Some 9%nat); EConnect 9 2 true; ESend 9 2 (Some [65; 10]); EDone 0 2; ESend 7 0 (Some [66; 10]); EDone 1 0; ESend 9 2 (Some [67; 10]); EDone 2 2; EEnd].
Proof. vm_compute. reflexivity. Qed.

(** Notifications are dealt with in the order they were accepted in, each exactly once: those that have a fate so far are the
    first ones accepted, whatever the system answers and however calls and deliveries interleave; once the delivering thread has
    ended, all of them have one. *)
Theorem notifications_in_order kinds os :
  let ev := snd (run (init kinds) os) in
  map (fun a => fst (fst a)) (accepted ev) = seq 0 (length (accepted ev)) /\
  (exists later, map fst (accepted ev) = map fst (fates ev) ++ later) /\
  (In EEnd ev -> map fst (accepted ev) = map fst (fates ev)).
Proof. exact (order_thm kinds os). Qed.
Print Assumptions notifications_in_order.
Example ex_order : map fst (accepted ev0) = [(0, 2); (1, 0); (2, 2)]%nat /\ fates ev0 = [(0, 2, true); (1, 0, true); (2, 2, true)]%nat /\ In EEnd ev0.
Proof. vm_compute. intuition. Qed.

(** Provided a send takes all of the line it is given, what a target is sent is, in order, the tag and a newline of each
    notification reported as delivered to it: no line is doubled, cut or mixed with another. *)
Theorem lines_whole_partial kinds os t : takes_all os ->
  let ev := snd (run (init kinds) os) in bytes_to ev t = lines_to (accepted ev) (fates ev) t.
Proof. exact (bytes_thm kinds os t). Qed.
Print Assumptions lines_whole_partial.
Example ex_lines : takes_all os0 /\ bytes_to ev0 2 = [65; 10; 67; 10].
Proof.
  split; [|vm_compute; reflexivity]. intros k t tag mem Hk Hs. unfold os0 in *. cbn in Hk, Hs.
  repeat match goal with H : _ \/ _ |- _ => destruct H as [H|H]; try discriminate end; try tauto;
    injection Hk as <-; injection Hs as <- <- <-; cbn; lia.
Qed.

(** Without that it is not so: when send() takes part of a line (the socket's buffer is nearly full) the rest is never sent, the
    notification counts as delivered, and the next line is glued to the piece. *)
Theorem lines_whole_refuted : exists kinds os t,
  let ev := snd (run (init kinds) os) in fates ev = [(0, t, true); (1, t, true)]%nat /\ In EEnd ev /\
  lines_to (accepted ev) (fates ev) t = [65; 66; 10; 67; 68; 10] /\ bytes_to ev t = [65; 67; 68; 10].
Proof.
  exists kinds0, [Sched 0 [65; 66] true; Sched 0 [67; 68] true; Step ANone; Step ANone; Step (ASend (Took 1)); Step ANone; Step ANone; Step (ASend (Took 3)); Destroy; Step ANone], O.
  vm_compute. intuition.
Qed.
Print Assumptions lines_whole_refuted.

(** Descriptors: only open ones are used; what is sent to a target goes over a descriptor connected to it; none is closed twice;
    inherited ones (targets fd:N) are never closed. *)
Theorem descriptors_well_used kinds os :
  let owned f := exists t b, kinds t = (true, b, f) in
  well_used owned (mkFds owned (fun f t => exists b, kinds t = (true, b, f))) (snd (run (init kinds) os)).
Proof. exact (used_thm kinds os). Qed.
Print Assumptions descriptors_well_used.

(** And there are never more of them open than there are targets, in particular however often connections break. *)
Theorem descriptors_bounded kinds os T : NoDup T -> (forall t tag mem, In (Sched t tag mem) os -> In t T) ->
  0 <= left_open (snd (run (init kinds) os)) <= Z.of_nat (length T).
Proof. exact (left_thm kinds os T). Qed.
Print Assumptions descriptors_bounded.
Example ex_left : left_open ev0 = 1 /\ left_open (firstn 8 ev0) = 0.
Proof. vm_compute. auto. Qed.

(** A notification is tried at most four times, and given up only after the fourth failure or when no connection could be made. *)
Theorem attempts_bounded kinds os : patient 0 false (snd (run (init kinds) os)).
Proof. exact (patient_thm kinds os). Qed.
Print Assumptions attempts_bounded.
(** All four used up: each attempt over a new connection. *)
Definition again (r f : nat) : list op := [Step ANone; Step (ASocket (Some f)); Step (AConnect true); Step ANone; Step (ASend Fail)].
Example ex_four : snd (run (init kinds0) ([Sched 2 [65] true; Step ANone] ++ again 3 8 ++ again 2 9 ++ again 1 8 ++ again 0 9)) =
  [EAccept 0 2 [65]; ESocket (Some 8%nat); EConnect 8 2 true; ESend 8 2 None; EClose 8; ESocket (Some 9%nat); EConnect 9 2 true; ESend 9 2 None; EClose 9;
   ESocket (Some 8%nat); EConnect 8 2 true; ESend 8 2 None; EClose 8; ESocket (Some 9%nat); EConnect 9 2 true; ESend 9 2 None; EGiveUp 0 2].
Proof. vm_compute. reflexivity. Qed.

(** When nothing fails, nothing is given up. *)
Theorem healthy_delivers kinds os : Forall healthy os ->
  ~ In EAbort (snd (run (init kinds) os)) /\ forall n t, ~ In (EGiveUp n t) (snd (run (init kinds) os)).
Proof. exact (healthy_thm kinds os). Qed.
Print Assumptions healthy_delivers.

(** Every notification gets its fate: the delivering thread always gets to the end of its work, within 25 steps for each
    notification, if its calls return and are not interrupted; at the end all that was accepted has its fate, or the process was
    ended by an assertion. *)
Theorem every_notification_ends kinds os l : let s := fst (run (init kinds) os) in going s l ->
  (length l <= 25 * length (queue s) + 24)%nat /\
  let s' := fst (run s (map Step l)) in let ev := snd (run (init kinds) (os ++ map Step l)) in
  ((forall a, ~ answers s' a) -> map fst (accepted ev) = map fst (fates ev) \/ In EAbort ev).
Proof. exact (going_thm kinds os l). Qed.
Print Assumptions every_notification_ends.
Example ex_going : let s := fst (run (init kinds0) [Sched 2 [65] true; Sched 0 [66] true]) in
  let l := [ANone; ANone; ASocket None; ANone; ANone; ANone; ASend (Took 2)] in
  going s l /\ at_ (fst (run s (map Step l))) = Idle /\ queue (fst (run s (map Step l))) = [].
Proof. vm_compute. repeat split; discriminate. Qed.

(** The assertion ends the process only after a send over an inherited descriptor (target fd:N) has failed; *)
Theorem aborts_only_inherited_partial kinds os : In EAbort (snd (run (init kinds) os)) ->
  exists t b f, kinds t = (true, b, f) /\ In (ESend f t None) (snd (run (init kinds) os)).
Proof. exact (abort_thm kinds os). Qed.
Print Assumptions aborts_only_inherited_partial.

(** but then it does, at once: one failed send to such a target is enough. *)
Theorem never_aborts_refuted : exists kinds os,
  snd (run (init kinds) os) = [EAccept 0 0 [65]; ESend 7 0 None; EAbort].
Proof. exists kinds0, [Sched 0 [65] true; Step ANone; Step ANone; Step (ASend Fail); Step ANone]. vm_compute. reflexivity. Qed.
Print Assumptions never_aborts_refuted.
