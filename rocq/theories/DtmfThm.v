(** C54: the DTMF events of a stream are reported, each once, with what was asked for. *)
From Verif Require Import Base Str StrSpec NumModel NumSpec QuoteSpec DtmfModel DtmfSpec DtmfProof.

(** *** The command *)
(** Partial: numerals out of the range of int are left out (atoi, see C03). *)
Theorem dtmf_command_exact_partial : forall os i tgt caller mem args e,
  (forall n q p o v, args = n :: q :: p :: o -> cstring p /\ (numeral p v [] -> is_int v)) ->
  snd (exec (fst (run init os)) (Cmd i tgt caller mem args)) = e ->
  (e = [ERefused i] \/ exists pt hide tag tg, e = [EMod i pt hide tag tg caller]) /\
  forall pt hide tag tg, e = [EMod i pt hide tag tg caller] <->
    tgt = Some tg /\ asked args tag pt hide /\ (mem = true \/ exists pt' hide' tag' tg' c', In (EMod i pt' hide' tag' tg' c') (snd (run init os))).
Proof. exact command_exact. Qed.
Print Assumptions dtmf_command_exact_partial.

(** *** The packets *)
Theorem dtmf_packets_pass_or_drop : forall os i, verdicts None (snd (run init os)) i.
Proof. intros os i. apply (proj1 (run_stream os i)). Qed.
Print Assumptions dtmf_packets_pass_or_drop.

(** *** The reports *)
(** The reports of stream [i] are, in order, those due to its packets looked at so far ([done]), with the tag, target and side asked
    for. Nothing behind a buffer is read. Partial: packets with sources or an extension, or without payload, event number 17, more
    than three events at once, tags of more than 498 bytes or with NULs, and commands that change the tag are left out; see the
    theorems that follow. *)
Theorem dtmf_reported_partial : forall os i tag tgt caller s l, run init os = (s, l) ->
  always l i tag tgt caller -> Forall (fun c => c <> 0) tag -> (length tag <= 498)%nat ->
  Forall plain_tel (caught None l i) -> Forall (fun t => ev t <> 17) (tels (caught None l i)) -> interleaved (filter known (tels (caught None l i))) ->
  exists done, caught None l i = done ++ waiting s i /\
    Forall2 (fun r n => fst n = tgt /\ text_of tag caller r (snd n)) (reports [] (filter known (tels done))) (notes l i) /\
    (forall n, ~ In (EOverread i n) l).
Proof. intros os i tag tgt caller s l E. pose proof (stream_reports os i tag tgt caller) as X. rewrite E in X. exact X. Qed.
Print Assumptions dtmf_reported_partial.
(** What is due is not less and not more than it should be: no event twice, and every event with an end packet behind its first. *)
Theorem dtmf_due_once : forall l, NoDup (map (fun r => ts (fst r)) (reports [] l)).
Proof. intros l. apply (proj1 (reports_once l [])). Qed.
Print Assumptions dtmf_due_once.
Theorem dtmf_due_exactly : forall l t, In t (map (fun r => ts (fst r)) (reports [] l)) <->
  exists a q b p c, l = a ++ q :: b ++ p :: c /\ ~ In t (map ts a) /\ ts q = t /\ ts p = t /\ ev p = ev q /\ final p = true.
Proof. exact reports_all. Qed.
Print Assumptions dtmf_due_exactly.

(** A stream with payload type 101: event 5, two packets and three end packets, then event 11; the last packet waits. *)
Definition pkt (t : list Z) (d : list Z) : list Z := [128; 101; 0; 1] ++ t ++ [1; 2; 3; 4] ++ d.
Definition press : list op :=
  [Cmd 0 (Some 7%nat) true true [B "catch_dtmf"; B "call%201"; B "101"; B "h"];
   Recv 0 true true (pkt [0; 0; 1; 0] [5; 10; 0; 160]); Recv 0 true true (pkt [0; 0; 1; 0] [5; 10; 1; 64]); Work;
   Recv 0 true true (pkt [0; 0; 1; 0] [5; 138; 1; 224]); Work; Recv 0 true true (pkt [0; 0; 1; 0] [5; 138; 1; 224]); Work;
   Recv 0 true true (pkt [0; 0; 2; 0] [11; 7; 0; 160]); Work; Work; Recv 0 true true ([128; 0] ++ repeat 0 170); Work;
   Recv 0 true true (pkt [0; 0; 2; 0] [11; 135; 1; 64]); Work; Recv 0 true true (pkt [0; 0; 2; 0] [11; 135; 1; 64])].
Example press_ex : notes (snd (run init press)) 0 = [(7%nat, B "call 1 5 10 480 0"); (7%nat, B "call 1 # 7 320 0")] /\
  length (caught None (snd (run init press)) 0) = 7%nat /\ length (waiting (fst (run init press)) 0) = 1%nat.
Proof. vm_compute. repeat split; reflexivity. Qed.
Example reported_ex : exists done, caught None (snd (run init press)) 0 = done ++ waiting (fst (run init press)) 0 /\
  Forall2 (fun r n => fst n = 7%nat /\ text_of (B "call 1") true r (snd n)) (reports [] (filter known (tels done))) (notes (snd (run init press)) 0) /\
  (forall n, ~ In (EOverread 0 n) (snd (run init press))).
Proof.
  apply (dtmf_reported_partial press 0 (B "call 1") 7 true).
  - destruct (run init press); reflexivity.
  - intros pt hide g t c H. vm_compute in H. repeat (destruct H as [H|H]; [first [discriminate H | injection H; intros; subst; auto]|]). destruct H.
  - apply Forall_forall. intros c H. vm_compute in H. repeat (destruct H as [<-|H]; [lia|]). destruct H.
  - cbn. lia.
  - vm_compute. repeat (constructor; [split; [repeat (constructor; [split; [intros; discriminate|reflexivity]|]); constructor|split; [repeat constructor|reflexivity]]|]). constructor.
  - vm_compute. repeat (constructor; [intros; discriminate|]). constructor.
  - assert (L : incl (map ts (filter known (tels (caught None (snd (run init press)) 0)))) [256; 512]) by (intros t H; vm_compute in H; cbn; intuition (subst; auto)).
    revert L. generalize (filter known (tels (caught None (snd (run init press)) 0))). intros l L.
    assert (X : forall x, (length (fresh x (map ts l)) <= 2)%nat).
    { intros x. unfold fresh. transitivity (length [256; 512]); [|cbn; lia]. apply NoDup_incl_length; [apply NoDup_nodup|]. intros t Ht. apply nodup_In in Ht. apply filter_In in Ht. apply L. tauto. }
    intros a x b y c E Ht Na. specialize (X (map ts (a ++ [x]))). rewrite E in X. enough (length (fresh (map ts (a ++ [x])) (map ts b)) <= length (fresh (map ts (a ++ [x])) (map ts (a ++ x :: b ++ y :: c))))%nat by lia.
    unfold fresh. apply NoDup_incl_length; [apply NoDup_nodup|]. intros t H. apply nodup_In. apply nodup_In in H. apply filter_In in H. apply filter_In. split; [|tauto].
    rewrite !map_app. cbn [map]. rewrite map_app. apply in_or_app. right. right. apply in_or_app. left. tauto.
Qed.

(** *** What is missing *)

(** A long tag: snprintf() tells how long the text would be, and as many bytes are taken from the buffer. *)
Theorem dtmf_overread_refuted : ~ (forall os i n, ~ In (EOverread i n) (snd (run init os))).
Proof.
  intros H. apply (H [Cmd 0 (Some 7%nat) true true [B "catch_dtmf"; repeat 97 600]; Recv 0 true true (pkt [0; 0; 1; 0] [5; 10; 0; 160]); Recv 0 true true (pkt [0; 0; 1; 0] [5; 138; 0; 160]); Work; Work] 0%nat 99%nat).
  vm_compute. auto 10.
Qed.
Print Assumptions dtmf_overread_refuted.

(** Event 17 is taken for one of the events with a symbol, and reported with a NUL in the text. *)
Definition press17 : list op :=
  [Cmd 0 (Some 7%nat) true true [B "catch_dtmf"; B "x"]; Recv 0 true true (pkt [0; 0; 1; 0] [17; 10; 0; 160]); Recv 0 true true (pkt [0; 0; 1; 0] [17; 138; 0; 160]); Work; Work].
Theorem dtmf_unknown_events_unreported_refuted : ~ (forall os i, Forall plain_tel (caught None (snd (run init os)) i) ->
  (forall t, In t (tels (caught None (snd (run init os)) i)) -> known t = false) -> notes (snd (run init os)) i = []).
Proof.
  intros H. specialize (H press17 0%nat). assert (X : notes (snd (run init press17)) 0 = []); [|vm_compute in X; discriminate X]. apply H.
  - vm_compute. repeat (constructor; [split; [repeat (constructor; [split; [intros; discriminate|reflexivity]|]); constructor|split; [repeat constructor|reflexivity]]|]). constructor.
  - intros t Ht. vm_compute in Ht. repeat (destruct Ht as [<-|Ht]; [reflexivity|]). destruct Ht.
Qed.
Print Assumptions dtmf_unknown_events_unreported_refuted.

(** The sources in the header are taken for the event: here the event in the payload is 1. *)
Definition press_cc : list op :=
  [Cmd 0 (Some 7%nat) true true [B "catch_dtmf"; B "x"]; Recv 0 true true (129 :: tl (pkt [0; 0; 1; 0] [5; 138; 0; 160; 1; 10; 0; 160]));
   Recv 0 true true (129 :: tl (pkt [0; 0; 1; 0] [5; 138; 0; 160; 1; 10; 0; 240])); Work; Work].
Theorem dtmf_no_end_no_report_refuted : ~ (forall os i,
  (forall t, In t (tels (caught None (snd (run init os)) i)) -> final t = false) -> notes (snd (run init os)) i = []).
Proof.
  intros H. specialize (H press_cc 0%nat). assert (X : notes (snd (run init press_cc)) 0 = []); [|vm_compute in X; discriminate X]. apply H.
  intros t Ht. vm_compute in Ht. repeat (destruct Ht as [<-|Ht]; [reflexivity|]). destruct Ht.
Qed.
Print Assumptions dtmf_no_end_no_report_refuted.

(** An event that four others began after is forgotten: late copies of its packets make a second report. *)
Definition e1 (t : Z) (fin : bool) : op := Recv 0 true true (pkt [0; 0; t; 0] [t; if fin then 138 else 10; 0; 160]).
Definition press_late : list op :=
  [Cmd 0 (Some 7%nat) true true [B "catch_dtmf"; B "x"]; e1 1 false; e1 1 true; e1 2 false; e1 3 false; e1 4 false; e1 5 false; e1 1 true; e1 1 true] ++ repeat Work 8.
Theorem dtmf_once_refuted : ~ (forall os i, Forall plain_tel (caught None (snd (run init os)) i) ->
  (length (notes (snd (run init os)) i) <= length (nodup Z.eq_dec (map ts (filter final (tels (caught None (snd (run init os)) i))))))%nat).
Proof.
  intros H. specialize (H press_late 0%nat). 
  assert (X : Forall plain_tel (caught None (snd (run init press_late)) 0)); [|apply H in X; vm_compute in X; lia].
  vm_compute. repeat (constructor; [split; [repeat (constructor; [split; [intros; discriminate|reflexivity]|]); constructor|split; [repeat constructor|reflexivity]]|]). constructor.
Qed.
Print Assumptions dtmf_once_refuted.

(** A second command succeeds, but its tag is not used. *)
Theorem dtmf_new_tag_used_refuted : ~ (forall os1 os2 i tgt caller mem args s pt hide tag tg, waiting (fst (run init os1)) i = [] ->
  exec (fst (run init os1)) (Cmd i tgt caller mem args) = (s, [EMod i pt hide tag tg caller]) ->
  (forall o, In o os2 -> match o with Cmd _ _ _ _ _ => False | _ => True end) ->
  forall n, In n (notes (snd (run s os2)) i) -> exists r, text_of tag caller r (snd n)).
Proof.
  intros H. specialize (H [Cmd 0 (Some 7%nat) true true [B "catch_dtmf"; B "x"]] [e1 1 false; e1 1 true; Work; Work] 0%nat (Some 7%nat) true true [B "catch_dtmf"; B "y"]).
  assert (H1 : forall s', exec (fst (run init [Cmd 0 (Some 7%nat) true true [B "catch_dtmf"; B "x"]])) (Cmd 0 (Some 7%nat) true true [B "catch_dtmf"; B "y"]) = s' -> s' = (fst s', [EMod 0 101 false (B "y") 7%nat true])) by (intros s' <-; vm_compute; reflexivity).
  specialize (H _ 101 false (B "y") 7%nat eq_refl (H1 _ eq_refl)). destruct (H ltac:(intros o Ho; repeat (destruct Ho as [<-|Ho]; [exact Logic.I|]); destruct Ho) (7%nat, B "x 1 10 160 0")) as (r & sy & v & d & _ & _ & _ & E).
  - vm_compute. auto.
  - discriminate E.
Qed.
Print Assumptions dtmf_new_tag_used_refuted.
