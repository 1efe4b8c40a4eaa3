(** C20, C21: tokenizer and split of a control message. *)
From Verif Require Import Base SplitModel SplitSpec SplitProof.

(** Each of the [len] bytes is classified exactly, whatever its neighbours: the mask is 0 for a
    separator and 255 otherwise, and separators become NUL in the buffer. *)
Theorem strsplit_bytewise : forall big buf mbuf len k,
  length buf = (8 * k)%nat -> length mbuf = (8 * k)%nat -> Forall (fun b => 0 <= b < 256) buf -> (len <= 8 * k)%nat ->
  exists buf' mbuf', strsplit big buf mbuf len = Some (buf', mbuf') /\
    forall i c, (i < len)%nat -> nth_error buf i = Some c ->
      (sep c -> nth_error buf' i = Some 0 /\ nth_error mbuf' i = Some 0) /\
      (~ sep c -> nth_error buf' i = Some c /\ nth_error mbuf' i = Some 255).
Proof.
  intros big buf mbuf len k L Lm F Hl. destruct (strsplit_full big buf mbuf len k L Lm F Hl) as (b & m & E & _ & _ & M & B & _).
  exists b, m. split; [exact E|]. intros i c Hi Hc.
  assert (N : forall (A : Type) (l : list A), nth_error (firstn len l) i = nth_error l i).
  { clear - Hi. intros A l. revert i l Hi. induction len as [|n IH]; intros i l Hi; [lia|]. destruct l; [destruct i; reflexivity|]. destruct i; [reflexivity|]. cbn. apply IH. lia. }
  rewrite <- (N _ b), <- (N _ m), M, B, !nth_error_map, N, Hc. cbn [option_map]. unfold mask, masked. split; intros S.
  - apply mask_sep in S. rewrite S. auto.
  - destruct (is_sep c) eqn:X; [apply mask_sep in X; tauto|auto].
Qed.
Print Assumptions strsplit_bytewise.

(** The tokens found are exactly the maximal runs of non-separators, in order, and each of them is
    left NUL-terminated in the buffer. *)
Theorem tokenizer_exact : forall big buf mbuf len k,
  length buf = (8 * k)%nat -> length mbuf = (8 * k)%nat -> Forall (fun b => 0 <= b < 256) buf -> nth_error buf len = Some 0 ->
  exists buf' mbuf', strsplit big buf mbuf len = Some (buf', mbuf') /\
    (forall ts, tokens (firstn len buf) ts <-> ts = map (str_at buf') (scan len (firstn len mbuf') 0)) /\
    (forall o n, In (o, n) (scan len (firstn len mbuf') 0) -> nth_error buf' (o + n) = Some 0).
Proof.
  intros big buf mbuf len k L Lm F H0. destruct (tokenizer_ok big buf mbuf len k L Lm F H0) as (b & m & E & T & K).
  exists b, m. split; [exact E|]. split; [exact T|]. intros o n Hi. rewrite Forall_forall in K.
  destruct (K _ Hi) as (rest & S & Ln). cbn [fst snd] in *.
  rewrite <- (firstn_skipn o b), S. assert (Ho : (o <= length b)%nat).
  { destruct (Nat.le_gt_cases o (length b)); [assumption|]. rewrite skipn_all2 in S by lia. destruct (str_at b (o, n)); discriminate. }
  rewrite nth_error_app2 by (rewrite firstn_length; lia). rewrite firstn_length. replace (o + n - Nat.min o (length b))%nat with n by lia.
  rewrite nth_error_app2 by lia. rewrite Ln, Nat.sub_diag. reflexivity.
Qed.
Print Assumptions tokenizer_exact.

(** A message is accepted exactly when it is well formed, and then cookie, command and
    sub-commands are those of the grammar. A cookie known to the cache is answered from there. *)
Theorem command_split_grammar : forall big buf mbuf len k umode cached ts,
  length buf = (8 * k)%nat -> length mbuf = (8 * k)%nat -> Forall (fun b => 0 <= b < 256) buf -> nth_error buf len = Some 0 ->
  tokens (firstn len buf) ts ->
  match command_split big buf mbuf len umode cached with
  | ROob => False
  | RDup c => umode = true /\ ~ In 0 c /\ cached c = true /\ exists rest, ts = c :: rest
  | RAbort => umode = true /\ exists c rest, ts = c :: rest /\ ~ In 0 c /\ cached c = false /\ (1023 <= length c)%nat
  | RSyntaxError => forall c a s, ~ well_formed umode ts c a s
  | RCommand c a s => well_formed umode ts c a s /\ (forall x, c = Some x -> cached x = false /\ (length x < 1023)%nat)
  end.
Proof.
  intros big buf mbuf len k umode cached ts L Lm F H0 T. destruct (tokenizer_ok big buf mbuf len k L Lm F H0) as (b & m & E & TT & K).
  unfold command_split. rewrite E. apply TT in T. exact (finish_ok b umode cached _ K ts T).
Qed.
Print Assumptions command_split_grammar.

(** Every message has tokens, so the theorem applies to all of them. *)
Theorem tokens_total_unique : forall s, exists ts, tokens s ts /\ forall ts', tokens s ts' -> ts' = ts.
Proof.
  intros s. assert (forall n s, (length s <= n)%nat -> exists ts, tokens s ts) as X.
  { clear s. induction n as [|n IH]; intros s Hs; [destruct s; [exists []; constructor|cbn in Hs; lia]|].
    destruct s as [|c s]; [exists []; constructor|]. cbn in Hs. destruct (is_sep c) eqn:Sc.
    - destruct (IH s) as [ts T]; [lia|]. exists ts. constructor; [apply mask_sep, Sc|exact T].
    - assert (R : exists w r, s = w ++ r /\ Forall (fun c => ~ sep c) w /\ (r = [] \/ exists c t, r = c :: t /\ sep c)).
      { clear. induction s as [|d s (w & r & -> & Fw & Sr)]; [exists [], []; cbn; auto|].
        destruct (is_sep d) eqn:Sd.
        - exists [], (d :: w ++ r). split; [reflexivity|]. split; [constructor|]. right. exists d, (w ++ r). split; [reflexivity|apply mask_sep, Sd].
        - exists (d :: w), r. split; [reflexivity|]. split; [|exact Sr]. constructor; [|exact Fw]. intros S. apply mask_sep in S. congruence. }
      destruct R as (w & r & -> & Fw & Sr). rewrite app_length in Hs. destruct (IH r) as [ts T]; [lia|].
      exists ((c :: w) :: ts). apply (tokens_run (c :: w)); [discriminate| |exact Sr|exact T].
      constructor; [|exact Fw]. intros S. apply mask_sep in S. congruence. }
  destruct (X _ s (le_n _)) as [ts T]. exists ts. split; [exact T|]. intros ts' T'. eapply tokens_det; [apply le_n|exact T'|exact T].
Qed.
Print Assumptions tokens_total_unique.

(** "c1 U  a&&\t&&\tQ x\n" in a buffer of 24 bytes. *)
Definition ex_msg : list Z := [99; 49; 32; 85; 32; 32; 97; 38; 38; 9; 38; 38; 9; 81; 32; 120; 10].
Definition ex_buf : list Z := ex_msg ++ [0; 7; 7; 7; 7; 7; 7].
Example split_ex : forall big,
  command_split big ex_buf (repeat 1 24) 17 true (fun _ => false) = RCommand (Some [99; 49]) [[85]; [97; 38; 38]] [[[81]; [120]]] /\
  command_split big ex_buf (repeat 1 24) 17 true (fun _ => true) = RDup [99; 49] /\
  command_split big ex_buf (repeat 1 24) 12 false (fun _ => false) = RSyntaxError /\
  length ex_buf = (8 * 3)%nat /\ nth_error ex_buf 17 = Some 0.
Proof. intros []; vm_compute; auto. Qed.
